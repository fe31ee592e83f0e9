(** Proofs about the scan grid. *)
From Coq Require Import String ZArith List Bool Arith Lia Reals Lra.
From Verif Require Import Base FloatOps Grid GridSpec.
Import ListNotations.
Local Open Scope list_scope.
Local Open Scope nat_scope.

Lemma grid_total_from_spec acc l N :
  (0 < acc)%Z -> grid_total_from acc l = Ok N ->
  N = (acc * product l)%Z /\ Forall (fun n => (2 <= n)%Z) l /\ (0 < N)%Z /\ (acc <= INT_MAX -> N <= INT_MAX)%Z.
Proof.
  revert acc; induction l as [|n l IH]; intros acc Ha H; cbn [grid_total_from] in H.
  - injection H as <-. cbn. repeat split; auto; lia.
  - destruct (n <? 2)%Z eqn:E; [discriminate|]. apply Z.ltb_ge in E.
    destruct (acc * n <=? INT_MAX)%Z eqn:E2; [|discriminate]. apply Z.leb_le in E2.
    destruct (IH (acc * n)%Z) as (-> & Hf & Hp & Hm); auto; [nia|].
    cbn [product fold_right]. fold (product l). repeat split; auto; try lia.
Qed.

Lemma decode_rev_length l j : length (decode_rev l j) = length l.
Proof. revert j; induction l; intros; simpl; auto. Qed.

(** Value of a little-endian mixed-radix number. *)
Fixpoint val_rev (sizes idx : list nat) : nat :=
  match sizes, idx with
  | n :: sizes', i :: idx' => i + n * val_rev sizes' idx'
  | _, _ => 0
  end.

Lemma sub_mod_div j n : n <> 0 -> (j - j mod n) / n = j / n.
Proof.
  intros H. pose proof (Nat.div_mod j n H). replace (j - j mod n) with (j / n * n) by nia.
  apply Nat.div_mul; auto.
Qed.

Lemma decode_rev_spec l j :
  Forall (fun n => n <> 0) l -> j < nproduct l ->
  Forall2 (fun n i => i < n) l (decode_rev l j) /\ val_rev l (decode_rev l j) = j.
Proof.
  revert j; induction l as [|n l IH]; intros j Hf Hj; simpl in *.
  - split; auto. lia.
  - inversion Hf; subst. rewrite sub_mod_div by auto.
    destruct (IH (j / n)) as (A & B); auto.
    { apply Nat.div_lt_upper_bound; auto. }
    split.
    + constructor; auto. apply Nat.mod_upper_bound; auto.
    + rewrite B. pose proof (Nat.div_mod j n H1). lia.
Qed.
Lemma decode_rev_val l idx :
  Forall2 (fun n i => i < n) l idx -> decode_rev l (val_rev l idx) = idx.
Proof.
  induction 1 as [|n i l idx Hi Hf IH]; simpl; auto.
  assert (n <> 0) by lia.
  replace ((i + n * val_rev l idx) mod n) with i.
  2:{ rewrite Nat.add_comm, Nat.mul_comm, Nat.add_comm. rewrite Nat.mod_add by auto. symmetry. apply Nat.mod_small; auto. }
  f_equal. replace (i + n * val_rev l idx - i) with (val_rev l idx * n) by lia.
  rewrite Nat.div_mul by auto. auto.
Qed.

Lemma val_rev_app a b x y :
  length a = length x -> val_rev (a ++ b) (x ++ y) = val_rev a x + nproduct a * val_rev b y.
Proof.
  revert x; induction a as [|n a IH]; intros [|i x] H; simpl in *; try discriminate; try lia.
  rewrite IH by lia. nia.
Qed.
Lemma nproduct_app a b : nproduct (a ++ b) = nproduct a * nproduct b.
Proof. induction a as [|n a IHa]; simpl; [lia|]. fold (nproduct (a ++ b)) (nproduct a). rewrite IHa. lia. Qed.
Lemma nproduct_rev a : nproduct (rev a) = nproduct a.
Proof. induction a; simpl; auto. rewrite nproduct_app, IHa. simpl. lia. Qed.

Lemma rank_of_val a x : length a = length x -> rank_of a x = val_rev (rev a) (rev x).
Proof.
  revert x; induction a as [|n a IH]; intros [|i x] H; simpl in *; try discriminate; auto.
  rewrite val_rev_app by (rewrite !rev_length; lia). rewrite nproduct_rev, <- IH by lia. simpl. lia.
Qed.
Lemma Forall2_rev_iff {A B} (P : A -> B -> Prop) a b : Forall2 P a b -> Forall2 P (rev a) (rev b).
Proof. induction 1; simpl; auto. apply Forall2_app; auto. Qed.
Lemma Forall2_len {A B} (P : A -> B -> Prop) a b : Forall2 P a b -> length a = length b.
Proof. induction 1; simpl; auto. Qed.

Lemma rank_lt sizes idx : grid_point sizes idx -> rank_of sizes idx < nproduct sizes.
Proof.
  induction 1 as [|n i l idx Hi Hf IH]; simpl; [lia|]. fold (nproduct l). nia.
Qed.

Lemma decode_spec sizes j :
  Forall (fun n => n <> 0) sizes -> j < nproduct sizes ->
  grid_point sizes (decode sizes j) /\ rank_of sizes (decode sizes j) = j.
Proof.
  intros Hf Hj. destruct (decode_rev_spec (rev sizes) j) as (A & B).
  - apply Forall_rev; auto.
  - rewrite nproduct_rev; auto.
  - assert (G : grid_point sizes (decode sizes j)).
    { unfold grid_point, decode. apply Forall2_rev_iff in A. rewrite rev_involutive in A. auto. }
    split; auto. rewrite rank_of_val by (eapply Forall2_len; eauto).
    unfold decode. rewrite rev_involutive. auto.
Qed.
Lemma decode_rank sizes idx : grid_point sizes idx -> decode sizes (rank_of sizes idx) = idx.
Proof.
  intros H. rewrite rank_of_val by (eapply Forall2_len; eauto).
  unfold decode. rewrite decode_rev_val. { apply rev_involutive. } apply Forall2_rev_iff; auto.
Qed.

Lemma product_nproduct l :
  Forall (fun n => (2 <= n)%Z) l -> product l = Z.of_nat (nproduct (map Z.to_nat l)).
Proof.
  induction 1 as [|n l H Hf IH]; simpl; auto. fold (product l) in *. rewrite IH.
  fold (nproduct (map Z.to_nat l)). rewrite Nat2Z.inj_mul. rewrite Z2Nat.id by lia. reflexivity.
Qed.
