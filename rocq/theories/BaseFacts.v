(** Lemmas about [Base]. *)
From Coq Require Import String List Arith Bool Lia.
From Verif Require Import Base.
Import ListNotations.

Lemma upd_length {A} (l : list A) i v : length (upd l i v) = length l.
Proof. revert i; induction l; intros [|i]; simpl; auto. Qed.

Lemma nth_error_upd_same {A} (l : list A) i v :
  i < length l -> nth_error (upd l i v) i = Some v.
Proof. revert i; induction l; intros [|i] H; simpl in *; try lia; auto. apply IHl; lia. Qed.

Lemma nth_error_upd_other {A} (l : list A) i j v :
  i <> j -> nth_error (upd l i v) j = nth_error l j.
Proof. revert i j; induction l; intros [|i] [|j] H; simpl; auto; try lia. Qed.

Lemma aget_ok {A} (l : list A) i d : i < length l -> aget l i = Ok (nth i l d).
Proof.
  intros H. unfold aget. rewrite (nth_error_nth' l d H). reflexivity.
Qed.

Lemma aget_inv {A} (l : list A) i a : aget l i = Ok a -> nth_error l i = Some a.
Proof. unfold aget. destruct (nth_error l i); congruence. Qed.

Lemma aget_nth_error {A} (l : list A) i a : nth_error l i = Some a -> aget l i = Ok a.
Proof. unfold aget. intros ->. reflexivity. Qed.

Lemma aset_ok {A} (l : list A) i v : i < length l -> aset l i v = Ok (upd l i v).
Proof. intros H. unfold aset. apply Nat.ltb_lt in H. rewrite H. reflexivity. Qed.

Lemma aset_inv {A} (l : list A) i v l' :
  aset l i v = Ok l' -> i < length l /\ l' = upd l i v.
Proof.
  unfold aset. destruct (i <? length l) eqn:E; intros H; inversion H.
  apply Nat.ltb_lt in E. auto.
Qed.

Lemma aget_upd_same {A} (l : list A) i v : i < length l -> aget (upd l i v) i = Ok v.
Proof. intros. apply aget_nth_error, nth_error_upd_same; auto. Qed.

Lemma aget_upd_other {A} (l : list A) i j v : i <> j -> aget (upd l i v) j = aget l j.
Proof. intros. unfold aget. rewrite nth_error_upd_other; auto. Qed.

Lemma nth_upd {A} (l : list A) i j v d :
  nth j (upd l i v) d = if (j =? i) && (i <? length l) then v else nth j l d.
Proof.
  revert i j; induction l as [|a l IH]; intros i j.
  - simpl. destruct i; simpl; rewrite Bool.andb_false_r; reflexivity.
  - destruct i, j; simpl; auto.
    rewrite IH. reflexivity.
Qed.

(** Loop rule: an invariant established at [i] and preserved by the body. *)
Lemma for_from_inv {S} (Inv : nat -> S -> Prop) body n i s :
  Inv i s ->
  (forall k x, i <= k < i + n -> Inv k x -> exists x', body k x = Ok x' /\ Inv (1 + k) x') ->
  exists s', for_from i n body s = Ok s' /\ Inv (i + n) s'.
Proof.
  revert i s; induction n as [|n IH]; intros i s H0 Hstep.
  - exists s. simpl. rewrite Nat.add_0_r. auto.
  - simpl. destruct (Hstep i s) as [x [Hx Hi]]; [lia|auto|].
    rewrite Hx. simpl.
    destruct (IH (1 + i) x Hi) as [s' [E I]].
    + intros k y Hk HI. apply Hstep; [lia|auto].
    + exists s'. split; auto. replace (i + Datatypes.S n) with (1 + i + n) by lia. auto.
Qed.

Lemma for_loop_inv {S} (Inv : nat -> S -> Prop) body n s :
  Inv 0 s ->
  (forall k x, k < n -> Inv k x -> exists x', body k x = Ok x' /\ Inv (1 + k) x') ->
  exists s', for_loop n body s = Ok s' /\ Inv n s'.
Proof.
  intros H0 H. apply (for_from_inv Inv body n 0 s H0).
  intros k x Hk. apply H. lia.
Qed.

(** Turn boolean nat comparisons in the context into propositions. *)
Ltac bprop :=
  repeat match goal with
  | H : (_ <? _) = true |- _ => apply Nat.ltb_lt in H
  | H : (_ <? _) = false |- _ => apply Nat.ltb_ge in H
  | H : (_ <=? _) = true |- _ => apply Nat.leb_le in H
  | H : (_ <=? _) = false |- _ => apply Nat.leb_gt in H
  | H : (_ =? _) = true |- _ => apply Nat.eqb_eq in H
  | H : (_ =? _) = false |- _ => apply Nat.eqb_neq in H
  | H : (_ && _)%bool = true |- _ => apply andb_prop in H; destruct H
  end.
