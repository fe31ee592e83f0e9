(** Proofs about [Alloc]. *)
From Coq Require Import String ZArith List Bool Lia.
From Verif Require Import Base Alloc AllocSpec.
Import ListNotations.
Local Open Scope string_scope.
Local Open Scope Z_scope.

(** The shape a list of resizes gives to [x] (last one wins). *)
Fixpoint last_resize (l : list (string * list dim)) (x : string) : option (list dim) :=
  match l with
  | [] => None
  | (y, ds) :: l' =>
      match last_resize l' x with Some d => Some d | None => if String.eqb x y then Some ds else None end
  end.
Definition val (n : Z) (d : dim) : Z := match d with DN => n | DN1 => n + 1 | D2N => 2 * n | D3 => 3 end.

Lemma dims_ok n ds : 0 < n < 1073741824 -> dims_value n ds = Ok (map (val n) ds).
Proof.
  intros H. induction ds as [|d ds IH]; auto. cbn [dims_value map].
  assert (E : dim_value n d = Ok (val n d)).
  { unfold dim_value. destruct d; cbn [val]; cbv zeta;
    rewrite (proj2 (Z.ltb_ge _ _)) by lia; rewrite (proj2 (Z.ltb_ge _ _)) by lia; cbn [orb];
    rewrite (proj2 (Z.ltb_ge _ _)) by lia; reflexivity. }
  rewrite E. cbn [bind]. rewrite IH. reflexivity.
Qed.

Lemma resize_all_ok n l : 0 < n < 1073741824 -> forall sh, exists sh',
  resize_all n l sh = Ok sh' /\
  forall x, sh' x = match last_resize l x with Some ds => map (val n) ds | None => sh x end.
Proof.
  intros H. induction l as [|[y ds] l IH]; intros sh; cbn [resize_all].
  - exists sh. auto.
  - rewrite dims_ok by auto. cbn [bind].
    destruct (IH (set_shape sh y (map (val n) ds))) as [sh' [E Hs]].
    exists sh'. split; auto. intros x. rewrite Hs. cbn [last_resize].
    destruct (last_resize l x); auto. unfold set_shape. destruct (String.eqb x y); auto.
Qed.

Lemma odd_nphi_odd n : Z.odd (odd_nphi n) = true.
Proof.
  unfold odd_nphi. destruct (Z.rem n 2 =? 0) eqn:E.
  - apply Z.eqb_eq in E. rewrite Z.add_1_r, Z.odd_succ. apply Z.even_spec.
    exists (Z.quot n 2). pose proof (Z.quot_rem n 2). lia.
  - apply Z.eqb_neq in E. rewrite <- Z.negb_even. destruct (Z.even n) eqn:Ev; auto.
    apply Z.even_spec in Ev. destruct Ev as [k ->]. exfalso. apply E. rewrite Z.mul_comm. apply Z.rem_mul. lia.
Qed.
Lemma odd_nphi_least n : odd_nphi n = n /\ Z.odd n = true \/ odd_nphi n = n + 1 /\ Z.odd n = false.
Proof.
  pose proof (odd_nphi_odd n) as H. unfold odd_nphi in *. destruct (Z.rem n 2 =? 0).
  - right. split; auto. rewrite Z.add_1_r, Z.odd_succ, <- Z.negb_odd in H. destruct (Z.odd n); auto.
  - left; auto.
Qed.

(** Look up through the four groups. *)
Definition final_dims (r2 r2p1 r3 : bool) (x : string) : option (list dim) :=
  match (if r3 then last_resize resizes_r3 x else None) with Some d => Some d | None =>
  match (if r2p1 then last_resize resizes_r2p1 x else None) with Some d => Some d | None =>
  match (if r2 then last_resize resizes_r2 x else None) with Some d => Some d | None =>
  last_resize resizes_first x end end end.

Lemma allocate_shapes r2 r2p1 r3 nphi sh : 0 < odd_nphi nphi < 1073741824 ->
  exists sh', allocate r2 r2p1 r3 nphi sh = Ok (odd_nphi nphi, sh') /\
  forall x, sh' x = match final_dims r2 r2p1 r3 x with
                    | Some ds => map (val (odd_nphi nphi)) ds | None => sh x end.
Proof.
  intros H. unfold allocate, final_dims.
  destruct (resize_all_ok _ resizes_first H sh) as [s1 [E1 H1]]. rewrite E1. cbn [bind].
  assert (G : forall (b : bool) l s, exists s', (if b then resize_all (odd_nphi nphi) l s else Ok s) = Ok s' /\
    forall x, s' x = match (if b then last_resize l x else None) with Some ds => map (val (odd_nphi nphi)) ds | None => s x end).
  { intros [|] l s; [apply resize_all_ok; auto|eauto]. }
  destruct (G r2 resizes_r2 s1) as [s2 [E2 H2]]. rewrite E2. cbn [bind].
  destruct (G r2p1 resizes_r2p1 s2) as [s3 [E3 H3]]. rewrite E3. cbn [bind].
  destruct (G r3 resizes_r3 s3) as [s4 [E4 H4]]. rewrite E4. cbn [bind].
  exists s4. split; auto. intros x. rewrite H4. 
  destruct (if r3 then last_resize resizes_r3 x else None); auto. rewrite H3.
  destruct (if r2p1 then last_resize resizes_r2p1 x else None); auto. rewrite H2.
  destruct (if r2 then last_resize resizes_r2 x else None); auto.
Qed.

Definition dims_eqb (a b : list dim) : bool := if list_eq_dec (fun x y : dim => ltac:(decide equality)) a b then true else false.
Lemma dims_eqb_ok a b : dims_eqb a b = true -> a = b.
Proof. unfold dims_eqb. destruct (list_eq_dec _ a b); auto. discriminate. Qed.

Definition all_vec (r2 r2p1 r3 : bool) (l : list string) : bool :=
  forallb (fun x => match final_dims r2 r2p1 r3 x with Some ds => dims_eqb ds [DN] | None => false end) l.

Lemma all_vec_ok r2 r2p1 r3 l x : all_vec r2 r2p1 r3 l = true -> In x l ->
  final_dims r2 r2p1 r3 x = Some [DN].
Proof.
  unfold all_vec. intros H Hx. rewrite forallb_forall in H. specialize (H x Hx).
  destruct (final_dims r2 r2p1 r3 x); [|discriminate]. f_equal. apply dims_eqb_ok; auto.
Qed.

Lemma allocate_required r2 r2p1 r3 nphi sh : 0 < odd_nphi nphi < 1073741824 ->
  exists sh', allocate r2 r2p1 r3 nphi sh = Ok (odd_nphi nphi, sh') /\
  (forall x s, required r2 r2p1 r3 (odd_nphi nphi) x s -> sh' x = s) /\
  (forall x, In x axis_members -> sh' x = sh x).
Proof.
  intros H. destruct (allocate_shapes r2 r2p1 r3 nphi sh H) as [sh' [E Hs]].
  exists sh'. split; auto. split.
  - intros x s Hr. rewrite Hs.
    destruct Hr as [x Hx|x H2 Hx|H2|x H2 Hx| | | | | | |H2|H2|H2|H2];
    [ rewrite (all_vec_ok _ _ _ vectors_first x)
        by (auto; destruct r2, r2p1, r3; vm_compute; reflexivity); reflexivity
    | rewrite (all_vec_ok _ _ _ vectors_r2 x)
        by (auto; rewrite H2; destruct r2p1, r3; vm_compute; reflexivity); reflexivity
    | | rewrite (all_vec_ok _ _ _ vectors_r3 x)
        by (auto; rewrite H2; destruct r2, r2p1; vm_compute; reflexivity); reflexivity
    | ..]; destruct r2, r2p1, r3; try discriminate; reflexivity.
  - intros x Hx. rewrite Hs. simpl in Hx. destruct Hx as [<-|[<-|[<-|[<-|[]]]]];
    destruct r2, r2p1, r3; reflexivity.
Qed.
