(** Proofs about [Helicity]. *)
From Coq Require Import String ZArith Reals List Arith Lia Lra Bool.
From Verif Require Import Base BaseFacts Helicity HelicitySpec.
Import ListNotations.
Local Open Scope list_scope.
Local Open Scope Z_scope.

(** ** Sums over neighbours. *)
Lemma sum_pairs_app {A} f (l : list A) x y : sum_pairs f ((l ++ [x]) ++ [y]) = sum_pairs f (l ++ [x]) + f x y.
Proof.
  induction l as [|a l IH]; cbn [app sum_pairs]; [lia|].
  destruct l as [|b l]; cbn [app sum_pairs] in *; lia.
Qed.

Lemma sum_pairs_map {A B} (g : A -> B) f l : sum_pairs f (map g l) = sum_pairs (fun x y => f (g x) (g y)) l.
Proof. induction l as [|a [|b l] IH]; cbn [map sum_pairs] in *; auto. rewrite IH. auto. Qed.

Lemma sum_pairs_ext {A} f g (l : list A) : (forall x y, f x y = g x y) -> sum_pairs f l = sum_pairs g l.
Proof. intros H. induction l as [|a [|b l] IH]; cbn [sum_pairs] in *; auto. rewrite H, IH; auto. Qed.

Lemma sum_pairs_rev {A} f (l : list A) : (forall x y, f y x = - f x y) -> sum_pairs f (rev l) = - sum_pairs f l.
Proof.
  intros H. induction l as [|a [|b l] IH]; auto. cbn [rev] in *. rewrite sum_pairs_app, IH, H.
  cbn [sum_pairs]. lia.
Qed.

Lemma sum_pairs_cons_app {A} f (x : A) l y : sum_pairs f ((x :: l) ++ [y]) = sum_pairs f (x :: l) + f (last (x :: l) x) y.
Proof.
  destruct (@exists_last _ (x :: l)) as [m [z E]]; [discriminate|]. rewrite E, sum_pairs_app, last_last. auto.
Qed.

Lemma sum_closed_rotate {A} f (x : A) l : sum_closed f (x :: l) = sum_closed f (l ++ [x]).
Proof.
  unfold sum_closed. destruct l as [|y l]; auto.
  pose proof (sum_pairs_app f (y :: l) x y) as E. cbn [app sum_pairs] in *. lia.
Qed.

Lemma sum_closed_rev {A} f (l : list A) : (forall x y, f y x = - f x y) -> sum_closed f (rev l) = - sum_closed f l.
Proof.
  intros H. destruct l as [|x l]; auto. cbn [rev].
  rewrite <- sum_closed_rotate. unfold sum_closed. 
  assert (E : (x :: rev l) ++ [x] = rev ((x :: l) ++ [x])).
  { rewrite rev_app_distr. reflexivity. }
  rewrite E. apply sum_pairs_rev; auto.
Qed.

Lemma sum_pairs_dup {A} f (l : list A) x m : f x x = 0 -> sum_pairs f (l ++ x :: x :: m) = sum_pairs f (l ++ x :: m).
Proof.
  intros H. induction l as [|a l IH]; cbn [app].
  - cbn [sum_pairs]. destruct m; lia.
  - destruct l as [|b l]; cbn [app] in *; cbn [sum_pairs] in *; lia.
Qed.

Lemma sum_closed_dup {A} f (l : list A) x m : f x x = 0 -> sum_closed f (l ++ x :: x :: m) = sum_closed f (l ++ x :: m).
Proof.
  intros H. unfold sum_closed. destruct l as [|a l]; cbn [app].
  - apply (sum_pairs_dup f [] x (m ++ [x]) H).
  - rewrite <- !app_assoc. cbn [app]. apply (sum_pairs_dup f (a :: l) x (m ++ [a]) H).
Qed.

(** ** Running the loops. *)
Lemma for_loop_sum (q : list Z) (d : Z) : forall n, (n < length q)%nat -> forall acc,
  for_loop n (fun j c => do a <- aget q j; do b <- aget q (j + 1); Ok (c + quadrant_step a b)) acc
  = Ok (acc + sum_pairs quadrant_step (firstn (Datatypes.S n) q)).
Proof.
  intros n Hn acc.
  destruct (for_loop_inv (fun k c => c = acc + sum_pairs quadrant_step (firstn (Datatypes.S k) q))
    (fun j c => do a <- aget q j; do b <- aget q (j + 1); Ok (c + quadrant_step a b)) n acc) as [s' [E ->]]; auto.
  - destruct q; simpl; lia.
  - intros k x Hk ->.
    rewrite (aget_ok q k d) by lia. cbn [bind]. rewrite (aget_ok q (k + 1) d) by lia. cbn [bind].
    eexists. split; [reflexivity|].
    assert (E : firstn (Datatypes.S (1 + k)) q = (firstn k q ++ [nth k q d]) ++ [nth (k + 1) q d]).
    { clear - Hk Hn. assert (Hq : (k + 1 < length q)%nat) by lia. clear Hk Hn. revert k Hq.
      induction q as [|a q IH]; intros k Hq; cbn [length] in Hq; [lia|].
      destruct k as [|k].
      - destruct q as [|b q]; cbn in *; [lia|]. reflexivity.
      - cbn [firstn nth Nat.add app]. f_equal. apply (IH k). lia. }
    assert (E2 : firstn (Datatypes.S k) q = firstn k q ++ [nth k q d]).
    { clear - Hk Hn. assert (Hq : (k < length q)%nat) by lia. clear Hk Hn. revert k Hq.
      induction q as [|a q IH]; intros k Hq; cbn [length] in Hq; [lia|].
      destruct k as [|k]; [reflexivity|]. cbn [firstn nth app]. f_equal. apply IH. lia. }
    rewrite E, sum_pairs_app, <- E2. lia.
Qed.

Section H.
Context {F : Type} (ge0 : F -> bool).
Definition qv (v : F * F) : Z := quadrant_of ge0 (fst v) (snd v).

Lemma qv_range v : 1 <= qv v <= 4.
Proof. unfold qv, quadrant_of. destruct (ge0 (fst v)), (ge0 (snd v)); lia. Qed.

(** One step is the difference of quadrants plus 4 for each crossing. *)
Lemma step_crossing v w : quadrant_step (qv v) (qv w) = qv w - qv v + 4 * crossing ge0 v w.
Proof.
  unfold quadrant_step, qv, quadrant_of, crossing, upper_right, lower_right.
  destruct (ge0 (fst v)), (ge0 (snd v)), (ge0 (fst w)), (ge0 (snd w)); reflexivity.
Qed.

Lemma sum_step (v : F * F) l : sum_pairs quadrant_step (map qv (v :: l))
  = qv (last (v :: l) v) - qv v + 4 * sum_pairs (crossing ge0) (v :: l).
Proof.
  rewrite sum_pairs_map. revert v. induction l as [|w l IH]; intros v.
  - simpl. lia.
  - cbn [sum_pairs] in *. rewrite step_crossing, IH.
    replace (last (v :: w :: l) v) with (last (w :: l) w).
    2:{ clear. revert w. induction l as [|x l IH]; intros w; auto. cbn [last] in *. 
        destruct l; auto; apply (IH x). }
    lia.
Qed.

Lemma helicity_winding n1 n3 quad spsi sG :
  length n1 = length n3 -> length quad = Datatypes.S (length n1) -> n1 <> [] ->
  calculate_helicity ge0 (length n1) n1 n3 quad spsi sG
  = Ok (spsi * sG * winding ge0 (combine n1 n3)).
Proof.
  intros H13 Hq Hne. unfold calculate_helicity.
  set (vs := combine n1 n3). set (n := length n1) in *.
  assert (Hvs : length vs = n) by (unfold vs; rewrite combine_length; lia).
  destruct n1 as [|x1 n1']; [congruence|]. destruct n3 as [|x3 n3']; [discriminate|].
  set (d := (x1, x3)).
  destruct (for_loop_inv (fun k (q : list Z) => length q = Datatypes.S n /\ forall i, (i < k)%nat -> nth i q 0 = qv (nth i vs d))
    (fun j quadrant => do a <- aget (x1 :: n1') j; do b <- aget (x3 :: n3') j; aset quadrant j (quadrant_of ge0 a b)) n quad)
    as [q [E [Hl Hn]]].
  { split; auto. intros; lia. }
  { intros k q Hk [Hl Hn].
    rewrite (aget_ok _ k x1) by (fold n; lia). cbn [bind]. rewrite (aget_ok _ k x3) by (rewrite <- H13; fold n; lia). cbn [bind].
    rewrite aset_ok by lia. eexists. split; [reflexivity|]. split; [rewrite upd_length; auto|].
    intros i Hi. rewrite nth_upd. destruct (Nat.eqb_spec i k) as [->|].
    - rewrite (proj2 (Nat.ltb_lt _ _)) by lia. cbn [andb]. unfold vs, d, qv. rewrite combine_nth by auto. reflexivity.
    - cbn [andb]. apply Hn. lia. }
  rewrite E. cbn [bind]. rewrite (aget_ok q 0 0) by lia. cbn [bind]. rewrite aset_ok by lia. cbn [bind].
  assert (EQ : upd q n (nth 0 q 0) = map qv (vs ++ [d])).
  { apply (nth_ext _ _ 0 0).
    - rewrite upd_length, map_length, app_length, Hvs, Hl. cbn [length]; lia.
    - rewrite upd_length, Hl. intros i Hi. rewrite nth_upd.
      replace (nth i (map qv (vs ++ [d])) 0) with (qv (nth i (vs ++ [d]) d)).
      2:{ rewrite <- (map_nth qv). apply nth_indep. rewrite map_length, app_length. cbn [length]. lia. }
      destruct (Nat.eqb_spec i n) as [->|].
      + rewrite (proj2 (Nat.ltb_lt _ _)) by lia. cbn [andb]. rewrite Hn by (subst n; cbn [length]; lia).
        rewrite app_nth2 by lia. rewrite Hvs, Nat.sub_diag. reflexivity.
      + cbn [andb]. rewrite Hn by lia. rewrite app_nth1 by lia. reflexivity. }
  rewrite EQ. rewrite (for_loop_sum _ 0) by (rewrite map_length, app_length; cbn [length]; lia). cbn [bind].
  rewrite firstn_all2 by (rewrite map_length, app_length; cbn [length]; lia).
  assert (EW : sum_pairs quadrant_step (map qv (vs ++ [d])) = 4 * winding ge0 vs).
  { unfold winding, sum_closed. unfold vs. cbn [combine]. fold d.
    change ((d :: combine n1' n3') ++ [d]) with (d :: (combine n1' n3' ++ [d])).
    rewrite sum_step. change (d :: (combine n1' n3' ++ [d])) with ((d :: combine n1' n3') ++ [d]).
    rewrite last_last. lia. }
  rewrite EW. cbn [bind]. 
  replace ((0 + 4 * winding ge0 vs) * (spsi * sG)) with ((spsi * sG * winding ge0 vs) * 4) by ring.
  rewrite Z.rem_mul, Z.quot_mul by lia. reflexivity.
Qed.

Lemma crossing_antisym v w : crossing ge0 w v = - crossing ge0 v w.
Proof.
  unfold crossing, upper_right, lower_right.
  destruct (ge0 (fst v)), (ge0 (snd v)), (ge0 (fst w)), (ge0 (snd w)); reflexivity.
Qed.
Lemma crossing_same v : crossing ge0 v v = 0.
Proof. pose proof (crossing_antisym v v). lia. Qed.

Lemma winding_rev l : winding ge0 (rev l) = - winding ge0 l.
Proof. apply sum_closed_rev. intros. apply crossing_antisym. Qed.
Lemma winding_rotate a b : winding ge0 (a ++ b) = winding ge0 (b ++ a).
Proof.
  revert b. induction a as [|x a IH]; intros b; cbn [app]. { rewrite app_nil_r; auto. }
  unfold winding in *. rewrite sum_closed_rotate, <- app_assoc, IH, <- app_assoc. reflexivity.
Qed.
Lemma winding_repeat a x b : winding ge0 (a ++ x :: x :: b) = winding ge0 (a ++ x :: b).
Proof. apply sum_closed_dup, crossing_same. Qed.
End H.

(** ** Angles. *)
Definition Rge0 (x : R) : bool := if Rle_dec 0 x then true else false.
Lemma Rge0_true x : (0 <= x)%R -> Rge0 x = true.
Proof. unfold Rge0. destruct (Rle_dec 0 x); auto; lra. Qed.
Lemma Rge0_false x : (x < 0)%R -> Rge0 x = false.
Proof. unfold Rge0. destruct (Rle_dec 0 x); auto; lra. Qed.

Definition unit_vector (rho theta : R) : R * R := ((rho * cos theta)%R, (rho * sin theta)%R).

(** [lift theta q]: q - 4k is the quadrant of theta (numbered from 0) after k turns. *)
Inductive lift (theta : R) : Z -> Prop :=
| lift0 k : (IZR k * (2 * PI) <= theta <= IZR k * (2 * PI) + PI / 2)%R -> lift theta (4 * k)
| lift1 k : (IZR k * (2 * PI) + PI / 2 < theta <= IZR k * (2 * PI) + PI)%R -> lift theta (4 * k + 1)
| lift2 k : (IZR k * (2 * PI) + PI < theta < IZR k * (2 * PI) + 3 * (PI / 2))%R -> lift theta (4 * k + 2)
| lift3 k : (IZR k * (2 * PI) + 3 * (PI / 2) <= theta < IZR k * (2 * PI) + 2 * PI)%R -> lift theta (4 * k + 3).

Lemma lift_exists theta : exists q, lift theta q.
Proof.
  pose proof PI_RGT_0 as Hpi.
  assert (H : exists k : Z, (IZR k * (2 * PI) <= theta < IZR k * (2 * PI) + 2 * PI)%R).
  { exists (up (theta / (2 * PI)) - 1)%Z. destruct (archimed (theta / (2 * PI))) as [A B].
    rewrite minus_IZR. set (u := IZR (up (theta / (2 * PI)))) in *.
    assert (E : (theta = theta / (2 * PI) * (2 * PI))%R) by (field; lra).
    set (t := (theta / (2 * PI))%R) in *. rewrite E. split; nra. }
  destruct H as [k [H1 H2]].
  destruct (Rle_dec theta (IZR k * (2 * PI) + PI / 2)); [exists (4 * k); constructor; lra|].
  destruct (Rle_dec theta (IZR k * (2 * PI) + PI)); [exists (4 * k + 1); constructor; lra|].
  destruct (Rlt_dec theta (IZR k * (2 * PI) + 3 * (PI / 2))); [exists (4 * k + 2); constructor; lra|].
  exists (4 * k + 3). constructor; lra.
Qed.

Lemma period (f : R -> R) : (forall x n, f (x + 2 * INR n * PI)%R = f x) ->
  forall x k, f (x + IZR k * (2 * PI))%R = f x.
Proof.
  intros H x k. destruct (Z_le_dec 0 k) as [Hk|Hk].
  - rewrite <- (Z2Nat.id k) by lia. rewrite <- INR_IZR_INZ. 
    replace (x + INR (Z.to_nat k) * (2 * PI))%R with (x + 2 * INR (Z.to_nat k) * PI)%R by ring. apply H.
  - rewrite <- (H (x + IZR k * (2 * PI))%R (Z.to_nat (- k))).
    rewrite INR_IZR_INZ, Z2Nat.id by lia. rewrite opp_IZR. f_equal. ring.
Qed.

Lemma mod4 k i : 0 <= i < 4 -> (4 * k + i) mod 4 = i.
Proof. intros. symmetry. apply (Z.mod_unique _ 4 k); lia. Qed.

Lemma lift_quadrant rho theta q : (0 < rho)%R -> lift theta q ->
  qv Rge0 (unit_vector rho theta) = q mod 4 + 1.
Proof.
  intros Hr H. pose proof PI_RGT_0 as Hpi.
  assert (Ec : forall k, cos theta = cos (theta - IZR k * (2 * PI))).
  { intros k. rewrite <- (period cos cos_period (theta - IZR k * (2 * PI)) k). f_equal. ring. }
  assert (Es : forall k, sin theta = sin (theta - IZR k * (2 * PI))).
  { intros k. rewrite <- (period sin sin_period (theta - IZR k * (2 * PI)) k). f_equal. ring. }
  unfold qv, unit_vector, quadrant_of. cbn [fst snd].
  destruct H as [k H|k H|k H|k H]; rewrite (Ec k), (Es k); set (t := (theta - IZR k * (2 * PI))%R);
  assert (Ht : (t = theta - IZR k * (2 * PI))%R) by reflexivity.
  - rewrite (Rge0_true (rho * cos t)). 2:{ pose proof (cos_ge_0 t). nra. }
    rewrite (Rge0_true (rho * sin t)). 2:{ pose proof (sin_ge_0 t). nra. }
    rewrite Z.mul_comm, Z.mod_mul by lia. reflexivity.
  - rewrite (Rge0_false (rho * cos t)). 2:{ pose proof (cos_lt_0 t). nra. }
    rewrite (Rge0_true (rho * sin t)). 2:{ pose proof (sin_ge_0 t). nra. }
    rewrite mod4 by lia. reflexivity.
  - rewrite (Rge0_false (rho * cos t)). 2:{ pose proof (cos_lt_0 t). nra. }
    rewrite (Rge0_false (rho * sin t)). 2:{ pose proof (sin_lt_0 t). nra. }
    rewrite mod4 by lia. reflexivity.
  - rewrite (Rge0_true (rho * cos t)). 2:{ pose proof (cos_ge_0_3PI2 t). nra. }
    rewrite (Rge0_false (rho * sin t)). 2:{ pose proof (sin_lt_0 t). nra. }
    rewrite mod4 by lia. reflexivity.
Qed.

Lemma lift_step_up a b p q : lift a p -> lift b q -> (b - a < PI / 2)%R -> q <= p + 1.
Proof.
  intros Ha Hb Hd. pose proof PI_RGT_0 as Hpi.
  assert (G : forall k k' i i' : Z, 4 * k' + i' > 4 * k + i + 1 -> 0 <= i <= 3 -> 0 <= i' <= 3 ->
    (k' = k /\ i' >= i + 2) \/ (k' = k + 1 /\ i' + 2 >= i) \/ (k' >= k + 2)) by (intros; lia).
  assert (I1 : forall k k' : Z, k' = k -> IZR k' = IZR k) by (intros; subst; auto).
  assert (I2 : forall k k' : Z, k' = k + 1 -> (IZR k' = IZR k + 1)%R) by (intros; subst; rewrite plus_IZR; lra).
  assert (I3 : forall k k' : Z, k' >= k + 2 -> (IZR k' >= IZR k + 2)%R)
    by (intros k k' H; replace (IZR k + 2)%R with (IZR (k + 2)) by (rewrite plus_IZR; lra); apply IZR_ge; lia).
  destruct (Z_le_dec q (p + 1)) as [|Hn]; auto. exfalso.
  assert (L : exists k i, p = 4 * k + i /\ 0 <= i <= 3 /\ (a <= IZR k * (2 * PI) + IZR (i + 1) * (PI / 2))%R
     /\ (i = 1 \/ i = 0 \/ (a < IZR k * (2 * PI) + IZR (i + 1) * (PI / 2))%R)).
  { destruct Ha as [k H|k H|k H|k H]; [exists k, 0|exists k, 1|exists k, 2|exists k, 3]; cbn [Z.add Pos.add Pos.succ]; repeat split; try lia; try lra;
    try (right; right; lra); auto. }
  assert (L' : exists k i, q = 4 * k + i /\ 0 <= i <= 3 /\ (IZR k * (2 * PI) + IZR i * (PI / 2) <= b)%R
     /\ (i = 0 \/ i = 3 \/ (IZR k * (2 * PI) + IZR i * (PI / 2) < b)%R)).
  { destruct Hb as [k H|k H|k H|k H]; [exists k, 0|exists k, 1|exists k, 2|exists k, 3]; cbn [Z.add Pos.add Pos.succ]; repeat split; try lia; try lra;
    try (right; right; lra); auto. }
  destruct L as (k & i & -> & Hi & A1 & A2). destruct L' as (k' & i' & -> & Hi' & B1 & B2).
  assert (T : (IZR k' * 4 + IZR i' >= IZR k * 4 + IZR (i + 1) + 1)%R).
  { rewrite <- !mult_IZR, <- !plus_IZR. apply IZR_ge. lia. }
  assert (IZR k' * (2 * PI) + IZR i' * (PI / 2) >= IZR k * (2 * PI) + IZR (i + 1) * (PI / 2) + PI / 2)%R by nra.
  lra.
Qed.

Lemma step_lift a b p q rho rho' : (0 < rho)%R -> (0 < rho')%R -> lift a p -> lift b q ->
  (Rabs (b - a) < PI / 2)%R ->
  quadrant_step (qv Rge0 (unit_vector rho a)) (qv Rge0 (unit_vector rho' b)) = q - p.
Proof.
  intros Hr Hr' Ha Hb Hd. rewrite (lift_quadrant rho a p Hr Ha), (lift_quadrant rho' b q Hr' Hb).
  apply Rabs_def2 in Hd. destruct Hd as [D1 D2].
  pose proof (lift_step_up a b p q Ha Hb D1).
  assert (p <= q + 1) by (apply (lift_step_up b a q p Hb Ha); lra).
  pose proof (Z.div_mod p 4). pose proof (Z.div_mod q 4).
  pose proof (Z.mod_pos_bound p 4). pose proof (Z.mod_pos_bound q 4).
  unfold quadrant_step.
  destruct (Z.eqb_spec (p mod 4 + 1) 4), (Z.eqb_spec (q mod 4 + 1) 1), (Z.eqb_spec (p mod 4 + 1) 1), (Z.eqb_spec (q mod 4 + 1) 4);
  cbn [andb]; lia.
Qed.

Lemma sum_lift (vs : nat -> R * R) (qs : nat -> Z) : forall n i,
  (forall j, (i <= j < i + n)%nat -> quadrant_step (qv Rge0 (vs j)) (qv Rge0 (vs (Datatypes.S j))) = qs (Datatypes.S j) - qs j) ->
  sum_pairs quadrant_step (map (fun j => qv Rge0 (vs j)) (seq i (Datatypes.S n))) = qs (i + n)%nat - qs i.
Proof.
  induction n as [|n IH]; intros i H.
  - simpl. rewrite Nat.add_0_r. lia.
  - cbn [seq map]. change (seq (Datatypes.S i) (Datatypes.S n)) with (seq (Datatypes.S i) (Datatypes.S n)).
    specialize (IH (Datatypes.S i)). cbn [seq map] in IH. cbn [sum_pairs] in *.
    rewrite IH. 2:{ intros j Hj. apply H. lia. }
    rewrite H by lia. replace (i + Datatypes.S n)%nat with (Datatypes.S i + n)%nat by lia. lia.
Qed.

Lemma helicity_turns theta rho n k quad spsi sG :
  (0 < n)%nat -> turns theta n k -> (forall j, 0 < rho j)%R -> length quad = Datatypes.S n ->
  calculate_helicity Rge0 n
    (map (fun j => rho j * cos (theta j))%R (seq 0 n)) (map (fun j => rho j * sin (theta j))%R (seq 0 n))
    quad spsi sG = Ok (spsi * sG * k).
Proof.
  intros Hn [Hstep Hend] Hrho Hq.
  set (n1 := map _ _). set (n3 := map _ _).
  assert (L1 : length n1 = n) by (unfold n1; rewrite map_length, seq_length; auto).
  assert (L3 : length n3 = n) by (unfold n3; rewrite map_length, seq_length; auto).
  rewrite <- L1. rewrite helicity_winding; try lia. 2:{ intros E. rewrite E in L1. simpl in L1. lia. }
  do 2 f_equal. 
  assert (Ec : combine n1 n3 = map (fun j => unit_vector (rho j) (theta j)) (seq 0 n)).
  { subst n1 n3. clear. induction (seq 0 n) as [|a l IH]; simpl; auto. rewrite IH. reflexivity. }
  rewrite Ec.
  (* lifts of the angles, periodic at the end *)
  assert (HL : exists qs : nat -> Z, (forall j, (j <= n)%nat -> lift (theta j) (qs j)) /\ qs n = qs 0%nat + 4 * k).
  { destruct (lift_exists (theta 0%nat)) as [q0 Hq0].
    assert (Hqn : lift (theta n) (q0 + 4 * k)).
    { rewrite Hend. assert (Hk : forall m, IZR (m + k) = (IZR m + IZR k)%R) by (intros; apply plus_IZR).
      destruct Hq0 as [k0 H0|k0 H0|k0 H0|k0 H0].
      - replace (4 * k0 + 4 * k) with (4 * (k0 + k)) by ring. constructor. rewrite Hk. lra.
      - replace (4 * k0 + 1 + 4 * k) with (4 * (k0 + k) + 1) by ring. constructor. rewrite Hk. lra.
      - replace (4 * k0 + 2 + 4 * k) with (4 * (k0 + k) + 2) by ring. constructor. rewrite Hk. lra.
      - replace (4 * k0 + 3 + 4 * k) with (4 * (k0 + k) + 3) by ring. constructor. rewrite Hk. lra. }
    assert (HA : forall m, exists qs : nat -> Z, forall j, (j < m)%nat -> lift (theta j) (qs j)).
    { induction m as [|m [qs IH]]. { exists (fun _ => 0). intros; lia. }
      destruct (lift_exists (theta m)) as [q Hqm].
      exists (fun j => if (j =? m)%nat then q else qs j). intros j Hj.
      destruct (Nat.eqb_spec j m) as [->|]; auto. apply IH. lia. }
    destruct (HA n) as [qs Hqs].
    exists (fun j => if (j =? 0)%nat then q0 else if (j =? n)%nat then q0 + 4 * k else qs j).
    split.
    - intros j Hj. destruct (Nat.eqb_spec j 0) as [->|]; auto. destruct (Nat.eqb_spec j n) as [->|]; auto.
      apply Hqs. lia.
    - cbn [Nat.eqb]. destruct (Nat.eqb_spec n 0) as [->|]; [lia|]. rewrite Nat.eqb_refl. lia. }
  destruct HL as [qs [HL Hqn]].
  set (vs := fun j => if (j =? n)%nat then unit_vector (rho 0%nat) (theta 0%nat) else unit_vector (rho j) (theta j)).
  pose proof (sum_lift vs qs n 0) as HS.
  assert (HP : forall j, (0 <= j < 0 + n)%nat ->
     quadrant_step (qv Rge0 (vs j)) (qv Rge0 (vs (Datatypes.S j))) = qs (Datatypes.S j) - qs j).
  { intros j Hj. unfold vs. rewrite (proj2 (Nat.eqb_neq j n)) by lia.
    destruct (Nat.eqb_spec (Datatypes.S j) n) as [E|E].
    - assert (E0 : qv Rge0 (unit_vector (rho 0%nat) (theta 0%nat)) = qv Rge0 (unit_vector (rho 0%nat) (theta n))).
      { unfold unit_vector. rewrite Hend. rewrite (period cos cos_period), (period sin sin_period). reflexivity. }
      rewrite E0, E. apply step_lift; auto; try (apply HL; lia). rewrite <- E. apply Hstep. lia.
    - apply step_lift; auto; try (apply HL; lia). apply Hstep. lia. }
  specialize (HS HP). rewrite Nat.add_0_l, Hqn in HS.
  assert (EM : map (fun j => qv Rge0 (vs j)) (seq 0 (Datatypes.S n)) =
    map (qv Rge0) (map (fun j => unit_vector (rho j) (theta j)) (seq 0 n) ++ [unit_vector (rho 0%nat) (theta 0%nat)])).
  { rewrite seq_S, Nat.add_0_l, !map_app, map_map. cbn [map]. f_equal.
    - apply map_ext_in. intros j Hj. apply in_seq in Hj. unfold vs. rewrite (proj2 (Nat.eqb_neq j n)) by lia. reflexivity.
    - unfold vs. rewrite Nat.eqb_refl. reflexivity. }
  rewrite EM in HS.
  destruct n as [|n']; [lia|].
  set (u0 := unit_vector (rho 0%nat) (theta 0%nat)) in *.
  set (tl := map (fun j => unit_vector (rho j) (theta j)) (seq 1 n')) in *.
  change (sum_pairs quadrant_step (map (qv Rge0) (u0 :: (tl ++ [u0]))) = qs 0%nat + 4 * k - qs 0%nat) in HS.
  rewrite sum_step in HS.
  change (winding Rge0 (map (fun j => unit_vector (rho j) (theta j)) (seq 0 (Datatypes.S n'))))
    with (sum_pairs (crossing Rge0) (u0 :: tl ++ [u0])).
  change (last (u0 :: tl ++ [u0]) u0) with (last ((u0 :: tl) ++ [u0]) u0) in HS. rewrite last_last in HS. lia.
Qed.
