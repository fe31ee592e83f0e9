(** The second-order solution: proofs. *)
From Coq Require Import String ZArith Reals List Arith Lia Lra Bool.
From Verif Require Import Base BaseFacts FloatOps MathOps MathFacts Curve Tensor TensorFacts ScanFacts Diff DiffFacts
  Axis AxisSpec R1 R1Spec R2 R2Spec.
Import ListNotations.
Local Open Scope list_scope. Local Open Scope nat_scope.

(** ** The linear system *)
Lemma entry_set {F} (o : fops F) r c (m : matrix F) i j v : mat_ok r c m -> i < r -> j < c ->
  exists m', matrix_set m i j v = Ok m' /\ mat_ok r c m' /\
    (forall i' j', i' < r -> j' < c -> entry o m' i' j' = if (i' =? i) && (j' =? j) then v else entry o m i' j').
Proof.
  intros Hm Hi Hj. destruct (matrix_set_spec r c m i j v Hm Hi Hj) as (m' & E & Hm' & D). exists m'. split; [auto|]. split; [auto|].
  intros i' j' Hi' Hj'. unfold entry. destruct Hm as (R & _ & Ld). destruct Hm' as (R' & _). rewrite R, R', D, nth_upd.
  replace (i + r * j <? length (m_data m)) with true by (symmetry; apply Nat.ltb_lt; rewrite Ld; apply idx2_bound; auto). rewrite andb_true_r.
  destruct (Nat.eqb_spec (i' + r * j') (i + r * j)) as [Ei|Ei].
  - apply idx2_inj in Ei; auto. destruct Ei as [-> ->]. rewrite !Nat.eqb_refl. reflexivity.
  - destruct (Nat.eqb_spec i' i), (Nat.eqb_spec j' j); subst; auto; congruence.
Qed.
Lemma entry_get {F} (o : fops F) r c (m : matrix F) i j : mat_ok r c m -> i < r -> j < c -> matrix_get m i j = Ok (entry o m i j).
Proof.
  intros (R & _ & L) Hi Hj. unfold matrix_get, matrix_index, entry. apply aget_ok. rewrite L, R. apply idx2_bound; auto.
Qed.

Section System.
Context {F : Type} (o : fops F) (mo : mops F) (i : r2_input F).
Let a := i_axis (j_r1 i).
Let n := a_nphi a.
Let q := r1_diagnostics o mo (j_r1 i) (j_sigma i) (j_iota i).
Local Infix "+!" := (fadd o) (at level 50, left associativity).
Local Infix "-!" := (fsub o) (at level 50, left associativity).
Local Infix "*!" := (fmul o) (at level 40, left associativity).
Let X1c := r_X1c q. Let Y1s := r_Y1s q. Let Y1c := r_Y1c q.
Let D := a_d_d_varphi a.
Definition a11 j k := Y1c j *! D j k *! Y2s_from_X20 o mo i k -! Y1s j *! D j k *! Y2c_from_X20 o mo i k.
Definition a12 j k := m_of_Z mo (-2) *! Y1s j *! D j k.
Definition a21 j k := fopp o (X1c j) *! D j k +! Y1s j *! D j k *! Y2s_from_X20 o mo i k +! Y1c j *! D j k *! Y2c_from_X20 o mo i k.
Definition d11 j x := x +! X1c j *! fXs_from_X20 o mo i j -! Y1s j *! fY0_from_X20 o mo i j
                              +! Y1c j *! fYs_from_X20 o mo i j -! Y1s j *! fYc_from_X20 o mo i j.
Definition d12 j x := x +! X1c j *! fXs_from_Y20 o mo i j -! Y1s j *! fY0_from_Y20 o j
                                       +! Y1c j *! fYs_from_Y20 o mo i j -! Y1s j *! fYc_from_Y20 o j.
Definition d21 j x := x -! X1c j *! fX0_from_X20 o mo i j +! X1c j *! fXc_from_X20 o mo i j -! Y1c j *! fY0_from_X20 o mo i j
                                       +! Y1s j *! fYs_from_X20 o mo i j +! Y1c j *! fYc_from_X20 o mo i j.
Definition d22 j x := x -! X1c j *! fX0_from_Y20 o mo i j +! X1c j *! fXc_from_Y20 o mo i j -! Y1c j *! fY0_from_Y20 o j
                                        +! Y1s j *! fYs_from_Y20 o mo i j +! Y1c j *! fYc_from_Y20 o j.
Definition pre r c := if r <? n then (if c <? n then a11 r c else a12 r (c - n)) else (if c <? n then a21 (r - n) c else fzero o).
Definition fin r c :=
  if r <? n then (if c =? r then d11 r (pre r c) else if c =? r + n then d12 r (pre r c) else pre r c)
  else (if c =? r - n then d21 (r - n) (pre r c) else if c =? r then d22 (r - n) (pre r c) else pre r c).

Ltac cmp := repeat match goal with
  | |- context [?x =? ?y] => destruct (Nat.eqb_spec x y); try lia
  | |- context [?x <? ?y] => destruct (Nat.ltb_spec x y); try lia
  | |- context [?x <=? ?y] => destruct (Nat.leb_spec x y); try lia end; cbn [andb orb] in *.

Lemma fill_entry_ok j k m : mat_ok (2 * n) (2 * n) m -> j < n -> k < n ->
  exists m', fill_entry o mo i j k m = Ok m' /\ mat_ok (2 * n) (2 * n) m' /\
    forall r c, r < 2 * n -> c < 2 * n -> entry o m' r c =
      if ((r =? j) || (r =? j + n)) && ((c =? k) || (c =? k + n)) then pre r c else entry o m r c.
Proof.
  intros Hm Hj Hk. unfold fill_entry, d_dv. fold a n q X1c Y1s Y1c D.
  destruct (entry_set o (2 * n) (2 * n) m j k (Y1c j *! D j k *! Y2s_from_X20 o mo i k -! Y1s j *! D j k *! Y2c_from_X20 o mo i k) Hm ltac:(lia) ltac:(lia)) as (m1 & -> & H1 & V1). cbn [bind].
  destruct (entry_set o (2 * n) (2 * n) m1 j (k + n) (m_of_Z mo (-2) *! Y1s j *! D j k) H1 ltac:(lia) ltac:(lia)) as (m2 & -> & H2 & V2). cbn [bind].
  destruct (entry_set o (2 * n) (2 * n) m2 (j + n) k (fopp o (X1c j) *! D j k +! Y1s j *! D j k *! Y2s_from_X20 o mo i k +! Y1c j *! D j k *! Y2c_from_X20 o mo i k) H2 ltac:(lia) ltac:(lia)) as (m3 & -> & H3 & V3). cbn [bind].
  destruct (entry_set o (2 * n) (2 * n) m3 (j + n) (k + n) (fzero o) H3 ltac:(lia) ltac:(lia)) as (m4 & -> & H4 & V4).
  exists m4. split; [reflexivity|]. split; [auto|]. intros r c Hr Hc. rewrite V4, V3, V2, V1 by auto. unfold pre, a11, a12, a21.
  destruct (Nat.eqb_spec r j), (Nat.eqb_spec r (j + n)), (Nat.eqb_spec c k), (Nat.eqb_spec c (k + n)); try lia; subst; cbn [andb orb];
    cmp; replace (k + n - n) with k by lia; replace (j + n - n) with j by lia; auto.
Qed.

Lemma fill_row_ok j m : mat_ok (2 * n) (2 * n) m -> j < n ->
  exists m', fill_row o mo i j m = Ok m' /\ mat_ok (2 * n) (2 * n) m' /\
    forall r c, r < 2 * n -> c < 2 * n -> entry o m' r c = if (r =? j) || (r =? j + n) then fin r c else entry o m r c.
Proof.
  intros Hm Hj. unfold fill_row. fold a n q X1c Y1s Y1c.
  destruct (for_loop_inv (fun k m' => mat_ok (2 * n) (2 * n) m' /\ forall r c, r < 2 * n -> c < 2 * n ->
      entry o m' r c = if ((r =? j) || (r =? j + n)) && ((c <? k) || ((n <=? c) && (c <? k + n))) then pre r c else entry o m r c)
    (fill_entry o mo i j) n m) as (m0 & -> & H0 & V0).
  { split; auto. intros r c Hr Hc. cmp; destruct ((r =? j) || (r =? j + n)); reflexivity. }
  { intros k m' Hk (H & V). destruct (fill_entry_ok j k m' H Hj Hk) as (m2 & -> & H2 & V2). exists m2. split; [reflexivity|]. split; [auto|].
    intros r c Hr Hc. rewrite V2 by auto. destruct ((r =? j) || (r =? j + n)) eqn:Er; cbn [andb]; [|rewrite V, Er by auto; reflexivity].
    destruct (Nat.eqb_spec c k), (Nat.eqb_spec c (k + n)); cbn [orb]; rewrite ?V, ?Er by auto; cmp; auto. }
  cbn [bind]. rewrite (entry_get o (2 * n) (2 * n)) by (auto; lia). cbn [bind].
  match goal with |- context [matrix_set m0 j j ?v] => destruct (entry_set o (2 * n) (2 * n) m0 j j v H0 ltac:(lia) ltac:(lia)) as (m1 & -> & H1 & V1) end. cbn [bind].
  rewrite (entry_get o (2 * n) (2 * n)) by (auto; lia). cbn [bind].
  match goal with |- context [matrix_set m1 j (j + n) ?v] => destruct (entry_set o (2 * n) (2 * n) m1 j (j + n) v H1 ltac:(lia) ltac:(lia)) as (m2 & -> & H2 & V2) end. cbn [bind].
  rewrite (entry_get o (2 * n) (2 * n)) by (auto; lia). cbn [bind].
  match goal with |- context [matrix_set m2 (j + n) j ?v] => destruct (entry_set o (2 * n) (2 * n) m2 (j + n) j v H2 ltac:(lia) ltac:(lia)) as (m3 & -> & H3 & V3) end. cbn [bind].
  rewrite (entry_get o (2 * n) (2 * n)) by (auto; lia). cbn [bind].
  match goal with |- context [matrix_set m3 (j + n) (j + n) ?v] => destruct (entry_set o (2 * n) (2 * n) m3 (j + n) (j + n) v H3 ltac:(lia) ltac:(lia)) as (m4 & -> & H4 & V4) end.
  exists m4. split; [reflexivity|]. split; [auto|]. intros r c Hr Hc.
  rewrite !V4, !V3, !V2, !V1, !V0 by (auto; lia). unfold fin, d11, d12, d21, d22.
  destruct (Nat.eqb_spec r j), (Nat.eqb_spec r (j + n)); try lia; subst; cbn [andb orb].
  - destruct (Nat.ltb_spec j n); [|lia]. destruct (Nat.eqb_spec c j), (Nat.eqb_spec c (j + n)); try lia; subst; cbn [andb orb];
      rewrite ?Nat.eqb_refl; cmp; auto.
  - destruct (Nat.ltb_spec (j + n) n); [lia|]. replace (j + n - n) with j by lia.
    destruct (Nat.eqb_spec c j), (Nat.eqb_spec c (j + n)); try lia; subst; cbn [andb orb];
      rewrite ?Nat.eqb_refl; cmp; auto.
  - reflexivity.
Qed.

Lemma fill_matrix_ok m : mat_ok (2 * n) (2 * n) m ->
  exists m', fill_matrix o mo i m = Ok m' /\ mat_ok (2 * n) (2 * n) m' /\ forall r c, r < 2 * n -> c < 2 * n -> entry o m' r c = fin r c.
Proof.
  intros Hm. unfold fill_matrix. fold a n.
  destruct (for_loop_inv (fun j m' => mat_ok (2 * n) (2 * n) m' /\ forall r c, r < 2 * n -> c < 2 * n -> r < j \/ n <= r < n + j -> entry o m' r c = fin r c)
    (fill_row o mo i) n m) as (m' & -> & H & V).
  { split; auto. intros; lia. }
  { intros j m' Hj (H & V). destruct (fill_row_ok j m' H Hj) as (m2 & -> & H2 & V2). exists m2. split; [reflexivity|]. split; [auto|].
    intros r c Hr Hc Hb. rewrite V2 by auto. destruct (Nat.eqb_spec r j), (Nat.eqb_spec r (j + n)); cbn [orb]; auto. apply V; auto. lia. }
  exists m'. split; [reflexivity|]. split; [auto|]. intros r c Hr Hc. apply V; auto. lia.
Qed.

Lemma fill_rhs_ok r : length r = 2 * n -> exists r', fill_rhs o mo i r = Ok r' /\ length r' = 2 * n /\
  forall j, j < n -> nth j r' (fzero o) = rhs1 o mo i j /\ nth (j + n) r' (fzero o) = rhs2 o mo i j.
Proof.
  intros Hr. unfold fill_rhs. fold a n.
  destruct (for_loop_inv (fun k r' => length r' = 2 * n /\ forall j, j < k -> nth j r' (fzero o) = rhs1 o mo i j /\ nth (j + n) r' (fzero o) = rhs2 o mo i j)
    (fun j r => do r <- aset r j (rhs1 o mo i j); aset r (j + n) (rhs2 o mo i j)) n r) as (r' & -> & L & V).
  { split; auto. intros; lia. }
  { intros k r' Hk (L & V). rewrite aset_ok by lia. cbn [bind]. rewrite aset_ok by (rewrite upd_length; lia). eexists. split; [reflexivity|].
    split; [rewrite !upd_length; auto|]. intros j Hj. rewrite !nth_upd, !upd_length, L.
    replace (k <? 2 * n) with true by (symmetry; apply Nat.ltb_lt; lia). replace (k + n <? 2 * n) with true by (symmetry; apply Nat.ltb_lt; lia).
    rewrite !andb_true_r.
    destruct (Nat.eqb_spec j (k + n)); [lia|]. destruct (Nat.eqb_spec j k) as [->|Hn].
    - rewrite Nat.eqb_refl. auto.
    - destruct (Nat.eqb_spec (j + n) (k + n)); [lia|]. destruct (Nat.eqb_spec (j + n) k); [lia|]. apply V. lia. }
  exists r'. auto.
Qed.
End System.

(** ** In exact arithmetic *)
Local Open Scope R_scope.
Lemma rsum_if n j f d x : (j < n)%nat -> rsum n (fun k => (if (k =? j)%nat then f k + d else f k) * x k) = rsum n (fun k => f k * x k) + d * x j.
Proof.
  intros Hj. rewrite (rsum_ext n _ (fun k => f k * x k + (if (k =? j)%nat then d * x j else 0))).
  - rewrite rsum_plus. f_equal. rewrite (rsum_single n _ j Hj); [rewrite Nat.eqb_refl; reflexivity|]. intros k _ Hn. destruct (Nat.eqb_spec k j); [lia|reflexivity].
  - intros k _. destruct (Nat.eqb_spec k j); [subst; ring|ring].
Qed.
Lemma grid_derivative_plus a f g j : grid_derivative a (fun k => f k + g k) j = grid_derivative a f j + grid_derivative a g j.
Proof. unfold grid_derivative. rewrite <- rsum_plus. apply rsum_ext. intros; ring. Qed.

Section Solution.
Variable (i : r2_input R) (x : nat -> R).
Let a := i_axis (j_r1 i). Let n := a_nphi a.
Let X20 := x. Let Y20 := fun j => x (j + n)%nat.
Let s := r2_from_solution R_ops R_math i X20 Y20.
Let q := r1_diagnostics R_ops R_math (j_r1 i) (j_sigma i) (j_iota i).
Notation D := (grid_derivative a).
Lemma row1 j : (j < n)%nat -> rsum (2 * n) (fun c => fin R_ops R_math i j c * x c) =
  r_Y1c q j * D (fun k => Y2s_from_X20 R_ops R_math i k * X20 k) j - r_Y1s q j * D (fun k => Y2c_from_X20 R_ops R_math i k * X20 k) j
  - 2 * r_Y1s q j * D Y20 j + d11 R_ops R_math i j 0 * X20 j + d12 R_ops R_math i j 0 * Y20 j.
Proof.
  intros Hj. replace (2 * n)%nat with (n + n)%nat by lia. rewrite rsum_app.
  rewrite (rsum_ext n (fun c => fin R_ops R_math i j c * x c) (fun k => (if (k =? j)%nat then a11 R_ops R_math i j k + d11 R_ops R_math i j 0 else a11 R_ops R_math i j k) * x k)).
  2:{ intros k Hk. unfold fin, pre. fold a n. destruct (Nat.ltb_spec j n); [|lia]. destruct (Nat.ltb_spec k n); [|lia]. destruct (Nat.eqb_spec k j) as [->|].
      - unfold d11. cbn [R_ops fadd fsub fmul]. ring. - destruct (Nat.eqb_spec k (j + n)); [lia|reflexivity]. }
  rewrite (rsum_ext n (fun k => fin R_ops R_math i j (n + k) * x (n + k)%nat) (fun k => (if (k =? j)%nat then a12 R_ops R_math i j k + d12 R_ops R_math i j 0 else a12 R_ops R_math i j k) * Y20 k)).
  2:{ intros k Hk. unfold fin, pre. fold a n. unfold Y20. rewrite (Nat.add_comm n k). destruct (Nat.ltb_spec j n); [|lia]. destruct (Nat.ltb_spec (k + n) n); [lia|]. destruct (Nat.eqb_spec (k + n) j); [lia|].
      replace (k + n - n)%nat with k by lia. destruct (Nat.eqb_spec (k + n) (j + n)), (Nat.eqb_spec k j); try lia; [|reflexivity].
      unfold d12. cbn [R_ops fadd fsub fmul]. ring. }
  rewrite !rsum_if by auto.
  rewrite (rsum_ext n (fun k => a11 R_ops R_math i j k * x k) (fun k => r_Y1c q j * (a_d_d_varphi a j k * (Y2s_from_X20 R_ops R_math i k * X20 k)) - r_Y1s q j * (a_d_d_varphi a j k * (Y2c_from_X20 R_ops R_math i k * X20 k)))) by (intros; unfold a11; fold a; fold q; cbn [R_ops fadd fsub fmul]; unfold X20; ring).
  rewrite rsum_minus, !rsum_scal.
  rewrite (rsum_ext n (fun k => a12 R_ops R_math i j k * Y20 k) (fun k => (-2 * r_Y1s q j) * (a_d_d_varphi a j k * Y20 k))) by (intros; unfold a12; fold a; fold q; cbn [R_ops R_math m_of_Z fadd fsub fmul]; ring).
  rewrite rsum_scal. unfold grid_derivative. fold n. unfold X20. ring.
Qed.
Lemma row2 j : (j < n)%nat -> rsum (2 * n) (fun c => fin R_ops R_math i (j + n) c * x c) =
  - r_X1c q j * D X20 j + r_Y1s q j * D (fun k => Y2s_from_X20 R_ops R_math i k * X20 k) j + r_Y1c q j * D (fun k => Y2c_from_X20 R_ops R_math i k * X20 k) j
  + d21 R_ops R_math i j 0 * X20 j + d22 R_ops R_math i j 0 * Y20 j.
Proof.
  intros Hj. replace (2 * n)%nat with (n + n)%nat by lia. rewrite rsum_app.
  rewrite (rsum_ext n (fun c => fin R_ops R_math i (j + n) c * x c) (fun k => (if (k =? j)%nat then a21 R_ops R_math i j k + d21 R_ops R_math i j 0 else a21 R_ops R_math i j k) * x k)).
  2:{ intros k Hk. unfold fin, pre. fold a n. destruct (Nat.ltb_spec (j + n) n); [lia|]. destruct (Nat.ltb_spec k n); [|lia]. replace (j + n - n)%nat with j by lia.
      destruct (Nat.eqb_spec k j) as [->|].
      - unfold d21. cbn [R_ops fadd fsub fmul]. ring. - destruct (Nat.eqb_spec k (j + n)); [lia|reflexivity]. }
  rewrite (rsum_ext n (fun k => fin R_ops R_math i (j + n) (n + k) * x (n + k)%nat) (fun k => (if (k =? j)%nat then 0 + d22 R_ops R_math i j 0 else 0) * Y20 k)).
  2:{ intros k Hk. unfold fin, pre. fold a n. unfold Y20. rewrite (Nat.add_comm n k). destruct (Nat.ltb_spec (j + n) n); [lia|]. destruct (Nat.ltb_spec (k + n) n); [lia|].
      replace (j + n - n)%nat with j by lia. destruct (Nat.eqb_spec (k + n) j); [lia|].
      destruct (Nat.eqb_spec (k + n) (j + n)), (Nat.eqb_spec k j); try lia; [|reflexivity].
      unfold d22. cbn [R_ops fadd fsub fmul fzero]. ring. }
  rewrite !rsum_if by auto.
  rewrite (rsum_zero n (fun k => 0 * Y20 k)) by (intros; ring).
  rewrite (rsum_ext n (fun k => a21 R_ops R_math i j k * x k) (fun k => (- r_X1c q j) * (a_d_d_varphi a j k * X20 k) + r_Y1s q j * (a_d_d_varphi a j k * (Y2s_from_X20 R_ops R_math i k * X20 k)) + r_Y1c q j * (a_d_d_varphi a j k * (Y2c_from_X20 R_ops R_math i k * X20 k)))) by (intros; unfold a21; fold a; fold q; cbn [R_ops fadd fsub fmul fopp]; unfold X20; ring).
  rewrite !rsum_plus, !rsum_scal. unfold grid_derivative. fold n. unfold X20. ring.
Qed.

(** A solution of the two rows solves the two equations. *)
Lemma solution_equations j : (j < n)%nat ->
  rsum (2 * n) (fun c => fin R_ops R_math i j c * x c) = rhs1 R_ops R_math i j ->
  rsum (2 * n) (fun c => fin R_ops R_math i (j + n) c * x c) = rhs2 R_ops R_math i j ->
  equation1 i s j /\ equation2 i s j.
Proof.
  intros Hj E1 E2. rewrite row1 in E1 by auto. rewrite row2 in E2 by auto.
  assert (DY2s : D (s_Y2s s) j = D (Y2s_inhomogeneous R_ops R_math i) j + D (fun k => Y2s_from_X20 R_ops R_math i k * X20 k) j) by apply grid_derivative_plus.
  assert (DY2c : D (s_Y2c s) j = D (Y2c_inhomogeneous R_ops R_math i) j + D (fun k => Y2c_from_X20 R_ops R_math i k * X20 k) j + D Y20 j).
  { change (s_Y2c s) with (fun k => (Y2c_inhomogeneous R_ops R_math i k + Y2c_from_X20 R_ops R_math i k * X20 k) + Y20 k). rewrite !grid_derivative_plus. reflexivity. }
  unfold equation1, equation2, fX0, fXs, fXc, fY0, fYs, fYc. cbv zeta. fold a. fold q. rewrite DY2s, DY2c.
  change (s_Y2s s j) with (Y2s_inhomogeneous R_ops R_math i j + Y2s_from_X20 R_ops R_math i j * X20 j).
  change (s_Y2c s j) with (Y2c_inhomogeneous R_ops R_math i j + Y2c_from_X20 R_ops R_math i j * X20 j + Y20 j).
  change (s_X20 s) with X20. change (s_Y20 s) with Y20. change (s_X2s s) with (X2s R_ops R_math i). change (s_X2c s) with (X2c R_ops R_math i).
  change (s_Z20 s) with (Z20 R_ops R_math i). change (s_Z2s s) with (Z2s R_ops R_math i). change (s_Z2c s) with (Z2c R_ops R_math i).
  change (s_beta_1s s) with (beta_1s R_ops R_math i).
  unfold d11, d12, d21, d22, rhs1, rhs2, fX0_from_X20, fX0_from_Y20, fX0_inhomogeneous, fXs_from_X20, fXs_from_Y20, fXs_inhomogeneous,
    fXc_from_X20, fXc_from_Y20, fXc_inhomogeneous, fY0_from_X20, fY0_from_Y20, fY0_inhomogeneous,
    fYs_from_X20, fYs_from_Y20, fYs_inhomogeneous, fYc_from_X20, fYc_from_Y20, fYc_inhomogeneous in E1, E2.
  fold a in E1, E2. fold q in E1, E2.
  change (ddv R_ops (j_r1 i)) with D in E1, E2.
  cbn [R_ops R_math fadd fsub fmul fdiv fopp fone ftwo fzero m_of_Z] in E1, E2. rewrite !mult_IZR in E1. rewrite !mult_IZR in E2. rewrite ?opp_IZR in E1. rewrite ?opp_IZR in E2.
  change (r_I2_over_B0 q) with (i_I2 (j_r1 i) / i_B0 (j_r1 i)) in E1, E2.
  change (IZR (-4)) with (-4) in E1, E2. change (IZR (-2)) with (-2) in E1, E2.
  unfold Rdiv in *.
  split.
  - match type of E1 with ?l = ?r => assert (Z : l - r = 0) by lra end. rewrite <- Z. ring.
  - match type of E2 with ?l = ?r => assert (Z : l - r = 0) by lra end. rewrite <- Z. ring.
Qed.
End Solution.
