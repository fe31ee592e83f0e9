(** Theorems about the second-order solution: the linear solve, the statistics of the field strength, Mercier's
    criterion. *)
From Coq Require Import String ZArith Reals List Arith Lia Lra Psatz Bool.
From Verif Require Import Base BaseFacts FloatOps MathOps MathFacts Curve Tensor TensorFacts ScanFacts Diff DiffFacts NewtonFacts Helicity HelicityFacts
  Axis AxisSpec AxisFacts R1 R1Spec R1Facts Properties_Axis Properties_R1 R2 R2Spec R2Facts.
Import ListNotations.
Local Open Scope list_scope. Local Open Scope nat_scope.
Local Open Scope R_scope.

(** A linear solver for systems of [n] equations that returns only solutions. *)
Definition solver_correct (n : nat) (solve : matrix R -> list R -> outcome (list R)) : Prop :=
  forall m b x, mat_ok n n m -> length b = n -> solve m b = Ok x ->
    length x = n /\ forall k, (k < n)%nat -> rsum n (fun c => entry R_ops m k c * nth c x 0) = nth k b 0.

(** C53.  The linear system for X20 and Y20, whatever the matrix and the right-hand side held before: every solution of it satisfies the two
    equations of second order at every grid point, written in R2Spec without the splitting used to set up the system; Y2s
    and Y2c satisfy their two relations. *)
Theorem second_order_equations : forall (i : r2_input R) solve m b s,
  let a := i_axis (j_r1 i) in let n := a_nphi a in
  mat_ok (2 * n) (2 * n) m -> length b = (2 * n)%nat -> solver_correct (2 * n) solve ->
  calculate_r2 R_ops R_math i solve m b = Ok s ->
  (forall j, (j < n)%nat -> equation1 i s j /\ equation2 i s j) /\
  (is_sign (i_sG (j_r1 i)) -> is_sign (i_spsi (j_r1 i)) -> i_eta_bar (j_r1 i) <> 0 -> forall j, a_curvature a j <> 0 ->
    let q := r1_diagnostics R_ops R_math (j_r1 i) (j_sigma i) (j_iota i) in
    let X1c := r_X1c q j in let Y1s := r_Y1s q j in let Y1c := r_Y1c q j in
    X1c * s_Y2s s j + Y1s * (s_X2c s j + s_X20 s j) - Y1c * s_X2s s j = - (IZR (i_sG (j_r1 i)) * IZR (i_spsi (j_r1 i)) * i_eta_bar (j_r1 i) / 2) /\
    X1c * s_Y2c s j = Y1s * s_X2s s j + Y1c * s_X2c s j - Y1c * s_X20 s j + X1c * s_Y20 s j).
Proof.
  intros i solve m b s a n Hm Hb Hs H. unfold calculate_r2 in H.
  destruct (fill_matrix_ok R_ops R_math i m Hm) as (m' & Em & Hm' & Vm). fold a n in Hm', Vm. rewrite Em in H. cbn [bind] in H.
  destruct (fill_rhs_ok R_ops R_math i b Hb) as (b' & Eb & Hb' & Vb). fold a n in Hb', Vb. rewrite Eb in H. cbn [bind] in H.
  destruct (solve m' b') as [x| |] eqn:Ex; try discriminate. cbn [bind] in H. injection H as Es. symmetry in Es.
  destruct (Hs m' b' x Hm' Hb' Ex) as (Lx & Px).
  change (fun j => at_ R_ops x (j + a_nphi (i_axis (j_r1 i)))) with (fun j => nth (j + n) x 0) in Es.
  split.
  - intros j Hj. rewrite Es. apply (solution_equations i (at_ R_ops x) j Hj); fold a n.
    + rewrite <- (proj1 (Vb j Hj)). cbn [R_ops fzero]. rewrite <- (Px j) by lia. apply rsum_ext. intros c Hc. rewrite <- Vm by lia. reflexivity.
    + rewrite <- (proj2 (Vb j Hj)). cbn [R_ops fzero]. rewrite <- (Px (j + n)%nat) by lia. apply rsum_ext. intros c Hc. rewrite <- Vm by lia. reflexivity.
  - intros HsG Hsp He j Hk q X1c Y1s Y1c. pose proof (sign_sq _ HsG) as S1. pose proof (sign_sq _ Hsp) as S2.
    assert (E1 : X1c = i_eta_bar (j_r1 i) / a_curvature a j) by reflexivity.
    assert (E2 : Y1s = IZR (i_sG (j_r1 i)) * IZR (i_spsi (j_r1 i)) / i_eta_bar (j_r1 i) * a_curvature a j).
    { unfold Y1s, q, r1_diagnostics. cbn [r_Y1s R_ops R_math fmul fdiv m_of_Z]. fold a. rewrite mult_IZR. reflexivity. }
    assert (E3 : Y1c = Y1s * j_sigma i j) by reflexivity.
    rewrite Es. cbn [r2_from_solution s_Y2s s_X2c s_X20 s_X2s s_Y2c s_Y20 R_ops fadd fmul].
    unfold Y2s_inhomogeneous, Y2s_from_X20, Y2c_inhomogeneous, Y2c_from_X20. fold a.
    set (x2c := X2c R_ops R_math i j). set (x2s := X2s R_ops R_math i j).
    cbn [R_ops R_math fadd fsub fmul fdiv fopp ftwo m_of_Z]. rewrite ?mult_IZR, ?opp_IZR.
    rewrite E3, E2, E1. set (g := IZR (i_sG (j_r1 i))) in *. set (p := IZR (i_spsi (j_r1 i))) in *. set (e := i_eta_bar (j_r1 i)) in *. set (k := a_curvature a j) in *.
    set (sg := j_sigma i j). split; field; auto.
Qed.
Print Assumptions second_order_equations.

(** In every arithmetic, no access is out of bounds: the calculation fails only if the linear solver does. *)
Theorem second_order_defined : forall {F} (o : fops F) (mo : mops F) (i : r2_input F) solve m b,
  let n := a_nphi (i_axis (j_r1 i)) in
  mat_ok (2 * n) (2 * n) m -> length b = (2 * n)%nat ->
  exists m' b', mat_ok (2 * n) (2 * n) m' /\ length b' = (2 * n)%nat /\
    match solve m' b' with
    | Ok x => exists s, calculate_r2 o mo i solve m b = Ok s /\ s_X20 s = (fun j => nth j x (fzero o)) /\ s_Y20 s = (fun j => nth (j + n) x (fzero o))
    | Throw w => calculate_r2 o mo i solve m b = Throw w
    | UB w => calculate_r2 o mo i solve m b = UB w end.
Proof.
  intros F o mo i solve m b n Hm Hb. unfold calculate_r2.
  destruct (fill_matrix_ok o mo i m Hm) as (m' & Em & Hm' & Vm). rewrite Em. cbn [bind].
  destruct (fill_rhs_ok o mo i b Hb) as (b' & Eb & Hb' & Vb). rewrite Eb. cbn [bind].
  exists m', b'. split; [auto|]. split; [auto|]. destruct (solve m' b'); cbn [bind]; auto. eexists. split; [reflexivity|]. split; reflexivity.
Qed.
Print Assumptions second_order_defined.

(** The largest of the absolute values in several arrays. *)
Definition is_largest (N : nat) (m : R) (l : list (nat -> R)) : Prop :=
  (forall f j, In f l -> (j < N)%nat -> Rabs (f j) <= m) /\ exists f j, In f l /\ (j < N)%nat /\ m = Rabs (f j).
Lemma max_abs_largest i f : (1 <= a_nphi (i_axis (j_r1 i)))%nat -> is_largest (a_nphi (i_axis (j_r1 i))) (max_abs R_ops R_math i f) [f].
Proof.
  intros HN. unfold max_abs. set (N := a_nphi _) in *. split.
  - intros g j [<-|[]] Hj. apply (fmax_ge (N - 1) (fun j => Rabs (f j))). lia.
  - destruct (fmax_in (N - 1) (fun j => Rabs (f j))) as (k & Hk & E). exists f, k. split; [left; auto|]. split; [lia|exact E].
Qed.
Lemma largest_app N x y l1 l2 : is_largest N x l1 -> is_largest N y l2 -> is_largest N (std_max R_ops x y) (l1 ++ l2).
Proof.
  intros (H1 & f1 & j1 & I1 & J1 & E1) (H2 & f2 & j2 & I2 & J2 & E2). unfold std_max. cbn [R_ops flt].
  destruct (Rltb x y) eqn:E; [apply Rltb_true in E|apply Rltb_false in E].
  - split; [|exists f2, j2; split; [apply in_or_app; auto|auto]].
    intros g j Hi Hj. apply in_app_or in Hi. destruct Hi as [Hi|Hi]; [specialize (H1 g j Hi Hj); lra|auto].
  - split; [|exists f1, j1; split; [apply in_or_app; auto|auto]].
    intros g j Hi Hj. apply in_app_or in Hi. destruct Hi as [Hi|Hi]; [auto|specialize (H2 g j Hi Hj); lra].
Qed.
Lemma max_abs_all_largest i l f : (1 <= a_nphi (i_axis (j_r1 i)))%nat -> is_largest (a_nphi (i_axis (j_r1 i))) (max_abs_all R_ops R_math i f l) (f :: l).
Proof.
  intros HN. unfold max_abs_all. change (f :: l) with ([f] ++ l).
  pose proof (max_abs_largest i f HN) as H. revert H. generalize (max_abs R_ops R_math i f) as m. generalize [f] as l0.
  induction l as [|g l IH]; intros l0 m H; cbn [fold_left]; [rewrite app_nil_r; auto|].
  change (g :: l) with ([g] ++ l). rewrite app_assoc. apply IH. apply largest_app; [exact H|]. apply max_abs_largest; auto.
Qed.

(** C52.  The statistics of B20, for every solution of second order, whatever the linear solver returned. *)
Theorem B20_statistics : forall (i : r2_input R) X20 Y20,
  let a := i_axis (j_r1 i) in let N := a_nphi a in let dl := a_d_l_d_phi a in let D := grid_derivative a in
  let B0 := i_B0 (j_r1 i) in
  let s := r2_from_solution R_ops R_math i X20 Y20 in
  (1 <= N)%nat -> (forall j, (j < N)%nat -> 0 < dl j) -> 0 < B0 ->
  (* the mean, weighted with the arclength *)
  s_B20_mean s = arc_mean N dl (s_B20 s) /\ (forall j, s_B20 s j = s_B20_mean s + s_B20_anomaly s j) /\ arc_mean N dl (s_B20_anomaly s) = 0 /\
  (* the residual *)
  s_B20_residual s = sqrt (arc_mean N dl (fun j => s_B20_anomaly s j ^ 2)) / B0 /\ 0 <= s_B20_residual s /\
  (s_B20_residual s = 0 <-> forall j k, (j < N)%nat -> (k < N)%nat -> s_B20 s j = s_B20 s k) /\
  (* the variation is the largest difference *)
  (forall j k, (j < N)%nat -> (k < N)%nat -> s_B20 s j - s_B20 s k <= s_B20_grid_variation s) /\
  (exists j k, (j < N)%nat /\ (k < N)%nat /\ s_B20_grid_variation s = s_B20 s j - s_B20 s k) /\
  (s_B20_residual s * B0 <= s_B20_grid_variation s) /\
  (* the largest absolute values of the coefficients and of their derivatives *)
  let XY := [s_X20 s; s_X2s s; s_X2c s; s_Y20 s; s_Y2s s; s_Y2c s] in let Z := [s_Z20 s; s_Z2s s; s_Z2c s] in
  is_largest N (s_grid_max_XY2 s) XY /\ is_largest N (s_grid_max_Z2 s) Z /\
  is_largest N (s_grid_max_d_XY2 s) (map D XY) /\ is_largest N (s_grid_max_d2_XY2 s) (map (fun f => D (D f)) XY) /\
  is_largest N (s_grid_max_d_Z2 s) (map D Z).
Proof.
  intros i X20 Y20 a N dl D B0 s HN Hdl HB.
  assert (HS : 0 < rsum N dl) by (apply rsum_pos; auto).
  assert (Em : s_B20_mean s = arc_mean N dl (s_B20 s)).
  { change (s_B20_mean s) with (rsum N (fun j => s_B20 s j * dl j) * (1 / rsum N dl)). unfold arc_mean. field. lra. }
  assert (Ea : forall j, s_B20_anomaly s j = s_B20 s j - s_B20_mean s) by reflexivity.
  assert (Er : s_B20_residual s = sqrt (arc_mean N dl (fun j => s_B20_anomaly s j ^ 2)) / B0).
  { change (s_B20_residual s) with (sqrt (rsum N (fun j => s_B20_anomaly s j * s_B20_anomaly s j * dl j) * (1 / rsum N dl)) / B0).
    f_equal. f_equal. unfold arc_mean. rewrite (rsum_ext N (fun j => s_B20_anomaly s j ^ 2 * dl j) (fun j => s_B20_anomaly s j * s_B20_anomaly s j * dl j)) by (intros; ring). field. lra. }
  assert (Ev : s_B20_grid_variation s = fmax R_ops (N - 1) (s_B20 s) - fmin R_ops (N - 1) (s_B20 s)) by reflexivity.
  assert (Hv : forall j k, (j < N)%nat -> (k < N)%nat -> s_B20 s j - s_B20 s k <= s_B20_grid_variation s).
  { intros j k Hj Hk. rewrite Ev. pose proof (fmax_ge (N - 1) (s_B20 s) j ltac:(lia)). pose proof (fmin_le (N - 1) (s_B20 s) k ltac:(lia)). lra. }
  assert (HL : forall f l, is_largest N (max_abs_all R_ops R_math i f l) (f :: l)) by (intros; apply max_abs_all_largest; auto).
  split; [exact Em|]. split; [intros j; rewrite Ea; ring|].
  assert (Ez : arc_mean N dl (s_B20_anomaly s) = 0).
  { unfold arc_mean. rewrite (rsum_ext N _ (fun j => s_B20 s j * dl j - s_B20_mean s * dl j)) by (intros; rewrite Ea; ring).
    rewrite rsum_minus, rsum_scal, Em. unfold arc_mean. field. lra. }
  split; [exact Ez|]. split; [exact Er|].
  assert (Hp : 0 <= arc_mean N dl (fun j => s_B20_anomaly s j ^ 2)) by (apply arc_mean_ge; auto; intros; apply pow2_ge_0).
  assert (HI : 0 < / B0) by (apply Rinv_0_lt_compat; auto).
  assert (Hr0 : 0 <= s_B20_residual s) by (rewrite Er; pose proof (sqrt_pos (arc_mean N dl (fun j => s_B20_anomaly s j ^ 2))); unfold Rdiv; apply Rmult_le_pos; lra).
  split; [exact Hr0|]. split; [|split; [exact Hv|split; [|split]]].
  - rewrite Er. split.
    + intros Z. assert (Z' : sqrt (arc_mean N dl (fun j => s_B20_anomaly s j ^ 2)) = 0).
      { unfold Rdiv in Z. apply Rmult_integral in Z. destruct Z; [auto|lra]. }
      apply sqrt_eq_0 in Z'; [|auto].
      assert (A : forall j, (j < N)%nat -> s_B20 s j = s_B20_mean s).
      { intros j Hj. pose proof (arc_mean_zero N dl (fun j => s_B20_anomaly s j ^ 2) HN Hdl (fun k _ => pow2_ge_0 _) Z' j Hj) as Q. cbv beta in Q. rewrite Ea in Q. nra. }
      intros j k Hj Hk. rewrite (A j Hj), (A k Hk). reflexivity.
    + intros C. assert (A : forall j, (j < N)%nat -> s_B20_anomaly s j = 0).
      { intros j Hj. rewrite Ea, Em. unfold arc_mean. rewrite (rsum_ext N _ (fun k => s_B20 s j * dl k)) by (intros k Hk; rewrite (C k j Hk Hj); reflexivity).
        rewrite rsum_scal. field. lra. }
      unfold arc_mean. rewrite rsum_zero by (intros k Hk; rewrite (A k Hk); ring). unfold Rdiv. rewrite Rmult_0_l, sqrt_0. ring.
  - destruct (fmax_in (N - 1) (s_B20 s)) as (j & Hj & Ej). destruct (fmin_in (N - 1) (s_B20 s)) as (k & Hk & Ek).
    exists j, k. split; [lia|]. split; [lia|]. rewrite Ev, Ej, Ek. reflexivity.
  - rewrite Er. unfold Rdiv. rewrite Rmult_assoc, Rinv_l, Rmult_1_r by lra.
    assert (V0 : 0 <= s_B20_grid_variation s) by (specialize (Hv 0%nat 0%nat HN HN); lra).
    rewrite <- (sqrt_square (s_B20_grid_variation s)) by auto. apply sqrt_le_1_alt. apply arc_mean_le; auto.
    intros j Hj. assert (U : - s_B20_grid_variation s <= s_B20_anomaly s j <= s_B20_grid_variation s); [|nra].
    assert (s_B20_mean s <= fmax R_ops (N - 1) (s_B20 s)) by (rewrite Em; apply arc_mean_le; auto; intros; apply fmax_ge; lia).
    assert (fmin R_ops (N - 1) (s_B20 s) <= s_B20_mean s) by (rewrite Em; apply arc_mean_ge; auto; intros; apply fmin_le; lia).
    pose proof (fmax_ge (N - 1) (s_B20 s) j ltac:(lia)). pose proof (fmin_le (N - 1) (s_B20 s) j ltac:(lia)). rewrite Ea, Ev. lra.
  - split; [apply HL|]. split; [apply HL|]. split; [apply HL|]. split; [apply HL|]. apply HL.
Qed.
Print Assumptions B20_statistics.

Lemma sq2_pos x : x <> 0 -> 0 < x ^ 2.
Proof. intros H. replace (x ^ 2) with (Rsqr x) by (unfold Rsqr; ring). apply Rsqr_pos_lt; auto. Qed.

(** C54.  Mercier's criterion, for every axis without points of zero curvature, every sigma and iota and every solution of second order:
    the terms are those of Landreman and Jorge (2020), the geodesic term is never stabilizing, without a gradient of the pressure
    all terms vanish. *)
Theorem mercier_criterion : forall ai a h I2 eta_bar sigma0 sigma iota p2 B2s B2c mu0 X20 Y20,
  regular ai a h eta_bar ->
  let i := r2_config ai a h I2 eta_bar sigma0 sigma iota p2 B2s B2c mu0 in
  let B0 := ai_B0 ai in let G0 := a_G0 a in let N := ai_nphi ai in
  let q := r1_diagnostics R_ops R_math (j_r1 i) sigma iota in
  let s := r2_from_solution R_ops R_math i X20 Y20 in
  let w := mercier R_ops R_math i s in
  let P := fun j => r_X1c q j + IZR (ai_sG ai) * IZR (ai_spsi ai) * r_Y1s q j in
  let J := arc_mean N (a_d_l_d_phi a) (fun j => (r_Y1c q j ^ 2 + r_X1c q j * P j) / (r_Y1c q j ^ 2 + P j ^ 2)) in
  0 < J < 1 /\
  w_d2_volume_d_psi2 w = 4 * PI ^ 2 * Rabs G0 / B0 ^ 3 * (3 * eta_bar ^ 2 - 4 * s_B20_mean s / B0 - 2 * mu0 * p2 / B0 ^ 2) /\
  w_DMerc w = w_DWell w + w_DGeod w /\
  w_DWell w = mu0 * p2 * Rabs G0 / (8 * PI ^ 4 * B0 ^ 3) * (w_d2_volume_d_psi2 w - 8 * PI ^ 2 * mu0 * p2 * Rabs G0 / B0 ^ 5) /\
  (r_iota_N q <> 0 -> w_DGeod w = - (2 * mu0 ^ 2 * p2 ^ 2 * G0 ^ 4 * eta_bar ^ 2 / (PI ^ 3 * B0 ^ 10 * r_iota_N q ^ 2)) * (2 * PI * J) /\
     w_DGeod w <= 0 /\ w_DMerc w <= w_DWell w /\ (mu0 * p2 <> 0 -> w_DGeod w < 0)) /\
  (p2 = 0 -> w_DWell w = 0 /\ w_DGeod w = 0 /\ w_DMerc w = 0).
Proof.
  intros ai a h I2 eta_bar sigma0 sigma iota p2 B2s B2c mu0 X20 Y20 [Hok HE HsG Hsp HB He Hdl Hk] i B0 G0 N q s w P J.
  destruct (arclength ai a h Hok HE Hdl) as (Edp & Elp & Eil & EG & _ & EL & _). fold N in Edp, Elp.
  assert (HN : (1 <= N)%nat) by apply Hok.
  assert (En : a_nphi a = N).
  { destruct (init_axis_eq R_ops R_math Rge0 ai Hok) as (d & sh & _ & _ & E'). cbv zeta in E'. rewrite HE in E'. injection E' as -> _. reflexivity. }
  assert (Hdl' : forall j, (j < N)%nat -> 0 < a_d_l_d_phi a j) by exact Hdl.
  assert (HS : 0 < rsum N (a_d_l_d_phi a)) by (apply rsum_pos; auto).
  assert (HNp : 0 < INR N) by (apply lt_0_INR; lia).
  assert (HF : 0 < IZR (ai_nfp ai)) by (apply IZR_lt; destruct Hok; lia). pose proof PI_RGT_0 as Hpi.
  assert (HL : 0 < a_abs_G0_over_B0 a) by (rewrite Elp; apply Rdiv_lt_0_compat; auto).
  pose proof (sign_sq _ HsG) as S1. pose proof (sign_sq _ Hsp) as S2.
  assert (HG : G0 <> 0).
  { unfold G0. rewrite EG. assert (IZR (ai_sG ai) <> 0) by (intros Z; rewrite Z in S1; lra). apply Rmult_integral_contrapositive; split; [apply Rmult_integral_contrapositive; split; lra|auto]. }
  set (f := fun j => (r_Y1c q j ^ 2 + r_X1c q j * P j) / (r_Y1c q j ^ 2 + P j ^ 2)) in J.
  assert (Q : forall j, (j < N)%nat -> 0 < f j < 1 /\
    f j = (eta_bar ^ 4 + a_curvature a j ^ 4 * sigma j ^ 2 + eta_bar ^ 2 * a_curvature a j ^ 2)
      / (eta_bar ^ 4 + a_curvature a j ^ 4 * (1 + sigma j ^ 2) + 2 * eta_bar ^ 2 * a_curvature a j ^ 2)).
  { intros j Hj. specialize (Hk j Hj). set (k := a_curvature a j) in *. set (sg := sigma j).
    assert (E1 : r_X1c q j = eta_bar / k) by reflexivity.
    assert (E2 : r_Y1s q j = IZR (ai_sG ai) * IZR (ai_spsi ai) / eta_bar * k).
    { unfold q, r1_diagnostics. cbn [r_Y1s R_ops R_math fmul fdiv m_of_Z i r2_config r1_config j_r1 i_sG i_spsi i_eta_bar i_axis]. rewrite mult_IZR. reflexivity. }
    assert (E3 : r_Y1c q j = r_Y1s q j * sg) by reflexivity.
    set (ss := IZR (ai_sG ai) * IZR (ai_spsi ai)) in *.
    assert (S3 : ss * ss = 1) by (unfold ss; replace _ with ((IZR (ai_sG ai) * IZR (ai_sG ai)) * (IZR (ai_spsi ai) * IZR (ai_spsi ai))) by ring; rewrite S1, S2; ring).
    assert (EP : P j = eta_bar / k + k / eta_bar).
    { unfold P. fold ss. rewrite E1, E2. replace (ss * (ss / eta_bar * k)) with ((ss * ss) * (k / eta_bar)) by (field; auto). rewrite S3. field. auto. }
    assert (E4 : r_Y1c q j ^ 2 = k ^ 2 * sg ^ 2 / eta_bar ^ 2).
    { rewrite E3, E2. replace ((ss / eta_bar * k * sg) ^ 2) with ((ss * ss) * (k ^ 2 * sg ^ 2 / eta_bar ^ 2)) by (field; auto). rewrite S3. ring. }
    assert (He2 : 0 < eta_bar ^ 2) by nra. assert (Hk2 : 0 < k ^ 2) by nra.
    assert (Hs2 : 0 <= sg ^ 2) by apply pow2_ge_0.
    assert (HP : 0 < eta_bar ^ 4 + k ^ 4 * (1 + sg ^ 2) + 2 * eta_bar ^ 2 * k ^ 2).
    { replace (eta_bar ^ 4) with (eta_bar ^ 2 * eta_bar ^ 2) by ring. replace (k ^ 4) with (k ^ 2 * k ^ 2) by ring.
      assert (0 < k ^ 2 * k ^ 2) by nra. nra. }
    assert (Ef : f j = (eta_bar ^ 4 + k ^ 4 * sg ^ 2 + eta_bar ^ 2 * k ^ 2) / (eta_bar ^ 4 + k ^ 4 * (1 + sg ^ 2) + 2 * eta_bar ^ 2 * k ^ 2)).
    { unfold f. rewrite E4, EP, E1. field. split; [lra|auto]. }
    split; [|exact Ef]. rewrite Ef.
    assert (HQ : 0 < eta_bar ^ 4 + k ^ 4 * sg ^ 2 + eta_bar ^ 2 * k ^ 2).
    { replace (eta_bar ^ 4) with (eta_bar ^ 2 * eta_bar ^ 2) by ring. replace (k ^ 4) with (k ^ 2 * k ^ 2) by ring. assert (0 < k ^ 2 * k ^ 2) by nra. nra. }
    split; [apply Rdiv_lt_0_compat; auto|].
    apply Rmult_lt_reg_r with (eta_bar ^ 4 + k ^ 4 * (1 + sg ^ 2) + 2 * eta_bar ^ 2 * k ^ 2); [exact HP|].
    unfold Rdiv. rewrite Rmult_assoc, Rinv_l, Rmult_1_r, Rmult_1_l by lra.
    replace (k ^ 4) with (k ^ 2 * k ^ 2) by ring. assert (0 < k ^ 2 * k ^ 2) by nra. nra. }
  assert (HJ : 0 < J < 1).
  { unfold J, arc_mean. split.
    - apply Rdiv_lt_0_compat; [|exact HS]. apply rsum_pos; [auto|]. intros j Hj. apply Rmult_lt_0_compat; [apply Q; auto|auto].
    - apply Rmult_lt_reg_r with (rsum N (a_d_l_d_phi a)); [exact HS|]. unfold Rdiv. rewrite Rmult_assoc, Rinv_l, Rmult_1_r, Rmult_1_l by lra.
      apply Rminus_gt_0_lt; unfold Rgt. rewrite <- rsum_minus. apply rsum_pos; [auto|]. intros j Hj. destruct (Q j Hj) as ((_ & U) & _). specialize (Hdl' j Hj). nra. }
  split; [exact HJ|].
  assert (EJ : rsum N (fun j => a_d_l_d_phi a j * (eta_bar * eta_bar * eta_bar * eta_bar + a_curvature a j * a_curvature a j * a_curvature a j * a_curvature a j * sigma j * sigma j + eta_bar * eta_bar * a_curvature a j * a_curvature a j)
     / (eta_bar * eta_bar * eta_bar * eta_bar + a_curvature a j * a_curvature a j * a_curvature a j * a_curvature a j * (1 + sigma j * sigma j) + 2 * eta_bar * eta_bar * a_curvature a j * a_curvature a j))
     * a_d_phi a * IZR (ai_nfp ai) * 2 * PI / a_axis_length a = 2 * PI * J).
  { rewrite EL, Edp, Elp. unfold J, arc_mean.
    rewrite (rsum_ext N _ (fun j => f j * a_d_l_d_phi a j)).
    2:{ intros j Hj. rewrite (proj2 (Q j Hj)). unfold Rdiv.
        replace (eta_bar * eta_bar * eta_bar * eta_bar + a_curvature a j * a_curvature a j * a_curvature a j * a_curvature a j * (1 + sigma j * sigma j) + 2 * eta_bar * eta_bar * a_curvature a j * a_curvature a j)
          with (eta_bar ^ 4 + a_curvature a j ^ 4 * (1 + sigma j ^ 2) + 2 * eta_bar ^ 2 * a_curvature a j ^ 2) by ring. ring. }
    field. lra. }
  assert (E2 : w_d2_volume_d_psi2 w = 4 * PI ^ 2 * Rabs G0 / B0 ^ 3 * (3 * eta_bar ^ 2 - 4 * s_B20_mean s / B0 - 2 * mu0 * p2 / B0 ^ 2)).
  { transitivity (4 * PI * PI * Rabs G0 / (B0 * B0 * B0) * (3 * eta_bar * eta_bar - 4 * s_B20_mean s / B0 + 2 * ((- mu0 * p2 * G0 / (B0 * B0) - iota * I2) + iota * I2) / G0)); [reflexivity|].
    field. auto. }
  split; [exact E2|]. split; [reflexivity|]. split.
  { transitivity (mu0 * p2 * Rabs G0 / (8 * PI * PI * PI * PI * B0 * B0 * B0) * (w_d2_volume_d_psi2 w - 8 * PI * PI * mu0 * p2 * Rabs G0 / (B0 * B0 * B0 * B0 * B0))); [reflexivity|].
    field. repeat split; auto; lra. }
  assert (E4 : w_DGeod w = - (2 * mu0 * mu0 * p2 * p2 * G0 * G0 * G0 * G0 * eta_bar * eta_bar / (PI * PI * PI * B0 * B0 * B0 * B0 * B0 * B0 * B0 * B0 * B0 * B0 * r_iota_N q * r_iota_N q)) * (2 * PI * J)).
  { rewrite <- EJ, <- En. reflexivity. }
  assert (E3 : w_DWell w = mu0 * p2 * Rabs G0 / (8 * PI * PI * PI * PI * B0 * B0 * B0) * (w_d2_volume_d_psi2 w - 8 * PI * PI * mu0 * p2 * Rabs G0 / (B0 * B0 * B0 * B0 * B0))) by reflexivity.
  assert (E5 : w_DMerc w = w_DWell w + w_DGeod w) by reflexivity.
  clearbody w. clear EJ.
  split.
  - intros HI. set (c := r_iota_N q) in *.
    assert (E6 : w_DGeod w = - (2 * mu0 ^ 2 * p2 ^ 2 * G0 ^ 4 * eta_bar ^ 2 / (PI ^ 3 * B0 ^ 10 * c ^ 2)) * (2 * PI * J)).
    { rewrite E4. field. repeat split; auto; lra. }
    assert (HD : 0 < G0 ^ 4 * eta_bar ^ 2 / (PI ^ 3 * B0 ^ 10 * c ^ 2) * (2 * PI * J)).
    { apply Rmult_lt_0_compat; [|apply Rmult_lt_0_compat; lra]. apply Rdiv_lt_0_compat.
      - assert (0 < G0 ^ 2) by (apply sq2_pos; auto). assert (0 < eta_bar ^ 2) by (apply sq2_pos; auto). apply Rmult_lt_0_compat; [replace (G0 ^ 4) with ((G0 ^ 2) ^ 2) by ring; apply pow_lt; auto|auto].
      - apply Rmult_lt_0_compat; [apply Rmult_lt_0_compat; [apply pow_lt; auto|]|apply sq2_pos; auto].
        replace (B0 ^ 10) with ((B0 ^ 2) ^ 5) by ring. apply pow_lt. apply sq2_pos; auto. }
    assert (E7 : w_DGeod w = - (2 * (mu0 * p2) ^ 2 * (G0 ^ 4 * eta_bar ^ 2 / (PI ^ 3 * B0 ^ 10 * c ^ 2) * (2 * PI * J)))).
    { rewrite E6. unfold Rdiv. ring. }
    set (d := G0 ^ 4 * eta_bar ^ 2 / (PI ^ 3 * B0 ^ 10 * c ^ 2) * (2 * PI * J)) in *.
    split; [exact E6|]. assert (0 <= (mu0 * p2) ^ 2) by apply pow2_ge_0. split; [rewrite E7; nra|]. split; [rewrite E5, E7; nra|].
    intros Hm. rewrite E7. assert (0 < (mu0 * p2) ^ 2) by (apply sq2_pos; auto). nra.
  - intros ->. assert (w_DWell w = 0) by (rewrite E3; unfold Rdiv; ring). assert (w_DGeod w = 0) by (rewrite E4; unfold Rdiv; ring).
    rewrite E5. repeat split; lra.
Qed.
Print Assumptions mercier_criterion.

(** ** The hypotheses are met: a circular axis *)
Definition circle_in (N : nat) : axis_input R := mkAxisInput N 1 [1; 0] [0; 0] [0; 0] [0; 0] 1 1 1.
Lemma circle : forall N, (1 <= N)%nat -> exists a h, regular (circle_in N) a h 1 /\ a_nphi a = N /\
  (forall j, a_torsion a j = 0) /\ (forall j, a_d_l_d_phi a j = 1) /\ (forall j, a_curvature a j = 1) /\
  a_abs_G0_over_B0 a = 1 /\ a_B0_over_abs_G0 a = 1 /\ a_G0 a = 1 /\
  forall c j, (j < N)%nat -> grid_derivative a (fun _ => c) j = 0.
Proof.
  intros N HN. assert (Hok : axis_ok (circle_in N)) by (constructor; cbn; lia || auto).
  destruct (plane_axis N 1 1 0 1 1 1 Hok) as (a & h & D & E & En & _ & _ & P). exists a, h.
  assert (Q : forall j, a_torsion a j = 0 /\ a_d_l_d_phi a j = 1 /\ a_curvature a j = 1).
  { intros j. specialize (P j). cbv zeta in P. change (IZR 1) with 1 in P. set (co := cos _) in P. set (si := sin _) in P.
    replace (1 + 0 * co) with 1 in P by ring. replace (- (0) * 1 * si) with 0 in P by ring. replace (- (0) * 1 * 1 * co) with 0 in P by ring.
    replace (1 * 1 + 0 * 0) with 1 in P by ring. rewrite sqrt_1 in P. destruct P as (P1 & P2 & P3). split; [exact P1|]. split; [exact P2|].
    rewrite P3 by lra. match goal with |- sqrt ?x = 1 => replace x with 1 by field end. apply sqrt_1. }
  assert (Hdl : forall j, (j < ai_nphi (circle_in N))%nat -> 0 < a_d_l_d_phi a j) by (intros j _; rewrite (proj1 (proj2 (Q j))); lra).
  destruct (arclength (circle_in N) a h Hok E Hdl) as (_ & El & Ei & EG & _). cbn [circle_in ai_nphi ai_sG ai_B0] in El, EG.
  assert (Hl : a_abs_G0_over_B0 a = 1).
  { rewrite El, (rsum_ext N _ (fun _ => 1)) by (intros; apply Q). rewrite rsum_const. field. apply not_0_INR. lia. }
  split; [constructor; auto|].
  { left; reflexivity. } { left; reflexivity. } { cbn; lra. } { intros j _. rewrite (proj2 (proj2 (Q j))). lra. }
  split; [exact En|]. split; [intros; apply Q|]. split; [intros; apply Q|]. split; [intros; apply Q|]. split; [exact Hl|].
  split; [rewrite Hl in Ei; lra|]. split; [rewrite EG, Hl; lra|].
  intros c j Hj. unfold grid_derivative. rewrite En. apply (ddv_const (circle_in N) a h c j Hok E Hj).
Qed.

Definition diagonal_solve (m : matrix R) (b : list R) : outcome (list R) :=
  let e := entry R_ops m in
  if Req_EM_T (e 0 1)%nat 0 then if Req_EM_T (e 1 0)%nat 0 then if Req_EM_T (e 0 0)%nat 0 then Throw "singular" else if Req_EM_T (e 1 1)%nat 0 then Throw "singular"
  else Ok [nth 0 b 0 / e 0%nat 0%nat; nth 1 b 0 / e 1%nat 1%nat] else Throw "not diagonal" else Throw "not diagonal".
Lemma diagonal_solve_correct : solver_correct 2 diagonal_solve.
Proof.
  intros m b x _ Hb H. unfold diagonal_solve in H. set (e := entry R_ops m) in *.
  destruct (Req_EM_T (e 0 1)%nat 0) as [E01|]; [|discriminate]. destruct (Req_EM_T (e 1 0)%nat 0) as [E10|]; [|discriminate].
  destruct (Req_EM_T (e 0 0)%nat 0); [discriminate|]. destruct (Req_EM_T (e 1 1)%nat 0); [discriminate|].
  injection H as <-. split; [reflexivity|]. intros [|[|k]] Hk; [| |lia]; cbn [fsum R_ops fadd fzero nth].
  - rewrite E01. field. auto.
  - rewrite E10. field. auto.
Qed.
Example second_order_example : forall p2 B2s B2c mu0, exists a h, regular (circle_in 1) a h 1 /\ a_nphi a = 1%nat /\
  let i := r2_config (circle_in 1) a h 0 1 0 (fun _ => 0) (1 - IZR h) p2 B2s B2c mu0 in
  let m := mkMatrix 2 2 4 (repeat 0 4) in let b := repeat 0 2 in
  mat_ok (2 * 1) (2 * 1) m /\ length b = (2 * 1)%nat /\ solver_correct (2 * 1) diagonal_solve /\
  r_iota_N (r1_diagnostics R_ops R_math (j_r1 i) (j_sigma i) (j_iota i)) <> 0 /\
  exists s, calculate_r2 R_ops R_math i diagonal_solve m b = Ok s.
Proof.
  intros p2 B2s B2c mu0. destruct (circle 1 (le_n 1)) as (a & h & Hr & En & Et & Ed & Ek & El & Ei & EG & HD). exists a, h.
  split; [exact Hr|]. split; [exact En|]. cbv zeta. set (i := r2_config _ _ _ _ _ _ _ _ _ _ _ _).
  split; [repeat split|]. split; [reflexivity|]. split; [exact diagonal_solve_correct|].
  set (q := r1_diagnostics R_ops R_math (j_r1 i) (j_sigma i) (j_iota i)).
  assert (Ec : r_iota_N q = 1). { unfold q. cbn [r1_diagnostics r_iota_N iota_N_of i r2_config r1_config j_r1 j_iota R_ops R_math fadd m_of_Z i_helicity i_nfp circle_in ai_nfp]. rewrite mult_IZR. ring. }
  split; [rewrite Ec; lra|].
  assert (EX : r_X1c q 0%nat = 1) by (change (1 / a_curvature a 0%nat = 1); rewrite Ek; field).
  assert (EY : r_Y1s q 0%nat = 1) by (change (1 / 1 * a_curvature a 0%nat = 1); rewrite Ek; field).
  assert (EC : r_Y1c q 0%nat = 0) by (change (r_Y1s q 0%nat * 0 = 0); ring).
  assert (ED : a_d_d_varphi a 0%nat 0%nat = 0).
  { specialize (HD 1 0%nat ltac:(lia)). unfold grid_derivative in HD. rewrite En in HD. cbn [fsum R_ops fadd fzero] in HD. lra. }
  assert (EDD : forall f, ddv R_ops (j_r1 i) f 0%nat = 0).
  { intros f. unfold ddv. change (i_axis (j_r1 i)) with a. rewrite En. cbn [fsum R_ops fadd fzero fmul]. rewrite ED. ring. }
  destruct (fill_matrix_ok R_ops R_math i (mkMatrix 2 2 4 (repeat 0 4))) as (m' & Em & Hm' & Vm). { change (i_axis (j_r1 i)) with a. rewrite En. repeat split. }
  destruct (fill_rhs_ok R_ops R_math i (repeat 0 2)) as (b' & Eb & Hb' & Vb). { change (i_axis (j_r1 i)) with a. rewrite En. reflexivity. }
  change (i_axis (j_r1 i)) with a in *. rewrite En in *.
  unfold calculate_r2. rewrite Em. cbn [bind]. rewrite Eb. cbn [bind]. unfold diagonal_solve. rewrite !Vm by lia.
  assert (Z0 : Z20 R_ops R_math i 0%nat = 0) by (unfold Z20; rewrite EDD; cbn [R_ops fmul]; ring).
  assert (Zs : Z2s R_ops R_math i 0%nat = 0).
  { unfold Z2s, V3. rewrite EDD. fold q. rewrite EX, EY, EC. cbn [R_ops fmul fsub fadd ftwo]. ring. }
  assert (Zc : Z2c R_ops R_math i 0%nat = 0).
  { unfold Z2c, V2. rewrite EDD. fold q. rewrite EY, EC. cbn [R_ops fmul fsub fadd ftwo]. ring. }
  assert (F1 : Y2s_from_X20 R_ops R_math i 0%nat = -1).
  { unfold Y2s_from_X20. change (a_curvature (i_axis (j_r1 i))) with (a_curvature a). rewrite Ek.
    cbn [R_ops R_math fmul fdiv m_of_Z i r2_config r1_config j_r1 i_sG i_spsi circle_in ai_sG ai_spsi i_eta_bar]. change (IZR (- (1) * 1)) with (-1). field. }
  assert (F2 : Y2c_from_X20 R_ops R_math i 0%nat = 0).
  { unfold Y2c_from_X20. cbn [R_ops R_math fmul fdiv m_of_Z i r2_config j_sigma]. unfold Rdiv. ring. }
  assert (EI : r_I2_over_B0 q = 0) by (change (0 / 1 = 0); field).
  assert (M01 : fin R_ops R_math i 0 1 = 0).
  { unfold fin, pre, d12, a12. change (i_axis (j_r1 i)) with a. rewrite En. fold q. cbn [Nat.ltb Nat.leb Nat.eqb Nat.add Nat.sub].
    unfold fXs_from_Y20, fY0_from_Y20, fYs_from_Y20, fYc_from_Y20. rewrite Z0, Zc, EC, ED. cbn [R_ops R_math fadd fsub fmul fopp fzero]. ring. }
  assert (M10 : fin R_ops R_math i 1 0 = 0).
  { unfold fin, pre, d21, a21. change (i_axis (j_r1 i)) with a. rewrite En. fold q. cbn [Nat.ltb Nat.leb Nat.eqb Nat.add Nat.sub].
    unfold fX0_from_X20, fXc_from_X20, fY0_from_X20, fYs_from_X20, fYc_from_X20. fold q. change (i_axis (j_r1 i)) with a. rewrite Z0, Zc, Zs, EC, ED, Et, F2, F1, EI. cbn [R_ops R_math fadd fsub fmul fopp fzero]. ring. }
  assert (M00 : fin R_ops R_math i 0 0 <> 0).
  { unfold fin, pre, d11, a11. change (i_axis (j_r1 i)) with a. rewrite En. fold q. cbn [Nat.ltb Nat.leb Nat.eqb Nat.add Nat.sub].
    unfold fXs_from_X20, fY0_from_X20, fYs_from_X20, fYc_from_X20. fold q. change (i_axis (j_r1 i)) with a. rewrite Z0, Zc, Zs, EC, ED, Et, F2, F1, EI, EX, EY, Ec. cbn [R_ops R_math fadd fsub fmul fopp fzero ftwo]. lra. }
  assert (M11 : fin R_ops R_math i 1 1 <> 0).
  { unfold fin, pre, d22. change (i_axis (j_r1 i)) with a. rewrite En. fold q. cbn [Nat.ltb Nat.leb Nat.eqb Nat.add Nat.sub].
    unfold fX0_from_Y20, fXc_from_Y20, fY0_from_Y20, fYs_from_Y20, fYc_from_Y20. fold q. change (i_axis (j_r1 i)) with a. rewrite Zs, EC, Et, EI, EX, EY, Ec. cbn [R_ops R_math fadd fsub fmul fopp fzero ftwo m_of_Z]. lra. }
  rewrite M01, M10. destruct (Req_EM_T 0 0); [|congruence]. destruct (Req_EM_T _ 0); [contradiction|]. destruct (Req_EM_T _ 0); [contradiction|].
  cbn [bind]. eexists. reflexivity.
Qed.
