(** Theorems about the tensor of the second derivatives of the magnetic field on the axis. *)
From Coq Require Import String ZArith Reals List Arith Lia Lra Psatz Bool.
From Verif Require Import Base BaseFacts FloatOps MathOps MathFacts Curve Tensor Diff NewtonFacts Helicity HelicityFacts
  Axis AxisSpec AxisFacts R1 R1Spec R1Facts Properties_Axis Properties_R1 R2 R2Spec R2Facts Properties_R2 Jet Properties_Field
  GradGradB GradGradBSpec.
Import ListNotations.
Local Open Scope list_scope. Local Open Scope nat_scope.
Local Open Scope R_scope.

(** The elements in exact arithmetic. *)
Ltac elements := unfold T_element, U_element;
  unfold T000, T001, T002, T010, T011, T012, T020, T021, T022, T100, T101, T102, T110, T111, T112, T120, T121, T122, T200, T201, T202, T210, T211, T212, T220, T221, T222,
    U000, U001, U002, U010, U011, U012, U020, U021, U022, U100, U101, U102, U110, U111, U112, U120, U121, U122, U200, U201, U202, U210, U211, U212, U220, U221, U222;
  cbn [p_sG p_spsi p_B0 p_G0 p_G2 p_I2 p_iota p_iota_N p_lp p_B2s p_B2c p_B20 p_curvature p_torsion p_d_curvature p_d_torsion p_X1c p_Y1s p_Y1c p_d_X1c p_d_Y1s p_d_Y1c
    p_d2_X1c p_d2_Y1s p_d2_Y1c p_X20 p_X2s p_X2c p_Y20 p_Y2s p_Y2c p_Z2s p_Z2c p_d_X20 p_d_X2s p_d_X2c p_d_Y20 p_d_Y2s p_d_Y2c p_d_Z20 p_d_Z2s p_d_Z2c
    R_ops R_math fadd fsub fmul fdiv fopp m_of_Z].

(** The values that the formulas use. *)
Lemma point_values ai a h I2 eta_bar sigma0 sigma iota p2 B2s B2c mu0 s j :
  let i := r2_config ai a h I2 eta_bar sigma0 sigma iota p2 B2s B2c mu0 in
  let q := r1_diagnostics R_ops R_math (j_r1 i) sigma iota in
  let D := fun u => grid_derivative a u j in
  point_at R_ops R_math i s j = mkPoint (ai_sG ai) (ai_spsi ai) (ai_B0 ai) (a_G0 a) (s_G2 s) I2 iota (r_iota_N q) (a_abs_G0_over_B0 a) B2s B2c
    (s_B20 s j) (a_curvature a j) (a_torsion a j) (D (a_curvature a)) (D (a_torsion a))
    (r_X1c q j) (r_Y1s q j) (r_Y1c q j) (D (r_X1c q)) (D (r_Y1s q)) (D (r_Y1c q)) (D (grid_derivative a (r_X1c q))) (D (grid_derivative a (r_Y1s q))) (D (grid_derivative a (r_Y1c q)))
    (s_X20 s j) (s_X2s s j) (s_X2c s j) (s_Y20 s j) (s_Y2s s j) (s_Y2c s j) (s_Z2s s j) (s_Z2c s j)
    (D (s_X20 s)) (D (s_X2s s)) (D (s_X2c s)) (D (s_Y20 s)) (D (s_Y2s s)) (D (s_Y2c s)) (D (s_Z20 s)) (D (s_Z2s s)) (D (s_Z2c s)).
Proof. reflexivity. Qed.

(** The gradient of B on the axis, written out. *)
Lemma grad_B_values ai a h I2 eta_bar sigma0 sigma iota p2 B2s B2c mu0 j :
  let i := r2_config ai a h I2 eta_bar sigma0 sigma iota p2 B2s B2c mu0 in
  let q := r1_diagnostics R_ops R_math (j_r1 i) sigma iota in
  let g := IZR (ai_sG ai) in let p := IZR (ai_spsi ai) in let l := a_abs_G0_over_B0 a in let f := p * ai_B0 ai / l in
  let D := fun u => grid_derivative a u j in let tau := a_torsion a j in let N := r_iota_N q in
  r_grad_B q j 0 0 = f * (D (r_X1c q) * r_Y1s q j + N * r_X1c q j * r_Y1c q j) /\
  r_grad_B q j 0 1 = f * (D (r_Y1c q) * r_Y1s q j - D (r_Y1s q) * r_Y1c q j + g * p * l * tau + N * (r_Y1s q j * r_Y1s q j + r_Y1c q j * r_Y1c q j)) /\
  r_grad_B q j 0 2 = g * ai_B0 ai * a_curvature a j /\
  r_grad_B q j 1 0 = f * (- (g * p * l * tau) - N * r_X1c q j * r_X1c q j) /\
  r_grad_B q j 1 1 = f * (r_X1c q j * D (r_Y1s q) - N * r_X1c q j * r_Y1c q j) /\
  r_grad_B q j 1 2 = 0 /\ r_grad_B q j 2 0 = g * ai_B0 ai * a_curvature a j /\ r_grad_B q j 2 1 = 0 /\ r_grad_B q j 2 2 = 0.
Proof.
  intros i q g p l f D tau N. repeat apply conj; try reflexivity.
  - transitivity (f * (D (r_Y1c q) * r_Y1s q j - D (r_Y1s q) * r_Y1c q j + IZR (ai_sG ai * ai_spsi ai) * l * tau + N * (r_Y1s q j * r_Y1s q j + r_Y1c q j * r_Y1c q j))); [reflexivity|].
    rewrite mult_IZR. fold g p. ring.
  - transitivity (f * (IZR (- ai_sG ai * ai_spsi ai) * l * tau - N * r_X1c q j * r_X1c q j)); [reflexivity|].
    rewrite mult_IZR, opp_IZR. fold g p. ring.
Qed.

(** What is used at a grid point. *)
Section Point.
Variables (ai : axis_input R) (a : axis R) (h : Z) (I2 eta_bar sigma0 : R) (sigma : nat -> R) (iota p2 B2s B2c mu0 : R) (X20 Y20 : nat -> R) (j : nat).
Hypothesis Hr : regular ai a h eta_bar.
Hypothesis Hj : (j < ai_nphi ai)%nat.
Let i := r2_config ai a h I2 eta_bar sigma0 sigma iota p2 B2s B2c mu0.
Let q := r1_diagnostics R_ops R_math (j_r1 i) sigma iota.
Let s := r2_from_solution R_ops R_math i X20 Y20.
Let T := grad_grad_B_tensor R_ops R_math i s j.
Let U := grad_grad_B_tensor_alt R_ops R_math i s j.
Let g := IZR (ai_sG ai). Let p := IZR (ai_spsi ai). Let l := a_abs_G0_over_B0 a. Let k := a_curvature a j.
Ltac facts :=
  destruct (at_point ai a h I2 eta_bar sigma0 sigma iota p2 B2s B2c mu0 j Hr Hj) as (Hg & Hp & Hl & Hil & HG & Hk & E1 & E2 & E3 & Ec);
  fold i in E1, E2, E3, Ec; fold q in E1, E2, E3, Ec;
  destruct (Y2_values ai a h I2 eta_bar sigma0 sigma iota p2 B2s B2c mu0 X20 Y20 j) as (Ys & Yc); fold i in Ys, Yc; fold s in Ys, Yc;
  pose proof (reg_B0 _ _ _ _ Hr) as HB; pose proof (reg_eta _ _ _ _ Hr) as He;
  pose proof (point_values ai a h I2 eta_bar sigma0 sigma iota p2 B2s B2c mu0 s j) as Ep; cbv zeta in Ep; fold i in Ep; fold q in Ep;
  fold g in Hg, HG, E2, Ys, Yc; fold p in Hp, E2, Ys, Yc; fold l in Hl, HG, Ep; fold k in Hk, E1, E2, Ys, Yc, Ep; rewrite E2 in E3;
  assert (Hgn : g <> 0) by (intros Z; rewrite Z in Hg; lra); assert (Hpn : p <> 0) by (intros Z; rewrite Z in Hp; lra).

Lemma nb_symmetric n : (n < 3)%nat -> T 0%nat 1%nat n = T 1%nat 0%nat n.
Proof.
  facts. intros Hn. destruct n as [|[|[|n]]]; [| | |lia]; unfold T, grad_grad_B_tensor; rewrite Ep; elements; rewrite HG, ?Ys, ?Yc, ?E1, ?E3, ?E2.
  all: field [Hg Hp]; repeat split; auto.
Qed.
(** The derivatives of X1c and Y1s, whose product is constant. *)
Lemma X1c_Y1s_derivative : product_rule_defect a (r_X1c q) (r_Y1s q) j = 0 ->
  grid_derivative a (r_Y1s q) j = - (g * p * k ^ 2 / eta_bar ^ 2) * grid_derivative a (r_X1c q) j.
Proof.
  facts. intros H. apply gd_product in H.
  assert (Z : grid_derivative a (fun k => r_X1c q k * r_Y1s q k) j = 0).
  { assert (EN : a_nphi a = ai_nphi ai).
    { destruct (init_axis_eq R_ops R_math Rge0 ai (reg_ok _ _ _ _ Hr)) as (d & s' & _ & _ & E'). cbv zeta in E'. rewrite (reg_axis _ _ _ _ Hr) in E'. injection E' as -> _. reflexivity. }
    unfold grid_derivative. rewrite (rsum_ext _ _ (fun k => a_d_d_varphi a j k * (g * p))).
    - rewrite EN. apply (ddv_const ai a h); auto; apply Hr.
    - intros n Hn. f_equal. apply (first_order_shape (j_r1 i) sigma iota); cbn [i r2_config r1_config j_r1 i_sG i_spsi i_eta_bar i_axis]; try apply Hr. rewrite <- EN. auto. }
  rewrite Z, E1, E2 in H.
  transitivity ((grid_derivative a (r_X1c q) j * (g * p / eta_bar * k) + eta_bar / k * grid_derivative a (r_Y1s q) j - grid_derivative a (r_X1c q) j * (g * p / eta_bar * k)) * (k / eta_bar)).
  - field. auto.
  - rewrite <- H. field. auto.
Qed.
Lemma t_symmetric : product_rule_defect a (r_X1c q) (r_Y1s q) j = 0 -> forall i1 n, (i1 < 2)%nat -> (n < 3)%nat -> T i1 2%nat n = T 2%nat i1 n.
Proof.
  intros H. apply X1c_Y1s_derivative in H. facts. intros i1 n H1 Hn.
  destruct i1 as [|[|i1]]; [| |lia]; (destruct n as [|[|[|n]]]; [| | |lia]); unfold T, grad_grad_B_tensor; rewrite Ep; elements; rewrite HG, ?H, ?Ys, ?Yc, ?E1, ?E3, ?E2.
  all: field [Hg Hp]; repeat split; auto.
Qed.

(** The derivative of the gradient along the axis. *)
Definition gradient_product_rules : Prop :=
  Forall (fun fg => product_rule_defect a (fst fg) (snd fg) j = 0)
    (let X := r_X1c q in let Y := r_Y1s q in let C := r_Y1c q in let d := grid_derivative a in
     [(X, Y); (d X, Y); (X, d Y); (d C, Y); (d Y, C); (X, C); (X, X); (Y, Y); (C, C)]).
Lemma gd_add f1 f2 : grid_derivative a (fun n => f1 n + f2 n) j = grid_derivative a f1 j + grid_derivative a f2 j.
Proof. unfold grid_derivative. rewrite <- rsum_plus. apply rsum_ext. intros; ring. Qed.
Lemma gd_opp f1 : grid_derivative a (fun n => - f1 n) j = - grid_derivative a f1 j.
Proof. rewrite (gd_ext a _ (fun n => (-1) * f1 n)), gd_scal by (intros; ring). ring. Qed.
Lemma gd_zero : grid_derivative a (fun _ => 0) j = 0.
Proof. rewrite (gd_ext a _ (fun n => 0 * 0)), (gd_scal a 0 (fun _ => 0)) by (intros; ring). ring. Qed.
Lemma grad_B_derivatives : gradient_product_rules ->
  let d := fun f => grid_derivative a f j in let d2 := fun f => grid_derivative a (grid_derivative a f) j in
  let X := r_X1c q in let Y := r_Y1s q in let C := r_Y1c q in let N := r_iota_N q in let f := p * ai_B0 ai / l in let dtau := g * p * l * d (a_torsion a) in
  d (fun n => r_grad_B q n 0 0) = f * (d2 X * Y j + d X * d Y + N * (d X * C j + X j * d C)) /\
  d (fun n => r_grad_B q n 0 1) = f * (d2 C * Y j - d2 Y * C j + dtau + 2 * N * (Y j * d Y + C j * d C)) /\
  d (fun n => r_grad_B q n 0 2) = g * ai_B0 ai * d (a_curvature a) /\
  d (fun n => r_grad_B q n 1 0) = f * (- dtau - 2 * N * X j * d X) /\
  d (fun n => r_grad_B q n 1 1) = f * (d X * d Y + X j * d2 Y - N * (d X * C j + X j * d C)) /\
  d (fun n => r_grad_B q n 1 2) = 0 /\ d (fun n => r_grad_B q n 2 0) = g * ai_B0 ai * d (a_curvature a) /\ d (fun n => r_grad_B q n 2 1) = 0 /\ d (fun n => r_grad_B q n 2 2) = 0.
Proof.
  intros H d d2 X Y C N f dtau. unfold gradient_product_rules in H. cbv zeta in H. fold X Y C in H.
  repeat (apply Forall_cons_iff in H; let H' := fresh "P" in destruct H as [H' H]; cbn [fst snd] in H'; apply gd_product in H').
  assert (V : forall n, _) by (intros n; exact (grad_B_values ai a h I2 eta_bar sigma0 sigma iota p2 B2s B2c mu0 n)). cbv zeta in V. fold i in V. fold q in V. fold g p l X Y C N f in V.
  assert (L3 : forall f1 c1 f2 c2 f3 c3, grid_derivative a (fun n => f1 n * c1 + f2 n * c2 + f3 n * c3) j = d f1 * c1 + d f2 * c2 + d f3 * c3).
  { intros. rewrite gd_add, gd_add. rewrite (gd_ext a _ (fun n => c1 * f1 n)), (gd_ext a (fun n => f2 n * c2) (fun n => c2 * f2 n)), (gd_ext a (fun n => f3 n * c3) (fun n => c3 * f3 n)), !gd_scal by (intros; ring). unfold d. ring. }
  repeat apply conj.
  - unfold d at 1. rewrite (gd_ext a _ (fun n => (grid_derivative a X n * Y n) * f + (X n * C n) * (f * N) + 0 * 0)).
    2: { intros n. destruct (V n) as (-> & _). ring. }
    rewrite L3. unfold d at 1 2. rewrite P0, P4. unfold d, d2. ring.
  - unfold d at 1. rewrite (gd_ext a _ (fun n => (1 * (grid_derivative a C n * Y n) + (-1) * (grid_derivative a Y n * C n) + g * p * l * a_torsion a n) * f + (Y n * Y n) * (f * N) + (C n * C n) * (f * N))).
    2: { intros n. destruct (V n) as (_ & -> & _). ring. }
    rewrite L3. unfold d at 1 2 3. rewrite gd_add, gd_add, !gd_scal, P2, P3, P6, P7. unfold d, d2, dtau. unfold d. ring.
  - unfold d. rewrite <- gd_scal. apply gd_ext. intros n. apply (V n).
  - unfold d at 1. rewrite (gd_ext a _ (fun n => a_torsion a n * (- f * (g * p * l)) + (X n * X n) * (- f * N) + 0 * 0)).
    2: { intros n. destruct (V n) as (_ & _ & _ & -> & _). ring. }
    rewrite L3. unfold d at 2. rewrite P5. unfold dtau, d. ring.
  - unfold d at 1. rewrite (gd_ext a _ (fun n => (X n * grid_derivative a Y n) * f + (X n * C n) * (- f * N) + 0 * 0)).
    2: { intros n. destruct (V n) as (_ & _ & _ & _ & -> & _). ring. }
    rewrite L3. unfold d at 1 2. rewrite P1, P4. unfold d, d2. ring.
  - unfold d. rewrite <- gd_zero. apply gd_ext. intros n. apply (V n).
  - unfold d. rewrite <- gd_scal. apply gd_ext. intros n. apply (V n).
  - unfold d. rewrite <- gd_zero. apply gd_ext. intros n. apply (V n).
  - unfold d. rewrite <- gd_zero. apply gd_ext. intros n. apply (V n).
Qed.
Lemma t_derivative : gradient_product_rules -> forall i1 n, (i1 < 3)%nat -> (n < 3)%nat ->
  T 2%nat i1 n = derivative_along_axis k (a_torsion a j) (r_grad_B q j) (fun i1 n => grid_derivative a (fun m => r_grad_B q m i1 n) j / l) i1 n.
Proof.
  intros H. assert (H' := H). apply Forall_inv in H'. apply X1c_Y1s_derivative in H'.
  destruct (grad_B_derivatives H) as (D00 & D01 & D02 & D10 & D11 & D12 & D20 & D21 & D22).
  facts. destruct (grad_B_values ai a h I2 eta_bar sigma0 sigma iota p2 B2s B2c mu0 j) as (G00 & G01 & G02 & G10 & G11 & G12 & G20 & G21 & G22).
  fold i in G00, G01, G02, G10, G11, G12, G20, G21, G22. fold q l g p k in G00, G01, G02, G10, G11, G12, G20, G21, G22.
  intros i1 n H1 Hn. unfold derivative_along_axis, frenet. cbn [fsum R_ops fadd fzero].
  destruct i1 as [|[|[|i1]]]; [| | |lia]; (destruct n as [|[|[|n]]]; [| | |lia]); cbv iota beta;
    rewrite ?D00, ?D01, ?D02, ?D10, ?D11, ?D12, ?D20, ?D21, ?D22, ?G00, ?G01, ?G02, ?G10, ?G11, ?G12, ?G20, ?G21, ?G22;
    unfold T, grad_grad_B_tensor; rewrite Ep; elements; rewrite HG, ?H', ?Ys, ?Yc, ?E1, ?E3, ?E2.
  all: field [Hg Hp]; repeat split; auto.
Qed.
Lemma alternative : forall n1 n2 n3, (n1 < 3)%nat -> (n2 < 3)%nat -> (n3 < 3)%nat ->
  ((n1, n2, n3) = (2, 0, 2)%nat \/ (n1, n2, n3) = (2, 2, 0)%nat -> product_rule_defect a (r_X1c q) (r_Y1s q) j = 0) -> U n1 n2 n3 = T n1 n2 n3.
Proof.
  facts. intros n1 n2 n3 H1 H2 H3 HD.
  destruct n1 as [|[|[|n1]]]; [| | |lia]; (destruct n2 as [|[|[|n2]]]; [| | |lia]); (destruct n3 as [|[|[|n3]]]; [| | |lia]);
    try (pose proof (X1c_Y1s_derivative (HD (or_introl eq_refl))) as H'); try (pose proof (X1c_Y1s_derivative (HD (or_intror eq_refl))) as H'); clear HD;
    unfold T, U, grad_grad_B_tensor, grad_grad_B_tensor_alt; rewrite Ep; elements; rewrite HG, ?Ys, ?Yc, ?E1, ?E3, ?E2; try rewrite H'; fold g p.
  all: field [Hg Hp]; repeat split; auto.
Qed.
Lemma is_taylor t n : (n < 3)%nat ->
  order 3 (fun r => field_strength (ai_B0 ai) eta_bar (s_B20 s j) B2s B2c r t ^ 2 * comp (along a q s j r t) n
    - (a_G0 a + r ^ 2 * (s_G2 s + iota * I2)) * taylor (V 0 0 (g * ai_B0 ai)) (r_grad_B q j) T (displacement q s j r t) n).
Proof.
  facts. intros Hn. pose proof (sin_sq t) as Hcs. pose proof (cos2 t) as C2. pose proof (sin2 t) as S2.
  destruct (grad_B_values ai a h I2 eta_bar sigma0 sigma iota p2 B2s B2c mu0 j) as (G00 & G01 & G02 & G10 & G11 & G12 & G20 & G21 & G22).
  fold i in G00, G01, G02, G10, G11, G12, G20, G21, G22. fold q l g p k in G00, G01, G02, G10, G11, G12, G20, G21, G22.
  unfold taylor, displacement. cbn [fsum R_ops fadd fzero comp vx vy vz].
  destruct n as [|[|[|n]]]; [| | |lia]; cbn [comp vx vy vz].
  - rewrite G00, G10, G20.
    remember (T 0 0 0)%nat as t00 eqn:H00. remember (T 0 1 0)%nat as t01 eqn:H01. remember (T 1 0 0)%nat as t10 eqn:H10. remember (T 1 1 0)%nat as t11 eqn:H11.
    eapply jet_order3. eapply jet_eq; [jets3|..].
    + ring.
    + unfold ax1, ay1, az1, c1, t1, c2, t2, X_modes, Y_modes, Z_modes, dX_modes, dY_modes, dZ_modes. cbn [k1c k1s k20 k2s k2c]. fold l k. rewrite HG, E1, ?E3, ?E2. field [Hcs Hg Hp]. auto.
    + rewrite H01, (nb_symmetric 0%nat), <- H10 by lia. rewrite H00, H10, H11. unfold T, grad_grad_B_tensor. rewrite Ep. clear t00 t01 t10 t11 H00 H01 H10 H11 G00 G01 G02 G10 G11 G12 G20 G21 G22.
      unfold ax1, ay1, az1, ax2, ay2, az2, c1, t1, c2, t2, X_modes, Y_modes, Z_modes, dX_modes, dY_modes, dZ_modes. cbn [k1c k1s k20 k2s k2c]. fold l k. elements. rewrite HG, C2, S2, ?Ys, ?Yc, E1, ?E3, ?E2.
      field [Hcs Hg Hp]; repeat split; auto.
    + reflexivity.
  - rewrite G01, G11, G21.
    remember (T 0 0 1)%nat as t00 eqn:H00. remember (T 0 1 1)%nat as t01 eqn:H01. remember (T 1 0 1)%nat as t10 eqn:H10. remember (T 1 1 1)%nat as t11 eqn:H11.
    eapply jet_order3. eapply jet_eq; [jets3|..].
    + ring.
    + unfold ax1, ay1, az1, c1, t1, c2, t2, X_modes, Y_modes, Z_modes, dX_modes, dY_modes, dZ_modes. cbn [k1c k1s k20 k2s k2c]. fold l k. rewrite HG, E1, ?E3, ?E2. field [Hcs Hg Hp]. auto.
    + rewrite H01, (nb_symmetric 1%nat), <- H10 by lia. rewrite H00, H10, H11. unfold T, grad_grad_B_tensor. rewrite Ep. clear t00 t01 t10 t11 H00 H01 H10 H11 G00 G01 G02 G10 G11 G12 G20 G21 G22.
      unfold ax1, ay1, az1, ax2, ay2, az2, c1, t1, c2, t2, X_modes, Y_modes, Z_modes, dX_modes, dY_modes, dZ_modes. cbn [k1c k1s k20 k2s k2c]. fold l k. elements. rewrite HG, C2, S2, ?Ys, ?Yc, E1, ?E3, ?E2.
      field [Hcs Hg Hp]; repeat split; auto.
    + reflexivity.
  - rewrite G02, G12, G22.
    remember (T 0 0 2)%nat as t00 eqn:H00. remember (T 0 1 2)%nat as t01 eqn:H01. remember (T 1 0 2)%nat as t10 eqn:H10. remember (T 1 1 2)%nat as t11 eqn:H11.
    eapply jet_order3. eapply jet_eq; [jets3|..].
    + fold l; rewrite HG; ring [Hg].
    + unfold ax1, ay1, az1, c1, t1, c2, t2, X_modes, Y_modes, Z_modes, dX_modes, dY_modes, dZ_modes. cbn [k1c k1s k20 k2s k2c]. fold l k. rewrite HG, E1, ?E3, ?E2. field [Hcs Hg Hp]. auto.
    + rewrite H01, (nb_symmetric 2%nat), <- H10 by lia. rewrite H00, H10, H11. unfold T, grad_grad_B_tensor. rewrite Ep. clear t00 t01 t10 t11 H00 H01 H10 H11 G00 G01 G02 G10 G11 G12 G20 G21 G22.
      unfold ax1, ay1, az1, ax2, ay2, az2, c1, t1, c2, t2, X_modes, Y_modes, Z_modes, dX_modes, dY_modes, dZ_modes. cbn [k1c k1s k20 k2s k2c]. fold l k. elements. rewrite HG, C2, S2, ?Ys, ?Yc, E1, ?E3, ?E2.
      field [Hcs Hg Hp]; repeat split; auto.
    + reflexivity.
Qed.
End Point.

(** C78.  Near the axis, the field is its Taylor polynomial: the field B^2 / (G + iota I) times the derivative of the position along the
    field line (C72) agrees, up to terms of order r^3 and for every angle, with the polynomial made of the field, grad B tensor and
    grad grad B tensor that are reported on the axis.  The elements that the polynomial adds up, (n,b) and (b,n), are equal.
    At every grid point, for every sigma and iota, and for every X20 and Y20. *)
Theorem field_is_taylor_polynomial : forall ai a h I2 eta_bar sigma0 sigma iota p2 B2s B2c mu0 X20 Y20 j n,
  regular ai a h eta_bar -> (j < ai_nphi ai)%nat -> (n < 3)%nat ->
  let i := r2_config ai a h I2 eta_bar sigma0 sigma iota p2 B2s B2c mu0 in
  let q := r1_diagnostics R_ops R_math (j_r1 i) sigma iota in
  let s := r2_from_solution R_ops R_math i X20 Y20 in
  let T := grad_grad_B_tensor R_ops R_math i s j in
  (forall t, order 3 (fun r => field_strength (ai_B0 ai) eta_bar (s_B20 s j) B2s B2c r t ^ 2 * comp (along a q s j r t) n
    - (a_G0 a + r ^ 2 * (s_G2 s + iota * I2)) * taylor (V 0 0 (IZR (ai_sG ai) * ai_B0 ai)) (r_grad_B q j) T (displacement q s j r t) n)) /\
  T 0%nat 1%nat n = T 1%nat 0%nat n.
Proof.
  intros ai a h I2 eta_bar sigma0 sigma iota p2 B2s B2c mu0 X20 Y20 j n Hr Hj Hn i q s T. split.
  - intros t. exact (is_taylor ai a h I2 eta_bar sigma0 sigma iota p2 B2s B2c mu0 X20 Y20 j Hr Hj t n Hn).
  - exact (nb_symmetric ai a h I2 eta_bar sigma0 sigma iota p2 B2s B2c mu0 X20 Y20 j Hr Hj n Hn).
Qed.
Print Assumptions field_is_taylor_polynomial.

(** C79.  The rest of the tensor: (t,i,k) is the derivative of the grad B tensor along the axis, and (i,t,k) is the same, when the differentiation
    matrix obeys the product rule for the products in the grad B tensor and for X1c Y1s. *)
Theorem grad_grad_B_along_axis : forall ai a h I2 eta_bar sigma0 sigma iota p2 B2s B2c mu0 X20 Y20 j,
  regular ai a h eta_bar -> (j < ai_nphi ai)%nat ->
  let i := r2_config ai a h I2 eta_bar sigma0 sigma iota p2 B2s B2c mu0 in
  let q := r1_diagnostics R_ops R_math (j_r1 i) sigma iota in
  let s := r2_from_solution R_ops R_math i X20 Y20 in
  let T := grad_grad_B_tensor R_ops R_math i s j in
  let d := grid_derivative a in
  Forall (fun fg => product_rule_defect a (fst fg) (snd fg) j = 0)
    (let X := r_X1c q in let Y := r_Y1s q in let C := r_Y1c q in
     [(X, Y); (d X, Y); (X, d Y); (d C, Y); (d Y, C); (X, C); (X, X); (Y, Y); (C, C)]) ->
  forall i1 n, (i1 < 3)%nat -> (n < 3)%nat ->
  T 2%nat i1 n = derivative_along_axis (a_curvature a j) (a_torsion a j) (r_grad_B q j) (fun i1 n => d (fun m => r_grad_B q m i1 n) j / a_abs_G0_over_B0 a) i1 n /\
  T i1 2%nat n = T 2%nat i1 n.
Proof.
  intros ai a h I2 eta_bar sigma0 sigma iota p2 B2s B2c mu0 X20 Y20 j Hr Hj i q s T d H i1 n H1 Hn. split.
  - exact (t_derivative ai a h I2 eta_bar sigma0 sigma iota p2 B2s B2c mu0 X20 Y20 j Hr Hj H i1 n H1 Hn).
  - destruct (Nat.eq_dec i1 2) as [->|Hi]; [reflexivity|].
    apply (t_symmetric ai a h I2 eta_bar sigma0 sigma iota p2 B2s B2c mu0 X20 Y20 j Hr Hj); [exact (Forall_inv H)|lia|auto].
Qed.
Print Assumptions grad_grad_B_along_axis.

(** C80.  The second calculation of the tensor, which the code offers to check the first, gives the same values: all but two of the 27 elements
    always, and those two when the differentiation matrix obeys the product rule for X1c Y1s. *)
Theorem two_calculations_agree : forall ai a h I2 eta_bar sigma0 sigma iota p2 B2s B2c mu0 X20 Y20 j,
  regular ai a h eta_bar -> (j < ai_nphi ai)%nat ->
  let i := r2_config ai a h I2 eta_bar sigma0 sigma iota p2 B2s B2c mu0 in
  let q := r1_diagnostics R_ops R_math (j_r1 i) sigma iota in
  let s := r2_from_solution R_ops R_math i X20 Y20 in
  forall n1 n2 n3, (n1 < 3)%nat -> (n2 < 3)%nat -> (n3 < 3)%nat ->
  ((n1, n2, n3) = (2, 0, 2)%nat \/ (n1, n2, n3) = (2, 2, 0)%nat -> product_rule_defect a (r_X1c q) (r_Y1s q) j = 0) ->
  grad_grad_B_tensor_alt R_ops R_math i s j n1 n2 n3 = grad_grad_B_tensor R_ops R_math i s j n1 n2 n3.
Proof.
  intros ai a h I2 eta_bar sigma0 sigma iota p2 B2s B2c mu0 X20 Y20 j Hr Hj i q s.
  exact (alternative ai a h I2 eta_bar sigma0 sigma iota p2 B2s B2c mu0 X20 Y20 j Hr Hj).
Qed.
Print Assumptions two_calculations_agree.

(** C81.  The scale length of the second derivatives: sqrt (4 B0 / size of the tensor).  It is a positive number at most sqrt 2 times the radius of
    curvature, and the reported minimum is the smallest value on the grid. *)
Lemma squares_norm (T : nat -> nat -> nat -> R) : sqrt (squares R_ops T) = norm3 T.
Proof. unfold norm3, squares. f_equal. cbn [flat_map map app fold_left fsum R_ops fadd fmul fzero]. ring. Qed.
Theorem L_grad_grad_B_meaning : forall ai a h I2 eta_bar sigma0 sigma iota p2 B2s B2c mu0 X20 Y20,
  regular ai a h eta_bar -> 0 < ai_B0 ai ->
  let i := r2_config ai a h I2 eta_bar sigma0 sigma iota p2 B2s B2c mu0 in
  let s := r2_from_solution R_ops R_math i X20 Y20 in
  let L := L_grad_grad_B R_ops R_math i s in
  (forall j, (j < ai_nphi ai)%nat -> let T := grad_grad_B_tensor R_ops R_math i s j in
    0 < norm3 T /\ L j = sqrt (4 * ai_B0 ai / norm3 T) /\ 0 < L j <= sqrt 2 / Rabs (a_curvature a j) /\ L_grad_grad_B_inverse R_ops R_math i s j = / L j) /\
  (exists j, (j < ai_nphi ai)%nat /\ grid_min_L_grad_grad_B R_ops R_math i s = L j) /\
  (forall j, (j < ai_nphi ai)%nat -> grid_min_L_grad_grad_B R_ops R_math i s <= L j).
Proof.
  intros ai a h I2 eta_bar sigma0 sigma iota p2 B2s B2c mu0 X20 Y20 Hr HB0 i s L.
  assert (EN : a_nphi a = ai_nphi ai).
  { destruct (init_axis_eq R_ops R_math Rge0 ai (reg_ok _ _ _ _ Hr)) as (d & s' & _ & _ & E'). cbv zeta in E'. rewrite (reg_axis _ _ _ _ Hr) in E'. injection E' as -> _. reflexivity. }
  assert (HN : (1 <= ai_nphi ai)%nat) by (pose proof (reg_ok _ _ _ _ Hr) as []; lia).
  split; [|split].
  - intros j Hj T. set (q := r1_diagnostics R_ops R_math (j_r1 i) sigma iota).
    destruct (at_point ai a h I2 eta_bar sigma0 sigma iota p2 B2s B2c mu0 j Hr Hj) as (Hg & Hp & Hl & _ & HG & Hk & E1 & E2 & _).
    fold i in E1, E2. fold q in E1, E2. pose proof (reg_eta _ _ _ _ Hr) as He.
    set (k := a_curvature a j) in *. set (g := IZR (ai_sG ai)) in *. set (p := IZR (ai_spsi ai)) in *. set (l := a_abs_G0_over_B0 a) in *.
    assert (Hgn : g <> 0) by (intros Z; rewrite Z in Hg; lra). assert (Hpn : p <> 0) by (intros Z; rewrite Z in Hp; lra).
    assert (E222 : T 2%nat 2%nat 2%nat = - 2 * g * ai_B0 ai * k ^ 2).
    { unfold T, grad_grad_B_tensor. rewrite (point_values ai a h I2 eta_bar sigma0 sigma iota p2 B2s B2c mu0 s j : point_at R_ops R_math i s j = _). elements. fold i. fold q l k.
      rewrite HG, E1, E2. field [Hg Hp]. repeat split; auto. lra. }
    assert (Hk2 : 0 < k ^ 2) by nra.
    assert (HT : 2 * ai_B0 ai * k ^ 2 <= norm3 T).
    { unfold norm3. rewrite <- (sqrt_square (2 * ai_B0 ai * k ^ 2)) by nra. apply sqrt_le_1_alt.
      apply Rle_trans with (T 2%nat 2%nat 2%nat ^ 2).
      - rewrite E222. apply Req_le. ring [Hg].
      - cbn [fsum R_ops fadd fzero]. pose proof (fun x y z => pow2_ge_0 (T x y z)) as P.
        pose proof (P 0 0 0)%nat. pose proof (P 0 0 1)%nat. pose proof (P 0 0 2)%nat. pose proof (P 0 1 0)%nat. pose proof (P 0 1 1)%nat. pose proof (P 0 1 2)%nat. pose proof (P 0 2 0)%nat. pose proof (P 0 2 1)%nat. pose proof (P 0 2 2)%nat.
        pose proof (P 1 0 0)%nat. pose proof (P 1 0 1)%nat. pose proof (P 1 0 2)%nat. pose proof (P 1 1 0)%nat. pose proof (P 1 1 1)%nat. pose proof (P 1 1 2)%nat. pose proof (P 1 2 0)%nat. pose proof (P 1 2 1)%nat. pose proof (P 1 2 2)%nat.
        pose proof (P 2 0 0)%nat. pose proof (P 2 0 1)%nat. pose proof (P 2 0 2)%nat. pose proof (P 2 1 0)%nat. pose proof (P 2 1 1)%nat. pose proof (P 2 1 2)%nat. pose proof (P 2 2 0)%nat. pose proof (P 2 2 1)%nat. lra. }
    assert (HTp : 0 < norm3 T) by (assert (0 < 2 * ai_B0 ai * k ^ 2) by (apply Rmult_lt_0_compat; lra); lra).
    assert (EL : L j = sqrt (4 * ai_B0 ai / norm3 T)) by (rewrite <- squares_norm; reflexivity).
    split; [exact HTp|]. split; [exact EL|].
    assert (HL : 0 < L j) by (rewrite EL; apply sqrt_lt_R0, Rdiv_lt_0_compat; lra).
    split; [|change (1 / L j = / L j); unfold Rdiv; ring]. split; [exact HL|].
    assert (Ha : 0 < Rabs k) by (apply Rabs_pos_lt; auto).
    rewrite EL. replace (sqrt 2 / Rabs k) with (sqrt (2 / k ^ 2)).
    + apply sqrt_le_1_alt. replace (2 / k ^ 2) with (4 * ai_B0 ai / (2 * ai_B0 ai * k ^ 2)) by (field; lra).
      unfold Rdiv. apply Rmult_le_compat_l; [lra|]. apply Rinv_le_contravar; [|exact HT]. apply Rmult_lt_0_compat; lra.
    + rewrite sqrt_div by lra. f_equal. replace (k ^ 2) with (Rsqr k) by (unfold Rsqr; ring). apply sqrt_Rsqr_abs.
  - unfold grid_min_L_grad_grad_B. destruct (fmin_in (a_nphi (i_axis (j_r1 i)) - 1) L) as (j & Hj & E). exists j. split; [|exact E].
    change (i_axis (j_r1 i)) with a in Hj. rewrite EN in Hj. lia.
  - intros j Hj. unfold grid_min_L_grad_grad_B. apply fmin_le. change (i_axis (j_r1 i)) with a. rewrite EN. lia.
Qed.
Print Assumptions L_grad_grad_B_meaning.

(** The hypotheses are met by a circular axis of any resolution, with a current and any pressure; the tensor there. *)
Example grad_grad_B_example : forall N p2 B2s B2c mu0, (1 <= N)%nat -> exists a h X20, regular (circle_in N) a h 1 /\
  let i := r2_config (circle_in N) a h 1 1 0 (fun _ => 0) (1 - IZR h) p2 B2s B2c mu0 in
  let q := r1_diagnostics R_ops R_math (j_r1 i) (fun _ => 0) (1 - IZR h) in
  let s := r2_from_solution R_ops R_math i (fun _ => X20) (fun _ => 0) in
  let d := grid_derivative a in
  forall j, (j < N)%nat -> Forall (fun fg => product_rule_defect a (fst fg) (snd fg) j = 0)
    (let X := r_X1c q in let Y := r_Y1s q in let C := r_Y1c q in
     [(X, Y); (d X, Y); (X, d Y); (d C, Y); (d Y, C); (X, C); (X, X); (Y, Y); (C, C)]) /\
  grad_grad_B_tensor R_ops R_math i s j 0%nat 0%nat 0%nat = 6 * B2s /\ grad_grad_B_tensor R_ops R_math i s j 2%nat 2%nat 2%nat = - 2.
Proof.
  intros N p2 B2s B2c mu0 HN. destruct (circle_solution N p2 B2s B2c mu0 HN) as (a & h & Hr & En & Et & Ek & El & E). exists a, h, (3 / 4 - mu0 * p2).
  split; [exact Hr|]. intros i q s d. cbv zeta in E. fold i in E. fold q s in E. destruct E as (Ec & _ & DC & V & _).
  intros j Hj.
  assert (dX : forall n, (n < N)%nat -> d (r_X1c q) n = 0) by (intros; apply (DC _ 1); auto; intros; apply V; auto).
  assert (dY : forall n, (n < N)%nat -> d (r_Y1s q) n = 0) by (intros; apply (DC _ 1); auto; intros; apply V; auto).
  assert (dC : forall n, (n < N)%nat -> d (r_Y1c q) n = 0) by (intros; apply (DC _ 0); auto; intros; apply V; auto).
  assert (HD : forall c j, (j < N)%nat -> grid_derivative a (fun _ => c) j = 0) by (intros c n Hn; apply (DC _ c); auto).
  assert (P : forall f1 f2 c1 c2, (forall n, (n < N)%nat -> f1 n = c1) -> (forall n, (n < N)%nat -> f2 n = c2) -> product_rule_defect a f1 f2 j = 0)
    by (intros f1 f2 c1 c2 H1 H2; exact (defect_const a f1 f2 c1 c2 N j En HD Hj H1 H2)).
  assert (VX : forall n, (n < N)%nat -> r_X1c q n = 1) by (intros; apply V; auto). assert (VY : forall n, (n < N)%nat -> r_Y1s q n = 1) by (intros; apply V; auto). assert (VC : forall n, (n < N)%nat -> r_Y1c q n = 0) by (intros; apply V; auto).
  split.
  - cbv zeta. repeat apply Forall_cons; try apply Forall_nil; cbn [fst snd]; eauto.
  - destruct (V j Hj) as (X1 & X2 & X3 & X4 & X5 & X6 & X7 & X8 & X9 & X10). unfold grad_grad_B_tensor.
    rewrite (point_values (circle_in N) a h 1 1 0 (fun _ => 0) (1 - IZR h) p2 B2s B2c mu0 s j : point_at R_ops R_math i s j = _). elements. fold i. fold q.
    assert (EG : a_G0 a = 1).
    { destruct (at_point (circle_in N) a h 1 1 0 (fun _ => 0) (1 - IZR h) p2 B2s B2c mu0 j Hr Hj) as (_ & _ & _ & _ & EG & _). rewrite EG, El. cbn [circle_in ai_sG ai_B0]. ring. }
    fold d. change (s_Y20 s j) with 0. rewrite EG, El, Ec, X1, X2, X3, X7, X8, X9, X10, dX, Ek by auto. cbn [circle_in ai_B0].
    split; [|field]. rewrite (DC (s_X2c s) (B2c - / 2)), (DC (s_X20 s) (3 / 4 - mu0 * p2)) by (auto; intros; apply V; auto). field.
Qed.
