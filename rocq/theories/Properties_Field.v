(** Theorems about what the second-order solution means: near the axis, the surfaces and the magnetic field of the solution satisfy
    the equations for the strength of the field, for the flux, and for an equilibrium, up to the order kept. *)
From Coq Require Import String ZArith Reals List Arith Lia Lra Psatz Bool.
From Verif Require Import Base BaseFacts FloatOps MathOps MathFacts Curve Tensor Diff NewtonFacts Helicity HelicityFacts
  Axis AxisSpec AxisFacts R1 R1Spec R1Facts Properties_Axis Properties_R1 R2 R2Spec R2Facts Properties_R2 Jet.
Import ListNotations.
Local Open Scope list_scope. Local Open Scope nat_scope.
Local Open Scope R_scope.

(** What is known at a grid point of a regular axis. *)
Lemma at_point ai a h I2 eta_bar sigma0 sigma iota p2 B2s B2c mu0 j : regular ai a h eta_bar -> (j < ai_nphi ai)%nat ->
  let i := r2_config ai a h I2 eta_bar sigma0 sigma iota p2 B2s B2c mu0 in
  let q := r1_diagnostics R_ops R_math (j_r1 i) sigma iota in
  let g := IZR (ai_sG ai) in let p := IZR (ai_spsi ai) in let l := a_abs_G0_over_B0 a in let k := a_curvature a j in
  g * g = 1 /\ p * p = 1 /\ l <> 0 /\ a_B0_over_abs_G0 a = / l /\ a_G0 a = g * l * ai_B0 ai /\ k <> 0 /\
  r_X1c q j = eta_bar / k /\ r_Y1s q j = g * p / eta_bar * k /\ r_Y1c q j = r_Y1s q j * sigma j /\ r_iota_N q = iota + IZR h * IZR (ai_nfp ai).
Proof.
  intros [Hok HE HsG Hsp HB He Hdl Hk] Hj i q g p l k.
  destruct (arclength ai a h Hok HE Hdl) as (_ & Elp & Eil & EG & _).
  assert (HS : 0 < rsum (ai_nphi ai) (a_d_l_d_phi a)) by (apply rsum_pos; [lia|auto]).
  assert (HNp : 0 < INR (ai_nphi ai)) by (apply lt_0_INR; lia).
  assert (HL : 0 < l) by (unfold l; rewrite Elp; apply Rdiv_lt_0_compat; auto).
  split; [apply sign_sq; auto|]. split; [apply sign_sq; auto|]. split; [lra|]. split; [|split; [exact EG|]].
  { fold l in Eil. apply (Rmult_eq_reg_r l); [|lra]. rewrite Eil. field. lra. }
  split; [exact (Hk j Hj)|]. split; [reflexivity|]. split; [|split; [reflexivity|]].
  - unfold q, r1_diagnostics. cbn [r_Y1s R_ops R_math fmul fdiv m_of_Z i r2_config r1_config j_r1 i_sG i_spsi i_eta_bar i_axis]. rewrite mult_IZR. reflexivity.
  - unfold q, r1_diagnostics, iota_N_of. cbn [r_iota_N R_ops R_math fadd m_of_Z i r2_config r1_config j_r1 i_helicity i_nfp]. rewrite mult_IZR. reflexivity.
Qed.

(** The expansions of the vectors. *)
Section Vectors.
Variables (a : axis R) (q : r1 R) (s : r2 R) (j : nat) (t : R).
Let l := a_abs_G0_over_B0 a. Let k := a_curvature a j. Let tau := a_torsion a j. Let c := r_iota_N q.
Let X := X_modes q s j. Let Y := Y_modes q s j. Let Z := Z_modes s j.
Let dX := dX_modes a q s j. Let dY := dY_modes a q s j. Let dZ := dZ_modes a s j.
Definition ax1 := c1 dX t - l * tau * c1 Y t + c * t1 X t.
Definition ax2 := c2 dX t + l * (k * c2 Z t - tau * c2 Y t) + c * t2 X t.
Definition ay1 := c1 dY t + l * tau * c1 X t + c * t1 Y t.
Definition ay2 := c2 dY t + l * tau * c2 X t + c * t2 Y t.
Definition az1 := - (l * k * c1 X t).
Definition az2 := c2 dZ t - l * k * c2 X t + c * t2 Z t.
Definition vx1 := c1 dX t - l * tau * c1 Y t.
Definition vy1 := c1 dY t + l * tau * c1 X t.
Definition vx2 := c2 dX t + l * (k * c2 Z t - tau * c2 Y t).
Definition vy2 := c2 dY t + l * tau * c2 X t.
Definition vz2 := c2 dZ t - l * k * c2 X t.
Lemma zero1 : c1 Z t = 0 /\ t1 Z t = 0 /\ c1 dZ t = 0 /\ t1 dZ t = 0.
Proof. unfold c1, t1, Z, dZ, Z_modes, dZ_modes. cbn [k1c k1s]. repeat split; ring. Qed.
Ltac jet_by := eapply jet_eq; [jets|..]; destruct zero1 as (Z1 & Z2 & Z3 & Z4); fold X Y Z dX dY dZ l k tau c;
  unfold ax1, ax2, ay1, ay2, az1, az2, vx1, vy1, vx2, vy2, vz2; rewrite ?Z1, ?Z2, ?Z3, ?Z4; ring.
Lemma jet_along_x : jet (fun r => vx (along a q s j r t)) 0 ax1 ax2 0.
Proof. unfold along, e_varphi, e_theta. cbn [vx vy vz]. jet_by. Qed.
Lemma jet_along_y : jet (fun r => vy (along a q s j r t)) 0 ay1 ay2 0.
Proof. unfold along, e_varphi, e_theta. cbn [vx vy vz]. jet_by. Qed.
Lemma jet_along_z : jet (fun r => vz (along a q s j r t)) l az1 az2 0.
Proof. unfold along, e_varphi, e_theta. cbn [vx vy vz]. jet_by. Qed.
Lemma jet_varphi_x : jet (fun r => vx (e_varphi a q s j r t)) 0 vx1 vx2 0.
Proof. unfold along, e_varphi, e_theta. cbn [vx vy vz]. jet_by. Qed.
Lemma jet_varphi_y : jet (fun r => vy (e_varphi a q s j r t)) 0 vy1 vy2 0.
Proof. unfold along, e_varphi, e_theta. cbn [vx vy vz]. jet_by. Qed.
Lemma jet_varphi_z : jet (fun r => vz (e_varphi a q s j r t)) l az1 vz2 0.
Proof. unfold along, e_varphi, e_theta. cbn [vx vy vz]. jet_by. Qed.
End Vectors.
Lemma jet_field B0 eta_bar B20 B2s B2c t : jet (fun r => field_strength B0 eta_bar B20 B2s B2c r t) B0 (B0 * eta_bar * cos t) (B20 + B2s * sin (2 * t) + B2c * cos (2 * t)) 0.
Proof. unfold field_strength. eapply jet_eq; [jets|..]; ring. Qed.
Ltac jets3 := cbv beta; repeat first
  [ apply jet_field | apply jet_along_x | apply jet_along_y | apply jet_along_z | apply jet_varphi_x | apply jet_varphi_y | apply jet_varphi_z
  | apply jet_rt | apply jet_r | apply jet_t | apply jet_const | apply jet_id
  | eapply jet_sq | eapply jet_sub | eapply jet_add | eapply jet_mul | eapply jet_opp ].
(** The trigonometric functions of the double angle as polynomials. *)
Lemma cos2 t : cos (2 * t) = cos t * cos t - sin t * sin t. Proof. apply cos_2a. Qed.
Lemma sin2 t : sin (2 * t) = 2 * sin t * cos t. Proof. apply sin_2a. Qed.
Lemma sin_sq t : sin t * sin t = 1 - cos t * cos t.
Proof. pose proof (sin2_cos2 t) as H. unfold Rsqr in H. lra. Qed.

(** C72.  The strength of the field.  The field is B^2 / (G + iota I) times the derivative of the position along the field line; its strength is B, with B the prescribed
    B0 (1 + r eta_bar cos theta) + r^2 (B20 + B2s sin 2theta + B2c cos 2theta), up to terms of order r^3.  Here B20 is what the code
    reports; the equation holds at every grid point, for every sigma and iota, and for every X20 and Y20. *)
Theorem field_strength_second_order : forall ai a h I2 eta_bar sigma0 sigma iota p2 B2s B2c mu0 X20 Y20 j t,
  regular ai a h eta_bar -> (j < ai_nphi ai)%nat ->
  let i := r2_config ai a h I2 eta_bar sigma0 sigma iota p2 B2s B2c mu0 in
  let q := r1_diagnostics R_ops R_math (j_r1 i) sigma iota in
  let s := r2_from_solution R_ops R_math i X20 Y20 in
  let v := fun r => along a q s j r t in
  order 3 (fun r => dot (v r) (v r) * field_strength (ai_B0 ai) eta_bar (s_B20 s j) B2s B2c r t ^ 2
    - (a_G0 a + r ^ 2 * (s_G2 s + iota * I2)) ^ 2).
Proof.
  intros ai a h I2 eta_bar sigma0 sigma iota p2 B2s B2c mu0 X20 Y20 j t Hr Hj i q s v.
  destruct (at_point ai a h I2 eta_bar sigma0 sigma iota p2 B2s B2c mu0 j Hr Hj) as (Hg & Hp & Hl & Hil & HG & Hk & E1 & E2 & E3 & Ec). fold i in E1, E2, E3, Ec. fold q in E1, E2, E3, Ec.
  set (l := a_abs_G0_over_B0 a) in *. pose proof (reg_B0 _ _ _ _ Hr) as HB. pose proof (reg_eta _ _ _ _ Hr) as He.
  set (c := cos t) in *. set (sn := sin t) in *.
  pose proof (sin_sq t : sn * sn = 1 - c * c) as Hcs. pose proof (cos2 t : cos (2 * t) = c * c - sn * sn) as C2. pose proof (sin2 t : sin (2 * t) = 2 * sn * c) as S2.
  set (k := a_curvature a j) in *. set (N := r_iota_N q) in *. set (B0 := ai_B0 ai) in *.
  set (xc := qc R_ops R_math i j). set (xs := qs R_ops R_math i j). set (yc := rc R_ops R_math i j). set (ys := rs R_ops R_math i j).
  set (D20 := grid_derivative a (s_Z20 s) j). set (D2s := grid_derivative a (s_Z2s s) j). set (D2c := grid_derivative a (s_Z2c s) j).
  assert (EX2s : s_X2s s j = / l * (D2s - 2 * N * s_Z2c s j + / l * (l * l * B2s / B0 + (xc * xs + yc * ys) * (1 / 2))) / k).
  { transitivity (a_B0_over_abs_G0 a * (D2s - 2 * N * s_Z2c s j + a_B0_over_abs_G0 a * (l * l * B2s / B0 + (xc * xs + yc * ys) * (1 / 2))) / k); [reflexivity|]. rewrite Hil. reflexivity. }
  assert (EX2c : s_X2c s j = / l * (D2c + 2 * N * s_Z2s s j - / l * (- l * l * B2c / B0 + l * l * eta_bar * eta_bar / 2 - (xc * xc - xs * xs + yc * yc - ys * ys) * (1 / 4))) / k).
  { transitivity (a_B0_over_abs_G0 a * (D2c + 2 * N * s_Z2s s j - a_B0_over_abs_G0 a * (- l * l * B2c / B0 + l * l * eta_bar * eta_bar / 2 - (xc * xc - xs * xs + yc * yc - ys * ys) * (1 / 4))) / k); [reflexivity|]. rewrite Hil. reflexivity. }
  assert (EB20 : s_B20 s j = B0 * (k * s_X20 s j - / l * D20 + 1 / 2 * eta_bar * eta_bar - mu0 * p2 / (B0 * B0) - 1 / 4 * / l * / l * (xc * xc + xs * xs + yc * yc + ys * ys))).
  { transitivity (B0 * (k * s_X20 s j - a_B0_over_abs_G0 a * D20 + 1 / 2 * eta_bar * eta_bar - mu0 * p2 / (B0 * B0) - 1 / 4 * a_B0_over_abs_G0 a * a_B0_over_abs_G0 a * (xc * xc + xs * xs + yc * yc + ys * ys))); [reflexivity|]. rewrite Hil. reflexivity. }
  assert (EG2 : s_G2 s + iota * I2 = - mu0 * p2 * a_G0 a / (B0 * B0)).
  { transitivity ((- mu0 * p2 * a_G0 a / (B0 * B0) - iota * I2) + iota * I2); [reflexivity|]. ring. }
  assert (A1 : ax1 a q s j t = xc * c + xs * sn).
  { transitivity ((grid_derivative a (r_X1c q) j * c + 0 * sn) - l * a_torsion a j * (r_Y1c q j * c + r_Y1s q j * sn) + N * (0 * c - r_X1c q j * sn)); [reflexivity|].
    change xc with (grid_derivative a (r_X1c q) j - l * r_Y1c q j * a_torsion a j). change xs with (- N * r_X1c q j - l * r_Y1s q j * a_torsion a j). ring. }
  assert (A2 : ay1 a q s j t = yc * c + ys * sn).
  { transitivity ((grid_derivative a (r_Y1c q) j * c + grid_derivative a (r_Y1s q) j * sn) + l * a_torsion a j * (r_X1c q j * c + 0 * sn) + N * (r_Y1s q j * c - r_Y1c q j * sn)); [reflexivity|].
    change yc with (grid_derivative a (r_Y1c q) j + (N * r_Y1s q j + r_X1c q j * a_torsion a j * l)). change ys with (grid_derivative a (r_Y1s q) j - N * r_Y1c q j). ring. }
  assert (A3 : az1 a q s j t = - l * eta_bar * c).
  { transitivity (- (l * k * (r_X1c q j * c + 0 * sn))); [reflexivity|]. rewrite E1. field. auto. }
  assert (A4 : az2 a q s j t = (D20 + D2s * sin (2 * t) + D2c * cos (2 * t)) - l * k * (s_X20 s j + s_X2s s j * sin (2 * t) + s_X2c s j * cos (2 * t))
    + N * (2 * s_Z2s s j * cos (2 * t) - 2 * s_Z2c s j * sin (2 * t))) by reflexivity.
  clearbody xc xs yc ys D20 D2s D2c.
  eapply jet_order3. unfold v, dot.
  eapply jet_eq; [jets3|..]; fold l; rewrite ?A1, ?A2, ?A3, ?A4, ?EG2, ?HG; fold c; try fold sn.
  - ring [Hg].
  - ring.
  - rewrite EX2s, EX2c, EB20, C2, S2. field [Hg Hcs]. auto.
  - reflexivity.
Qed.
Print Assumptions field_strength_second_order.

(** Y2s and Y2c from the other coefficients. *)
Lemma Y2_values ai a h I2 eta_bar sigma0 sigma iota p2 B2s B2c mu0 X20 Y20 j :
  let i := r2_config ai a h I2 eta_bar sigma0 sigma iota p2 B2s B2c mu0 in
  let s := r2_from_solution R_ops R_math i X20 Y20 in
  let g := IZR (ai_sG ai) in let p := IZR (ai_spsi ai) in let k := a_curvature a j in
  s_Y2s s j = g * p * (- k / 2 + k * k / (eta_bar * eta_bar) * (- s_X2c s j + s_X2s s j * sigma j)) - g * p * k * k / (eta_bar * eta_bar) * s_X20 s j /\
  s_Y2c s j = g * p * k * k / (eta_bar * eta_bar) * (s_X2s s j + s_X2c s j * sigma j) - g * p * k * k * sigma j / (eta_bar * eta_bar) * s_X20 s j + s_Y20 s j.
Proof.
  intros i s g p k. split.
  - transitivity (IZR (ai_sG ai * ai_spsi ai) * (- k / 2 + k * k / (eta_bar * eta_bar) * (- s_X2c s j + s_X2s s j * sigma j)) + IZR (- ai_sG ai * ai_spsi ai) * k * k / (eta_bar * eta_bar) * s_X20 s j); [reflexivity|].
    rewrite !mult_IZR, opp_IZR. unfold g, p, Rdiv. ring.
  - transitivity (IZR (ai_sG ai * ai_spsi ai) * k * k / (eta_bar * eta_bar) * (s_X2s s j + s_X2c s j * sigma j) + IZR (- ai_sG ai * ai_spsi ai) * k * k * sigma j / (eta_bar * eta_bar) * s_X20 s j + s_Y20 s j); [reflexivity|].
    rewrite !mult_IZR, opp_IZR. unfold g, p, Rdiv. ring.
Qed.

(** The area between the surfaces r and r + dr and between theta and theta + dtheta, in the plane normal to the axis, per dr and dtheta. *)
Definition area_element (q : r1 R) (s : r2 R) (j : nat) (r t : R) : R :=
  vx (e_r q s j r t) * vy (e_theta q s j r t) - vx (e_theta q s j r t) * vy (e_r q s j r t).

(** C73.  The flux.  The Jacobian of the coordinates is (G + iota I) / B^2 times the derivative of the toroidal flux
    spsi B0 r^2 / 2 per 2 pi, up to terms of order r^3, and so the coordinates are Boozer's; the area element of the cross section, times
    the strength of the field to first order, gives the same flux.  For every X20 and Y20. *)
Theorem flux_second_order : forall ai a h I2 eta_bar sigma0 sigma iota p2 B2s B2c mu0 X20 Y20 j t,
  regular ai a h eta_bar -> (j < ai_nphi ai)%nat ->
  let i := r2_config ai a h I2 eta_bar sigma0 sigma iota p2 B2s B2c mu0 in
  let q := r1_diagnostics R_ops R_math (j_r1 i) sigma iota in
  let s := r2_from_solution R_ops R_math i X20 Y20 in
  let dpsi := fun r => IZR (ai_spsi ai) * ai_B0 ai * r in
  order 3 (fun r => sqrt_g a q s j r t * field_strength (ai_B0 ai) eta_bar (s_B20 s j) B2s B2c r t ^ 2 - dpsi r * (a_G0 a + r ^ 2 * (s_G2 s + iota * I2))) /\
  order 3 (fun r => area_element q s j r t * (ai_B0 ai * (1 + r * eta_bar * cos t)) - IZR (ai_sG ai) * dpsi r).
Proof.
  intros ai a h I2 eta_bar sigma0 sigma iota p2 B2s B2c mu0 X20 Y20 j t Hr Hj i q s dpsi.
  destruct (at_point ai a h I2 eta_bar sigma0 sigma iota p2 B2s B2c mu0 j Hr Hj) as (Hg & Hp & Hl & Hil & HG & Hk & E1 & E2 & E3 & Ec). fold i in E1, E2, E3, Ec. fold q in E1, E2, E3, Ec.
  destruct (Y2_values ai a h I2 eta_bar sigma0 sigma iota p2 B2s B2c mu0 X20 Y20 j) as (Ys & Yc). fold i in Ys, Yc. fold s in Ys, Yc.
  set (l := a_abs_G0_over_B0 a) in *. pose proof (reg_B0 _ _ _ _ Hr) as HB. pose proof (reg_eta _ _ _ _ Hr) as He.
  set (g := IZR (ai_sG ai)) in *. set (p := IZR (ai_spsi ai)) in *. set (k := a_curvature a j) in *. set (B0 := ai_B0 ai) in *.
  pose proof (sin_sq t) as Hcs. pose proof (cos2 t) as C2. pose proof (sin2 t) as S2.
  set (c := cos t) in *. set (sn := sin t) in *.
  rewrite E2 in E3. unfold dpsi. split.
  - eapply jet_order3. unfold sqrt_g, dot, cross, e_r, e_theta. cbn [vx vy vz]. eapply jet_eq; [jets3|..].
    + ring.
    + unfold c1, t1, c2, t2, X_modes, Y_modes, Z_modes. cbn [k1c k1s k20 k2s k2c]. fold c sn l. rewrite HG, E1, E2, E3. field [Hcs]. auto.
    + unfold az1, c1, t1, c2, t2, X_modes, Y_modes, Z_modes. cbn [k1c k1s k20 k2s k2c]. fold c sn l k. rewrite C2, S2, Ys, Yc, HG, E1, E2, E3. field [Hcs]. auto.
    + reflexivity.
  - eapply jet_order3. unfold area_element, e_r, e_theta. cbn [vx vy vz]. eapply jet_eq; [jets3|..].
    + ring.
    + unfold c1, t1, c2, t2, X_modes, Y_modes, Z_modes. cbn [k1c k1s k20 k2s k2c]. fold c sn l. rewrite E1, E2, E3. field [Hcs Hp Hg]. auto.
    + unfold az1, c1, t1, c2, t2, X_modes, Y_modes, Z_modes. cbn [k1c k1s k20 k2s k2c]. fold c sn l k. rewrite C2, S2, Ys, Yc, E1, E2, E3. field [Hcs]. auto.
    + reflexivity.
Qed.
Print Assumptions flux_second_order.

(** ** Equilibrium *)
(** The differentiation matrix obeys the product rule at the grid point [j] for the products of first-order quantities. *)
Definition product_rule_at (a : axis R) (q : r1 R) (sigma : nat -> R) (j : nat) : Prop :=
  product_rule_defect a (r_X1c q) (r_X1c q) j = 0 /\ product_rule_defect a (r_Y1s q) (r_Y1s q) j = 0 /\
  product_rule_defect a (r_Y1c q) (r_Y1c q) j = 0 /\ product_rule_defect a (r_Y1s q) (r_Y1c q) j = 0 /\
  product_rule_defect a (r_Y1s q) sigma j = 0.
Lemma gd_scal a c f j : grid_derivative a (fun k => c * f k) j = c * grid_derivative a f j.
Proof. unfold grid_derivative. rewrite <- rsum_scal. apply rsum_ext. intros; ring. Qed.
Lemma gd_ext a f g j : (forall k, f k = g k) -> grid_derivative a f j = grid_derivative a g j.
Proof. intros H. unfold grid_derivative. apply rsum_ext. intros. rewrite H. reflexivity. Qed.
Lemma gd_product a f g j : product_rule_defect a f g j = 0 -> grid_derivative a (fun k => f k * g k) j = grid_derivative a f j * g j + f j * grid_derivative a g j.
Proof. unfold product_rule_defect, grid_derivative. cbv zeta. intros H. lra. Qed.

(** Two vectors of the plane that are independent. *)
Lemma plane_zero x y u v wx wy d : x * v - y * u = d -> d <> 0 -> wx * x + wy * y = 0 -> wx * u + wy * v = 0 -> wx = 0 /\ wy = 0.
Proof.
  intros Hd Hn H1 H2. assert (A : wx * d = 0).
  { rewrite <- Hd. replace (wx * (x * v - y * u)) with ((wx * x + wy * y) * v - (wx * u + wy * v) * y) by ring. rewrite H1, H2. ring. }
  assert (B : wy * d = 0).
  { rewrite <- Hd. replace (wy * (x * v - y * u)) with ((wx * u + wy * v) * x - (wx * x + wy * y) * u) by ring. rewrite H1, H2. ring. }
  split; [apply Rmult_integral in A; destruct A|apply Rmult_integral in B; destruct B]; auto; contradiction.
Qed.

(** The components of the field along e_r and e_theta, to the lowest order. *)
Lemma first_order_covariant ai a h I2 eta_bar sigma0 sigma iota p2 B2s B2c mu0 X20 Y20 j t :
  regular ai a h eta_bar -> (j < ai_nphi ai)%nat ->
  let i := r2_config ai a h I2 eta_bar sigma0 sigma iota p2 B2s B2c mu0 in
  let q := r1_diagnostics R_ops R_math (j_r1 i) sigma iota in
  let s := r2_from_solution R_ops R_math i X20 Y20 in
  let X := X_modes q s j in let Y := Y_modes q s j in let Z := Z_modes s j in let l := a_abs_G0_over_B0 a in
  product_rule_at a q sigma j ->
  ax1 a q s j t * c1 X t + ay1 a q s j t * c1 Y t + 2 * l * c2 Z t = 0 /\
  (sigma_equation (j_r1 i) sigma iota j = 0 ->
   ax1 a q s j t * t1 X t + ay1 a q s j t * t1 Y t + l * t2 Z t = I2 / ai_B0 ai * (a_G0 a / ai_B0 ai)).
Proof.
  intros Hr Hj i q s X Y Z l (P1 & P2 & P3 & P4 & P5).
  destruct (at_point ai a h I2 eta_bar sigma0 sigma iota p2 B2s B2c mu0 j Hr Hj) as (Hg & Hp & Hl & Hil & HG & Hk & E1 & E2 & E3 & Ec). fold i in E1, E2, E3, Ec. fold q in E1, E2, E3, Ec.
  pose proof (reg_B0 _ _ _ _ Hr) as HB. pose proof (reg_eta _ _ _ _ Hr) as He.
  apply gd_product in P1. apply gd_product in P2. apply gd_product in P3. apply gd_product in P4. apply gd_product in P5.
  set (N := r_iota_N q) in *. set (x := r_X1c q j) in *. set (ys := r_Y1s q j) in *. set (yc := r_Y1c q j) in *.
  set (dx := grid_derivative a (r_X1c q) j) in *. set (dys := grid_derivative a (r_Y1s q) j) in *. set (dyc := grid_derivative a (r_Y1c q) j) in *.
  assert (EV1 : grid_derivative a (V1 R_ops R_math i) j = 2 * (x * dx + ys * dys + yc * dyc)).
  { rewrite (gd_ext a _ (fun k => r_X1c q k * r_X1c q k + r_Y1c q k * r_Y1c q k + r_Y1s q k * r_Y1s q k)) by reflexivity.
    rewrite !grid_derivative_plus, P1, P2, P3. ring. }
  assert (EV2 : grid_derivative a (V2 R_ops R_math i) j = 2 * (dys * yc + ys * dyc)).
  { rewrite (gd_ext a _ (fun k => 2 * (r_Y1s q k * r_Y1c q k))) by (intros k; transitivity (2 * r_Y1s q k * r_Y1c q k); [reflexivity|ring]).
    rewrite gd_scal, P4. ring. }
  assert (EV3 : grid_derivative a (V3 R_ops R_math i) j = 2 * (x * dx - ys * dys + yc * dyc)).
  { rewrite (gd_ext a _ (fun k => r_X1c q k * r_X1c q k + r_Y1c q k * r_Y1c q k + (-1) * (r_Y1s q k * r_Y1s q k)))
      by (intros k; transitivity (r_X1c q k * r_X1c q k + r_Y1c q k * r_Y1c q k - r_Y1s q k * r_Y1s q k); [reflexivity|ring]).
    rewrite !grid_derivative_plus, gd_scal, P1, P2, P3. ring. }
  assert (EZ0 : s_Z20 s j = - (/ l) / 8 * (2 * (x * dx + ys * dys + yc * dyc))).
  { transitivity (grid_derivative a (V1 R_ops R_math i) j * (- a_B0_over_abs_G0 a / 8)); [reflexivity|]. rewrite EV1, Hil. fold l. field. auto. }
  assert (EZs : s_Z2s s j = - (/ l) / 8 * (2 * (dys * yc + ys * dyc) - 2 * N * (x * x + yc * yc - ys * ys))).
  { transitivity (- a_B0_over_abs_G0 a / 8 * (grid_derivative a (V2 R_ops R_math i) j - 2 * N * (x * x + yc * yc - ys * ys))); [reflexivity|]. rewrite EV2, Hil. reflexivity. }
  assert (EZc : s_Z2c s j = - (/ l) / 8 * (2 * (x * dx - ys * dys + yc * dyc) + 2 * N * (2 * ys * yc))).
  { transitivity (- a_B0_over_abs_G0 a / 8 * (grid_derivative a (V3 R_ops R_math i) j + 2 * N * (2 * ys * yc))); [reflexivity|]. rewrite EV3, Hil. reflexivity. }
  pose proof (sin_sq t) as Hcs. pose proof (cos2 t) as C2. pose proof (sin2 t) as S2.
  set (tau := a_torsion a j).
  assert (A1 : ax1 a q s j t = (dx * cos t + 0 * sin t) - l * tau * (yc * cos t + ys * sin t) + N * (0 * cos t - x * sin t)) by reflexivity.
  assert (A2 : ay1 a q s j t = (dyc * cos t + dys * sin t) + l * tau * (x * cos t + 0 * sin t) + N * (ys * cos t - yc * sin t)) by reflexivity.
  rewrite A1, A2. unfold c1, t1, c2, t2, X, Y, Z, X_modes, Y_modes, Z_modes. cbn [k1c k1s k20 k2s k2c]. fold x ys yc.
  rewrite EZ0, EZs, EZc, C2, S2. clear A1 A2 EZ0 EZs EZc EV1 EV2 EV3 C2 S2.
  set (c := cos t) in *. set (sn := sin t) in *. split.
  - field [Hcs]. auto.
  - intros Hs. unfold sigma_equation in Hs. cbv zeta in Hs.
    change (i_axis (j_r1 i)) with a in Hs. change (i_eta_bar (j_r1 i)) with eta_bar in Hs. change (i_I2 (j_r1 i)) with I2 in Hs. change (i_B0 (j_r1 i)) with (ai_B0 ai) in Hs. change (i_spsi (j_r1 i)) with (ai_spsi ai) in Hs.
    change (iota + IZR (i_helicity (j_r1 i)) * IZR (i_nfp (j_r1 i))) with (iota + IZR h * IZR (ai_nfp ai)) in Hs. rewrite <- Ec in Hs.
    change (rsum (a_nphi a) (fun k => a_d_d_varphi a j k * sigma k)) with (grid_derivative a sigma j) in Hs.
    assert (P5' : dyc = dys * sigma j + ys * grid_derivative a sigma j) by (rewrite <- P5; reflexivity).
    set (ds := grid_derivative a sigma j) in *. set (k := a_curvature a j) in *. fold tau in Hs. fold l in HG. set (g := IZR (ai_sG ai)) in *. set (p := IZR (ai_spsi ai)) in *.
    set (B0 := ai_B0 ai) in *.
    assert (Eds : ds = 2 * (eta_bar / k) ^ 2 * (I2 / B0 - p * tau) * (a_G0 a / B0) - N * ((eta_bar / k) ^ 4 + 1 + sigma j ^ 2)) by lra.
    rewrite P5', Eds, E3, HG, E2, E1. clear - Hg Hp Hcs Hl Hk HB He. field [Hg Hp Hcs]. auto.
Qed.

Lemma cos3 t : cos (3 * t) = cos t * (4 * (cos t * cos t) - 3).
Proof. replace (3 * t) with (2 * t + t) by ring. rewrite cos_plus, cos2, sin2. ring [(sin_sq t)]. Qed.
Lemma sin3 t : sin (3 * t) = sin t * (4 * (cos t * cos t) - 1).
Proof. replace (3 * t) with (2 * t + t) by ring. rewrite sin_plus, cos2, sin2. ring [(sin_sq t)]. Qed.
(** The third-order coefficient of Z exists if the two equations of second order hold. *)
Lemma third_order (X1c Y1s Y1c x0 xs xc y0 ys yc l ss : R) : l <> 0 -> ss * ss = 1 -> X1c * Y1s = ss ->
  X1c * xs - Y1s * y0 + Y1c * ys - Y1s * yc = 0 -> - X1c * x0 + X1c * xc - Y1c * y0 + Y1s * ys + Y1c * yc = 0 ->
  exists z, forall t,
    x0 + xs * sin (2 * t) + xc * cos (2 * t) = ss * l * ((Y1c * cos t + Y1s * sin t) * at3_t z t - 3 * at3 z t * (Y1s * cos t - Y1c * sin t)) /\
    y0 + ys * sin (2 * t) + yc * cos (2 * t) = ss * l * (3 * at3 z t * (- X1c * sin t) - X1c * cos t * at3_t z t).
Proof.
  intros Hl Hs Hxy H1 H2.
  set (C1 := X1c * (x0 + xc / 2) + Y1c * (y0 + yc / 2) + Y1s * ys / 2). set (S1 := X1c * xs / 2 + Y1c * ys / 2 + Y1s * (y0 - yc / 2)).
  set (C3 := (X1c * xc + Y1c * yc - Y1s * ys) / 2). set (S3 := (X1c * xs + Y1c * ys + Y1s * yc) / 2).
  exists (M3 (- C1 / (3 * l)) (- S1 / (3 * l)) (- C3 / (3 * l)) (- S3 / (3 * l))). intros t.
  set (z := at3 _ t). set (z' := at3_t _ t).
  pose proof (sin_sq t) as Hcs. pose proof (cos2 t) as C2. pose proof (sin2 t) as S2. pose proof (cos3 t) as D3. pose proof (sin3 t) as F3.
  assert (Ez : z = - (C1 * cos t + S1 * sin t + C3 * cos (3 * t) + S3 * sin (3 * t)) / (3 * l)) by (unfold z, at3; cbn [z1c z1s z3c z3s]; field; auto).
  assert (Ez' : z' = - (S1 * cos t - C1 * sin t + 3 * S3 * cos (3 * t) - 3 * C3 * sin (3 * t)) / (3 * l)) by (unfold z', at3_t; cbn [z1c z1s z3c z3s]; field; auto).
  clearbody z z'. rewrite D3, F3 in *. rewrite C2, S2. set (c := cos t) in *. set (sn := sin t) in *.
  set (Vx := x0 + xs * (2 * sn * c) + xc * (c * c - sn * sn)). set (Vy := y0 + ys * (2 * sn * c) + yc * (c * c - sn * sn)).
  set (X := X1c * c). set (X' := - X1c * sn). set (Y := Y1c * c + Y1s * sn). set (Y' := Y1s * c - Y1c * sn).
  assert (Hd : X * Y' - Y * X' = ss).
  { unfold X, Y, X', Y'. transitivity (X1c * Y1s * (c * c + sn * sn)); [ring|]. rewrite Hxy. ring [Hcs]. }
  assert (Hn : ss <> 0) by (intros Z; rewrite Z in Hs; lra).
  assert (R1 : Vx * X + Vy * Y = - 3 * l * z).
  { rewrite Ez. unfold Vx, Vy, X, Y, C1, S1, C3, S3. field [Hcs]. auto. }
  assert (R2 : Vx * X' + Vy * Y' = - l * z').
  { assert (Q : Vx * X' + Vy * Y' + l * z' = - (2 / 3) * (X1c * xs - Y1s * y0 + Y1c * ys - Y1s * yc) * c + 2 / 3 * (- X1c * x0 + X1c * xc - Y1c * y0 + Y1s * ys + Y1c * yc) * sn).
    { rewrite Ez'. unfold Vx, Vy, X', Y', C1, S1, C3, S3. field [Hcs]. auto. }
    rewrite H1, H2 in Q. lra. }
  destruct (plane_zero X Y X' Y' (Vx - ss * l * (Y * z' - 3 * z * Y')) (Vy - ss * l * (3 * z * X' - X * z')) ss Hd Hn) as (W1 & W2).
  - replace (_ + _) with ((Vx * X + Vy * Y) + 3 * l * z * (ss * (X * Y' - Y * X'))) by ring. rewrite R1, Hd, Hs. ring.
  - replace (_ + _) with ((Vx * X' + Vy * Y') + l * z' * (ss * (X * Y' - Y * X'))) by ring. rewrite R2, Hd, Hs. ring.
  - split; lra.
Qed.

(** C74.  Equilibrium.  Take any solution of the two equations of second order at a grid point where sigma solves its equation and
    the differentiation matrix obeys the product rule.  There is a third-order term of Z with which the
    two forms of the magnetic field agree, in the directions normal and binormal to the axis up to terms of order r^4, along
    the axis up to terms of order r^3: the vector e_varphi + iota_N e_theta times the derivative of the flux is
    (beta grad psi + I grad theta + G grad varphi) times the Jacobian.  So the field of the solution is tangent to the surfaces,
    has no divergence, and its current is tangent to the surfaces, to this order.
    [dz] is any function: the derivative of the third-order term along varphi does not matter at this order. *)
Theorem equilibrium_second_order : forall ai a h I2 eta_bar sigma0 sigma iota p2 B2s B2c mu0 X20 Y20 j,
  regular ai a h eta_bar -> (j < ai_nphi ai)%nat ->
  let i := r2_config ai a h I2 eta_bar sigma0 sigma iota p2 B2s B2c mu0 in
  let q := r1_diagnostics R_ops R_math (j_r1 i) sigma iota in
  let s := r2_from_solution R_ops R_math i X20 Y20 in
  product_rule_at a q sigma j -> sigma_equation (j_r1 i) sigma iota j = 0 -> equation1 i s j -> equation2 i s j ->
  exists z, forall t dz,
    let d := fun r => vadd (B_contravariant i s j z dz r t) (scal (-1) (B_covariant i s j z dz r t)) in
    order 4 (fun r => vx (d r)) /\ order 4 (fun r => vy (d r)) /\ order 3 (fun r => vz (d r)).
Proof.
  intros ai a h I2 eta_bar sigma0 sigma iota p2 B2s B2c mu0 X20 Y20 j Hr Hj i q s HP Hsig Heq1 Heq2.
  destruct (at_point ai a h I2 eta_bar sigma0 sigma iota p2 B2s B2c mu0 j Hr Hj) as (Hg & Hp & Hl & Hil & HG & Hk & E1 & E2 & E3 & Ec). fold i in E1, E2, E3, Ec. fold q in E1, E2, E3, Ec.
  destruct (Y2_values ai a h I2 eta_bar sigma0 sigma iota p2 B2s B2c mu0 X20 Y20 j) as (Ys & Yc). fold i in Ys, Yc. fold s in Ys, Yc.
  pose proof (reg_B0 _ _ _ _ Hr) as HB. pose proof (reg_eta _ _ _ _ Hr) as He.
  pose proof (fun t => first_order_covariant ai a h I2 eta_bar sigma0 sigma iota p2 B2s B2c mu0 X20 Y20 j t Hr Hj HP) as F1. fold i in F1. fold q in F1. fold s in F1. cbv zeta in F1.
  unfold equation1, equation2, fX0, fXs, fXc, fY0, fYs, fYc in Heq1, Heq2. cbv zeta in Heq1, Heq2.
  change (i_axis (j_r1 i)) with a in Heq1, Heq2. change (r1_diagnostics R_ops R_math (j_r1 i) (j_sigma i) (j_iota i)) with q in Heq1, Heq2.
  change (i_sG (j_r1 i)) with (ai_sG ai) in Heq1, Heq2. change (i_spsi (j_r1 i)) with (ai_spsi ai) in Heq1, Heq2.
  change (i_I2 (j_r1 i)) with I2 in Heq1, Heq2. change (i_B0 (j_r1 i)) with (ai_B0 ai) in Heq1, Heq2.
  set (l := a_abs_G0_over_B0 a) in *. set (g := IZR (ai_sG ai)) in *. set (p := IZR (ai_spsi ai)) in *. set (k := a_curvature a j) in *. set (B0 := ai_B0 ai) in *.
  set (tau := a_torsion a j) in *. set (N := r_iota_N q) in *. set (b := s_beta_1s s) in *.
  set (x := r_X1c q j) in *. set (ys := r_Y1s q j) in *. set (yc := r_Y1c q j) in *.
  set (x0 := s_X20 s j) in *. set (x2s := s_X2s s j) in *. set (x2c := s_X2c s j) in *.
  set (y0 := s_Y20 s j) in *. set (y2s := s_Y2s s j) in *. set (y2c := s_Y2c s j) in *.
  set (z0 := s_Z20 s j) in *. set (z2s := s_Z2s s j) in *. set (z2c := s_Z2c s j) in *.
  set (dx0 := grid_derivative a (s_X20 s) j) in *. set (dxs := grid_derivative a (s_X2s s) j) in *. set (dxc := grid_derivative a (s_X2c s) j) in *.
  set (dy0 := grid_derivative a (s_Y20 s) j) in *. set (dys := grid_derivative a (s_Y2s s) j) in *. set (dyc := grid_derivative a (s_Y2c s) j) in *.
  assert (Hss : (g * p) * (g * p) = 1) by (replace (g * p * (g * p)) with ((g * g) * (p * p)) by ring; rewrite Hg, Hp; ring).
  assert (Hxy : x * ys = g * p) by (rewrite E1, E2; field; auto).
  set (cur := p * I2 / B0) in *.
  destruct (third_order x ys yc
    (dx0 - tau * l * y0 + k * l * z0 - 4 * (g * p) * l * (y2c * z2s - y2s * z2c) - cur * (/ 2 * k * x * yc - 2 * y0) * l + b * l / 2 * yc)
    (dxs - 2 * N * x2c - tau * l * y2s + k * l * z2s - 4 * (g * p) * l * (- y0 * z2c + y2c * z0) - cur * (/ 2 * (g * p) * k - 2 * y2s) * l - / 2 * l * b * ys)
    (dxc + 2 * N * x2s - tau * l * y2c + k * l * z2c - 4 * (g * p) * l * (y0 * z2s - y2s * z0) - cur * (/ 2 * k * x * yc - 2 * y2c) * l - / 2 * l * b * yc)
    (dy0 + tau * l * x0 - 4 * (g * p) * l * (x2s * z2c - x2c * z2s) - cur * (- / 2 * k * x ^ 2 + 2 * x0) * l - / 2 * l * b * x)
    (dys - 2 * N * y2c + tau * l * x2s - 4 * (g * p) * l * (x0 * z2c - x2c * z0) - 2 * cur * x2s * l)
    (dyc + 2 * N * y2s + tau * l * x2c - 4 * (g * p) * l * (x2s * z0 - x0 * z2s) - cur * (- / 2 * k * x ^ 2 + 2 * x2c) * l + / 2 * l * b * x)
    l (g * p) Hl Hss Hxy) as (z & Hz).
  { rewrite <- Heq1. ring. }
  { rewrite <- Heq2. ring. }
  exists z. intros t dz d. destruct (Hz t) as (Hzx & Hzy). clear Hz. destruct (F1 t) as (Fr & Ft). clear F1. specialize (Ft Hsig).
  pose proof (zero1 a s j t) as (Z1 & Z2 & _ & _).
  pose proof (sin_sq t) as Hcs. pose proof (cos2 t) as C2. pose proof (sin2 t) as S2.
  assert (Hd : c1 (X_modes q s j) t * t1 (Y_modes q s j) t - c1 (Y_modes q s j) t * t1 (X_modes q s j) t = g * p).
  { rewrite <- Hxy. unfold c1, t1, X_modes, Y_modes. cbn [k1c k1s]. fold x ys yc. ring [Hcs]. }
  assert (Hn : g * p <> 0) by (intros Q; rewrite Q in Hss; lra).
  assert (Kx : ax2 a q s j t - b * sin t * l * t1 (Y_modes q s j) t - cur * l * (k * c1 (X_modes q s j) t * c1 (Y_modes q s j) t - 2 * c2 (Y_modes q s j) t)
      - g * p * l * (2 * c2 (Y_modes q s j) t * t2 (Z_modes s j) t - 2 * c2 (Z_modes s j) t * t2 (Y_modes q s j) t)
    = g * p * l * (c1 (Y_modes q s j) t * at3_t z t - 3 * at3 z t * t1 (Y_modes q s j) t)).
  { transitivity (g * p * l * ((yc * cos t + ys * sin t) * at3_t z t - 3 * at3 z t * (ys * cos t - yc * sin t))); [|unfold c1, t1, Y_modes; cbn [k1c k1s]; fold yc ys; ring].
    rewrite <- Hzx, <- Hxy, C2, S2.
    unfold ax2, c1, t1, c2, t2, X_modes, Y_modes, Z_modes, dX_modes. cbn [k1c k1s k20 k2s k2c].
    fold l k tau N x ys yc x0 x2s x2c y0 y2s y2c z0 z2s z2c dx0 dxs dxc. rewrite C2, S2. field [Hcs]. }
  assert (Ky : ay2 a q s j t + b * sin t * l * t1 (X_modes q s j) t - cur * l * (2 * c2 (X_modes q s j) t - k * c1 (X_modes q s j) t * c1 (X_modes q s j) t)
      - g * p * l * (2 * c2 (Z_modes s j) t * t2 (X_modes q s j) t - 2 * c2 (X_modes q s j) t * t2 (Z_modes s j) t)
    = g * p * l * (3 * at3 z t * t1 (X_modes q s j) t - c1 (X_modes q s j) t * at3_t z t)).
  { transitivity (g * p * l * (3 * at3 z t * (- x * sin t) - x * cos t * at3_t z t)); [|unfold c1, t1, X_modes; cbn [k1c k1s]; fold x; ring].
    rewrite <- Hzy, <- Hxy, C2, S2.
    unfold ay2, c1, t1, c2, t2, X_modes, Y_modes, Z_modes, dY_modes. cbn [k1c k1s k20 k2s k2c].
    fold l k tau N x ys yc x0 x2s x2c y0 y2s y2c z0 z2s z2c dy0 dys dyc. rewrite C2, S2. field [Hcs]. }
  clear Hzx Hzy Heq1 Heq2.
  assert (W : p * B0 * ax1 a q s j t + I2 * l * c1 (Y_modes q s j) t - a_G0 a * (c1 (Y_modes q s j) t * t2 (Z_modes s j) t - 2 * c2 (Z_modes s j) t * t1 (Y_modes q s j) t) = 0 /\
    p * B0 * ay1 a q s j t - I2 * l * c1 (X_modes q s j) t - a_G0 a * (2 * c2 (Z_modes s j) t * t1 (X_modes q s j) t - c1 (X_modes q s j) t * t2 (Z_modes s j) t) = 0).
  { apply (plane_zero _ _ _ _ _ _ _ Hd Hn).
    - set (X := c1 (X_modes q s j) t) in *. set (Y := c1 (Y_modes q s j) t) in *. set (X' := t1 (X_modes q s j) t) in *. set (Y' := t1 (Y_modes q s j) t) in *.
      replace (_ + _) with (p * B0 * (ax1 a q s j t * X + ay1 a q s j t * Y) + 2 * a_G0 a * c2 (Z_modes s j) t * (X * Y' - Y * X')) by ring.
      replace (ax1 a q s j t * X + ay1 a q s j t * Y) with (- (2 * l * c2 (Z_modes s j) t)) by lra. rewrite Hd, HG. ring [Hg].
    - set (X := c1 (X_modes q s j) t) in *. set (Y := c1 (Y_modes q s j) t) in *. set (X' := t1 (X_modes q s j) t) in *. set (Y' := t1 (Y_modes q s j) t) in *.
      replace (_ + _) with (p * B0 * (ax1 a q s j t * X' + ay1 a q s j t * Y') + (a_G0 a * t2 (Z_modes s j) t - I2 * l) * (X * Y' - Y * X')) by ring.
      replace (ax1 a q s j t * X' + ay1 a q s j t * Y') with (I2 / B0 * (a_G0 a / B0) - l * t2 (Z_modes s j) t) by lra. rewrite Hd, HG. field [Hg]. auto. }
  destruct W as (Wx & Wy).
  assert (Kx' : p * B0 * (ax2 a q s j t - b * sin t * l * t1 (Y_modes q s j) t) - I2 * l * (k * c1 (X_modes q s j) t * c1 (Y_modes q s j) t - 2 * c2 (Y_modes q s j) t)
      - a_G0 a * (2 * c2 (Y_modes q s j) t * t2 (Z_modes s j) t - 2 * c2 (Z_modes s j) t * t2 (Y_modes q s j) t)
    - a_G0 a * (c1 (Y_modes q s j) t * at3_t z t - 3 * at3 z t * t1 (Y_modes q s j) t) = 0).
  { rewrite HG. apply (Rmult_eq_compat_l (p * B0)) in Kx. rewrite <- (Rminus_diag_eq _ _ Kx). unfold cur. field [Hp]. auto. }
  assert (Ky' : p * B0 * (ay2 a q s j t + b * sin t * l * t1 (X_modes q s j) t) - I2 * l * (2 * c2 (X_modes q s j) t - k * c1 (X_modes q s j) t * c1 (X_modes q s j) t)
      - a_G0 a * (2 * c2 (Z_modes s j) t * t2 (X_modes q s j) t - 2 * c2 (X_modes q s j) t * t2 (Z_modes s j) t)
    - a_G0 a * (3 * at3 z t * t1 (X_modes q s j) t - c1 (X_modes q s j) t * at3_t z t) = 0).
  { rewrite HG. apply (Rmult_eq_compat_l (p * B0)) in Ky. rewrite <- (Rminus_diag_eq _ _ Ky). unfold cur. field [Hp]. auto. }
  clear Kx Ky Fr Ft.
  unfold d, B_contravariant, B_covariant, vadd, scal, cross. cbn [vx vy vz]. unfold e_r3, e_theta3, e_varphi3, vadd. cbn [vx vy vz]. cbv zeta. unfold vadd, scal. cbn [vx vy vz].
  change (i_axis (j_r1 i)) with a. change (r1_diagnostics R_ops R_math (j_r1 i) (j_sigma i) (j_iota i)) with q.
  change (i_spsi (j_r1 i)) with (ai_spsi ai). change (i_I2 (j_r1 i)) with I2. change (i_B0 (j_r1 i)) with (ai_B0 ai).
  unfold e_r, e_theta. cbn [vx vy vz]. fold p B0 l k N b.
  set (G2' := s_G2 s - _).
  unfold ax1, ay1, ax2, ay2, az1 in Wx, Wy, Kx', Ky'.
  split; [|split].
  - apply jet_order4. eapply jet_eq; [jets3|..]; change (a_abs_G0_over_B0 a) with l; unfold vx1, vx2, vy1, vy2, az1; fold l k tau N; rewrite ?Z1, ?Z2.
    + ring.
    + ring.
    + eapply eq_trans; [|exact Wx]. fold l k tau N. ring.
    + eapply eq_trans; [|exact Kx']. fold l k tau N. ring [Z1 Z2].
  - apply jet_order4. eapply jet_eq; [jets3|..]; change (a_abs_G0_over_B0 a) with l; unfold vx1, vx2, vy1, vy2, az1; fold l k tau N; rewrite ?Z1, ?Z2.
    + ring.
    + ring.
    + eapply eq_trans; [|exact Wy]. fold l k tau N. ring.
    + eapply eq_trans; [|exact Ky']. fold l k tau N. ring [Z1 Z2].
  - eapply jet_order3. eapply jet_eq; [jets3|..]; change (a_abs_G0_over_B0 a) with l; unfold vx1, vx2, vy1, vy2, az1; fold l k tau N; rewrite ?Z1, ?Z2; [| | |reflexivity].
    + ring.
    + transitivity (p * B0 * l - a_G0 a * (c1 (X_modes q s j) t * t1 (Y_modes q s j) t - c1 (Y_modes q s j) t * t1 (X_modes q s j) t)); [ring|].
      rewrite Hd, HG. ring [Hg].
    + unfold c1, t1, c2, t2, X_modes, Y_modes, Z_modes. cbn [k1c k1s k20 k2s k2c]. fold x ys yc x0 x2s x2c y0 y2s y2c. rewrite C2, S2. subst y2s y2c. rewrite Ys, Yc, HG, E3, E2, E1. field [Hcs Hg Hp]. auto.
Qed.
Print Assumptions equilibrium_second_order.

(** The hypotheses of the three theorems are met: a circular axis with a current, of any resolution and with any pressure. *)
Lemma gd_const a f c N j : a_nphi a = N -> (forall c j, (j < N)%nat -> grid_derivative a (fun _ => c) j = 0) -> (j < N)%nat ->
  (forall k, (k < N)%nat -> f k = c) -> grid_derivative a f j = 0.
Proof.
  intros HN HD Hj Hf. rewrite <- (HD c j Hj). unfold grid_derivative. rewrite HN. apply rsum_ext. intros k Hk. rewrite (Hf k Hk). reflexivity.
Qed.
Lemma defect_const a f g c d N j : a_nphi a = N -> (forall c j, (j < N)%nat -> grid_derivative a (fun _ => c) j = 0) -> (j < N)%nat ->
  (forall k, (k < N)%nat -> f k = c) -> (forall k, (k < N)%nat -> g k = d) -> product_rule_defect a f g j = 0.
Proof.
  intros HN HD Hj Hf Hg. transitivity (grid_derivative a (fun k => f k * g k) j - (grid_derivative a f j * g j + f j * grid_derivative a g j)); [reflexivity|].
  rewrite (gd_const a f c N j), (gd_const a g d N j), (gd_const a (fun k => f k * g k) (c * d) N j); auto.
  - ring.
  - intros k Hk. rewrite Hf, Hg; auto.
Qed.
Lemma circle_solution : forall N p2 B2s B2c mu0, (1 <= N)%nat -> exists a h, regular (circle_in N) a h 1 /\ a_nphi a = N /\
  (forall j, a_torsion a j = 0) /\ (forall j, a_curvature a j = 1) /\ a_abs_G0_over_B0 a = 1 /\
  let X20 := 3 / 4 - mu0 * p2 in let i := r2_config (circle_in N) a h 1 1 0 (fun _ => 0) (1 - IZR h) p2 B2s B2c mu0 in
  let q := r1_diagnostics R_ops R_math (j_r1 i) (fun _ => 0) (1 - IZR h) in
  let s := r2_from_solution R_ops R_math i (fun _ => X20) (fun _ => 0) in
  r_iota_N q = 1 /\ s_beta_1s s = - 4 * mu0 * p2 /\
  (forall f c, (forall k, (k < N)%nat -> f k = c) -> forall j, (j < N)%nat -> grid_derivative a f j = 0) /\
  (forall j, (j < N)%nat -> r_X1c q j = 1 /\ r_Y1s q j = 1 /\ r_Y1c q j = 0 /\ s_Z20 s j = 0 /\ s_Z2s s j = 0 /\ s_Z2c s j = 0 /\
    s_X2s s j = B2s /\ s_X2c s j = B2c - / 2 /\ s_Y2s s j = - (B2c - / 2) - / 2 - X20 /\ s_Y2c s j = B2s) /\
  forall j, (j < N)%nat -> product_rule_at a q (fun _ => 0) j /\ sigma_equation (j_r1 i) (fun _ => 0) (1 - IZR h) j = 0 /\ equation1 i s j /\ equation2 i s j.
Proof.
  intros N p2 B2s B2c mu0 HN. destruct (circle N HN) as (a & h & Hr & En & Et & Ed & Ek & El & Ei & EG & HD). exists a, h.
  split; [exact Hr|]. split; [exact En|]. split; [exact Et|]. split; [exact Ek|]. split; [exact El|]. intros X20 i q s. subst X20.
  assert (Ec : r_iota_N q = 1). { unfold q. cbn [r1_diagnostics r_iota_N iota_N_of i r2_config r1_config j_r1 j_iota R_ops R_math fadd m_of_Z i_helicity i_nfp circle_in ai_nfp]. rewrite mult_IZR. ring. }
  assert (EX : forall j, r_X1c q j = 1) by (intros j; change (1 / a_curvature a j = 1); rewrite Ek; field).
  assert (EY : forall j, r_Y1s q j = 1) by (intros j; change (1 / 1 * a_curvature a j = 1); rewrite Ek; field).
  assert (EC : forall j, r_Y1c q j = 0) by (intros j; change (r_Y1s q j * 0 = 0); ring).
  assert (Eb : s_beta_1s s = - 4 * mu0 * p2).
  { transitivity (-4 * mu0 * p2 * 1 * a_abs_G0_over_B0 a / (r_iota_N q * 1 * 1)); [reflexivity|]. rewrite El, Ec. field. }
  split; [exact Ec|]. split; [exact Eb|].
  assert (DC : forall f c, (forall k, (k < N)%nat -> f k = c) -> forall j, (j < N)%nat -> grid_derivative a f j = 0).
  { intros f c Hf j Hj. exact (gd_const a f c N j En HD Hj Hf). }
  assert (Z0 : forall j, (j < N)%nat -> s_Z20 s j = 0).
  { intros j Hj. transitivity (grid_derivative a (V1 R_ops R_math i) j * (- a_B0_over_abs_G0 a / 8)); [reflexivity|]. rewrite (DC _ 2); [ring| |auto].
    intros k _. transitivity (r_X1c q k * r_X1c q k + r_Y1c q k * r_Y1c q k + r_Y1s q k * r_Y1s q k); [reflexivity|]. rewrite EX, EY, EC. ring. }
  assert (V2v : forall j, V2 R_ops R_math i j = 0) by (intros j; transitivity (2 * r_Y1s q j * r_Y1c q j); [reflexivity|rewrite EC; ring]).
  assert (V3v : forall j, V3 R_ops R_math i j = 0) by (intros j; transitivity (r_X1c q j * r_X1c q j + r_Y1c q j * r_Y1c q j - r_Y1s q j * r_Y1s q j); [reflexivity|rewrite EX, EY, EC; ring]).
  assert (Zs : forall j, (j < N)%nat -> s_Z2s s j = 0).
  { intros j Hj. transitivity ((- a_B0_over_abs_G0 a / 8) * (grid_derivative a (V2 R_ops R_math i) j - 2 * r_iota_N q * V3 R_ops R_math i j)); [reflexivity|]. rewrite (DC _ 0), V3v; auto. ring. }
  assert (Zc : forall j, (j < N)%nat -> s_Z2c s j = 0).
  { intros j Hj. transitivity ((- a_B0_over_abs_G0 a / 8) * (grid_derivative a (V3 R_ops R_math i) j + 2 * r_iota_N q * V2 R_ops R_math i j)); [reflexivity|]. rewrite (DC _ 0), V2v; auto. ring. }
  assert (Qs : forall j, qs R_ops R_math i j = -1) by (intros j; transitivity (- r_iota_N q * r_X1c q j - a_abs_G0_over_B0 a * r_Y1s q j * a_torsion a j); [reflexivity|rewrite Ec, EX, Et; ring]).
  assert (Qc : forall j, (j < N)%nat -> qc R_ops R_math i j = 0) by (intros j Hj; transitivity (grid_derivative a (r_X1c q) j - a_abs_G0_over_B0 a * r_Y1c q j * a_torsion a j); [reflexivity|rewrite (DC _ 1), Et; auto; ring]).
  assert (Rs : forall j, (j < N)%nat -> rs R_ops R_math i j = 0) by (intros j Hj; transitivity (grid_derivative a (r_Y1s q) j - r_iota_N q * r_Y1c q j); [reflexivity|rewrite (DC _ 1), EC; auto; ring]).
  assert (Rc : forall j, (j < N)%nat -> rc R_ops R_math i j = 1) by (intros j Hj; transitivity (grid_derivative a (r_Y1c q) j + (r_iota_N q * r_Y1s q j + r_X1c q j * a_torsion a j * a_abs_G0_over_B0 a)); [reflexivity|rewrite (DC _ 0), Ec, EY, Et; auto; ring]).
  assert (Xs : forall j, (j < N)%nat -> s_X2s s j = B2s).
  { intros j Hj. transitivity (a_B0_over_abs_G0 a * (grid_derivative a (s_Z2s s) j - (2 * r_iota_N q) * s_Z2c s j + a_B0_over_abs_G0 a * (a_abs_G0_over_B0 a * a_abs_G0_over_B0 a * B2s / 1 +
      (qc R_ops R_math i j * qs R_ops R_math i j + rc R_ops R_math i j * rs R_ops R_math i j) * (1 / 2))) / a_curvature a j); [reflexivity|].
    rewrite (DC _ 0), Zc, Qc, Rs, El, Ei, Ek; auto. field. }
  assert (Xc : forall j, (j < N)%nat -> s_X2c s j = B2c - / 2).
  { intros j Hj. transitivity (a_B0_over_abs_G0 a * (grid_derivative a (s_Z2c s) j + (2 * r_iota_N q) * s_Z2s s j - a_B0_over_abs_G0 a * (- a_abs_G0_over_B0 a * a_abs_G0_over_B0 a * B2c / 1 + a_abs_G0_over_B0 a * a_abs_G0_over_B0 a * 1 * 1 / 2 -
      (qc R_ops R_math i j * qc R_ops R_math i j - qs R_ops R_math i j * qs R_ops R_math i j + rc R_ops R_math i j * rc R_ops R_math i j - rs R_ops R_math i j * rs R_ops R_math i j) * (1 / 4))) / a_curvature a j); [reflexivity|].
    rewrite (DC _ 0), Zs, Qc, Rs, Rc, Qs, El, Ei, Ek; auto. field. }
  assert (Ys : forall j, (j < N)%nat -> s_Y2s s j = - (B2c - / 2) - / 2 - (3 / 4 - mu0 * p2)).
  { intros j Hj. destruct (Y2_values (circle_in N) a h 1 1 0 (fun _ => 0) (1 - IZR h) p2 B2s B2c mu0 (fun _ => 3 / 4 - mu0 * p2) (fun _ => 0) j) as (Y & _). fold i in Y. fold s in Y.
    rewrite Xs, Xc, Ek in Y by auto. rewrite Y. change (s_X20 s j) with (3 / 4 - mu0 * p2). cbn [circle_in ai_sG ai_spsi]. field. }
  assert (Yc : forall j, (j < N)%nat -> s_Y2c s j = B2s).
  { intros j Hj. destruct (Y2_values (circle_in N) a h 1 1 0 (fun _ => 0) (1 - IZR h) p2 B2s B2c mu0 (fun _ => 3 / 4 - mu0 * p2) (fun _ => 0) j) as (_ & Y). fold i in Y. fold s in Y.
    rewrite Xs, Xc, Ek in Y by auto. rewrite Y. change (s_X20 s j) with (3 / 4 - mu0 * p2). change (s_Y20 s j) with 0. cbn [circle_in ai_sG ai_spsi]. field. }
  split; [exact DC|]. split; [intros j Hj; repeat split; auto|].
  intros j Hj. split; [|split; [|split]].
  - repeat split; eapply defect_const; eauto.
  - unfold sigma_equation. cbv zeta. change (rsum (a_nphi (i_axis (j_r1 i))) _) with (grid_derivative a (fun _ => 0) j). rewrite HD by auto.
    change (i_axis (j_r1 i)) with a. rewrite Ek, Et, EG. cbn [i r2_config r1_config j_r1 i_eta_bar i_helicity i_nfp i_I2 i_B0 i_spsi circle_in ai_nfp ai_B0 ai_spsi]. field.
  - unfold equation1, fXs, fY0, fYs, fYc. cbv zeta. change (i_axis (j_r1 i)) with a. change (r1_diagnostics R_ops R_math (j_r1 i) (j_sigma i) (j_iota i)) with q.
    rewrite !(DC (s_X2s s) B2s), !(DC (s_Y20 s) 0), !(DC (s_Y2c s) B2s), Xc, Zc, Ec, EX, EY, EC, El, Ek, Et, Eb; auto.
    rewrite (DC (s_Y2s s) _ Ys), Ys, Xs, Yc, Z0, Zs; auto. cbn [i r2_config r1_config j_r1 i_eta_bar i_helicity i_nfp i_I2 i_B0 i_spsi i_sG circle_in ai_nfp ai_B0 ai_spsi ai_sG].
    change (s_X20 s j) with (3 / 4 - mu0 * p2). change (s_Y20 s j) with 0. field.
  - unfold equation2, fX0, fXc, fY0, fYs, fYc. cbv zeta. change (i_axis (j_r1 i)) with a. change (r1_diagnostics R_ops R_math (j_r1 i) (j_sigma i) (j_iota i)) with q.
    rewrite !(DC (s_X2c s) _ Xc), !(DC (s_X20 s) (3 / 4 - mu0 * p2)), !(DC (s_Y20 s) 0), !(DC (s_Y2c s) B2s), Xc, Zc, Ec, EX, EY, EC, El, Ek, Et, Eb; auto.
    rewrite (DC (s_Y2s s) _ Ys), Ys, Xs, Yc, Z0, Zs; auto. cbn [i r2_config r1_config j_r1 i_eta_bar i_helicity i_nfp i_I2 i_B0 i_spsi i_sG circle_in ai_nfp ai_B0 ai_spsi ai_sG].
    change (s_X20 s j) with (3 / 4 - mu0 * p2). change (s_Y20 s j) with 0. field.
Qed.
Example equilibrium_example : forall N p2 B2s B2c mu0, (1 <= N)%nat -> exists a h, regular (circle_in N) a h 1 /\
  exists X20, let i := r2_config (circle_in N) a h 1 1 0 (fun _ => 0) (1 - IZR h) p2 B2s B2c mu0 in
  let q := r1_diagnostics R_ops R_math (j_r1 i) (fun _ => 0) (1 - IZR h) in
  let s := r2_from_solution R_ops R_math i (fun _ => X20) (fun _ => 0) in
  r_iota_N q = 1 /\ s_beta_1s s = - 4 * mu0 * p2 /\
  forall j, (j < N)%nat -> product_rule_at a q (fun _ => 0) j /\ sigma_equation (j_r1 i) (fun _ => 0) (1 - IZR h) j = 0 /\ equation1 i s j /\ equation2 i s j.
Proof.
  intros N p2 B2s B2c mu0 HN. destruct (circle_solution N p2 B2s B2c mu0 HN) as (a & h & Hr & _ & _ & _ & _ & E). exists a, h. split; [exact Hr|].
  exists (3 / 4 - mu0 * p2). cbv zeta in *. destruct E as (E1 & E2 & _ & _ & E3). auto.
Qed.
