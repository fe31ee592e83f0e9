(** Expansions with the third-order terms of the surfaces. *)
From Coq Require Import String ZArith Reals List Arith Lia Lra Psatz Bool.
From Verif Require Import Base BaseFacts FloatOps MathOps MathFacts Curve Tensor Diff NewtonFacts Helicity HelicityFacts
  Axis AxisSpec AxisFacts R1 R1Spec R1Facts Properties_Axis Properties_R1 R2 R2Spec R2Facts Properties_R2 Jet Order R3Spec Properties_Field.
Import ListNotations.
Local Open Scope list_scope. Local Open Scope nat_scope.
Local Open Scope R_scope.

(** The component along the axis of the difference between the two forms of the field, up to r^3, when the
    third-order terms are [m] times the first-order ones. *)
Lemma third_difference ai a h I2 eta_bar sigma0 sigma iota p2 B2s B2c mu0 X20 Y20 j z w m :
  regular ai a h eta_bar -> (j < ai_nphi ai)%nat ->
  let i := r2_config ai a h I2 eta_bar sigma0 sigma iota p2 B2s B2c mu0 in
  let q := r1_diagnostics R_ops R_math (j_r1 i) sigma iota in
  let s := r2_from_solution R_ops R_math i X20 Y20 in
  let u := calculate_r2p1 R_ops R_math i s in
  x3c w = r_X1c q j * m -> y3c w = r_Y1c q j * m -> y3s w = r_Y1s q j * m ->
  exists C S, forall t dz, order 4 (fun r => vz (third_contravariant i s j z dz w r t) - vz (third_covariant i s j z dz w r t)
    - r ^ 3 * (4 * a_G0 a * (IZR (ai_sG ai) * IZR (ai_spsi ai)) * (t_lambda u j - m) + C * cos (2 * t) + S * sin (2 * t))).
Proof.
  intros Hr Hj i q s u W1 W2 W3.
  destruct (at_point ai a h I2 eta_bar sigma0 sigma iota p2 B2s B2c mu0 j Hr Hj) as (Hg & Hp & Hl & Hil & HG & Hk & E1 & E2 & E3 & Ec). fold i in E1, E2, E3, Ec. fold q in E1, E2, E3, Ec.
  destruct (Y2_values ai a h I2 eta_bar sigma0 sigma iota p2 B2s B2c mu0 X20 Y20 j) as (Ys & Yc). fold i in Ys, Yc. fold s in Ys, Yc.
  pose proof (reg_B0 _ _ _ _ Hr) as HB. pose proof (reg_eta _ _ _ _ Hr) as He.
  assert (EL : t_lambda u j = - (1 / 2) / (IZR (ai_sG ai * ai_spsi ai)) *
     (IZR (- ai_spsi ai) * ai_B0 ai * a_abs_G0_over_B0 a / (2 * a_G0 a * a_G0 a) * (r_iota_N q * I2 + mu0 * p2 * a_G0 a / (ai_B0 ai * ai_B0 ai))
      + 2 * (s_X2c s j * s_Y2s s j - s_X2s s j * s_Y2c s j)
      + IZR (ai_spsi ai) * ai_B0 ai / (2 * a_G0 a) * (a_abs_G0_over_B0 a * s_X20 s j * a_curvature a j - grid_derivative a (s_Z20 s) j)
      + I2 / (4 * a_G0 a) * (- a_abs_G0_over_B0 a * a_torsion a j * (r_X1c q j * r_X1c q j + r_Y1s q j * r_Y1s q j + r_Y1c q j * r_Y1c q j)
        + r_Y1c q j * grid_derivative a (r_X1c q) j - r_X1c q j * grid_derivative a (r_Y1c q) j))) by reflexivity.
  rewrite mult_IZR, opp_IZR in EL.
  assert (EG2 : s_G2 s = - mu0 * p2 * a_G0 a / (ai_B0 ai * ai_B0 ai) - iota * I2) by reflexivity.
  set (lam := t_lambda u j) in *.
  set (l := a_abs_G0_over_B0 a) in *. set (g := IZR (ai_sG ai)) in *. set (p := IZR (ai_spsi ai)) in *. set (k := a_curvature a j) in *. set (B0 := ai_B0 ai) in *.
  set (tau := a_torsion a j) in *. set (N := r_iota_N q) in *. set (b := s_beta_1s s) in *.
  set (x := r_X1c q j) in *. set (ys := r_Y1s q j) in *. set (yc := r_Y1c q j) in *.
  set (x0 := s_X20 s j) in *. set (x2s := s_X2s s j) in *. set (x2c := s_X2c s j) in *.
  set (y0 := s_Y20 s j) in *. set (y2s := s_Y2s s j) in *. set (y2c := s_Y2c s j) in *.
  set (z0 := s_Z20 s j) in *. set (z2s := s_Z2s s j) in *. set (z2c := s_Z2c s j) in *.
  set (d0 := grid_derivative a (s_Z20 s) j) in *. set (d2s := grid_derivative a (s_Z2s s) j) in *. set (d2c := grid_derivative a (s_Z2c s) j) in *.
  set (dx := grid_derivative a (r_X1c q) j) in *. set (dys := grid_derivative a (r_Y1s q) j) in *. set (dyc := grid_derivative a (r_Y1c q) j) in *.
  assert (Hss : (g * p) * (g * p) = 1) by (replace (g * p * (g * p)) with ((g * g) * (p * p)) by ring; rewrite Hg, Hp; ring).
  assert (Hxy : x * ys = g * p) by (rewrite E1, E2; field; auto).
  assert (Hg0 : g <> 0) by (intros Q; rewrite Q in Hg; lra). assert (Hp0 : p <> 0) by (intros Q; rewrite Q in Hp; lra).
  assert (HN : s_G2 s - IZR h * IZR (ai_nfp ai) * I2 = - (N * I2 + mu0 * p2 * a_G0 a / (B0 * B0))).
  { rewrite EG2, Ec. unfold Rdiv. ring. }
  assert (HL : 4 * a_G0 a * (g * p) * lam = - (g * p) * (- (N * I2 + mu0 * p2 * a_G0 a / (B0 * B0))) - 4 * a_G0 a * (x2c * y2s - x2s * y2c)
     - p * B0 * (l * x0 * k - d0) - I2 / 2 * (- l * tau * (x * x + ys * ys + yc * yc) + yc * dx - x * dyc)).
  { rewrite EL, HG. clear - Hg Hp Hg0 Hp0 HB Hl. field [Hg Hp]. auto. }
  clear EL.
  exists (p * B0 * (d2c - l * k * x2c + 2 * N * z2s) - I2 / 2 * ((dx - l * tau * yc) * yc + l * tau * ys * ys - (dyc + l * tau * x) * x)
            - 4 * a_G0 a * (x0 * y2s - y0 * x2s)).
  exists (p * B0 * (d2s - l * k * x2s - 2 * N * z2c) - I2 / 2 * ((dx - l * tau * yc) * ys - l * tau * ys * yc - dys * x)
            + 4 * a_G0 a * (x0 * y2c - y0 * x2c)).
  intros t dz.
  pose proof (zero1 a s j t) as (Z1 & Z2 & _ & _).
  pose proof (sin_sq t) as Hcs. pose proof (cos2 t) as C2. pose proof (sin2 t) as S2.
  set (K := 4 * a_G0 a * (g * p) * (lam - m) + _ + _).
  unfold third_contravariant, third_covariant, third_along, flux_derivative, vadd, scal, cross. cbn [vx vy vz]. cbv zeta.
  unfold third_r, third_theta, third_varphi, vadd. cbn [vx vy vz]. cbv zeta. unfold e_r3, e_theta3, e_varphi3, vadd. cbn [vx vy vz].
  change (i_axis (j_r1 i)) with a. change (r1_diagnostics R_ops R_math (j_r1 i) (j_sigma i) (j_iota i)) with q.
  change (i_spsi (j_r1 i)) with (ai_spsi ai). change (i_I2 (j_r1 i)) with I2. change (i_B0 (j_r1 i)) with (ai_B0 ai).
  change (i_helicity (j_r1 i)) with h. change (i_nfp (j_r1 i)) with (ai_nfp ai). fold p B0 l k N b tau.
  unfold e_r, e_theta. cbn [vx vy vz]. rewrite HN, W1, W2, W3. set (G2' := - (N * I2 + _)).
  apply jet_order4. eapply jet_eq; [jets3|..]; change (a_abs_G0_over_B0 a) with l; unfold vx1, vx2, vy1, vy2, vz2, az1; fold l k tau N; rewrite ?Z1, ?Z2.
  - ring.
  - transitivity (p * B0 * l - a_G0 a * (c1 (X_modes q s j) t * t1 (Y_modes q s j) t - c1 (Y_modes q s j) t * t1 (X_modes q s j) t)); [ring|].
    unfold c1, t1, X_modes, Y_modes. cbn [k1c k1s]. fold x ys yc. transitivity (p * B0 * l - a_G0 a * (x * ys)); [ring [Hcs]|]. rewrite Hxy, HG. ring [Hg].
  - unfold c1, t1, c2, t2, X_modes, Y_modes, Z_modes. cbn [k1c k1s k20 k2s k2c]. fold x ys yc x0 x2s x2c y0 y2s y2c. rewrite C2, S2. subst y2s y2c. rewrite Ys, Yc, HG, E3, E2, E1. field [Hcs Hg Hp]. auto.
  - transitivity (p * B0 * (c2 (dZ_modes a s j) t - l * k * c2 (X_modes q s j) t + N * t2 (Z_modes s j) t)
      - (I2 * ((c1 (dX_modes a q s j) t - l * tau * c1 (Y_modes q s j) t) * c1 (Y_modes q s j) t - (c1 (dY_modes a q s j) t + l * tau * c1 (X_modes q s j) t) * c1 (X_modes q s j) t)
         + a_G0 a * (c1 (X_modes q s j) t * (m * (ys * cos t - yc * sin t)) + 2 * c2 (X_modes q s j) t * t2 (Y_modes q s j) t + 3 * (x * m * cos t) * t1 (Y_modes q s j) t
             - (c1 (Y_modes q s j) t * (- x * m * sin t) + 2 * c2 (Y_modes q s j) t * t2 (X_modes q s j) t + 3 * (m * (yc * cos t + ys * sin t)) * t1 (X_modes q s j) t))
         + G2' * (c1 (X_modes q s j) t * t1 (Y_modes q s j) t - c1 (Y_modes q s j) t * t1 (X_modes q s j) t)) - K); [ring|].
    unfold K. replace (4 * a_G0 a * (g * p) * (lam - m)) with (4 * a_G0 a * (g * p) * lam - 4 * a_G0 a * (g * p) * m) by ring. rewrite HL. fold G2'. clearbody G2'. clear K HL HN EG2 Ys Yc Z1 Z2 Ec E1 E2 E3.
    unfold c1, t1, c2, t2, X_modes, Y_modes, Z_modes, dX_modes, dY_modes, dZ_modes. cbn [k1c k1s k20 k2s k2c].
    fold x ys yc x0 x2s x2c y0 y2s y2c z0 z2s z2c d0 d2s d2c dx dys dyc.
    rewrite <- Hxy, C2, S2. clear - Hcs. field [Hcs].
Qed.

(** The third-order terms of X and Y do not change the components normal and binormal to the axis, up to r^3. *)
Lemma third_transverse i s j z dz w t :
  let d := fun r => vadd (B_contravariant i s j z dz r t) (scal (-1) (B_covariant i s j z dz r t)) in
  order 4 (fun r => vx (third_contravariant i s j z dz w r t) - vx (third_covariant i s j z dz w r t) - vx (d r)) /\
  order 4 (fun r => vy (third_contravariant i s j z dz w r t) - vy (third_covariant i s j z dz w r t) - vy (d r)).
Proof.
  intros d. unfold d, third_contravariant, third_covariant, third_along, flux_derivative, B_contravariant, B_covariant. cbv zeta. unfold vadd, scal, cross. cbn [vx vy vz].
  unfold third_r, third_theta, third_varphi, vadd. cbn [vx vy vz]. cbv zeta. unfold e_r3, e_theta3, e_varphi3, vadd. cbn [vx vy vz].
  set (a := i_axis (j_r1 i)). set (q := r1_diagnostics R_ops R_math (j_r1 i) (j_sigma i) (j_iota i)).
  set (G2' := s_G2 s - _). set (P := IZR (i_spsi (j_r1 i)) * i_B0 (j_r1 i)). set (I := i_I2 (j_r1 i)). unfold e_r, e_theta. cbn [vx vy vz].
  pose proof (zero1 a s j t) as (Z1 & Z2 & _ & _).
  split; apply jet_order4; (eapply jet_eq; [jets3|..]); rewrite ?Z1, ?Z2; ring.
Qed.
