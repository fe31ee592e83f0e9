(** Theorems about the third-order terms of the surfaces (calculate_r2p1). *)
From Coq Require Import String ZArith Reals List Arith Lia Lra Psatz Bool.
From Verif Require Import Base BaseFacts FloatOps MathOps MathFacts Curve Tensor Diff NewtonFacts Helicity HelicityFacts
  Axis AxisSpec AxisFacts R1 R1Spec R1Facts Properties_Axis Properties_R1 R2 R2Spec R2Facts Properties_R2 Jet Order R3Spec Properties_Field R3Facts.
Import ListNotations.
Local Open Scope list_scope. Local Open Scope nat_scope.
Local Open Scope R_scope.

(** C82.  The third-order terms.  They are one and the same multiple of the first-order terms; with them,
    the mean over theta of the component along the axis of the difference between the two forms of the field vanishes at order r^3 (at
    second order, equilibrium_second_order leaves this term), and no other multiple does that.  For every sigma, iota, X20 and Y20, and whatever
    the third-order term of Z is. *)
Theorem third_order_terms : forall ai a h I2 eta_bar sigma0 sigma iota p2 B2s B2c mu0 X20 Y20 j,
  regular ai a h eta_bar -> (j < ai_nphi ai)%nat ->
  let i := r2_config ai a h I2 eta_bar sigma0 sigma iota p2 B2s B2c mu0 in
  let q := r1_diagnostics R_ops R_math (j_r1 i) sigma iota in
  let s := r2_from_solution R_ops R_math i X20 Y20 in
  let u := calculate_r2p1 R_ops R_math i s in
  let multiple := fun w m => x3c w = r_X1c q j * m /\ y3c w = r_Y1c q j * m /\ y3s w = r_Y1s q j * m in
  multiple (reported_terms a u j) (t_lambda u j) /\
  (forall z dz, no_mean_third i s j z dz (reported_terms a u j)) /\
  (forall z dz w m, multiple w m -> no_mean_third i s j z dz w -> m = t_lambda u j).
Proof.
  intros ai a h I2 eta_bar sigma0 sigma iota p2 B2s B2c mu0 X20 Y20 j Hr Hj i q s u multiple.
  assert (HM : multiple (reported_terms a u j) (t_lambda u j)) by (repeat split; reflexivity).
  split; [exact HM|]. split.
  - intros z dz. destruct HM as (W1 & W2 & W3).
    destruct (third_difference ai a h I2 eta_bar sigma0 sigma iota p2 B2s B2c mu0 X20 Y20 j z _ _ Hr Hj W1 W2 W3) as (C & S & H).
    exists C, S. intros t. eapply order_ext; [|exact (H t dz)]. intros r. cbv beta. fold i s u. ring.
  - intros z dz w m (W1 & W2 & W3) (C & S & H).
    destruct (third_difference ai a h I2 eta_bar sigma0 sigma iota p2 B2s B2c mu0 X20 Y20 j z w m Hr Hj W1 W2 W3) as (C' & S' & H').
    fold i s u in H'. destruct (at_point ai a h I2 eta_bar sigma0 sigma iota p2 B2s B2c mu0 j Hr Hj) as (Hg & Hp & Hl & _ & HG & _).
    set (K := 4 * a_G0 a * (IZR (ai_sG ai) * IZR (ai_spsi ai)) * (t_lambda u j - m)) in *.
    assert (HK : forall t, K + (C' - C) * cos (2 * t) + (S' - S) * sin (2 * t) = 0).
    { intros t. specialize (H t). specialize (H' t dz).
      apply (order_unique 3 _ (fun r => 0)).
      - eapply order_ext; [|exact (order_sub _ _ _ H' H)]. intros r. cbv beta. ring.
      - exists []. intros r. cbn. ring. }
    pose proof (HK 0) as K0. pose proof (HK (PI / 2)) as K1. replace (2 * 0) with 0 in K0 by ring. replace (2 * (PI / 2)) with PI in K1 by field.
    rewrite cos_0, sin_0 in K0. rewrite cos_PI, sin_PI in K1. assert (KZ : K = 0) by lra. unfold K in KZ.
    assert (HB : ai_B0 ai <> 0) by (apply (reg_B0 _ _ _ _ Hr)).
    assert (Hg0 : IZR (ai_sG ai) <> 0) by (intros Q; rewrite Q in Hg; lra). assert (Hp0 : IZR (ai_spsi ai) <> 0) by (intros Q; rewrite Q in Hp; lra).
    rewrite HG in KZ. apply Rmult_integral in KZ. destruct KZ as [KZ|]; [|lra]. exfalso. revert KZ.
    repeat apply Rmult_integral_contrapositive_currified; auto; lra.
Qed.
Print Assumptions third_order_terms.


(** C83.  The Jacobian at third order.  At a grid point where the second-order equations hold (as in equilibrium_second_order), the surfaces with the reported
    third-order terms have the Jacobian of Boozer's coordinates, (G + iota I) / B^2 times the derivative of the flux, up to order r^3
    except for terms in cos 2theta and sin 2theta: the mean over theta is right to this order, with the strength B of the field that the code reports. *)
Theorem jacobian_third_order : forall ai a h I2 eta_bar sigma0 sigma iota p2 B2s B2c mu0 X20 Y20 j,
  regular ai a h eta_bar -> (j < ai_nphi ai)%nat ->
  let i := r2_config ai a h I2 eta_bar sigma0 sigma iota p2 B2s B2c mu0 in
  let q := r1_diagnostics R_ops R_math (j_r1 i) sigma iota in
  let s := r2_from_solution R_ops R_math i X20 Y20 in
  let u := calculate_r2p1 R_ops R_math i s in
  product_rule_at a q sigma j -> sigma_equation (j_r1 i) sigma iota j = 0 -> equation1 i s j -> equation2 i s j ->
  exists z C S, forall t dz,
    order 4 (fun r => third_sqrt_g i s j z dz (reported_terms a u j) r t * field_strength (ai_B0 ai) eta_bar (s_B20 s j) B2s B2c r t ^ 2
      - flux_derivative i r * G_plus_iota_I i s r - r ^ 3 * (C * cos (2 * t) + S * sin (2 * t))).
Proof.
  intros ai a h I2 eta_bar sigma0 sigma iota p2 B2s B2c mu0 X20 Y20 j Hr Hj i q s u HP Hsig Heq1 Heq2.
  destruct (at_point ai a h I2 eta_bar sigma0 sigma iota p2 B2s B2c mu0 j Hr Hj) as (Hg & Hp & Hl & Hil & HG & Hk & E1 & E2 & E3 & Ec). fold i in E1, E2, E3, Ec. fold q in E1, E2, E3, Ec.
  destruct (equilibrium_second_order ai a h I2 eta_bar sigma0 sigma iota p2 B2s B2c mu0 X20 Y20 j Hr Hj HP Hsig Heq1 Heq2) as (z & HE).
  destruct (third_order_terms ai a h I2 eta_bar sigma0 sigma iota p2 B2s B2c mu0 X20 Y20 j Hr Hj) as ((W1 & W2 & W3) & _ & _).
  destruct (third_difference ai a h I2 eta_bar sigma0 sigma iota p2 B2s B2c mu0 X20 Y20 j z _ _ Hr Hj W1 W2 W3) as (C & S & HZ).
  pose proof (reg_B0 _ _ _ _ Hr) as HB.
  fold i in HE, HZ. fold q in HE. fold s in HE, HZ. fold u in HZ. set (w := reported_terms a u j) in *. clearbody w. clear W1 W2 W3.
  set (g := IZR (ai_sG ai)) in *.
  exists z, (- C * g * ai_B0 ai), (- S * g * ai_B0 ai). intros t dz. specialize (HZ t dz). specialize (HE t dz). cbv zeta in HE. destruct HE as (HEx & HEy & _).
  destruct (third_transverse i s j z dz w t) as (Tx & Ty). cbv zeta in Tx, Ty.
  pose proof (order_add _ _ _ Tx HEx) as Dx. pose proof (order_add _ _ _ Ty HEy) as Dy. clear Tx Ty HEx HEy. cbv beta in Dx, Dy.
  pose proof (field_strength_second_order ai a h I2 eta_bar sigma0 sigma iota p2 B2s B2c mu0 X20 Y20 j t Hr Hj) as FS. cbv zeta in FS. fold i in FS. fold q in FS. fold s in FS.
  set (B := fun r => field_strength (ai_B0 ai) eta_bar (s_B20 s j) B2s B2c r t) in *.
  change (fun r : R => dot (along a q s j r t) (along a q s j r t) * B r ^ 2 - (a_G0 a + r ^ 2 * (s_G2 s + iota * I2)) ^ 2) with
    (fun r => dot (along a q s j r t) (along a q s j r t) * B r ^ 2 - G_plus_iota_I i s r ^ 2) in FS.
  set (Gp := G_plus_iota_I i s) in *. set (dpsi := flux_derivative i).
  set (v := fun r => third_along i s j z dz w r t). set (d := fun r => vadd (third_contravariant i s j z dz w r t) (scal (-1) (third_covariant i s j z dz w r t))).
  set (f := C * cos (2 * t) + S * sin (2 * t)).
  (* orders of the parts *)
  assert (OB : order 0 B) by (eapply jet_order0; apply jet_field).
  assert (OG : order 0 Gp). { exists [a_G0 a; 0; s_G2 s + iota * I2]. intros r. unfold Gp, G_plus_iota_I. change (i_axis (j_r1 i)) with a. change (j_iota i) with iota. change (i_I2 (j_r1 i)) with I2. cbn. ring. }
  assert (OP : order 1 dpsi). { exists [IZR (i_spsi (j_r1 i)) * i_B0 (j_r1 i)]. intros r. unfold dpsi, flux_derivative. cbn. ring. }
  assert (Ox : order 0 (fun r => vx (along a q s j r t))) by (eapply jet_order0; apply jet_along_x).
  assert (Oy : order 0 (fun r => vy (along a q s j r t))) by (eapply jet_order0; apply jet_along_y).
  assert (Oz : order 0 (fun r => vz (along a q s j r t))) by (eapply jet_order0; apply jet_along_z).
  set (c := r_iota_N q) in *. set (l := a_abs_G0_over_B0 a) in *.
  assert (Ev : exists ex ey ez, forall r, vx (v r) = vx (along a q s j r t) + r ^ 3 * ex /\ vy (v r) = vy (along a q s j r t) + r ^ 3 * ey /\ vz (v r) = vz (along a q s j r t) + r ^ 3 * ez).
  { exists (l * a_curvature a j * at3 z t + (dx3c w * cos t - l * a_torsion a j * (y3c w * cos t + y3s w * sin t)) + c * (- x3c w * sin t)).
    exists ((dy3c w * cos t + dy3s w * sin t + l * a_torsion a j * (x3c w * cos t)) + c * (y3s w * cos t - y3c w * sin t)).
    exists (dz t + - l * a_curvature a j * (x3c w * cos t) + c * at3_t z t).
    intros r. unfold v, third_along, third_varphi, third_theta, e_varphi3, e_theta3, along, vadd, scal. cbn [vx vy vz]. cbv zeta. cbn [vx vy vz].
    change (i_axis (j_r1 i)) with a. change (r1_diagnostics R_ops R_math (j_r1 i) (j_sigma i) (j_iota i)) with q. fold c l.
    repeat split; ring. }
  destruct Ev as (ex & ey & ez & Ev).
  assert (Vx : order 0 (fun r => vx (v r))). { eapply order_ext; [intros r; apply (proj1 (Ev r))|]. apply order_add; [auto|]. apply (order_weaken 3); [lia|]. apply order_mul0; [apply order_pow|apply order_const]. }
  assert (Vy : order 0 (fun r => vy (v r))). { eapply order_ext; [intros r; apply (proj1 (proj2 (Ev r)))|]. apply order_add; [auto|]. apply (order_weaken 3); [lia|]. apply order_mul0; [apply order_pow|apply order_const]. }
  assert (Vz : order 0 (fun r => vz (v r))). { eapply order_ext; [intros r; apply (proj2 (proj2 (Ev r)))|]. apply order_add; [auto|]. apply (order_weaken 3); [lia|]. apply order_mul0; [apply order_pow|apply order_const]. }
  assert (Vl : order 1 (fun r => vz (v r) - l)).
  { eapply order_ext with (g := fun r => (vz (along a q s j r t) - l) + r ^ 3 * ez); [intros r; rewrite (proj2 (proj2 (Ev r))); ring|]. apply order_add.
    - destruct (jet_along_z a q s j t) as (lz & Lz). eexists. intros r. rewrite Lz. cbn [poly]. fold l. instantiate (1 := az1 a q s j t :: az2 a q s j t :: 0 :: lz). cbn [poly pow]. ring.
    - apply (order_weaken 3); [lia|]. apply order_mul0; [apply order_pow|apply order_const]. }
  assert (VV : order 3 (fun r => dot (v r) (v r) * B r ^ 2 - Gp r ^ 2)).
  { eapply order_ext with (g := fun r => (dot (along a q s j r t) (along a q s j r t) * B r ^ 2 - Gp r ^ 2)
       + r ^ 3 * ((ex * (vx (v r) + vx (along a q s j r t)) + ey * (vy (v r) + vy (along a q s j r t)) + ez * (vz (v r) + vz (along a q s j r t))) * (B r * B r))).
    { intros r. unfold dot. destruct (Ev r) as (-> & -> & ->). ring. }
    apply order_add; [exact FS|]. apply order_mul0; [apply order_pow|]. apply order_mul0; [|apply order_mul0; auto].
    repeat apply order_add; apply order_scal; apply order_add; auto. }
  assert (Dx' : order 4 (fun r => vx (d r))). { eapply order_ext; [|exact Dx]. intros r. unfold d, vadd, scal. cbn [vx vy vz]. ring. }
  assert (Dy' : order 4 (fun r => vy (d r))). { eapply order_ext; [|exact Dy]. intros r. unfold d, vadd, scal. cbn [vx vy vz]. ring. }
  assert (Dz' : order 4 (fun r => vz (d r) - r ^ 3 * f)). { eapply order_ext; [|exact HZ]. intros r. unfold d, vadd, scal, f. cbn [vx vy vz]. ring. }
  clear Dx Dy HZ FS.
  assert (Key : forall r, Gp r * third_sqrt_g i s j z dz w r t = dpsi r * dot (v r) (v r) - dot (d r) (v r)).
  { intros r. unfold d, v, dpsi, Gp, third_sqrt_g, third_contravariant, third_covariant, third_along. cbv zeta. 
    set (e1 := third_r i s j z w r t). set (e2 := third_theta i s j z w r t). set (e3 := third_varphi i s j z dz w r t).
    unfold G_plus_iota_I. change (r1_diagnostics R_ops R_math (j_r1 i) (j_sigma i) (j_iota i)) with q. fold c. rewrite Ec.
    change (j_iota i) with iota. change (i_helicity (j_r1 i)) with h. change (i_nfp (j_r1 i)) with (ai_nfp ai).
    unfold dot, vadd, scal, cross. cbn [vx vy vz]. ring. }
  set (sg := fun r => third_sqrt_g i s j z dz w r t) in *.
  assert (Osg : order 0 sg).
  { assert (O1 : forall m, order 0 (fun r => at_r m r t)) by (intros m; eapply jet_order0; apply jet_r).
    assert (O2 : forall m, order 0 (fun r => at_t m r t)) by (intros m; eapply jet_order0; apply jet_t).
    assert (Op : forall n k, order 0 (fun r => r ^ n * k)). { intros n k. apply (order_weaken n); [lia|]. apply order_mul0; [apply order_pow|apply order_const]. }
    assert (Op' : forall c n k, order 0 (fun r => c * r ^ n * k)). { intros c0 n k. eapply order_ext with (g := fun r => c0 * (r ^ n * k)); [intros; ring|]. apply order_scal, Op. }
    unfold sg, third_sqrt_g. eapply order_ext with (g := fun r => dot (third_r i s j z w r t) (cross (third_theta i s j z w r t) (vadd (v r) (scal (- c) (third_theta i s j z w r t))))).
    { intros r. unfold v, third_along. change (r1_diagnostics R_ops R_math (j_r1 i) (j_sigma i) (j_iota i)) with q. fold c. unfold dot, cross, vadd, scal. cbn [vx vy vz]. ring. }
    unfold dot, cross, vadd, scal. cbn [vx vy vz].
    assert (A1 : order 0 (fun r => vx (third_r i s j z w r t))). { unfold third_r, e_r3, e_r, vadd. cbn [vx vy vz]. apply order_add; [apply order_add; [auto|apply order_const]|apply Op']. }
    assert (A2 : order 0 (fun r => vy (third_r i s j z w r t))). { unfold third_r, e_r3, e_r, vadd. cbn [vx vy vz]. apply order_add; [apply order_add; [auto|apply order_const]|apply Op']. }
    assert (A3 : order 0 (fun r => vz (third_r i s j z w r t))). { unfold third_r, e_r3, e_r, vadd. cbn [vx vy vz]. apply order_add; [apply order_add; [auto|apply Op']|apply order_const]. }
    assert (A4 : order 0 (fun r => vx (third_theta i s j z w r t))). { unfold third_theta, e_theta3, e_theta, vadd. cbn [vx vy vz]. apply order_add; [apply order_add; [auto|apply order_const]|apply Op]. }
    assert (A5 : order 0 (fun r => vy (third_theta i s j z w r t))). { unfold third_theta, e_theta3, e_theta, vadd. cbn [vx vy vz]. apply order_add; [apply order_add; [auto|apply order_const]|apply Op]. }
    assert (A6 : order 0 (fun r => vz (third_theta i s j z w r t))). { unfold third_theta, e_theta3, e_theta, vadd. cbn [vx vy vz]. apply order_add; [apply order_add; [auto|apply Op]|apply order_const]. }
    repeat first [assumption | apply order_sub | apply order_add | apply order_const | apply order_scal; assumption | apply order_mul0]. }
  set (fr := fun r => sg r * B r ^ 2 - dpsi r * Gp r - r ^ 3 * (- f * g * ai_B0 ai)).
  assert (OB2 : order 0 (fun r => B r ^ 2)) by (eapply order_ext with (g := fun r => B r * B r); [intros; ring|apply order_mul0; auto]).
  assert (Ofr : order 0 fr).
  { unfold fr. apply order_sub; [apply order_sub|].
    - apply order_mul0; auto.
    - apply order_mul0; [|auto]. apply (order_weaken 1); [lia|auto].
    - apply (order_weaken 3); [lia|]. apply order_mul0; [apply order_pow|apply order_const]. }
  assert (Main : order 4 (fun r => Gp r * fr r)).
  { eapply order_ext with (g := fun r => dpsi r * (dot (v r) (v r) * B r ^ 2 - Gp r ^ 2)
       - (vx (d r) * vx (v r) + vy (d r) * vy (v r) + (vz (d r) - r ^ 3 * f) * vz (v r)) * B r ^ 2
       - r ^ 3 * (f * (vz (v r) - l) * B r ^ 2) - r ^ 3 * (f * l * (B r ^ 2 - ai_B0 ai ^ 2)) + r ^ 3 * (f * g * ai_B0 ai * (Gp r - a_G0 a))).
    { intros r. unfold fr. transitivity (Gp r * sg r * B r ^ 2 - dpsi r * Gp r ^ 2 + r ^ 3 * (f * g * ai_B0 ai) * Gp r); [ring|]. unfold sg at 1. rewrite Key. unfold dot. rewrite HG. ring [Hg]. }
    assert (H31 : forall k, order 1 k -> order 4 (fun r => r ^ 3 * k r)) by (intros k Hk1; apply (order_mul 3 1); [apply order_pow|auto]).
    assert (B1 : order 1 (fun r => B r - ai_B0 ai)). { eexists. intros r. unfold B, field_strength. instantiate (1 := [ai_B0 ai * eta_bar * cos t; s_B20 s j + B2s * sin (2 * t) + B2c * cos (2 * t)]). cbn. ring. }
    assert (G1 : order 1 (fun r => Gp r - a_G0 a)). { exists [0; s_G2 s + iota * I2]. intros r. unfold Gp, G_plus_iota_I. change (i_axis (j_r1 i)) with a. change (j_iota i) with iota. change (i_I2 (j_r1 i)) with I2. cbn. ring. }
    apply order_add; [apply order_sub; [apply order_sub; [apply order_sub|]|]|].
    - apply (order_mul 1 3); auto.
    - apply order_mul0; [|auto]. repeat apply order_add; apply order_mul0; auto.
    - apply H31. apply order_mul0; [|auto]. apply order_scal; auto.
    - apply H31. apply order_scal. eapply order_ext with (g := fun r => (B r - ai_B0 ai) * (B r + ai_B0 ai)); [intros; ring|]. apply order_mul0; [auto|]. apply order_add; [auto|apply order_const].
    - apply H31. apply order_scal; auto. }
  assert (HG0 : Gp 0 <> 0).
  { unfold Gp, G_plus_iota_I. change (i_axis (j_r1 i)) with a. rewrite HG. rewrite pow_ne_zero by lia. rewrite Rmult_0_l, Rplus_0_r.
    assert (Hg0 : g <> 0) by (intros Q; rewrite Q in Hg; lra). repeat apply Rmult_integral_contrapositive_currified; auto. }
  destruct Ofr as (lf & Ofr). assert (Pf : forall r, fr r = poly lf r) by (intros r; rewrite Ofr; cbn; ring).
  pose proof (order_cancel 4 fr Gp lf Pf OG HG0 Main) as Fin.
  eapply order_ext; [|exact Fin]. intros r. unfold fr, f. fold B Gp dpsi sg. cbv beta. unfold B, sg. ring.
Qed.
Print Assumptions jacobian_third_order.

(** C84.  The reported maxima of third order. *)
Theorem third_order_maxima : forall (i : r2_input R) (s : r2 R),
  let a := i_axis (j_r1 i) in let N := a_nphi a in let D := grid_derivative a in
  let u := calculate_r2p1 R_ops R_math i s in
  (1 <= N)%nat -> let XY := [t_X3c1 u; t_Y3c1 u; t_Y3s1 u] in
  is_largest N (t_grid_max_XY3 u) XY /\ is_largest N (t_grid_max_d_XY3 u) (map D XY) /\ is_largest N (t_grid_max_d2_XY3 u) (map (fun f => D (D f)) XY).
Proof.
  intros i s a N D u HN XY.
  assert (HL : forall f l, is_largest N (max_abs_all R_ops R_math i f l) (f :: l)) by (intros; apply max_abs_all_largest; auto).
  split; [|split]; [exact (HL _ [t_Y3c1 u; t_Y3s1 u])|exact (HL _ [D (t_Y3c1 u); D (t_Y3s1 u)])|exact (HL _ [D (D (t_Y3c1 u)); D (D (t_Y3s1 u))])].
Qed.
Print Assumptions third_order_maxima.

(** The hypotheses are met: the circular axis with a current, of any resolution and with any pressure; here the multiple is not zero in general. *)
Example third_order_example : forall N p2 B2s B2c mu0, (1 <= N)%nat -> exists a h, regular (circle_in N) a h 1 /\ a_nphi a = N /\
  exists X20, let i := r2_config (circle_in N) a h 1 1 0 (fun _ => 0) (1 - IZR h) p2 B2s B2c mu0 in
  let q := r1_diagnostics R_ops R_math (j_r1 i) (fun _ => 0) (1 - IZR h) in
  let s := r2_from_solution R_ops R_math i (fun _ => X20) (fun _ => 0) in
  let u := calculate_r2p1 R_ops R_math i s in
  forall j, (j < N)%nat -> product_rule_at a q (fun _ => 0) j /\ sigma_equation (j_r1 i) (fun _ => 0) (1 - IZR h) j = 0 /\ equation1 i s j /\ equation2 i s j /\
   t_lambda u j = - / 2 * (- / 2 * (1 + mu0 * p2) + 2 * ((B2c - / 2) * (- (B2c - / 2) - / 2 - (3 / 4 - mu0 * p2)) - B2s * B2s) + / 2 * (3 / 4 - mu0 * p2)).
Proof.
  intros N p2 B2s B2c mu0 HN. destruct (circle_solution N p2 B2s B2c mu0 HN) as (a & h & Hr & En & Et & Ek & El & E). exists a, h. split; [exact Hr|]. split; [exact En|].
  exists (3 / 4 - mu0 * p2). cbv zeta in *. destruct E as (E1 & E2 & DC & EV & E3). intros j Hj.
  destruct (E3 j Hj) as (P1 & P2 & P3 & P4). split; [exact P1|]. split; [exact P2|]. split; [exact P3|]. split; [exact P4|].
  destruct (EV j Hj) as (X1 & Y1 & Y2 & Z0 & Zs & Zc & Xs & Xc & Ys & Yc).
  destruct (at_point _ a h 1 1 0 (fun _ => 0) (1 - IZR h) p2 B2s B2c mu0 j Hr Hj) as (_ & _ & _ & _ & HG & _).
  remember (r2_config (circle_in N) a h 1 1 0 (fun _ => 0) (1 - IZR h) p2 B2s B2c mu0) as i eqn:Ei.
  remember (r1_diagnostics R_ops R_math (j_r1 i) (fun _ => 0) (1 - IZR h)) as q eqn:Eq.
  remember (r2_from_solution R_ops R_math i (fun _ => 3 / 4 - mu0 * p2) (fun _ => 0)) as s eqn:Es.
  assert (EL : t_lambda (calculate_r2p1 R_ops R_math i s) j = - (1 / 2) / (IZR 1) *
     (IZR (- 1) * 1 * a_abs_G0_over_B0 a / (2 * a_G0 a * a_G0 a) * (r_iota_N q * 1 + mu0 * p2 * a_G0 a / (1 * 1))
      + 2 * (s_X2c s j * s_Y2s s j - s_X2s s j * s_Y2c s j)
      + IZR 1 * 1 / (2 * a_G0 a) * (a_abs_G0_over_B0 a * s_X20 s j * a_curvature a j - grid_derivative a (s_Z20 s) j)
      + 1 / (4 * a_G0 a) * (- a_abs_G0_over_B0 a * a_torsion a j * (r_X1c q j * r_X1c q j + r_Y1s q j * r_Y1s q j + r_Y1c q j * r_Y1c q j)
        + r_Y1c q j * grid_derivative a (r_X1c q) j - r_X1c q j * grid_derivative a (r_Y1c q) j)))
    by (rewrite Eq, Ei; reflexivity).
  assert (E20 : s_X20 s j = 3 / 4 - mu0 * p2) by (rewrite Es; reflexivity).
  rewrite EL, El, Ek, Et, E1, E20, Xs, Xc, Ys, Yc.
  rewrite (DC (s_Z20 s) 0), (DC (r_X1c q) 1), (DC (r_Y1c q) 0), HG, El; auto; try (intros k Hk; destruct (EV k Hk) as (A1 & A2 & A3 & A4 & _); assumption).
  change (ai_sG (circle_in N)) with 1%Z. change (ai_B0 (circle_in N)) with 1. field.
Qed.
