(** Theorems about the radius at which the surfaces become singular. *)
From Coq Require Import String ZArith Reals List Arith Lia Lra Psatz Bool.
From Verif Require Import Base BaseFacts FloatOps MathOps MathFacts Curve Tensor Newton Diff NewtonFacts Helicity HelicityFacts
  Axis AxisSpec AxisFacts R1 R1Spec R1Facts Properties_Axis Properties_R1 R2 R2Spec R2Facts Properties_R2 Jet Properties_Field
  RSing RSingSpec RSingFacts.
Import ListNotations.
Local Open Scope list_scope. Local Open Scope nat_scope.
Local Open Scope R_scope.

(** C75.  The five coefficients are those of the Jacobian of the coordinates: sqrt(g) = r J + O(r^4), at every grid point and
    angle, for every sigma, iota, X20 and Y20; the coefficient g0 is not zero. *)
Theorem jacobian_expansion : forall ai a h I2 eta_bar sigma0 sigma iota p2 B2s B2c mu0 X20 Y20 j t,
  regular ai a h eta_bar -> (j < ai_nphi ai)%nat ->
  let i := r2_config ai a h I2 eta_bar sigma0 sigma iota p2 B2s B2c mu0 in
  let q := r1_diagnostics R_ops R_math (j_r1 i) sigma iota in
  let s := r2_from_solution R_ops R_math i X20 Y20 in
  let g := jacobian R_ops R_math i s j in
  order 4 (fun r => sqrt_g a q s j r t - r * J g r t) /\ g0 g <> 0 /\ g1c g = - 2 * eta_bar * g0 g.
Proof.
  intros ai a h I2 eta_bar sigma0 sigma iota p2 B2s B2c mu0 X20 Y20 j t Hr Hj i q s g.
  destruct (at_point ai a h I2 eta_bar sigma0 sigma iota p2 B2s B2c mu0 j Hr Hj) as (Hg & Hp & Hl & Hil & HG & Hk & E1 & E2 & E3 & Ec). fold i in E1, E2, E3, Ec. fold q in E1, E2, E3, Ec.
  destruct (Y2_values ai a h I2 eta_bar sigma0 sigma iota p2 B2s B2c mu0 X20 Y20 j) as (Ys & Yc). fold i in Ys, Yc. fold s in Ys, Yc.
  set (l := a_abs_G0_over_B0 a) in *. pose proof (reg_B0 _ _ _ _ Hr) as HB. pose proof (reg_eta _ _ _ _ Hr) as He.
  set (gg := IZR (ai_sG ai)) in *. set (p := IZR (ai_spsi ai)) in *. set (k := a_curvature a j) in *.
  pose proof (sin_sq t) as Hcs. pose proof (cos2 t) as C2. pose proof (sin2 t) as S2.
  set (tau := a_torsion a j).
  set (x := r_X1c q j) in *. set (ys := r_Y1s q j) in *. set (yc := r_Y1c q j) in *.
  set (x0 := s_X20 s j) in *. set (xs := s_X2s s j) in *. set (xc := s_X2c s j) in *.
  set (y0 := s_Y20 s j) in *. set (y2s := s_Y2s s j) in *. set (y2c := s_Y2c s j) in *.
  set (z0 := s_Z20 s j). set (zs := s_Z2s s j). set (zc := s_Z2c s j).
  set (dx := grid_derivative a (r_X1c q) j). set (dys := grid_derivative a (r_Y1s q) j). set (dyc := grid_derivative a (r_Y1c q) j).
  set (dz0 := grid_derivative a (s_Z20 s) j). set (dzs := grid_derivative a (s_Z2s s) j). set (dzc := grid_derivative a (s_Z2c s) j).
  assert (G0 : g0 g = l * x * ys) by reflexivity.
  assert (G1 : g1c g = l * (-2 * xs * yc + 2 * x0 * ys + 2 * xc * ys + 2 * x * y2s - x * x * ys * k)) by reflexivity.
  assert (G20 : g20 g = -4 * l * xs * y2c + 4 * l * xc * y2s + l * x * xs * yc * k - 2 * l * x * x0 * ys * k - l * x * xc * ys * k - l * x * x * y2s * k
    + 2 * l * yc * ys * zc * tau - l * x * x * zs * tau - l * yc * yc * zs * tau + l * ys * ys * zs * tau - ys * z0 * dx - ys * zc * dx + yc * zs * dx
    - x * zs * dyc - x * z0 * dys + x * zc * dys + x * ys * dz0) by reflexivity.
  assert (G2c : g2c g = -4 * l * xs * y0 + 4 * l * x0 * y2s + l * x * xs * yc * k - l * x * x0 * ys * k - 2 * l * x * xc * ys * k - l * x * x * y2s * k
    + 2 * l * yc * ys * z0 * tau - l * x * x * zs * tau - l * yc * yc * zs * tau - l * ys * ys * zs * tau - ys * z0 * dx - ys * zc * dx + yc * zs * dx
    - x * zs * dyc + x * z0 * dys - x * zc * dys + x * ys * dzc) by reflexivity.
  assert (G2s : g2s g = 4 * l * xc * y0 - 4 * l * x0 * y2c + l * x * x0 * yc * k - l * x * xc * yc * k - 2 * l * x * xs * ys * k - l * x * x * y0 * k + l * x * x * y2c * k
    - l * x * x * z0 * tau - l * yc * yc * z0 * tau + l * ys * ys * z0 * tau + l * x * x * zc * tau + l * yc * yc * zc * tau + l * ys * ys * zc * tau
    + yc * z0 * dx - yc * zc * dx - ys * zs * dx - x * z0 * dyc + x * zc * dyc - x * zs * dys + x * ys * dzs) by reflexivity.
  assert (Hss : (gg * p) * (gg * p) = 1) by (replace (gg * p * (gg * p)) with ((gg * gg) * (p * p)) by ring; rewrite Hg, Hp; ring).
  assert (Hxy : x * ys = gg * p) by (rewrite E1, E2; field; auto).
  split; [|split].
  - apply jet_order4. unfold sqrt_g, dot, cross, e_r, e_theta, J. cbn [vx vy vz]. eapply jet_eq; [jets3|..].
    + ring.
    + rewrite G0. unfold c1, t1, c2, t2, X_modes, Y_modes, Z_modes. cbn [k1c k1s k20 k2s k2c]. fold x ys yc l. ring [Hcs].
    + rewrite G0, G1. unfold vx1, vy1, az1, c1, t1, c2, t2, X_modes, Y_modes, Z_modes. cbn [k1c k1s k20 k2s k2c]. fold l k x ys yc x0 xs xc y0 y2s y2c. rewrite C2, S2.
      rewrite Ys, Yc, E3, E2, E1. field [Hcs Hg Hp]. auto.
    + rewrite G20, G2s, G2c. unfold vx1, vy1, az1, vz2, c1, t1, c2, t2, X_modes, Y_modes, Z_modes, dX_modes, dY_modes, dZ_modes. cbn [k1c k1s k20 k2s k2c].
      fold l k tau x ys yc x0 xs xc y0 y2s y2c z0 zs zc dx dys dyc dz0 dzs dzc. rewrite C2, S2. ring [Hcs].
  - rewrite G0, Rmult_assoc, Hxy. apply Rmult_integral_contrapositive_currified; [auto|]. intros Z. rewrite Z in Hss. lra.
  - rewrite G0, G1. fold y2s in Ys. rewrite Ys, E3, E1, E2. field. auto.
Qed.
Print Assumptions jacobian_expansion.

(** C57.  The matrix given to the eigenvalue routine has as eigenvalues exactly the complex roots of
    c0 x^4 + c1 x^3 + c2 x^2 + c3 x + c4. *)
Theorem quartic_roots_exact : forall k0 k1 k2 k3 k4 x, k0 <> 0 ->
  (eigenvalue 4 (companion R_ops [k0; k1; k2; k3; k4]) x <->
   csum 5 (fun n => cmul (creal (nth n [k0; k1; k2; k3; k4] 0)) (cpow x (4 - n))) = c0).
Proof. intros k0 k1 k2 k3 k4 x H. exact (companion_eigenvalues [k0; k1; k2; k3; k4] x H). Qed.
Print Assumptions quartic_roots_exact.
(** And the routine returns what LAPACK returns, unless LAPACK reports an error. *)
Theorem quartic_roots_returns : forall geev c info re im, geev (companion R_ops c) = (info, (re, im)) ->
  quartic_roots R_ops geev c = if Z.eqb info 0 then Ok (combine re im) else Throw "LAPACK error in *geev".
Proof. intros geev c info re im H. unfold quartic_roots. rewrite H. reflexivity. Qed.
Print Assumptions quartic_roots_returns.
Example quartic_example : eigenvalue 4 (companion R_ops [2; 0; 0; 0; -2]) (0, 1) /\ ~ eigenvalue 4 (companion R_ops [2; 0; 0; 0; -2]) (2, 0).
Proof.
  split; [|intros H]; [apply quartic_roots_exact; [lra|]|apply quartic_roots_exact in H; [|lra]].
  - unfold csum, cmul, cadd, creal, c0, cpow. cbn. unfold cmul. cbn. f_equal; ring.
  - unfold csum, cmul, cadd, creal, c0, cpow in H. cbn in H. unfold cmul in H. cbn in H. injection H as H _. lra.
Qed.

(** ** The radius *)
Lemma r_hats_length geev tol fin i s l : forall x, r_hats R_ops R_math geev tol fin i s l = Ok x -> length x = length l /\
  forall n, (n < length l)%nat -> r_hat R_ops R_math geev tol fin (jacobian R_ops R_math i s (nth n l 0%nat)) = Ok (nth n x 0).
Proof.
  induction l as [|j l IH]; intros x E; cbn [r_hats] in E.
  - injection E as <-. split; [reflexivity|]. cbn. intros; lia.
  - destruct (r_hat _ _ _ _ _ _) as [r| |] eqn:E1; try discriminate E. cbn [bind] in E. destruct (r_hats _ _ _ _ _ _ _ l) as [x'| |] eqn:E2; try discriminate E.
    cbn [bind] in E. injection E as <-. destruct (IH _ eq_refl) as (HL & HN). split; [cbn; congruence|]. intros [|n] Hn; cbn in *; [exact E1|apply HN; lia].
Qed.
Lemma tol_pos single : tol_ok (tolerances_of R_ops R_math single).
Proof.
  unfold tol_ok, tolerances_of. destruct single; cbn [sin2_cos2_1_tol acceptable_residual imag_tol R_ops R_math fdiv fone m_of_Z];
    repeat split; try apply Rlt_le; apply Rdiv_lt_0_compat; try lra; apply IZR_lt; reflexivity.
Qed.
(** The tolerance of the poloidal derivative. *)
Definition residual_tolerance (single : bool) : R := if single then 3 / 1000 else 1 / 100000.

(** C55.  Whatever the eigenvalue routine returns: each value is between 0 and 1e30, and if it is below 1e30 then the Jacobian vanishes at that
    radius, exactly, at an angle where its derivative (divided by r) is below the tolerance.  The radius reported for the whole axis is the smallest of
    the values, and beta is - mu0 p2 r^2 / B0^2, at most 1e30. *)
Theorem singularity_sound : forall geev single i s out,
  let n := a_nphi (i_axis (j_r1 i)) in (1 <= n)%nat ->
  calculate_r_singularity R_ops R_math geev (tolerances_of R_ops R_math single) (fun _ => true) i s = Ok out ->
  length (r_hat_singularity_robust out) = n /\
  (forall j, (j < n)%nat -> let rc := nth j (r_hat_singularity_robust out) 0 in
    0 < rc <= 1e30 /\ r_singularity_robust out <= rc /\
    (rc < 1e30 -> exists t, J (jacobian R_ops R_math i s j) rc t = 0 /\ Rabs (J_t (jacobian R_ops R_math i s j) rc t) < residual_tolerance single * rc)) /\
  (exists j, (j < n)%nat /\ r_singularity_robust out = nth j (r_hat_singularity_robust out) 0) /\
  beta_max out = Rmin 1e30 (- j_mu0 i * j_p2 i * r_singularity_robust out ^ 2 / i_B0 (j_r1 i) ^ 2).
Proof.
  intros geev single i s out n Hn E. unfold calculate_r_singularity in E. cbv zeta in E. fold n in E.
  destruct (r_hats _ _ _ _ _ _ _ _) as [x| |] eqn:Ex; try discriminate E. cbn [bind] in E. injection E as <-. cbn [r_hat_singularity_robust r_singularity_robust beta_max].
  destruct (r_hats_length _ _ _ _ _ _ _ Ex) as (HL & HN). rewrite seq_length in HL, HN.
  assert (Ebig : huge R_math = 1e30) by (unfold huge; cbn [R_math m_of_Z]; lra).
  split; [exact HL|]. split; [|split].
  - intros j Hj. set (rc := nth j x 0). specialize (HN j Hj). rewrite seq_nth in HN by exact Hj. cbn [Nat.add] in HN. fold rc in HN. apply r_hat_sound in HN; [|apply tol_pos].
    destruct HN as (H1 & H2). rewrite Ebig in H1, H2. split; [exact H1|]. split.
    + apply (fmin_le (n - 1) (fun k => nth k x 0) j). lia.
    + intros H. destruct (H2 H) as (t & T1 & T2). exists t. split; [exact T1|]. eapply Rlt_le_trans; [exact T2|]. apply Rmult_le_compat_r; [lra|].
      right. unfold tolerances_of, residual_tolerance. destruct single; cbn [acceptable_residual R_ops R_math fdiv fone m_of_Z]; [change (10 ^ 3)%Z with 1000%Z|change (10 ^ 5)%Z with 100000%Z]; lra.
  - destruct (fmin_in (n - 1) (fun k => nth k x 0)) as (k & Hk & Ek). exists k. split; [lia|exact Ek].
  - set (r := fmin R_ops (n - 1) (fun j => nth j x 0)).
    replace (- j_mu0 i * j_p2 i * r ^ 2 / i_B0 (j_r1 i) ^ 2) with (- j_mu0 i * j_p2 i * r * r / (i_B0 (j_r1 i) * i_B0 (j_r1 i))) by (rewrite <- !Rsqr_pow2; unfold Rsqr, Rdiv; ring).
    set (b := _ / _). unfold Rmin. match goal with |- (if Rltb ?h b then _ else _) = _ => destruct (Rltb h b) eqn:B end; [apply Rltb_true in B|apply Rltb_false in B];
      match goal with |- context [Rle_dec ?h b] => destruct (Rle_dec h b) end; lra.
Qed.
Print Assumptions singularity_sound.
(** In exact arithmetic the search never stops with an error, unless LAPACK does. *)
Theorem singularity_defined : forall geev single i s, (forall m, fst (geev m) = 0%Z) ->
  exists out, calculate_r_singularity R_ops R_math geev (tolerances_of R_ops R_math single) (fun _ => true) i s = Ok out.
Proof.
  intros geev single i s Hi. unfold calculate_r_singularity. cbv zeta. set (l := seq 0 _).
  assert (H : exists x, r_hats R_ops R_math geev (tolerances_of R_ops R_math single) (fun _ => true) i s l = Ok x).
  { induction l as [|j l IH]; cbn [r_hats]; [eexists; reflexivity|].
    destruct (r_hat_ok geev _ (jacobian R_ops R_math i s j) (tol_pos single) Hi) as (rc & -> & _). cbn [bind]. destruct IH as (x & ->). cbn [bind]. eexists. reflexivity. }
  destruct H as (x & ->). cbn [bind]. eexists. reflexivity.
Qed.
Print Assumptions singularity_defined.

(** C56.  If the eigenvalue routine misses no real eigenvalue, no singularity is missed at a grid point that is not degenerate: every radius where the
    Jacobian and its poloidal derivative vanish is at least r_hat; and the Jacobian vanishes nowhere inside r_hat. *)
Theorem no_singularity_missed : forall geev single i s out j,
  let n := a_nphi (i_axis (j_r1 i)) in (j < n)%nat ->
  calculate_r_singularity R_ops R_math geev (tolerances_of R_ops R_math single) (fun _ => true) i s = Ok out ->
  let g := jacobian R_ops R_math i s j in
  finds_real_eigenvalues geev (companion R_ops (coefficients R_ops R_math (scale R_ops (kays_of R_ops R_math g)))) ->
  cos4_term g <> 0 -> (forall r t, singular_at g r t -> regular_point g t) ->
  let rc := nth j (r_hat_singularity_robust out) 0 in
  (forall r t, singular_at g r t -> rc <= r) /\
  (g0 g <> 0 -> forall r t, 0 <= r < rc -> J g r t <> 0).
Proof.
  intros geev single i s out j n Hj E g Hf H4 Hreg rc. unfold calculate_r_singularity in E. cbv zeta in E. fold n in E.
  destruct (r_hats _ _ _ _ _ _ _ _) as [x| |] eqn:Ex; try discriminate E. cbn [bind] in E. injection E as <-. cbn [r_hat_singularity_robust] in rc.
  destruct (r_hats_length _ _ _ _ _ _ _ Ex) as (HL & HN). rewrite seq_length in HL, HN. specialize (HN j Hj). rewrite seq_nth in HN by exact Hj. cbn [Nat.add] in HN. fold rc in HN. fold g in HN.
  assert (C : forall r t, singular_at g r t -> rc <= r).
  { intros r t Hs. exact (r_hat_complete geev _ g rc r t (tol_pos single) HN H4 Hf Hs (Hreg r t Hs)). }
  split; [exact C|]. intros Hg0 r t Hr HJ. destruct (Req_dec r 0) as [-> | Hr0].
  - apply Hg0. rewrite <- HJ. unfold J. ring.
  - destruct (first_singularity g Hg0 r t) as (r' & t' & Hle & Hs); [lra|exact HJ|]. specialize (C r' t' Hs). lra.
Qed.
Print Assumptions no_singularity_missed.

(** ** Examples: surfaces about a circular axis *)
Lemma circle_jacobian : forall N p2 B2s B2c mu0, (1 <= N)%nat -> exists a h, regular (circle_in N) a h 1 /\ a_nphi a = N /\
  let X20 := 3 / 4 - mu0 * p2 in let X2c := B2c - / 2 in let Y2s := - X2c - / 2 - X20 in
  let i := r2_config (circle_in N) a h 1 1 0 (fun _ => 0) (1 - IZR h) p2 B2s B2c mu0 in
  let s := r2_from_solution R_ops R_math i (fun _ => X20) (fun _ => 0) in
  (forall j, (j < N)%nat -> equation1 i s j /\ equation2 i s j) /\
  forall j, (j < N)%nat -> jacobian R_ops R_math i s j =
    mkJac 1 (-2) (-4 * B2s * B2s + 4 * X2c * Y2s - 2 * X20 - X2c - Y2s) (- (4 * X20 + 1) * B2s) (4 * X20 * Y2s - X20 - 2 * X2c - Y2s).
Proof.
  intros N p2 B2s B2c mu0 HN. destruct (circle_solution N p2 B2s B2c mu0 HN) as (a & h & Hr & En & Et & Ek & El & E). exists a, h. split; [exact Hr|]. split; [exact En|].
  intros X20 X2c Y2s i s. cbv zeta in E. fold X20 in E. fold i in E. fold s in E. destruct E as (E1 & E2 & DC & M & Q).
  set (q := r1_diagnostics R_ops R_math (j_r1 i) (fun _ => 0) (1 - IZR h)) in *.
  split; [intros j Hj; apply Q; auto|]. intros j Hj. unfold jacobian. cbv zeta. change (i_axis (j_r1 i)) with a.
  change (r1_diagnostics R_ops R_math (j_r1 i) (j_sigma i) (j_iota i)) with q. change (ddv R_ops (j_r1 i)) with (grid_derivative a).
  change (r_d_X1c q j) with (grid_derivative a (r_X1c q) j). change (r_d_Y1s q j) with (grid_derivative a (r_Y1s q) j). change (r_d_Y1c q j) with (grid_derivative a (r_Y1c q) j).
  rewrite (DC (r_X1c q) 1), (DC (r_Y1s q) 1), (DC (r_Y1c q) 0), (DC (s_Z20 s) 0), (DC (s_Z2s s) 0), (DC (s_Z2c s) 0); auto; try (intros k Hk; apply M; exact Hk).
  destruct (M j Hj) as (-> & -> & -> & -> & -> & -> & -> & -> & -> & ->). rewrite Et, Ek, El. change (s_X20 s j) with X20. change (s_Y20 s j) with 0. fold X2c. fold Y2s.
  cbn [R_ops R_math fadd fsub fmul fopp m_of_Z]. assert (EY : Y2s = - X2c - / 2 - X20) by reflexivity. clearbody X20 X2c Y2s. f_equal; rewrite ?EY; field.
Qed.

(** The full statement of C56 is false: around a circular axis with mu0 p2 = 3/4 and B2c = 1, an exact solution of the equations, the eliminated equation has
    no term in cos 4t (the code divides by zero, gets coefficients that are not finite, and goes on to the next point), and the radius reported is 1e30;
    yet the Jacobian vanishes, with its derivative, at a radius below 1. *)
Theorem no_singularity_missed_refuted : forall N geev single, (1 <= N)%nat -> exists a h out, regular (circle_in N) a h 1 /\
  let i := r2_config (circle_in N) a h 1 1 0 (fun _ => 0) (1 - IZR h) (3 / 4) 0 1 1 in
  let s := r2_from_solution R_ops R_math i (fun _ => 0) (fun _ => 0) in
  calculate_r_singularity R_ops R_math geev (tolerances_of R_ops R_math single) (fun _ => true) i s = Ok out /\
  forall j, (j < N)%nat -> equation1 i s j /\ equation2 i s j /\ nth j (r_hat_singularity_robust out) 0 = 1e30 /\
    exists r t, r < 1 /\ singular_at (jacobian R_ops R_math i s j) r t.
Proof.
  intros N geev single HN. destruct (circle_jacobian N (3 / 4) 0 1 1 HN) as (a & h & Hr & En & H). cbv zeta in H.
  replace (3 / 4 - 1 * (3 / 4)) with 0 in H by lra. set (i := r2_config _ _ _ _ _ _ _ _ _ _ _ _) in H. set (s := r2_from_solution _ _ _ _ _) in H. destruct H as (Q & Hj).
  set (g := mkJac 1 (-2) (- (3 / 2)) 0 0). assert (Eg : forall j, (j < N)%nat -> jacobian R_ops R_math i s j = g) by (intros j H; rewrite Hj by exact H; unfold g; f_equal; lra).
  assert (Erh : r_hat R_ops R_math geev (tolerances_of R_ops R_math single) (fun _ => true) g = Ok (huge R_math)).
  { unfold r_hat. replace (is_zero R_ops (K4c (kays_of R_ops R_math g))) with true; [reflexivity|]. symmetry. unfold is_zero. apply andb_true_intro.
    rewrite kays_cos4. unfold cos4_term. cbn [g g0 g1c g2s g2c R_ops fle fzero]. split; apply Rleb_true; lra. }
  assert (El : forall l, (forall j, In j l -> (j < N)%nat) -> r_hats R_ops R_math geev (tolerances_of R_ops R_math single) (fun _ => true) i s l = Ok (map (fun _ => huge R_math) l)).
  { induction l as [|j l IH]; intros Hl; [reflexivity|]. cbn [r_hats map]. rewrite Eg by (apply Hl; left; reflexivity). rewrite Erh. cbn [bind]. rewrite IH by (intros k Hk; apply Hl; right; exact Hk). reflexivity. }
  assert (D : exists out, calculate_r_singularity R_ops R_math geev (tolerances_of R_ops R_math single) (fun _ => true) i s = Ok out /\ r_hat_singularity_robust out = map (fun _ => huge R_math) (seq 0 N)).
  { unfold calculate_r_singularity. cbv zeta. change (a_nphi (i_axis (j_r1 i))) with (a_nphi a). rewrite En. rewrite El by (intros j H; apply in_seq in H; lia). cbn [bind]. eexists. split; reflexivity. }
  destruct D as (out & D & R). exists a, h, out. split; [exact Hr|]. fold i. cbv zeta. fold s. split; [exact D|]. intros j H. split; [apply Q; auto|]. split; [apply Q; auto|]. split.
  - rewrite R, (nth_indep _ 0 (huge R_math)) by (rewrite map_length, seq_length; exact H). rewrite (map_nth (fun _ => huge R_math) (seq 0 N) 0%nat j). unfold huge. cbn [R_math m_of_Z]. lra.
  - rewrite Eg by exact H. exists ((-2 + sqrt 10) / 3), 0. assert (S1 : 3 < sqrt 10 < 4).
    { split; [rewrite <- (sqrt_square 3) by lra|rewrite <- (sqrt_square 4) by lra]; apply sqrt_lt_1; lra. }
    assert (S2 : sqrt 10 * sqrt 10 = 10) by (apply sqrt_sqrt; lra). split; [lra|]. unfold singular_at, J, J_t. rewrite Rmult_0_r, sin_0, cos_0. cbn [g g0 g1c g20 g2s g2c].
    split; [lra|]. split; [|lra]. set (x := sqrt 10) in *. field [S2].
Qed.
Print Assumptions no_singularity_missed_refuted.

(** And a case to which [no_singularity_missed] applies. *)
Definition geev_example (m : list R) : Z * (list R * list R) := (0%Z, ([0; 0; 0; 0], [0; 0; 1; -1])).
Example no_singularity_missed_example : forall N single, (1 <= N)%nat -> exists a h out, regular (circle_in N) a h 1 /\
  let i := r2_config (circle_in N) a h 1 1 0 (fun _ => 0) (1 - IZR h) 0 0 (1 / 2) 1 in
  let s := r2_from_solution R_ops R_math i (fun _ => 3 / 4) (fun _ => 0) in
  calculate_r_singularity R_ops R_math geev_example (tolerances_of R_ops R_math single) (fun _ => true) i s = Ok out /\
  forall j, (j < N)%nat -> let g := jacobian R_ops R_math i s j in g0 g <> 0 /\ cos4_term g <> 0 /\ (forall r t, singular_at g r t -> regular_point g t) /\
    finds_real_eigenvalues geev_example (companion R_ops (coefficients R_ops R_math (scale R_ops (kays_of R_ops R_math g)))) /\
    0 < nth j (r_hat_singularity_robust out) 0 < 1.
Proof.
  intros N single HN. destruct (circle_jacobian N 0 0 (1 / 2) 1 HN) as (a & h & Hr & En & H). cbv zeta in H.
  replace (3 / 4 - 1 * 0) with (3 / 4) in H by lra. set (i := r2_config _ _ _ _ _ _ _ _ _ _ _ _) in H. set (s := r2_from_solution _ _ _ _ _) in H. destruct H as (Q & Hj).
  set (g := mkJac 1 (-2) (- (1 / 4)) 0 (- (13 / 4))). assert (Eg : forall j, (j < N)%nat -> jacobian R_ops R_math i s j = g) by (intros j H; rewrite Hj by exact H; unfold g; f_equal; lra).
  destruct (singularity_defined geev_example single i s) as (out & D); [reflexivity|]. exists a, h, out. split; [exact Hr|]. fold i. cbv zeta. fold s. split; [exact D|].
  intros j H. rewrite Eg by exact H.
  assert (G0 : g0 g <> 0) by (cbn; lra).
  assert (G4 : cos4_term g <> 0) by (unfold cos4_term; cbn; lra).
  assert (GR : forall r t, singular_at g r t -> regular_point g t).
  { intros r t Hs. pose proof (singular_eliminant g r t Hs) as E. unfold eliminant, D_of, A_of in E. rewrite sin_2a, cos_2a_cos in E.
    cbn [g g0 g1c g20 g2s g2c] in E. assert (F : sin t * sin t * (12 + 195 * (cos t * cos t)) = 0) by (eapply eq_trans; [|exact E]; field).
    assert (F1 : sin t * sin t = 0). { apply Rmult_integral in F. destruct F as [F|F]; [exact F|]. pose proof (Rle_0_sqr (cos t)) as Hq. unfold Rsqr in Hq. lra. }
    pose proof (sin2_cos2 t) as F2. unfold Rsqr in F2. assert (F3 : cos (2 * t) = 1) by (rewrite cos_2a; lra).
    split; [unfold A_of; rewrite F3; cbn; lra|rewrite F3; lra]. }
  assert (GF : finds_real_eigenvalues geev_example (companion R_ops (coefficients R_ops R_math (scale R_ops (kays_of R_ops R_math g))))).
  { exists [0; 0; 0; 0], [0; 0; 1; -1]. split; [reflexivity|]. split; [reflexivity|]. split; [reflexivity|]. intros x Hx. exists 0%nat. split; [lia|]. split; [|reflexivity].
    assert (E1 : kays_of R_ops R_math g = mkK (243 / 2) 0 (-24) 0 (- (195 / 2))) by (unfold kays_of, g; cbn [R_ops R_math fadd fsub fmul m_of_Z]; f_equal; lra).
    assert (E2 : scale R_ops (mkK (243 / 2) 0 (-24) 0 (- (195 / 2))) = mkK (- 243 / 195) 0 (48 / 195) 0 1) by (unfold scale; cbn [K0 K2s K2c K4s K4c R_ops fmul fdiv fone]; f_equal; field).
    assert (Ec : coefficients R_ops R_math (mkK (- 243 / 195) 0 (48 / 195) 0 1) = [4; 0; (48 / 195) * (48 / 195) + 4 * 243 / 195 - 4; 0; 0]).
    { unfold coefficients. cbn [R_ops R_math fadd fsub fmul m_of_Z]. repeat (apply (f_equal2 (@cons R)); [lra|]); reflexivity. }
    rewrite E1, E2 in Hx.
    rewrite Ec in Hx. apply quartic_roots_exact in Hx; [|lra]. unfold csum, cpow, cmul, cadd, creal, c0 in Hx. cbn in Hx. injection Hx as Hx _.
    assert (F : x * x * (4 * (x * x) + ((48 / 195) * (48 / 195) + 4 * 243 / 195 - 4)) = 0) by (eapply eq_trans; [|exact Hx]; field). pose proof (Rle_0_sqr x) as Hq. unfold Rsqr in Hq.
    apply Rmult_integral in F. destruct F as [F|F]; [|lra]. apply Rmult_integral in F. cbn [nth]. destruct F; auto. }
  split; [exact G0|]. split; [exact G4|]. split; [exact GR|]. split; [exact GF|].
  assert (Hn : (j < a_nphi (i_axis (j_r1 i)))%nat) by (change (j < a_nphi a)%nat; lia). split.
  - apply (singularity_sound geev_example single i s out); [lia|exact D|exact Hn].
  - assert (Hs : singular_at g ((-2 + sqrt 18) / 7) 0).
    { assert (S1 : 4 < sqrt 18) by (rewrite <- (sqrt_square 4) by lra; apply sqrt_lt_1; lra). assert (S2 : sqrt 18 * sqrt 18 = 18) by (apply sqrt_sqrt; lra).
      unfold singular_at, J, J_t. rewrite Rmult_0_r, sin_0, cos_0. cbn [g g0 g1c g20 g2s g2c]. split; [lra|]. split; [|lra]. set (x := sqrt 18) in *. field [S2]. }
    assert (S1 : sqrt 18 < 5) by (rewrite <- (sqrt_square 5) by lra; apply sqrt_lt_1; lra).
    rewrite <- (Eg j H) in G4, GR, GF, Hs. destruct (no_singularity_missed geev_example single i s out j Hn D GF G4 GR) as (C & _). specialize (C _ _ Hs). lra.
Qed.
