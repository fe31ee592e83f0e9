(** Theorems about the first-order calculation: the solve for sigma and iota, the shape of the flux surfaces,
    the gradient of the magnetic field. *)
From Coq Require Import String ZArith Reals List Arith Lia Lra Psatz.
From Verif Require Import Base BaseFacts FloatOps MathOps MathFacts Curve Newton NewtonSpec NewtonFacts Helicity HelicityFacts
  Axis AxisSpec AxisFacts R1 R1Spec R1Facts R1Stale Properties_Axis.
From Verif Require Scan ScanSpec.
Import ListNotations.
Local Open Scope list_scope. Local Open Scope nat_scope.
Local Open Scope R_scope.

(** C16.  The residual at every grid point is that of the equation for sigma, and the matrix that is computed after it is the
    derivative of the residual: for every state, direction [d] and grid point [j], the derivative
    of the residual when the state moves along [d] is the row [j] of the matrix times [d]. *)
Theorem sigma_jacobian_is_derivative : forall (i : r1_input R) (s : list R) (u : sigma_user R),
  let N := a_nphi (i_axis i) in (1 <= N)%nat -> length s = N ->
  exists res u' jac,
    sigma_eq_residual R_ops R_math i s u = Ok (res, u') /\ sigma_eq_jacobian R_ops R_math i s u' = Ok (jac, u') /\
    length res = N /\ (forall j, (j < N)%nat -> nth j res 0 = sigma_equation i (state_sigma i s) (state_iota s) j) /\
    forall d, length d = N ->
      exists rest : R -> list R,
        (forall t, exists u1 ut, sigma_eq_residual R_ops R_math i (line s d t) u1 = Ok (rest t, ut)) /\
        forall j, (j < N)%nat -> derivable_pt_lim (fun t => nth j (rest t) 0) 0 (rsum N (fun k => jac j k * nth k d 0)).
Proof.
  intros i s u N HN Ls. assert (Hs : s <> []) by (destruct s; [cbn in Ls; lia|congruence]).
  destruct (jacobian_eq i s 0 (fun _ => 0) Hs HN) as (jac & Ej & _).
  exists (map (sigma_equation i (state_sigma i s) (state_iota s)) (seq 0 N)), (mkSigmaUser (i_sigma0 i :: tl s) (state_iota s)), jac.
  split; [apply residual_eq; auto|]. split; [exact Ej|]. split; [rewrite map_length, seq_length; reflexivity|].
  assert (Hnth : forall f j, (j < N)%nat -> nth j (map f (seq 0 N)) 0 = f j).
  { intros f j Hj. rewrite (nth_indep _ 0 (f 0%nat)) by (rewrite map_length, seq_length; auto). rewrite map_nth, seq_nth by auto. reflexivity. }
  split; [intros; apply Hnth; auto|].
  intros d Ld. assert (L : length s = length d) by congruence.
  exists (fun t => map (sigma_equation i (state_sigma i (line s d t)) (state_iota (line s d t))) (seq 0 N)). split.
  - intros t. exists u. eexists. apply residual_eq. intros E. apply (f_equal (@length R)) in E. rewrite line_length in E by auto. cbn in E. lia.
  - intros j Hj. destruct (jacobian_eq i s j (fun k => nth k d 0) Hs Hj) as (jac' & Ej' & E). rewrite Ej in Ej'. injection Ej' as <-.
    fold N in E. rewrite E. eapply dlim_ext; [|apply sigma_equation_deriv; auto].
    intros t. cbv beta. rewrite Hnth by auto. reflexivity.
Qed.
Print Assumptions sigma_jacobian_is_derivative.

(** The Jacobian uses what the last evaluation of the residual left behind.  In every solve, in any arithmetic, this
    is as good as evaluating the residual at the state first. *)
Theorem sigma_jacobian_fresh : forall {F} (o : fops F) (mo : mops F) (i : r1_input F) ls mn ml tol u,
  solve_sigma_equation o mo i ls mn ml tol u =
  (do state <- aset (repeat (i_sigma0 i) (a_nphi (i_axis i))) 0 (fzero o);
   newton_solve o (sigma_eq_residual o mo i)
     (fun s u => do ru <- sigma_eq_residual o mo i s u; sigma_eq_jacobian o mo i s (snd ru)) ls state u mn ml tol).
Proof.
  intros. unfold solve_sigma_equation. destruct (aset _ _ _) as [st| |]; auto. cbn [bind].
  apply newton_solve_fresh; [reflexivity|]. intros s u0 m u' H. unfold sigma_eq_jacobian in H. injection H as _ <-. reflexivity.
Qed.
Print Assumptions sigma_jacobian_fresh.

(** C17.  What the object holds after the solve.  Unless the line search failed, iota is the first element
    of the state, sigma the others, with sigma0 at the first grid point.  On convergence they solve the equation for sigma, the
    sum of the squares of the residuals being below the square of the tolerance. *)
Theorem sigma_solution : forall (i : r1_input R) ls mn ml tol u st s r u',
  let N := a_nphi (i_axis i) in (1 <= N)%nat ->
  solve_sigma_equation R_ops R_math i ls mn ml tol u = Ok (st, s, r, u') ->
  length s = N /\
  (st <> NEWTON_LINESEARCH_FAILED ->
    u_iota u' = nth 0 s 0 /\ length (u_sigma u') = N /\ nth 0 (u_sigma u') 0 = i_sigma0 i /\
    (forall j, (1 <= j < N)%nat -> nth j (u_sigma u') 0 = nth j s 0) /\
    length r = N /\ forall j, (j < N)%nat -> nth j r 0 = sigma_equation i (fun k => nth k (u_sigma u') 0) (u_iota u') j) /\
  (st = NEWTON_CONVERGED ->
    rsum N (fun j => sigma_equation i (fun k => nth k (u_sigma u') 0) (u_iota u') j ^ 2) < tol * tol).
Proof.
  intros i ls mn ml tol u st s r u' N HN H. unfold solve_sigma_equation in H. fold N in H.
  destruct (aset (repeat (i_sigma0 i) N) 0 (fzero R_ops)) as [s0| |] eqn:E0; try discriminate. cbn [bind] in H.
  assert (L0 : length s0 = N).
  { unfold aset in E0. destruct (Nat.ltb 0 (length (repeat (i_sigma0 i) N))); [|discriminate]. injection E0 as <-. rewrite upd_length. apply repeat_length. }
  destruct (newton_solve_user R_ops (sigma_eq_residual R_ops R_math i) (sigma_eq_jacobian R_ops R_math i) ls (fun _ _ _ => eq_refl)
    (fun s0 u0 m u1 (E : Ok _ = Ok (m, u1)) => eq_sym (f_equal (fun x => match x with Ok (_, y) => y | _ => u0 end) E)) s0 u mn ml tol st s r u' H) as (Ls & Hu & Hc).
  rewrite L0 in Ls. split; [exact Ls|].
  assert (Hs : s <> []) by (destruct s; [cbn in Ls; lia|congruence]).
  assert (Hnth : forall f j, (j < N)%nat -> nth j (map f (seq 0 N)) 0 = f j).
  { intros f j Hj. rewrite (nth_indep _ 0 (f 0%nat)) by (rewrite map_length, seq_length; auto). rewrite map_nth, seq_nth by auto. reflexivity. }
  assert (Hsig : forall k, nth k (i_sigma0 i :: tl s) 0 = state_sigma i s k).
  { intros k. unfold state_sigma. destruct s as [|x s]; [congruence|]. destruct k; reflexivity. }
  assert (Hext : forall io j, sigma_equation i (fun k => nth k (i_sigma0 i :: tl s) 0) io j = sigma_equation i (state_sigma i s) io j).
  { intros io j. unfold sigma_equation. cbv zeta. rewrite Hsig. do 2 f_equal. apply rsum_ext. intros k _. rewrite Hsig. reflexivity. }
  assert (P : st <> NEWTON_LINESEARCH_FAILED -> u' = mkSigmaUser (i_sigma0 i :: tl s) (state_iota s) /\ r = map (sigma_equation i (state_sigma i s) (state_iota s)) (seq 0 N)).
  { intros Hst. specialize (Hu Hst). rewrite residual_eq in Hu by auto. fold N in Hu. split; congruence. }
  split.
  - intros Hst. destruct (P Hst) as (-> & ->). cbn [u_iota u_sigma]. split; [reflexivity|]. split; [|split; [reflexivity|split; [|split]]].
    + destruct s; [congruence|]. cbn [length tl] in *. exact Ls.
    + intros j Hj. rewrite Hsig. unfold state_sigma. destruct j; [lia|]. reflexivity.
    + rewrite map_length, seq_length. reflexivity.
    + intros j Hj. rewrite Hnth by auto. symmetry. apply Hext.
  - intros Hst. specialize (Hc Hst). destruct P as (-> & ->); [congruence|]. cbn [u_iota u_sigma].
    apply Rltb_true in Hc. cbn [R_ops fmul] in Hc. eapply Rle_lt_trans; [|exact Hc]. apply Req_le.
    assert (Ef : forall n f k, fold_left (fun s x => fadd R_ops s (fmul R_ops x x)) (map f (seq k n)) 0 = rsum n (fun j => f (k + j)%nat ^ 2)).
    { intros n f. induction n as [|n IH]; intros k; [reflexivity|]. rewrite seq_S, map_app, fold_left_app, IH, rsum_S. cbn [map fold_left R_ops fadd fmul]. ring. }
    unfold norm_sq. cbn [R_ops fzero]. rewrite Ef. apply rsum_ext. intros j Hj. rewrite Hext. reflexivity.
Qed.
Print Assumptions sigma_solution.

Lemma sign_sq z : is_sign z -> IZR z * IZR z = 1.
Proof. intros [-> | ->]; cbn; lra. Qed.

(** C49.  The shape at first order, for every axis, at every grid point where the curvature is not zero:
    X1c Y1s is sG spsi, and the elongation is the ratio of the largest to the smallest radius of the cross section, hence at least 1.
    The reported maximum is the largest value on the grid; the mean lies between 1 and the maximum. *)
Theorem first_order_shape : forall (i : r1_input R) sigma iota, is_sign (i_sG i) -> is_sign (i_spsi i) -> i_eta_bar i <> 0 ->
  let a := i_axis i in let N := a_nphi a in let q := r1_diagnostics R_ops R_math i sigma iota in
  (forall j, a_curvature a j <> 0 ->
     r_X1s q j = 0 /\ r_Y1c q j = r_Y1s q j * sigma j /\ r_X1c q j * r_Y1s q j = IZR (i_sG i) * IZR (i_spsi i) /\
     1 <= r_elongation q j /\
     exists tmax tmin, 0 < radius (ellipse q j tmin) /\
       (forall t, radius (ellipse q j tmin) <= radius (ellipse q j t) <= radius (ellipse q j tmax)) /\
       r_elongation q j = radius (ellipse q j tmax) / radius (ellipse q j tmin)) /\
  ((1 <= N)%nat -> (forall j, (j < N)%nat -> a_curvature a j <> 0) -> (forall j, (j < N)%nat -> 0 < a_d_l_d_phi a j) ->
     (exists j, (j < N)%nat /\ r_grid_max_elongation q = r_elongation q j) /\
     (forall j, (j < N)%nat -> r_elongation q j <= r_grid_max_elongation q) /\
     1 <= r_mean_elongation q <= r_grid_max_elongation q).
Proof.
  intros i sigma iota HsG Hsp He a N q.
  assert (P : forall j, a_curvature a j <> 0 ->
     r_X1s q j = 0 /\ r_Y1c q j = r_Y1s q j * sigma j /\ r_X1c q j * r_Y1s q j = IZR (i_sG i) * IZR (i_spsi i) /\
     1 <= r_elongation q j /\
     exists tmax tmin, 0 < radius (ellipse q j tmin) /\
       (forall t, radius (ellipse q j tmin) <= radius (ellipse q j t) <= radius (ellipse q j tmax)) /\
       r_elongation q j = radius (ellipse q j tmax) / radius (ellipse q j tmin)).
  { intros j Hk. split; [reflexivity|]. split; [reflexivity|].
    assert (E1 : r_X1c q j * r_Y1s q j = IZR (i_sG i) * IZR (i_spsi i)).
    { unfold q, r1_diagnostics. cbn [r_X1c r_Y1s R_ops R_math fmul fdiv m_of_Z]. fold a. rewrite mult_IZR. field. auto. }
    split; [exact E1|].
    set (x := r_X1c q j) in *. set (ys := r_Y1s q j) in *. set (yc := r_Y1c q j).
    assert (Exy : (x * ys) * (x * ys) = 1).
    { rewrite E1. replace _ with ((IZR (i_sG i) * IZR (i_sG i)) * (IZR (i_spsi i) * IZR (i_spsi i))) by ring. rewrite !sign_sq by auto. ring. }
    assert (Hxy : x * ys <> 0) by (intros Z; rewrite Z in Exy; lra).
    destruct (ellipse_extremes (x * x + yc * yc) (yc * ys) (ys * ys) (x * ys)) as (Hm & Hp & Hle & tmax & tmin & H1 & H2 & H3); [nra|nra|ring|exact Hxy|].
    cbv zeta in *. set (p := x * x + yc * yc + ys * ys) in *. set (S := sqrt (p * p - 4 * (x * ys) * (x * ys))) in *.
    assert (Er : forall t, radius (ellipse q j t) = sqrt ((x * x + yc * yc) * (cos t * cos t) + 2 * (yc * ys) * (cos t * sin t) + ys * ys * (sin t * sin t))).
    { intros t. unfold radius, ellipse. cbn [fst snd]. f_equal. change (r_X1s q j) with 0. fold x yc ys. ring. }
    assert (Ee : r_elongation q j = ((p + S) / 2) / Rabs (x * ys)).
    { transitivity ((0 * 0 + x * x + ys * ys + yc * yc + sqrt ((0 * 0 + x * x + ys * ys + yc * yc) * (0 * 0 + x * x + ys * ys + yc * yc) - 4 * (0 * yc - x * ys) * (0 * yc - x * ys))) / (2 * Rabs (0 * yc - x * ys))); [reflexivity|].
      replace (0 * yc - x * ys) with (- (x * ys)) by ring. rewrite Rabs_Ropp.
      replace (0 * 0 + x * x + ys * ys + yc * yc) with p by (unfold p; ring).
      replace (p * p - 4 * - (x * ys) * - (x * ys)) with (p * p - 4 * (x * ys) * (x * ys)) by ring. fold S. field. apply Rabs_no_R0; auto. }
    assert (Ea : Rabs (x * ys) = sqrt ((p - S) / 2) * sqrt ((p + S) / 2)).
    { rewrite <- sqrt_mult by lra. rewrite Hp. symmetry. apply (sqrt_Rsqr_abs (x * ys)). }
    assert (Hm' : 0 < sqrt ((p - S) / 2)) by (apply sqrt_lt_R0; auto).
    assert (HM' : sqrt ((p - S) / 2) <= sqrt ((p + S) / 2)) by (apply sqrt_le_1_alt; auto).
    assert (Eq : r_elongation q j = sqrt ((p + S) / 2) / sqrt ((p - S) / 2)).
    { rewrite Ee, Ea. rewrite <- (sqrt_sqrt ((p + S) / 2)) at 1 by lra. field. split; lra. }
    split.
    - rewrite Eq. apply Rmult_le_reg_r with (sqrt ((p - S) / 2)); [auto|]. unfold Rdiv. rewrite Rmult_assoc, Rinv_l, Rmult_1_r, Rmult_1_l by lra. auto.
    - exists tmax, tmin. rewrite !Er, H1, H2. split; [exact Hm'|]. split; [|exact Eq].
      intros t. rewrite Er. destruct (H3 t). split; apply sqrt_le_1_alt; auto. }
  split; [exact P|]. intros HN Hk Hl.
  assert (Em : r_grid_max_elongation q = fmax R_ops (N - 1) (r_elongation q)) by reflexivity.
  assert (Ee : r_mean_elongation q = arc_mean N (a_d_l_d_phi a) (r_elongation q)) by reflexivity.
  assert (Hmax : forall j, (j < N)%nat -> r_elongation q j <= r_grid_max_elongation q) by (intros; rewrite Em; apply fmax_ge; lia).
  split; [|split; [exact Hmax|]].
  - destruct (fmax_in (N - 1) (r_elongation q)) as (j & Hj & E). exists j. split; [lia|]. rewrite Em. exact E.
  - rewrite Ee. split; [apply arc_mean_ge|apply arc_mean_le]; auto. intros j Hj. apply P. auto.
Qed.
Print Assumptions first_order_shape.

(** The derivative along the field line of a constant is zero. *)
Lemma ddv_const : forall ai a h c j, axis_ok ai -> init_axis R_ops R_math Rge0 ai = Ok (a, h) -> (j < ai_nphi ai)%nat ->
  rsum (ai_nphi ai) (fun k => a_d_d_varphi a j k * c) = 0.
Proof.
  intros ai a h c j Hok E Hj.
  destruct (boozer_derivative ai a h 1 (fun _ => c) (fun _ => 0) Hok E) as (f' & Hd & P); [intros m Hm; destruct Hok; lia|].
  assert (Ef : forall x, Properties_Diff.trig (2 * PI / IZR (ai_nfp ai)) 1 (fun _ => c) (fun _ => 0) x = c).
  { intros x. unfold Properties_Diff.trig. cbn [fsum R_ops fadd fzero INR]. rewrite !Rmult_0_l, cos_0. ring. }
  specialize (P j Hj). rewrite (rsum_ext _ _ (fun k => a_d_d_varphi a j k * c)) in P by (intros; rewrite Ef; reflexivity).
  rewrite P. specialize (Hd (a_phi a j)). assert (f' (a_phi a j) = 0).
  { eapply uniqueness_limite; [exact Hd|]. apply (dlim_ext (fun _ => c)); [intros; rewrite Ef; reflexivity|]. apply derivable_pt_lim_const. }
  rewrite H. unfold Rdiv. ring.
Qed.

(** How far the differentiation matrix is from the product rule, at the grid point [j]: zero when the matrix differentiates
    f, g and f g exactly. *)
Definition product_rule_defect (a : axis R) (f g : nat -> R) (j : nat) : R :=
  let D := fun f => rsum (a_nphi a) (fun k => a_d_d_varphi a j k * f k) in
  D (fun k => f k * g k) - (D f * g j + f j * D g).

(** C58.  The gradient of B on the axis, for every axis and every sigma and iota (indices 0, 1, 2: normal, binormal,
    tangent).  (t,n) and (n,t) are sG B0 curvature and the rest of the tangent row and column is 0.  The trace vanishes but for the error of the
    differentiation matrix in the product X1c Y1s (which is constant).  The difference of (n,b) and (b,n) is 2 sG spsi I2, the current, but for the
    residual of the equation for sigma and the error of the differentiation matrix in the product Y1s sigma. *)
Theorem grad_B_structure : forall ai a h I2 eta_bar sigma0 sigma iota, axis_ok ai -> init_axis R_ops R_math Rge0 ai = Ok (a, h) ->
  is_sign (ai_sG ai) -> is_sign (ai_spsi ai) -> ai_B0 ai <> 0 -> eta_bar <> 0 ->
  (forall j, (j < ai_nphi ai)%nat -> 0 < a_d_l_d_phi a j) -> (forall j, (j < ai_nphi ai)%nat -> a_curvature a j <> 0) ->
  let i := r1_config ai a h I2 eta_bar sigma0 in
  let q := r1_diagnostics R_ops R_math i sigma iota in let g := r_grad_B q in
  let sG := IZR (ai_sG ai) in let spsi := IZR (ai_spsi ai) in
  let factor := spsi * ai_B0 ai / a_abs_G0_over_B0 a in
  forall j, (j < ai_nphi ai)%nat ->
    g j 0%nat 2%nat = sG * ai_B0 ai * a_curvature a j /\ g j 2%nat 0%nat = g j 0%nat 2%nat /\
    g j 1%nat 2%nat = 0 /\ g j 2%nat 1%nat = 0 /\ g j 2%nat 2%nat = 0 /\
    g j 0%nat 0%nat + g j 1%nat 1%nat + g j 2%nat 2%nat = - factor * product_rule_defect a (r_X1c q) (r_Y1s q) j /\
    g j 0%nat 1%nat - g j 1%nat 0%nat = 2 * sG * spsi * I2
      + factor * r_Y1s q j * (r_Y1s q j * sigma_equation i sigma iota j + product_rule_defect a (r_Y1s q) sigma j) /\
    r_L_grad_B q j = ai_B0 ai * sqrt (2 / rsum 3 (fun r => rsum 3 (fun c => g j r c ^ 2))) /\
    r_L_grad_B_inverse q j = 1 / r_L_grad_B q j.
Proof.
  intros ai a h I2 eta_bar sigma0 sigma iota Hok E HsG Hsp HB He Hl Hk i q g sG spsi factor j Hj.
  assert (EN : a_nphi a = ai_nphi ai).
  { destruct (init_axis_eq R_ops R_math Rge0 ai Hok) as (d & s & _ & _ & E'). cbv zeta in E'. rewrite E in E'. injection E' as -> _. reflexivity. }
  destruct (arclength ai a h Hok E Hl) as (_ & _ & HG & EG & _).
  set (l := a_abs_G0_over_B0 a) in *. assert (Hlp : l <> 0) by (intros Z; rewrite Z in HG; lra).
  pose proof (sign_sq _ HsG) as S1. pose proof (sign_sq _ Hsp) as S2. fold sG in S1, EG. fold spsi in S2.
  pose proof (Hk j Hj) as Hkj. set (kap := a_curvature a j) in *.
  assert (Ex : r_X1c q j = eta_bar / kap) by reflexivity.
  assert (Ey : r_Y1s q j = sG * spsi / eta_bar * kap) by (unfold sG, spsi; rewrite <- mult_IZR; reflexivity).
  set (D := fun f : nat -> R => rsum (a_nphi a) (fun k => a_d_d_varphi a j k * f k)).
  set (x := r_X1c q j) in *. set (ys := r_Y1s q j) in *.
  set (ioN := iota + IZR (h * ai_nfp ai)).
  assert (Enn : g j 0%nat 0%nat = factor * (D (r_X1c q) * ys + ioN * x * (ys * sigma j))) by reflexivity.
  assert (Ebb : g j 1%nat 1%nat = factor * (x * D (r_Y1s q) - ioN * x * (ys * sigma j))) by reflexivity.
  assert (Enb : g j 0%nat 1%nat = factor * (D (fun k => r_Y1s q k * sigma k) * ys - D (r_Y1s q) * (ys * sigma j) + IZR (ai_sG ai * ai_spsi ai) * l * a_torsion a j + ioN * (ys * ys + ys * sigma j * (ys * sigma j)))) by reflexivity.
  assert (Ebn : g j 1%nat 0%nat = factor * (IZR (- ai_sG ai * ai_spsi ai) * l * a_torsion a j - ioN * x * x)) by reflexivity.
  rewrite mult_IZR in Enb, Ebn. rewrite opp_IZR in Ebn. fold sG spsi in Enb, Ebn.
  split; [reflexivity|]. split; [reflexivity|]. split; [reflexivity|]. split; [reflexivity|]. split; [reflexivity|].
  split; [|split; [|split; [|reflexivity]]].
  - rewrite Enn, Ebb. change (g j 2%nat 2%nat) with 0.
    unfold product_rule_defect. fold x ys.
    assert (Z : rsum (a_nphi a) (fun k => a_d_d_varphi a j k * (r_X1c q k * r_Y1s q k)) = 0).
    { assert (Z : forall k, (k < a_nphi a)%nat -> r_X1c q k * r_Y1s q k = sG * spsi).
      { intros k Hk'. apply (first_order_shape i sigma iota); auto. cbn [i r1_config i_axis]. rewrite EN in Hk'. auto. }
      rewrite (rsum_ext _ _ (fun k => a_d_d_varphi a j k * (sG * spsi))) by (intros; rewrite Z; auto).
      rewrite EN. apply (ddv_const ai a h); auto. }
    cbv zeta. rewrite Z. change (rsum (a_nphi a) (fun k => a_d_d_varphi a j k * r_X1c q k)) with (D (r_X1c q)).
    change (rsum (a_nphi a) (fun k => a_d_d_varphi a j k * r_Y1s q k)) with (D (r_Y1s q)). ring.
  - rewrite Enb, Ebn. unfold product_rule_defect, sigma_equation. cbv zeta. cbn [i r1_config i_axis i_eta_bar i_helicity i_nfp i_I2 i_B0 i_spsi]. fold spsi ys kap.
    change (rsum (a_nphi a) (fun k => a_d_d_varphi a j k * (r_Y1s q k * sigma k))) with (D (fun k => r_Y1s q k * sigma k)).
    change (rsum (a_nphi a) (fun k => a_d_d_varphi a j k * r_Y1s q k)) with (D (r_Y1s q)).
    change (rsum (a_nphi a) (fun k => a_d_d_varphi a j k * sigma k)) with (D sigma).
    rewrite <- mult_IZR. fold ioN. rewrite EG.
    set (dys := D (r_Y1s q)). set (dyc := D (fun k => r_Y1s q k * sigma k)). set (ds := D sigma). clearbody dys dyc ds ioN.
    assert (Exy : x * ys = sG * spsi) by (rewrite Ex, Ey; field; auto). unfold factor. rewrite <- Ex.
    assert (Hxx : x * x * (ys * ys) = 1).
    { replace (x * x * (ys * ys)) with ((x * ys) * (x * ys)) by ring. rewrite Exy. replace (sG * spsi * (sG * spsi)) with ((sG * sG) * (spsi * spsi)) by ring. rewrite S1, S2. ring. }
    set (tau := a_torsion a j). set (sj := sigma j).
    replace (spsi * ai_B0 ai / l * ys * (ys * (ds + ioN * (x ^ 4 + 1 + sj ^ 2) - 2 * x ^ 2 * (I2 / ai_B0 ai - spsi * tau) * (sG * l * ai_B0 ai / ai_B0 ai)) + (dyc - (dys * sj + ys * ds))))
      with (spsi * ai_B0 ai / l * (ioN * (x * x * (x * x * (ys * ys))) + ioN * (ys * ys) * (1 + sj * sj) - 2 * (x * x * (ys * ys)) * (I2 / ai_B0 ai - spsi * tau) * (sG * l) + dyc * ys - dys * sj * ys)) by (field; auto).
    rewrite Hxx. transitivity (spsi * ai_B0 ai / l * (ioN * (x * x * 1) + ioN * (ys * ys) * (1 + sj * sj) + 2 * spsi * tau * (sG * l) + dyc * ys - dys * sj * ys)); field; auto.
  - change (r_L_grad_B q j) with (ai_B0 ai * sqrt (2 / (g j 2%nat 0%nat * g j 2%nat 0%nat + g j 0%nat 2%nat * g j 0%nat 2%nat + g j 1%nat 1%nat * g j 1%nat 1%nat + g j 0%nat 0%nat * g j 0%nat 0%nat + g j 1%nat 0%nat * g j 1%nat 0%nat + g j 0%nat 1%nat * g j 0%nat 1%nat))).
    do 3 f_equal. cbn [fsum R_ops fadd fzero].
    change (g j 1%nat 2%nat) with 0. change (g j 2%nat 1%nat) with 0. change (g j 2%nat 2%nat) with 0. ring.
Qed.
Print Assumptions grad_B_structure.

(** When the equation for sigma is solved, there is no current, and the differentiation matrix satisfies the product rule for
    X1c Y1s and Y1s sigma, the gradient is symmetric and has no trace, as it must for a field with no curl and no divergence. *)
Theorem grad_B_symmetric_traceless : forall ai a h eta_bar sigma0 sigma iota, axis_ok ai -> init_axis R_ops R_math Rge0 ai = Ok (a, h) ->
  is_sign (ai_sG ai) -> is_sign (ai_spsi ai) -> ai_B0 ai <> 0 -> eta_bar <> 0 ->
  (forall j, (j < ai_nphi ai)%nat -> 0 < a_d_l_d_phi a j) -> (forall j, (j < ai_nphi ai)%nat -> a_curvature a j <> 0) ->
  let i := r1_config ai a h 0 eta_bar sigma0 in
  let q := r1_diagnostics R_ops R_math i sigma iota in let g := r_grad_B q in
  forall j, (j < ai_nphi ai)%nat -> sigma_equation i sigma iota j = 0 ->
  product_rule_defect a (r_X1c q) (r_Y1s q) j = 0 -> product_rule_defect a (r_Y1s q) sigma j = 0 ->
  (forall r c, g j r c = g j c r) /\ g j 0%nat 0%nat + g j 1%nat 1%nat + g j 2%nat 2%nat = 0.
Proof.
  intros ai a h eta_bar sigma0 sigma iota Hok E HsG Hsp HB He Hl Hk i q g j Hj Hres D1 D2.
  destruct (grad_B_structure ai a h 0 eta_bar sigma0 sigma iota Hok E HsG Hsp HB He Hl Hk j Hj) as (E02 & E20 & E12 & E21 & E22 & Et & Ea & _).
  fold i q g in E02, E20, E12, E21, E22, Et, Ea. rewrite D1 in Et. rewrite D2, Hres in Ea. split; [|rewrite Et; ring].
  assert (E01 : g j 0%nat 1%nat = g j 1%nat 0%nat) by lra.
  intros [|[|[|r]]] [|[|[|c]]]; auto.
Qed.
Print Assumptions grad_B_symmetric_traceless.

(** The scale length of grad B is at most the radius of curvature. *)
Theorem L_grad_B_le_radius_of_curvature : forall (i : r1_input R) sigma iota j, is_sign (i_sG i) -> 0 < a_curvature (i_axis i) j ->
  r_L_grad_B (r1_diagnostics R_ops R_math i sigma iota) j <= 1 / a_curvature (i_axis i) j.
Proof.
  intros i sigma iota j Hs Hk. set (q := r1_diagnostics R_ops R_math i sigma iota). set (g := r_grad_B q j). set (kap := a_curvature (i_axis i) j) in *.
  change (r_L_grad_B q j) with (i_B0 i * sqrt (2 / (g 2%nat 0%nat * g 2%nat 0%nat + g 0%nat 2%nat * g 0%nat 2%nat + g 1%nat 1%nat * g 1%nat 1%nat + g 0%nat 0%nat * g 0%nat 0%nat + g 1%nat 0%nat * g 1%nat 0%nat + g 0%nat 1%nat * g 0%nat 1%nat))).
  assert (E : g 2%nat 0%nat * g 2%nat 0%nat = i_B0 i * i_B0 i * (kap * kap)).
  { change (g 2%nat 0%nat) with (IZR (i_sG i) * i_B0 i * kap). pose proof (sign_sq _ Hs). transitivity ((IZR (i_sG i) * IZR (i_sG i)) * (i_B0 i * i_B0 i * (kap * kap))); [ring|]. rewrite H. ring. }
  change (g 0%nat 2%nat) with (g 2%nat 0%nat). rewrite E.
  set (rest := g 1%nat 1%nat * g 1%nat 1%nat). assert (0 <= rest) by (unfold rest; nra).
  set (r2 := g 0%nat 0%nat * g 0%nat 0%nat). assert (0 <= r2) by (unfold r2; nra).
  set (r3 := g 1%nat 0%nat * g 1%nat 0%nat). assert (0 <= r3) by (unfold r3; nra).
  set (r4 := g 0%nat 1%nat * g 0%nat 1%nat). assert (0 <= r4) by (unfold r4; nra).
  assert (Hr : 0 < 1 / kap) by (apply Rdiv_lt_0_compat; lra).
  destruct (Rle_lt_dec (i_B0 i) 0) as [HB|HB].
  { apply Rle_trans with 0; [|lra]. pose proof (sqrt_pos (2 / (i_B0 i * i_B0 i * (kap * kap) + i_B0 i * i_B0 i * (kap * kap) + rest + r2 + r3 + r4))). nra. }
  assert (HB2 : 0 < i_B0 i * i_B0 i * (kap * kap)) by (repeat apply Rmult_lt_0_compat; lra).
  apply Rle_trans with (i_B0 i * sqrt ((1 / (i_B0 i * kap)) * (1 / (i_B0 i * kap)))).
  - apply Rmult_le_compat_l; [lra|]. apply sqrt_le_1_alt.
    replace ((1 / (i_B0 i * kap)) * (1 / (i_B0 i * kap))) with (2 / (2 * (i_B0 i * i_B0 i * (kap * kap)))) by (field; lra).
    unfold Rdiv. apply Rmult_le_compat_l; [lra|]. apply Rinv_le_contravar; lra.
  - rewrite sqrt_square. { apply Req_le. field. lra. }
    apply Rlt_le, Rdiv_lt_0_compat; [lra|]. apply Rmult_lt_0_compat; lra.
Qed.
Print Assumptions L_grad_B_le_radius_of_curvature.

(** C30.  A configuration that the cheap filter on the curvature of the axis rejects (counter 5 of the random scan) would have been rejected by the filter
    on grad B (counter 8), whatever the solution for sigma and iota. *)
Theorem curvature_filter_sound : forall ai a h I2 eta_bar sigma0 sigma iota {X} (cfg : Scan.settings) (q q' : @Scan.qsc R X),
  axis_ok ai -> init_axis R_ops R_math Rge0 ai = Ok (a, h) -> is_sign (ai_sG ai) -> 0 < a_grid_max_curvature a ->
  Scan.q_grid_max_curvature q = a_grid_max_curvature a ->
  Scan.q_grid_min_L_grad_B q' = r_grid_min_L_grad_B (r1_diagnostics R_ops R_math (r1_config ai a h I2 eta_bar sigma0) sigma iota) ->
  ScanSpec.violates R_ops Rabs cfg 5 q -> ScanSpec.violates R_ops Rabs cfg 8 q'.
Proof.
  intros ai a h I2 eta_bar sigma0 sigma iota X cfg q q' Hok E Hs Hm Eq Eq' (K & V). split; [exact K|].
  rewrite Eq' in *. rewrite Eq in V. cbn [R_ops fdiv fone flt] in *. apply Rltb_true in V. apply Rltb_true.
  destruct (axis_statistics ai a h Hok E) as (_ & _ & _ & (j & Hj & Ej) & _).
  assert (EN : a_nphi a = ai_nphi ai).
  { destruct (init_axis_eq R_ops R_math Rge0 ai Hok) as (d & s & _ & _ & E'). cbv zeta in E'. rewrite E in E'. injection E' as -> _. reflexivity. }
  eapply Rle_lt_trans; [|exact V]. rewrite Ej in Hm |- *.
  eapply Rle_trans; [|apply (L_grad_B_le_radius_of_curvature (r1_config ai a h I2 eta_bar sigma0) sigma iota j Hs Hm)].
  apply fmin_le. cbn [r1_config i_axis]. lia.
Qed.
Print Assumptions curvature_filter_sound.

(** A plane axis: what init_axis computes at the grid point [j], from R and its derivatives. *)
Lemma plane_axis : forall N nfp c d sG spsi B0, let ai := mkAxisInput N nfp [c; d] [0; 0] [0; 0] [0; 0] sG spsi B0 in axis_ok ai ->
  exists a h D, init_axis R_ops R_math Rge0 ai = Ok (a, h) /\ a_nphi a = N /\
    Diff.differentiation_matrix R_ops R_math N 0 (2 * PI / IZR nfp) = Ok D /\
    (forall j k, a_d_d_varphi a j k = DiffFacts.rentry D j k / (a_B0_over_abs_G0 a * a_d_l_d_phi a j)) /\
    forall j, let f := IZR nfp in let x := f * grid_phi ai j in
      let r := c + d * cos x in let r1 := - d * f * sin x in let r2 := - d * f * f * cos x in
      let l := sqrt (r * r + r1 * r1) in
      let k1 := (- r1 * (r1 * (r + r2)) / (l * l) + (r2 - r)) / (l * l) in
      let k2 := (- r * (r1 * (r + r2)) / (l * l) + 2 * r1) / (l * l) in
      a_torsion a j = 0 /\ a_d_l_d_phi a j = l /\ (l <> 0 -> a_curvature a j = sqrt (k1 * k1 + k2 * k2)).
Proof.
  intros N nfp c d sG spsi B0 ai Hok.
  destruct (init_axis_eq R_ops R_math Rge0 ai Hok) as (D & s & ED & Es & E). cbv zeta in E. eexists _, _, D. split; [exact E|]. clear E.
  split; [reflexivity|]. split; [exact ED|]. split; [reflexivity|]. intros j. cbv zeta.
  destruct (shape_values ai (phi_grid R_ops (d_phi_of R_ops R_math ai)) Hok) as (s' & Es' & P). rewrite Es in Es'. injection Es' as <-.
  cbv zeta in P. specialize (P j). rewrite (phi_value ai j Hok) in P. destruct P as (P1 & P2 & P3 & P4 & P5 & P6 & P7 & P8).
  unfold tp3, tp2, tp1, tp, cf in *. cbn [ai ai_nfp ai_R0c ai_R0s ai_Z0c ai_Z0s length fsum R_ops fadd fzero nth INR] in *.
  fold ai in P1, P2, P3, P4, P5, P6, P7, P8. set (p := grid_phi ai j) in *. set (f := IZR nfp) in *.
  replace (0 * f * p) with 0 in * by ring. replace (1 * f * p) with (f * p) in * by ring. rewrite cos_0, sin_0 in *.
  set (co := cos (f * p)) in *. set (si := sin (f * p)) in *.
  assert (Z4 : s_Zp s j = 0) by (rewrite P4; ring). assert (Z6 : s_Zpp s j = 0) by (rewrite P6; ring). assert (Z8 : s_Zppp s j = 0) by (rewrite P8; ring).
  assert (E1 : s_R s j = c + d * co) by (rewrite P1; ring). assert (E3 : s_Rp s j = - d * f * si) by (rewrite P3; ring). assert (E5 : s_Rpp s j = - d * f * f * co) by (rewrite P5; ring).
  clear P1 P2 P3 P4 P5 P6 P8.
  assert (El : a_d_l_d_phi (frenet R_ops R_math ai D (phi_grid R_ops (d_phi_of R_ops R_math ai)) s) j = sqrt ((c + d * co) * (c + d * co) + - d * f * si * (- d * f * si))).
  { cbn [frenet a_d_l_d_phi R_ops R_math fadd fmul m_sqrt]. f_equal. rewrite E1, E3, Z4. ring. }
  split; [|split; [exact El|]].
  - cbn [frenet a_torsion R_ops R_math fadd fsub fmul fdiv fzero]. rewrite Z4, Z6, Z8.
    match goal with |- ?x / ?y = 0 => replace x with 0 by ring end. unfold Rdiv. ring.
  - intros Hl. cbn [frenet a_curvature R_ops R_math fadd fsub fmul fdiv fopp ftwo m_sqrt].
    replace (s_R s j * s_R s j + s_Rp s j * s_Rp s j + s_Zp s j * s_Zp s j) with ((c + d * co) * (c + d * co) + - d * f * si * (- d * f * si)) by (rewrite E1, E3, Z4; ring).
    set (l := sqrt _) in *. f_equal. rewrite E1, E3, E5, Z4, Z6. set (r := c + d * co). set (r1 := - d * f * si). set (r2 := - d * f * f * co).
    field. exact Hl.
Qed.

(** The curvature of the bent axis below at an angle with cosine -1/2. *)
Lemma bent_point co si : co = - / 2 -> si * si = 3 / 4 ->
  let r := 1 + / 10 * co in let r1 := - / 10 * 1 * si in let r2 := - / 10 * 1 * 1 * co in
  let l := sqrt (r * r + r1 * r1) in
  let k1 := (- r1 * (r1 * (r + r2)) / (l * l) + (r2 - r)) / (l * l) in
  let k2 := (- r * (r1 * (r + r2)) / (l * l) + 2 * r1) / (l * l) in
  l = sqrt (91 / 100) /\ 0 < l /\ k1 * k1 + k2 * k2 = 756900 / 753571.
Proof.
  intros Hc Hs r r1 r2 l k1 k2. subst co.
  assert (E1 : r1 * r1 = 3 / 400) by (unfold r1; replace (- / 10 * 1 * si * (- / 10 * 1 * si)) with (si * si / 100) by field; rewrite Hs; field).
  assert (El : r * r + r1 * r1 = 91 / 100) by (rewrite E1; unfold r; field).
  assert (E : l = sqrt (91 / 100)) by (unfold l; rewrite El; reflexivity).
  assert (Hl : l * l = 91 / 100) by (rewrite E; apply sqrt_sqrt; lra).
  split; [exact E|]. split; [rewrite E; apply sqrt_lt_R0; lra|]. unfold k1, k2. rewrite Hl.
  replace (- r1 * (r1 * (r + r2))) with (- (r1 * r1) * (r + r2)) by ring. rewrite E1.
  replace ((- r * (r1 * (r + r2)) / (91 / 100) + 2 * r1) / (91 / 100) * ((- r * (r1 * (r + r2)) / (91 / 100) + 2 * r1) / (91 / 100)))
    with ((r1 * r1) * ((- r * (r + r2) / (91 / 100) + 2) / (91 / 100)) * ((- r * (r + r2) / (91 / 100) + 2) / (91 / 100))) by field.
  rewrite E1. unfold r, r2. field.
Qed.
(** The bent plane axis R = 1 + cos(phi)/10 on three grid points. *)
Definition bent : axis_input R := mkAxisInput 3 1 [1; / 10] [0; 0] [0; 0] [0; 0] 1 1 1.
Lemma bent_ok : axis_ok bent. Proof. constructor; cbn; lia || auto. Qed.
Lemma bent_values : exists a h z, init_axis R_ops R_math Rge0 bent = Ok (a, h) /\ a_nphi a = 3%nat /\ z <> 0 /\
  (forall j k, (j < 3)%nat -> (k < 3)%nat -> a_d_d_varphi a j k = match j, k with
     | 0%nat, 1%nat => - z | 0%nat, 2%nat => z | 1%nat, 0%nat => z | 1%nat, 2%nat => - z | 2%nat, 0%nat => - z | 2%nat, 1%nat => z | _, _ => 0 end / (a_B0_over_abs_G0 a * a_d_l_d_phi a j)) /\
  (forall j, a_torsion a j = 0) /\ (forall j, (j < 3)%nat -> 0 < a_d_l_d_phi a j) /\
  a_d_l_d_phi a 2%nat = a_d_l_d_phi a 1%nat /\
  a_curvature a 0%nat = sqrt (14400 / 14641) /\ a_curvature a 1%nat = sqrt (756900 / 753571) /\ a_curvature a 2%nat = a_curvature a 1%nat.
Proof.
  destruct (plane_axis 3 1 1 (/ 10) 1 1 1 bent_ok) as (a & h & D & E & En & ED & Ev & P). exists a, h, (DiffFacts.coef 3 1).
  split; [exact E|]. split; [exact En|].
  assert (S3 : 0 < sin (1 * PI / 3)) by (apply sin_gt_0; pose proof PI_RGT_0; lra).
  split.
  { unfold DiffFacts.coef. cbn [INR Nat.even pow]. replace (1 * PI / (1 + 1 + 1)) with (1 * PI / 3) by field. unfold Rdiv at 1.
    apply Rmult_integral_contrapositive; split; [lra|]. apply Rinv_neq_0_compat. lra. }
  assert (HDe : forall j k, (j < 3)%nat -> (k < 3)%nat -> DiffFacts.rentry D j k = if (k <? j)%nat then DiffFacts.coef 3 (j - k) else - DiffFacts.coef 3 (k - j)).
  { destruct (DiffFacts.matrix_ok R_ops R_math 3 0 (2 * PI / 1) ltac:(lia)) as (D' & ED' & _ & V). change (IZR 1) with 1 in ED. assert (D' = D) by congruence. subst D'.
    intros j k Hj Hk. change (DiffFacts.rentry D j k) with (DiffFacts.entry R_ops D j k). rewrite V by auto. unfold DiffFacts.scaled.
    assert (Sc : forall d, (d < 3)%nat -> fmul R_ops (fdiv R_ops (fmul R_ops (ftwo R_ops) (m_pi R_math)) (fsub R_ops (2 * PI / 1) 0)) (DiffFacts.signed R_ops R_math 3 d) = DiffFacts.coef 3 d).
    { intros d Hd. rewrite DiffFacts.signed_value by auto. cbn [R_ops R_math fmul fdiv fsub ftwo m_pi]. field. apply PI_neq0. }
    destruct (k <? j)%nat; rewrite Sc by lia; reflexivity. }
  assert (C2 : DiffFacts.coef 3 2 = - DiffFacts.coef 3 1) by (apply (DiffFacts.coef_reflect 3 1); lia).
  split.
  { intros j k Hj Hk. rewrite Ev. f_equal. rewrite HDe by auto.
    destruct j as [|[|[|j]]]; [| | |lia]; (destruct k as [|[|[|k]]]; [| | |lia]); cbn [Nat.ltb Nat.leb Nat.sub]; rewrite ?DiffFacts.coef_0, ?C2; ring. }
  split; [intros j; apply P|].
  assert (X0 : 1 * grid_phi bent 0 = 0) by (unfold grid_phi; cbn; lra).
  assert (X1 : 1 * grid_phi bent 1 = 2 * (PI / 3)) by (unfold grid_phi; cbn; lra).
  assert (X2 : 1 * grid_phi bent 2 = - (2 * (PI / 3)) + 2 * PI) by (unfold grid_phi; cbn; lra).
  pose proof (P 0%nat) as P0. pose proof (P 1%nat) as P1. pose proof (P 2%nat) as P2. cbv zeta in P0, P1, P2.
  change (mkAxisInput 3 1 [1; / 10] [0; 0] [0; 0] [0; 0] 1 1 1) with bent in P0, P1, P2. change (IZR 1) with 1 in P0, P1, P2. rewrite X0, cos_0, sin_0 in P0. rewrite X1, cos_2PI3, sin_2PI3 in P1.
  assert (Hc : cos (- (2 * (PI / 3)) + 2 * PI) = - / 2) by (rewrite cos_plus, cos_2PI, sin_2PI, cos_neg, cos_2PI3; lra).
  assert (Hs : sin (- (2 * (PI / 3)) + 2 * PI) = - (sqrt 3 / 2)) by (rewrite sin_plus, cos_2PI, sin_2PI, sin_neg, sin_2PI3; lra).
  rewrite X2, Hc, Hs in P2.
  assert (Q3 : sqrt 3 / 2 * (sqrt 3 / 2) = 3 / 4) by (replace (sqrt 3 / 2 * (sqrt 3 / 2)) with (sqrt 3 * sqrt 3 / 4) by field; rewrite sqrt_sqrt by lra; reflexivity).
  destruct (bent_point (-1 / 2) (sqrt 3 / 2)) as (L1 & L1p & K1); [lra|exact Q3|]. cbv zeta in L1, L1p, K1.
  destruct (bent_point (- / 2) (- (sqrt 3 / 2))) as (L2 & L2p & K2); [lra|lra|]. cbv zeta in L2, L2p, K2.
  destruct P1 as (_ & D1 & Q1). rewrite K1 in Q1. destruct P2 as (_ & D2 & Q2). rewrite K2 in Q2.
  assert (L0 : sqrt ((1 + / 10 * 1) * (1 + / 10 * 1) + - / 10 * 1 * 0 * (- / 10 * 1 * 0)) = 11 / 10).
  { replace ((1 + / 10 * 1) * (1 + / 10 * 1) + - / 10 * 1 * 0 * (- / 10 * 1 * 0)) with (11 / 10 * (11 / 10)) by field. apply sqrt_square. lra. }
  destruct P0 as (_ & D0 & Q0). rewrite L0 in D0, Q0.
  split. { intros [|[|[|j]]] Hj; [rewrite D0; lra|rewrite D1; exact L1p|rewrite D2; exact L2p|lia]. }
  split; [rewrite D1, D2, L1, L2; reflexivity|].
  split. { rewrite Q0 by lra. f_equal. field. }
  rewrite Q2, Q1 by lra. split; reflexivity.
Qed.

(** C17, the exit on which it does not hold: when the line search fails, the state goes back to where the step started but iota and sigma of the object stay at
    the last trial.  With the default numbers of iterations (12 and 4), an exact linear solver and any tolerance, on the bent axis with a large enough current. *)
Theorem sigma_object_matches_state_refuted : forall tol u, exists a h I2 s r u',
  init_axis R_ops R_math Rge0 bent = Ok (a, h) /\
  solve_sigma_equation R_ops R_math (r1_config bent a h I2 1 0) cramer3 12 4 tol u = Ok (NEWTON_LINESEARCH_FAILED, s, r, u') /\
  u_iota u' <> nth 0 s 0 /\ nth 1 (u_sigma u') 0 <> nth 1 s 0.
Proof.
  intros tol u. destruct bent_values as (a & h & z & E & En & Hz & HD & Ht & Hl & E21 & K0 & K1 & K2).
  destruct (arclength bent a h bent_ok E) as (_ & _ & HG & EG & _); [exact Hl|].
  set (b := a_B0_over_abs_G0 a) in *.
  assert (HA : a_abs_G0_over_B0 a = rsum 3 (a_d_l_d_phi a) / INR 3) by (apply (arclength bent a h bent_ok E); exact Hl).
  assert (Hsum : 0 < rsum 3 (a_d_l_d_phi a)) by (apply rsum_pos; [lia|exact Hl]).
  assert (HI : 0 < INR 3) by (apply lt_0_INR; lia).
  assert (Hap : 0 < a_abs_G0_over_B0 a) by (rewrite HA; apply Rdiv_lt_0_compat; auto).
  assert (Hb : 0 < b). { assert (0 < b * a_abs_G0_over_B0 a) by lra. destruct (Rle_lt_dec b 0); [exfalso; nra|auto]. }
  assert (Hg : 0 < a_G0 a) by (rewrite EG; cbn [bent ai_sG ai_B0]; lra).
  pose proof (Hl 0%nat ltac:(cbn; lia)) as H0. pose proof (Hl 1%nat ltac:(cbn; lia)) as H1.
  assert (HD' : forall j k, (j < 3)%nat -> (k < 3)%nat -> a_d_d_varphi a j k =
    match j, k with 0%nat, 1%nat => - (z / (b * a_d_l_d_phi a 0%nat)) | 0%nat, 2%nat => z / (b * a_d_l_d_phi a 0%nat) | 1%nat, 0%nat => z / (b * a_d_l_d_phi a 1%nat)
      | 1%nat, 2%nat => - (z / (b * a_d_l_d_phi a 1%nat)) | 2%nat, 0%nat => - (z / (b * a_d_l_d_phi a 1%nat)) | 2%nat, 1%nat => z / (b * a_d_l_d_phi a 1%nat) | _, _ => 0 end).
  { intros j k Hj Hk. rewrite HD by auto. destruct j as [|[|[|j]]]; [| | |lia]; (destruct k as [|[|[|k]]]; [| | |lia]); rewrite ?E21; unfold Rdiv; ring. }
  assert (Hw1 : z / (b * a_d_l_d_phi a 1%nat) <> 0).
  { unfold Rdiv. apply Rmult_integral_contrapositive; split; [auto|]. apply Rinv_neq_0_compat. apply Rgt_not_eq, Rmult_lt_0_compat; auto. }
  assert (Hw : 0 < z / (b * a_d_l_d_phi a 0%nat) / (z / (b * a_d_l_d_phi a 1%nat))).
  { replace (z / (b * a_d_l_d_phi a 0%nat) / (z / (b * a_d_l_d_phi a 1%nat))) with (a_d_l_d_phi a 1%nat / a_d_l_d_phi a 0%nat) by (field; repeat split; lra). apply Rdiv_lt_0_compat; auto. }
  assert (Sq : forall x, 0 < x -> (1 / sqrt x) ^ 2 = / x).
  { intros x Hx. replace ((1 / sqrt x) ^ 2) with (/ (sqrt x * sqrt x)). rewrite sqrt_sqrt by lra. reflexivity. field. apply Rgt_not_eq, sqrt_lt_R0. auto. }
  assert (He : (1 / a_curvature a 0%nat) ^ 2 = / (14400 / 14641) /\ (1 / a_curvature a 1%nat) ^ 2 = / (756900 / 753571) /\ (1 / a_curvature a 2%nat) ^ 2 = / (756900 / 753571)).
  { rewrite K2, K0, K1, !Sq by lra. auto. }
  assert (Hpos : 0 < / (14400 / 14641) /\ 0 < / (756900 / 753571)) by (split; apply Rinv_0_lt_compat; lra).
  assert (Hne : / (14400 / 14641) <> / (756900 / 753571)) by (intros C; apply (f_equal Rinv) in C; rewrite !Rinv_inv in C; lra).
  assert (Hne1 : / (14400 / 14641) * / (756900 / 753571) <> 1).
  { intros C. rewrite <- Rinv_mult in C. apply (f_equal Rinv) in C. rewrite Rinv_inv, Rinv_1 in C. lra. }
  destruct (stale_exists a (ai_nfp bent) h (ai_sG bent) (ai_spsi bent) _ _ _ _ _ En HD' Hw Hw1 He Hpos Hne Hne1 Ht eq_refl Hg tol u) as (lam & s & r & u' & Es & N0 & N1).
  exists a, h, lam, s, r, u'. split; [exact E|]. split; [exact Es|]. auto.
Qed.
Print Assumptions sigma_object_matches_state_refuted.

(** A case for the theorems above: on the bent axis, the speed and the curvature are positive. *)
Example first_order_example : exists a h, init_axis R_ops R_math Rge0 bent = Ok (a, h) /\ is_sign (ai_sG bent) /\ is_sign (ai_spsi bent) /\ ai_B0 bent <> 0 /\
  (forall j, (j < ai_nphi bent)%nat -> 0 < a_d_l_d_phi a j) /\ (forall j, (j < ai_nphi bent)%nat -> 0 < a_curvature a j) /\ 0 < a_grid_max_curvature a.
Proof.
  destruct bent_values as (a & h & z & E & En & Hz & HD & Ht & Hl & E21 & K0 & K1 & K2). exists a, h. split; [exact E|].
  split; [left; reflexivity|]. split; [left; reflexivity|]. split; [cbn; lra|]. split; [exact Hl|].
  assert (Hk : forall j, (j < 3)%nat -> 0 < a_curvature a j).
  { intros [|[|[|j]]] Hj; [rewrite K0|rewrite K1|rewrite K2, K1|lia]; apply sqrt_lt_R0; lra. }
  split; [exact Hk|]. destruct (axis_statistics bent a h bent_ok E) as (_ & _ & _ & (j & Hj & ->) & _). apply Hk. exact Hj.
Qed.
(** A case in which the solve converges: a single grid point, whatever the axis. *)
Example sigma_converges : forall (a : axis R) nfp h I2 sigma0 tol u, a_nphi a = 1%nat -> 0 < tol ->
  exists s r u', solve_sigma_equation R_ops R_math (mkR1 a nfp h 1 1 1 I2 1 sigma0)
    (fun m b => Ok (map (fun x => x / m 0%nat 0%nat) b)) 12 4 tol u = Ok (NEWTON_CONVERGED, s, r, u').
Proof.
  intros a nfp h I2 sigma0 tol u Hn Ht. set (i := mkR1 a nfp h 1 1 1 I2 1 sigma0).
  unfold solve_sigma_equation. change (a_nphi (i_axis i)) with (a_nphi a). rewrite Hn. cbn [repeat aset length Nat.ltb Nat.leb upd bind R_ops fzero].
  set (A := (1 / a_curvature a 0%nat) ^ 4 + 1 + sigma0 ^ 2).
  assert (HA : 0 < A). { unfold A. replace ((1 / a_curvature a 0%nat) ^ 4) with (((1 / a_curvature a 0%nat) ^ 2) * ((1 / a_curvature a 0%nat) ^ 2)) by ring. nra. }
  assert (Er : exists K, forall x v, sigma_eq_residual R_ops R_math i [x] v = Ok ([A * x + K], mkSigmaUser [sigma0] x)).
  { eexists. intros x v. rewrite residual_eq by discriminate. change (a_nphi (i_axis i)) with (a_nphi a). rewrite Hn. cbn [seq map tl]. do 3 f_equal.
    unfold sigma_equation. cbv zeta. change (a_nphi (i_axis i)) with (a_nphi a). rewrite Hn. change (state_iota [x]) with x.
    change (state_sigma i [x] 0%nat) with sigma0. cbn [i i_axis i_eta_bar i_helicity i_nfp i_I2 i_B0 i_spsi]. fold A.
    replace (rsum 1 _) with (a_d_d_varphi a 0%nat 0%nat * sigma0) by (rewrite rsum_S; change (rsum 0 _) with 0; change (state_sigma i [x] 0%nat) with sigma0; ring).
    match goal with |- ?X + (x + ?N) * A - ?E = _ => transitivity (A * x + (X + N * A - E)); [ring|] end. reflexivity. }
  destruct Er as (K & Er). unfold newton_solve. rewrite Er. cbn [bind fst snd]. rewrite dot_self. cbn [bind].
  change (Z.to_nat 12) with 12%nat. change (Z.to_nat 4) with 4%nat. cbn [newton_loop n_norm n_state n_user n_residual].
  unfold norm_sq. cbn [fold_left R_ops fadd fmul fzero flt].
  destruct (Rltb (0 + (A * 0 + K) * (A * 0 + K)) (tol * tol)) eqn:E0; [cbn [bind fst snd]; eauto|].
  cbn [sigma_eq_jacobian bind fst snd map u_sigma u_iota Nat.eqb]. set (m := fadd _ _ _).
  assert (Em : m = A).
  { unfold m, etabar2, at_. cbn [R_ops fadd fmul fdiv fone fzero nth i i_axis i_eta_bar]. unfold A, Rdiv. rewrite Rinv_mult. ring. }
  rewrite Em. cbn [linesearch axpy length Nat.eqb combine map fst snd bind R_ops fadd fmul fone fopp].
  set (x := 0 + 1 * (- (A * 0 + K) / A)). rewrite Er. cbn [bind fst snd]. rewrite dot_self. cbn [bind].
  assert (Ex : A * x + K = 0) by (unfold x; field; lra). rewrite Ex. unfold norm_sq. cbn [fold_left R_ops fadd fmul fzero flt].
  apply Rltb_false in E0.
  assert (T : 0 < tol * tol) by (apply Rmult_lt_0_compat; auto).
  assert (E1 : Rltb (0 + 0 * 0) (0 + (A * 0 + K) * (A * 0 + K)) = true) by (apply Rltb_true; lra).
  assert (E2 : Rltb (0 + (A * 0 + K) * (A * 0 + K)) (0 + 0 * 0) = false) by (apply Rltb_false; lra).
  assert (E3 : Rltb (0 + 0 * 0) (tol * tol) = true) by (apply Rltb_true; lra).
  rewrite E1. cbn [bind n_norm]. rewrite E2, E3. cbn [bind fst snd]. eauto.
Qed.
(** The circle: the hypotheses of [grad_B_symmetric_traceless] hold with sigma = 0 and iota = - helicity nfp. *)
Example symmetric_example : exists a h, let ai := mkAxisInput 3 1 [1; 0] [0; 0] [0; 0] [0; 0] 1 1 1 in axis_ok ai /\
  init_axis R_ops R_math Rge0 ai = Ok (a, h) /\ (forall j, a_d_l_d_phi a j = 1) /\ (forall j, a_curvature a j = 1) /\
  let i := r1_config ai a h 0 1 0 in let iota := - (IZR h * 1) in let q := r1_diagnostics R_ops R_math i (fun _ => 0) iota in
  forall j, (j < 3)%nat -> sigma_equation i (fun _ => 0) iota j = 0 /\
    product_rule_defect a (r_X1c q) (r_Y1s q) j = 0 /\ product_rule_defect a (r_Y1s q) (fun _ => 0) j = 0.
Proof.
  assert (Hok : axis_ok (mkAxisInput 3 1 [1; 0] [0; 0] [0; 0] [0; 0] 1 1 1)) by (constructor; cbn; lia || auto).
  destruct (plane_axis 3 1 1 0 1 1 1 Hok) as (a & h & D & E & En & _ & _ & P). exists a, h. cbv zeta. split; [exact Hok|]. split; [exact E|].
  assert (Q : forall j, a_torsion a j = 0 /\ a_d_l_d_phi a j = 1 /\ a_curvature a j = 1).
  { intros j. specialize (P j). cbv zeta in P. change (IZR 1) with 1 in P. set (co := cos _) in P. set (si := sin _) in P.
    replace (1 + 0 * co) with 1 in P by ring. replace (- (0) * 1 * si) with 0 in P by ring. replace (- (0) * 1 * 1 * co) with 0 in P by ring.
    replace (1 * 1 + 0 * 0) with 1 in P by ring. rewrite sqrt_1 in P. destruct P as (P1 & P2 & P3). split; [exact P1|]. split; [exact P2|].
    rewrite P3 by lra. match goal with |- sqrt ?x = 1 => replace x with 1 by field end. apply sqrt_1. }
  split; [apply Q|]. split; [apply Q|]. intros j Hj.
  pose proof (ddv_const _ a h 0 j Hok E Hj) as Z0. pose proof (fun c => ddv_const _ a h c j Hok E Hj) as Z. cbn [ai_nphi] in Z, Z0.
  split; [|split].
  - unfold sigma_equation. cbv zeta. cbn [r1_config i_axis i_eta_bar i_helicity i_nfp i_I2 i_B0 i_spsi ai_nfp ai_B0 ai_spsi]. rewrite En, Z0.
    rewrite (proj1 (Q j)). unfold Rdiv. ring.
  - unfold product_rule_defect. cbv zeta. rewrite En.
    rewrite (rsum_ext 3 _ (fun k => a_d_d_varphi a j k * (1 / 1 * (1 / 1 * 1)))) by (intros k _; do 2 f_equal; cbn [r1_diagnostics r_X1c r_Y1s R_ops R_math fmul fdiv m_of_Z r1_config i_axis i_eta_bar i_sG i_spsi ai_sG ai_spsi]; rewrite (proj2 (proj2 (Q k))); reflexivity).
    rewrite (rsum_ext 3 (fun k => a_d_d_varphi a j k * r_X1c _ k) (fun k => a_d_d_varphi a j k * (1 / 1))) by (intros k _; f_equal; cbn [r1_diagnostics r_X1c R_ops R_math fmul fdiv m_of_Z r1_config i_axis i_eta_bar]; rewrite (proj2 (proj2 (Q k))); reflexivity).
    rewrite (rsum_ext 3 (fun k => a_d_d_varphi a j k * r_Y1s _ k) (fun k => a_d_d_varphi a j k * (1 / 1 * 1))) by (intros k _; f_equal; cbn [r1_diagnostics r_Y1s R_ops R_math fmul fdiv m_of_Z r1_config i_axis i_eta_bar i_sG i_spsi ai_sG ai_spsi]; rewrite (proj2 (proj2 (Q k))); reflexivity).
    rewrite !Z. ring.
  - unfold product_rule_defect. cbv zeta. rewrite En.
    rewrite (rsum_ext 3 (fun k => a_d_d_varphi a j k * (_ * 0)) (fun k => a_d_d_varphi a j k * 0)) by (intros; ring). rewrite Z0. ring.
Qed.
