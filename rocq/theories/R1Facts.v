(** Proofs about [R1]. *)
From Coq Require Import String ZArith Reals List Arith Lia Lra Psatz.
From Verif Require Import Base BaseFacts FloatOps MathOps MathFacts Curve Newton NewtonSpec NewtonFacts Axis R1 R1Spec.
Import ListNotations.
Local Open Scope list_scope. Local Open Scope nat_scope.

(** Callbacks of Newton's method that hand data to each other through the user data: the residual
    function sets it from the state alone, the Jacobian reads it. *)
Section Fresh.
Context {F M U : Type} (o : fops F).
Variable rf : list F -> U -> outcome (list F * U).
Variable jf : list F -> U -> outcome (M * U).
Variable ls : M -> list F -> outcome (list F).
Hypothesis Hrf : forall s u u', rf s u = rf s u'.
Hypothesis Hjf : forall s u m u', jf s u = Ok (m, u') -> u' = u.
(** The Jacobian evaluated at the state, whatever the user data. *)
Definition jf_fresh (s : list F) (u : U) : outcome (M * U) := do ru <- rf s u; jf s (snd ru).
(** The data belong to the state. *)
Definition fresh (s : nst (F:=F) (U:=U)) : Prop :=
  rf (n_state s) (n_user s) = Ok (n_residual s, n_user s) /\ n_norm s = norm_sq o (n_residual s).

Lemma linesearch_fresh n : forall x0 st sc l s s', fresh s -> linesearch o rf n x0 st sc l s = Ok s' -> fresh s' /\ (length (n_state s) = length x0 -> length (n_state s') = length x0).
Proof.
  induction n as [|n IH]; simpl; intros x0 st sc l s s' Hf H.
  - injection H as <-. auto.
  - unfold axpy in H. destruct (length x0 =? length st) eqn:El; [|discriminate]. cbn [bind] in H. apply Nat.eqb_eq in El.
    set (x := map _ _) in H.
    assert (Lx : length x = length x0) by (unfold x; rewrite map_length, combine_length; lia).
    destruct (rf x (n_user s)) as [[r u]| |] eqn:Er; try discriminate. cbn [bind fst snd] in H.
    rewrite dot_self in H. cbn [bind] in H.
    assert (Hf' : fresh (mkNst x r (norm_sq o r) u)).
    { split; cbn; auto. rewrite (Hrf x u (n_user s)). exact Er. }
    destruct (flt o (norm_sq o r) l).
    + injection H as <-. auto.
    + destruct (IH _ _ _ _ _ _ Hf' H) as (A & B). split; auto.
Qed.

Lemma newton_loop_fresh n ml tol : forall s, fresh s ->
  newton_loop o rf jf ls n ml tol s = newton_loop o rf jf_fresh ls n ml tol s.
Proof.
  induction n as [|n IH]; intros s Hf; simpl; auto.
  destruct (flt o (n_norm s) tol); auto.
  unfold jf_fresh. destruct Hf as (E & En). rewrite E. cbn [bind snd].
  destruct (jf (n_state s) (n_user s)) as [[m u]| |] eqn:Ej; auto. cbn [bind fst snd].
  pose proof (Hjf _ _ _ _ Ej) as ->.
  destruct (ls m (map (fopp o) (n_residual s))) as [step| |]; auto. cbn [bind].
  destruct (linesearch _ _ _ _ _ _ _ _) as [s'| |] eqn:El; auto. cbn [bind].
  destruct (flt o (n_norm s) (n_norm s')); auto. apply IH.
  eapply linesearch_fresh; [|exact El]. split; cbn; auto.
Qed.

Lemma newton_loop_user n ml tol : forall s st s', fresh s -> newton_loop o rf jf ls n ml tol s = Ok (st, s') ->
  (st <> NEWTON_LINESEARCH_FAILED -> fresh s') /\ length (n_state s') = length (n_state s)
  /\ (st = NEWTON_CONVERGED -> flt o (n_norm s') tol = true).
Proof.
  induction n as [|n IH]; intros s st s' Hf; simpl; intros H.
  - injection H as <- <-. destruct (flt o (n_norm s) tol) eqn:E; repeat split; auto; try discriminate; apply Hf.
  - destruct (flt o (n_norm s) tol) eqn:E.
    + injection H as <- <-. repeat split; auto; apply Hf.
    + destruct (jf (n_state s) (n_user s)) as [[m u]| |] eqn:Ej; try discriminate. cbn [bind fst snd] in H.
      pose proof (Hjf _ _ _ _ Ej) as ->.
      destruct (ls m (map (fopp o) (n_residual s))) as [step| |]; try discriminate. cbn [bind] in H.
      destruct (linesearch _ _ _ _ _ _ _ _) as [s1| |] eqn:El; try discriminate. cbn [bind] in H.
      assert (Hf0 : fresh (mkNst (n_state s) (n_residual s) (n_norm s) (n_user s))) by (split; cbn; apply Hf).
      destruct (linesearch_fresh _ _ _ _ _ _ _ Hf0 El) as (Hf1 & L1).
      destruct (flt o (n_norm s) (n_norm s1)).
      * injection H as <- <-. repeat split; cbn; auto; congruence.
      * destruct (IH _ _ _ Hf1 H) as (A & B & C). repeat split; auto; [apply A; auto..|]. rewrite B. auto.
Qed.

Lemma newton_solve_user s0 u0 mn ml tol st s r u :
  newton_solve o rf jf ls s0 u0 mn ml tol = Ok (st, s, r, u) ->
  length s = length s0 /\
  (st <> NEWTON_LINESEARCH_FAILED -> rf s u = Ok (r, u)) /\
  (st = NEWTON_CONVERGED -> flt o (norm_sq o r) (fmul o tol tol) = true).
Proof.
  unfold newton_solve. intros H. destruct (rf s0 u0) as [[r0 u1]| |] eqn:Er; try discriminate. cbn [bind fst snd] in H.
  rewrite dot_self in H. cbn [bind] in H.
  assert (Hf : fresh (mkNst s0 r0 (norm_sq o r0) u1)). { split; cbn; auto. rewrite (Hrf s0 u1 u0). exact Er. }
  destruct (newton_loop _ _ _ _ _ _ _ _) as [[st' s']| |] eqn:El; try discriminate. cbn [bind fst snd] in H.
  injection H as <- <- <- <-. destruct (newton_loop_user _ _ _ _ _ _ Hf El) as (A & B & C).
  split; [exact B|]. split; [intros Hs; apply A; exact Hs|]. intros Hs. destruct A as (_ & <-); [congruence|]. apply C; auto.
Qed.
Lemma newton_solve_fresh s0 u0 mn ml tol :
  newton_solve o rf jf ls s0 u0 mn ml tol = newton_solve o rf jf_fresh ls s0 u0 mn ml tol.
Proof.
  unfold newton_solve. destruct (rf s0 u0) as [[r0 u1]| |] eqn:Er; auto. cbn [bind fst snd]. rewrite dot_self. cbn [bind].
  rewrite newton_loop_fresh; auto. split; cbn; auto. rewrite (Hrf s0 u1 u0). exact Er.
Qed.
End Fresh.

Local Open Scope R_scope.
(** The residual is the equation for sigma. *)
Lemma residual_eq (i : r1_input R) (s : list R) (u : sigma_user R) : s <> [] ->
  sigma_eq_residual R_ops R_math i s u =
  Ok (map (sigma_equation i (state_sigma i s) (state_iota s)) (seq 0 (a_nphi (i_axis i))),
      mkSigmaUser (i_sigma0 i :: tl s) (state_iota s)).
Proof.
  intros Hs. destruct s as [|x s]; [congruence|]. unfold sigma_eq_residual, aset, aget. cbn [length Nat.ltb Nat.leb upd nth_error bind tl].
  do 2 f_equal. apply map_ext. intros j. unfold sigma_equation, ddv, iota_N_of, etabar2, at_, state_sigma, state_iota.
  assert (Es : forall k, nth k (i_sigma0 i :: s) 0 = if (k =? 0)%nat then i_sigma0 i else nth k (x :: s) 0) by (intros [|k]; reflexivity).
  change (nth 0 (x :: s) 0) with x.
  rewrite (rsum_ext (a_nphi (i_axis i)) (fun k => fmul R_ops (a_d_d_varphi (i_axis i) j k) _) (fun k => a_d_d_varphi (i_axis i) j k * (if (k =? 0)%nat then i_sigma0 i else nth k (x :: s) 0))).
  2: { intros k _. cbn [R_ops fmul fzero]. rewrite Es. reflexivity. }
  cbn [R_ops R_math fadd fsub fmul fdiv fone ftwo fzero m_of_Z]. rewrite Es, mult_IZR, opp_IZR. cbv zeta.
  unfold Rdiv. rewrite !Rinv_mult. ring.
Qed.

(** The state moved along a line. *)
Definition line (s d : list R) (t : R) : list R := map (fun p => fst p + t * snd p) (combine s d).
Lemma line_nth s d t k : length s = length d -> nth k (line s d t) 0 = nth k s 0 + t * nth k d 0.
Proof.
  intros L. unfold line. revert d k L. induction s as [|x s IH]; intros [|y d] k L; cbn in L; try discriminate.
  - cbn. destruct k; ring.
  - cbn [combine map]. destruct k; cbn [nth fst snd]; [reflexivity|]. apply IH. congruence.
Qed.
Lemma line_length s d t : length s = length d -> length (line s d t) = length s.
Proof. intros L. unfold line. rewrite map_length, combine_length. lia. Qed.

Lemma jacobian_eq (i : r1_input R) (s : list R) (j : nat) (d : nat -> R) : s <> [] ->
  let N := a_nphi (i_axis i) in (j < N)%nat ->
  exists jac, sigma_eq_jacobian R_ops R_math i s (mkSigmaUser (i_sigma0 i :: tl s) (state_iota s)) = Ok (jac, mkSigmaUser (i_sigma0 i :: tl s) (state_iota s)) /\
  rsum N (fun k => jac j k * d k) =
    rsum N (fun k => a_d_d_varphi (i_axis i) j k * (if (k =? 0)%nat then 0 else d k))
    + d 0%nat * ((i_eta_bar i / a_curvature (i_axis i) j) ^ 4 + 1 + state_sigma i s j ^ 2)
    + (state_iota s + IZR (i_helicity i) * IZR (i_nfp i)) * (2 * state_sigma i s j * (if (j =? 0)%nat then 0 else d j)).
Proof.
  intros Hs N Hj. eexists. split; [reflexivity|]. cbv beta.
  set (c := (state_iota s + IZR (i_helicity i) * IZR (i_nfp i)) * 2 * state_sigma i s j).
  set (q := (i_eta_bar i / a_curvature (i_axis i) j) ^ 4 + 1 + state_sigma i s j ^ 2).
  assert (Eu : forall k, at_ R_ops (u_sigma (mkSigmaUser (i_sigma0 i :: tl s) (state_iota s))) k = state_sigma i s k).
  { intros k. unfold at_, state_sigma. cbn [u_sigma]. destruct s as [|x s]; [congruence|]. destruct k; reflexivity. }
  rewrite (rsum_ext N _ (fun k => a_d_d_varphi (i_axis i) j k * (if (k =? 0)%nat then 0 else d k) + (if (k =? 0)%nat then d 0%nat * q else 0)
     + (if (k =? j)%nat then (if (j =? 0)%nat then 0 else c * d j) else 0))).
  - rewrite !rsum_plus. rewrite (rsum_single N (fun k => if (k =? 0)%nat then _ else _) 0); [|lia|].
    2: { intros k _ Hk. apply Nat.eqb_neq in Hk. rewrite Hk. reflexivity. }
    rewrite (rsum_single N (fun k => if (k =? j)%nat then _ else _) j); [|lia|].
    2: { intros k _ Hk. apply Nat.eqb_neq in Hk. rewrite Hk. reflexivity. }
    rewrite !Nat.eqb_refl. unfold c, q. destruct (j =? 0)%nat; ring.
  - intros k Hk. rewrite !Eu. destruct (k =? 0)%nat eqn:E0.
    + apply Nat.eqb_eq in E0. subst k. rewrite Rmult_0_r, Rplus_0_l.
      replace (if (0 =? j)%nat then _ else 0) with 0 by (destruct j; reflexivity). rewrite Rplus_0_r.
      unfold etabar2, q. cbn [R_ops fadd fmul fdiv fone]. unfold Rdiv. rewrite Rinv_mult. ring.
    + destruct (k =? j)%nat eqn:Ej.
      * apply Nat.eqb_eq in Ej. subst k. rewrite E0. unfold c, iota_N_of. cbn [R_ops R_math fadd fmul ftwo m_of_Z u_iota]. rewrite mult_IZR. ring.
      * rewrite !Rplus_0_r. reflexivity.
Qed.

Lemma sigma_equation_deriv (i : r1_input R) (s d : list R) (j : nat) : s <> [] -> length s = length d ->
  let N := a_nphi (i_axis i) in
  derivable_pt_lim (fun t => sigma_equation i (state_sigma i (line s d t)) (state_iota (line s d t)) j) 0
   (rsum N (fun k => a_d_d_varphi (i_axis i) j k * (if (k =? 0)%nat then 0 else nth k d 0))
    + nth 0 d 0 * ((i_eta_bar i / a_curvature (i_axis i) j) ^ 4 + 1 + state_sigma i s j ^ 2)
    + (state_iota s + IZR (i_helicity i) * IZR (i_nfp i)) * (2 * state_sigma i s j * (if (j =? 0)%nat then 0 else nth j d 0))).
Proof.
  intros Hs L N. set (dj := if (j =? 0)%nat then 0 else nth j d 0).
  set (A := rsum N (fun k => a_d_d_varphi (i_axis i) j k * state_sigma i s k)).
  set (B := rsum N (fun k => a_d_d_varphi (i_axis i) j k * (if (k =? 0)%nat then 0 else nth k d 0))).
  set (Nh := IZR (i_helicity i) * IZR (i_nfp i)). set (C := (i_eta_bar i / a_curvature (i_axis i) j) ^ 4 + 1).
  set (E := 2 * (i_eta_bar i / a_curvature (i_axis i) j) ^ 2 * (i_I2 i / i_B0 i - IZR (i_spsi i) * a_torsion (i_axis i) j) * (a_G0 (i_axis i) / i_B0 i)).
  set (sj := state_sigma i s j). set (io := state_iota s). set (d0 := nth 0 d 0).
  assert (Esig : forall t k, state_sigma i (line s d t) k = state_sigma i s k + t * (if (k =? 0)%nat then 0 else nth k d 0)).
  { intros t k. unfold state_sigma. destruct (k =? 0)%nat; [ring|]. apply line_nth; auto. }
  apply (dlim_ext (fun t => (A + t * B) + ((io + t * d0 + Nh) * (C + (sj + t * dj) * (sj + t * dj)) - E))).
  - intros t. unfold sigma_equation. cbv zeta. fold N. unfold state_iota at 1. rewrite line_nth by auto. rewrite Esig. fold sj dj.
    rewrite (rsum_ext N _ (fun k => a_d_d_varphi (i_axis i) j k * state_sigma i s k + t * (a_d_d_varphi (i_axis i) j k * (if (k =? 0)%nat then 0 else nth k d 0)))).
    2: { intros k _. rewrite Esig. ring. }
    rewrite rsum_plus, rsum_scal. fold A B. fold E Nh d0. unfold io, state_iota, C. ring.
  - assert (Lin : forall a b, derivable_pt_lim (fun t => a + t * b) 0 b).
    { intros a b. apply (dlim_ext (fun t => a + b * t)); [intros; ring|]. eapply dlim_val; [|apply dlim_plus; [apply derivable_pt_lim_const|apply (derivable_pt_lim_scal id b 0 1 (derivable_pt_lim_id 0))]]. ring. }
    eapply dlim_val; [|apply dlim_plus; [apply Lin|apply dlim_minus; [apply dlim_mult; [apply (dlim_ext (fun t => (io + Nh) + t * d0)); [intros; ring|apply Lin]
       |apply dlim_plus; [apply derivable_pt_lim_const|apply dlim_mult; apply Lin]]|apply derivable_pt_lim_const]]].
    cbv beta. unfold C. ring.
Qed.

(** An ellipse about the origin. *)
Lemma angle_exists x y : x * x + y * y = 1 -> exists phi, cos phi = x /\ sin phi = y.
Proof.
  intros H. assert (Hx : -1 <= x <= 1) by nra.
  assert (Es : sin (acos x) = sqrt (y * y)).
  { rewrite sin_acos by auto. f_equal. unfold Rsqr. lra. }
  destruct (Rle_lt_dec 0 y) as [Hy|Hy].
  - exists (acos x). split; [apply cos_acos; auto|]. rewrite Es. apply sqrt_square; auto.
  - exists (- acos x). rewrite cos_neg, sin_neg. split; [apply cos_acos; auto|]. rewrite Es.
    replace (y * y) with ((- y) * (- y)) by ring. rewrite sqrt_square by lra. ring.
Qed.
Lemma ellipse_extremes A B C q : 0 <= A -> 0 <= C -> A * C - B * B = q * q -> q <> 0 ->
  let p := A + C in let S := sqrt (p * p - 4 * q * q) in
  let rho2 := fun t => A * (cos t * cos t) + 2 * B * (cos t * sin t) + C * (sin t * sin t) in
  0 < (p - S) / 2 /\ (p - S) / 2 * ((p + S) / 2) = q * q /\ (p - S) / 2 <= (p + S) / 2 /\
  exists tmax tmin, rho2 tmax = (p + S) / 2 /\ rho2 tmin = (p - S) / 2 /\ forall t, (p - S) / 2 <= rho2 t <= (p + S) / 2.
Proof.
  intros HA HC E Hq p S rho2.
  pose proof (Rle_0_sqr (A - C)) as Q1. pose proof (Rle_0_sqr (2 * B)) as Q2. unfold Rsqr in Q1, Q2.
  assert (Hd : p * p - 4 * q * q = (A - C) * (A - C) + (2 * B) * (2 * B)) by (unfold p; nra).
  assert (HS2 : S * S = p * p - 4 * q * q) by (apply sqrt_sqrt; lra).
  assert (HS : 0 <= S) by apply sqrt_pos.
  assert (Hq2 : 0 < q * q) by nra.
  assert (Hp : 0 < p) by (unfold p; nra).
  assert (HSp : S < p) by nra.
  split; [lra|]. split; [transitivity ((p * p - S * S) / 4); [field|rewrite HS2; field]|]. split; [lra|].
  assert (Hphi : exists phi, S * cos phi = A - C /\ S * sin phi = 2 * B).
  { destruct (Req_dec S 0) as [Z|Z].
    - exists 0. rewrite Z in *. rewrite !Rmult_0_l. rewrite Rmult_0_l in HS2. rewrite Hd in HS2.
      assert (A - C = 0) by nra. assert (2 * B = 0) by nra. lra.
    - destruct (angle_exists ((A - C) / S) (2 * B / S)) as (phi & E1 & E2).
      + replace (_ + _) with (((A - C) * (A - C) + (2 * B) * (2 * B)) / (S * S)) by (field; auto). rewrite <- Hd, HS2. field. rewrite <- HS2. nra.
      + exists phi. rewrite E1, E2. split; field; auto. }
  destruct Hphi as (phi & E1 & E2).
  assert (Erho : forall t, rho2 t = p / 2 + S / 2 * cos (2 * t - phi)).
  { intros t. rewrite cos_minus. unfold rho2, p. rewrite cos_2a, sin_2a.
    pose proof (sin2_cos2 t) as T. unfold Rsqr in T.
    replace (S / 2 * ((cos t * cos t - sin t * sin t) * cos phi + 2 * sin t * cos t * sin phi))
      with ((S * cos phi) * (cos t * cos t - sin t * sin t) / 2 + (S * sin phi) * (sin t * cos t)) by field.
    rewrite E1, E2. replace (A + C) with ((A + C) * (sin t * sin t + cos t * cos t)) by (rewrite T; ring). field. }
  exists (phi / 2), (phi / 2 + PI / 2). split; [|split].
  - rewrite Erho. replace (2 * (phi / 2) - phi) with 0 by field. rewrite cos_0. field.
  - rewrite Erho. replace (2 * (phi / 2 + PI / 2) - phi) with PI by field. rewrite cos_PI. field.
  - intros t. rewrite Erho. pose proof (COS_bound (2 * t - phi)). split; nra.
Qed.
