(** A reachable case in which Newton's method fails on the equation for sigma, with the default settings: a plane axis, three grid points and a large current. *)
From Coq Require Import String ZArith Reals List Arith Lia Lra Psatz.
From Verif Require Import Base BaseFacts FloatOps MathOps MathFacts Curve Newton NewtonSpec NewtonFacts Axis R1 R1Spec R1Facts.
Import ListNotations.
Local Open Scope list_scope. Local Open Scope R_scope.

(** Exact solution of three linear equations (Cramer's rule). *)
Definition det3 (a b c d e f g h k : R) : R := a * (e * k - f * h) - b * (d * k - f * g) + c * (d * h - e * g).
Definition cramer3 (m : nat -> nat -> R) (b : list R) : outcome (list R) :=
  match b with
  | [p; q; r] =>
      let d := det3 (m 0%nat 0%nat) (m 0%nat 1%nat) (m 0%nat 2%nat) (m 1%nat 0%nat) (m 1%nat 1%nat) (m 1%nat 2%nat) (m 2%nat 0%nat) (m 2%nat 1%nat) (m 2%nat 2%nat) in
      Ok [det3 p (m 0%nat 1%nat) (m 0%nat 2%nat) q (m 1%nat 1%nat) (m 1%nat 2%nat) r (m 2%nat 1%nat) (m 2%nat 2%nat) / d;
          det3 (m 0%nat 0%nat) p (m 0%nat 2%nat) (m 1%nat 0%nat) q (m 1%nat 2%nat) (m 2%nat 0%nat) r (m 2%nat 2%nat) / d;
          det3 (m 0%nat 0%nat) (m 0%nat 1%nat) p (m 1%nat 0%nat) (m 1%nat 1%nat) q (m 2%nat 0%nat) (m 2%nat 1%nat) r / d]
  | _ => Throw "three equations"
  end.
Lemma cramer3_solves m p q r x : det3 (m 0%nat 0%nat) (m 0%nat 1%nat) (m 0%nat 2%nat) (m 1%nat 0%nat) (m 1%nat 1%nat) (m 1%nat 2%nat) (m 2%nat 0%nat) (m 2%nat 1%nat) (m 2%nat 2%nat) <> 0 -> cramer3 m [p; q; r] = Ok x ->
  forall j, (j < 3)%nat -> rsum 3 (fun k => m j k * nth k x 0) = nth j [p; q; r] 0.
Proof.
  intros Hd E j Hj. injection E as <-. destruct j as [|[|[|j]]]; [| | |lia]; cbn [fsum R_ops fadd fzero nth]; unfold det3 in *; field; exact Hd.
Qed.

Section Stale.
Variables (a : axis R) (nfp h sG spsi : Z) (w0 w1 e0 e1 g : R).
Hypothesis Hn : a_nphi a = 3%nat.
Hypothesis HD : forall j k, (j < 3)%nat -> (k < 3)%nat -> a_d_d_varphi a j k =
  match j, k with 0%nat, 1%nat => - w0 | 0%nat, 2%nat => w0 | 1%nat, 0%nat => w1 | 1%nat, 2%nat => - w1 | 2%nat, 0%nat => - w1 | 2%nat, 1%nat => w1 | _, _ => 0 end.
Hypothesis Hw : 0 < w0 / w1. Hypothesis Hw1 : w1 <> 0.
Hypothesis He : (1 / a_curvature a 0%nat) ^ 2 = e0 /\ (1 / a_curvature a 1%nat) ^ 2 = e1 /\ (1 / a_curvature a 2%nat) ^ 2 = e1.
Hypothesis Hpos : 0 < e0 /\ 0 < e1. Hypothesis Hne : e0 <> e1. Hypothesis Hne1 : e0 * e1 <> 1.
Hypothesis Ht : forall j, a_torsion a j = 0.
Hypothesis Hg : a_G0 a = g. Hypothesis Hgp : 0 < g.

Let i (lam : R) : r1_input R := mkR1 a nfp h sG spsi 1 lam 1 0.
Let Nh := IZR h * IZR nfp.
Let A0 := e0 * e0 + 1. Let A1 := e1 * e1 + 1.
Let r0 lam := Nh * A0 - 2 * e0 * lam * g.
Let r1' lam := Nh * A1 - 2 * e1 * lam * g.
Let rho := w0 / w1.
Let den := A0 + 2 * rho * A1.
Let i1 := 2 * g * (e0 + 2 * rho * e1) / den.
Let s1 := (2 * e1 * g - A1 * i1) / w1.
Let x0 lam := lam * i1 - Nh.
Let x1 lam := lam * s1.

Lemma den_pos : 0 < den. Proof. unfold den, A0, A1, rho. assert (0 < w0 / w1 * (e1 * e1 + 1)) by (apply Rmult_lt_0_compat; nra). nra. Qed.
Lemma i1_pos : 0 < i1.
Proof. unfold i1. apply Rdiv_lt_0_compat; [|apply den_pos]. destruct Hpos. assert (0 < rho * e1) by (apply Rmult_lt_0_compat; auto). apply Rmult_lt_0_compat; lra. Qed.
Lemma s1_ne : s1 <> 0.
Proof.
  pose proof den_pos as Hd. intros Z.
  assert (E : s1 * (w1 * den) = 2 * g * ((e1 - e0) * (1 - e0 * e1))).
  { transitivity (2 * e1 * g * den - A1 * (2 * g * (e0 + 2 * rho * e1))); [unfold s1, i1; field; split; [lra|auto]|]. unfold den, A0, A1. ring. }
  rewrite Z, Rmult_0_l in E. symmetry in E. repeat (apply Rmult_integral in E; destruct E as [E|E]); lra.
Qed.

(** The equation at the three points. *)
Lemma eq_at lam (s : nat -> R) io : s 0%nat = 0 ->
  sigma_equation (i lam) s io 0%nat = - w0 * s 1%nat + w0 * s 2%nat + (io + Nh) * A0 - 2 * e0 * lam * g /\
  sigma_equation (i lam) s io 1%nat = - w1 * s 2%nat + (io + Nh) * (A1 + s 1%nat * s 1%nat) - 2 * e1 * lam * g /\
  sigma_equation (i lam) s io 2%nat = w1 * s 1%nat + (io + Nh) * (A1 + s 2%nat * s 2%nat) - 2 * e1 * lam * g.
Proof.
  intros Hs. destruct He as (E0 & E1 & E2). unfold sigma_equation. cbv zeta. cbn [i i_axis i_eta_bar i_helicity i_nfp i_I2 i_B0 i_spsi].
  rewrite Hn, Hg, !Ht. cbn [fsum R_ops fadd fzero]. rewrite !HD by lia. rewrite Hs. fold Nh.
  replace ((1 / a_curvature a 0%nat) ^ 4) with (((1 / a_curvature a 0%nat) ^ 2) * ((1 / a_curvature a 0%nat) ^ 2)) by ring.
  replace ((1 / a_curvature a 1%nat) ^ 4) with (((1 / a_curvature a 1%nat) ^ 2) * ((1 / a_curvature a 1%nat) ^ 2)) by ring.
  replace ((1 / a_curvature a 2%nat) ^ 4) with (((1 / a_curvature a 2%nat) ^ 2) * ((1 / a_curvature a 2%nat) ^ 2)) by ring.
  rewrite E0, E1, E2. unfold A0, A1. repeat split; field.
Qed.

Definition trial (lam t : R) : list R := [t * x0 lam; t * x1 lam; t * - x1 lam].
Let R0_ lam t := (1 - t) * r0 lam.
Let R1_ lam t := (1 - t) * r1' lam + t * t * (t * x0 lam + Nh) * (x1 lam * x1 lam).
Lemma den_w : A0 * w1 + 2 * w0 * A1 = w1 * den. Proof. unfold den, rho. field. auto. Qed.

Lemma step_eqs lam : - w0 * x1 lam + w0 * - x1 lam + A0 * x0 lam = - r0 lam /\ w1 * x1 lam + A1 * x0 lam = - r1' lam.
Proof.
  pose proof den_pos as Hd. unfold x1, x0, r0, r1', s1. split.
  - unfold i1. assert (E : w0 = rho * w1) by (unfold rho; field; auto). rewrite E. unfold den in *. field. split; auto. apply Rgt_not_eq. exact Hd.
  - field. auto.
Qed.

Lemma residual_at lam t u : sigma_eq_residual R_ops R_math (i lam) (trial lam t) u =
  Ok ([R0_ lam t; R1_ lam t; R1_ lam t], mkSigmaUser [0; t * x1 lam; t * - x1 lam] (t * x0 lam)).
Proof.
  rewrite residual_eq by discriminate. change (a_nphi (i_axis (i lam))) with (a_nphi a). rewrite Hn. cbn [seq map].
  change (state_iota (trial lam t)) with (t * x0 lam). change (i_sigma0 (i lam)) with 0. change (tl (trial lam t)) with [t * x1 lam; t * - x1 lam]. destruct (eq_at lam (state_sigma (i lam) (trial lam t)) (t * x0 lam) eq_refl) as (E0 & E1 & E2).
  rewrite E0, E1, E2. unfold state_sigma. cbn [Nat.eqb trial nth]. destruct (step_eqs lam) as (S0 & S1).
  do 2 f_equal. unfold R0_, R1_. f_equal; [|f_equal; [|f_equal]].
  - transitivity (t * (- w0 * x1 lam + w0 * - x1 lam + A0 * x0 lam) + r0 lam); [unfold r0; ring|]. rewrite S0. ring.
  - transitivity (t * (w1 * x1 lam + A1 * x0 lam) + r1' lam + t * t * (t * x0 lam + Nh) * (x1 lam * x1 lam)); [unfold r1'; ring|]. rewrite S1. ring.
  - transitivity (t * (w1 * x1 lam + A1 * x0 lam) + r1' lam + t * t * (t * x0 lam + Nh) * (x1 lam * x1 lam)); [unfold r1'; ring|]. rewrite S1. ring.
Qed.

Lemma solve_at lam : exists jac, sigma_eq_jacobian R_ops R_math (i lam) (trial lam 0) (mkSigmaUser [0; 0 * x1 lam; 0 * - x1 lam] (0 * x0 lam)) = Ok (jac, mkSigmaUser [0; 0 * x1 lam; 0 * - x1 lam] (0 * x0 lam)) /\
  cramer3 jac (map Ropp [R0_ lam 0; R1_ lam 0; R1_ lam 0]) = Ok [x0 lam; x1 lam; - x1 lam].
Proof.
  eexists. split; [reflexivity|]. cbn [map cramer3]. cbv beta. cbn [Nat.eqb u_sigma u_iota at_ nth]. unfold etabar2, iota_N_of, at_. cbn [R_ops R_math fadd fmul fdiv fone ftwo fzero m_of_Z i i_axis i_eta_bar nth].
  destruct He as (E0 & E1 & E2). rewrite !HD by lia.
  assert (F : forall k, 1 * 1 / (k * k) = (1 / k) ^ 2) by (intros k; unfold Rdiv; rewrite Rinv_mult; ring).
  rewrite !F, E0, E1, E2. destruct (step_eqs lam) as (S0 & S1). pose proof den_pos as Hd. pose proof den_w as Hdw.
  assert (H0 : R0_ lam 0 = r0 lam) by (unfold R0_; ring). assert (H1 : R1_ lam 0 = r1' lam) by (unfold R1_; ring). rewrite H0, H1.
  assert (Q0 : r0 lam = - (- w0 * x1 lam + w0 * - x1 lam + A0 * x0 lam)) by lra. assert (Q1 : r1' lam = - (w1 * x1 lam + A1 * x0 lam)) by lra.
  rewrite Q0, Q1.
  replace (e0 * e0 + 1 + 0 * 0) with A0 by (unfold A0; ring).
  replace (e1 * e1 + 1 + 0 * x1 lam * (0 * x1 lam)) with A1 by (unfold A1; ring).
  replace (e1 * e1 + 1 + 0 * - x1 lam * (0 * - x1 lam)) with A1 by (unfold A1; ring).
  assert (Hdet : w1 * (w1 * den) <> 0) by (apply Rmult_integral_contrapositive; split; [auto|apply Rmult_integral_contrapositive; split; lra]).
  assert (Edet : forall z1 z2, z1 = 0 -> z2 = 0 -> det3 A0 (- w0) w0 A1 (0 + z1) (- w1) A1 w1 (0 + z2) = w1 * (w1 * den)).
  { intros z1 z2 -> ->. rewrite <- Hdw. unfold det3. ring. }
  set (z1 := _ * 2 * (0 * x1 lam)). set (z2 := _ * 2 * (0 * - x1 lam)).
  assert (Z1 : z1 = 0) by (unfold z1; ring). assert (Z2 : z2 = 0) by (unfold z2; ring).
  rewrite Edet by auto. rewrite Z1, Z2. f_equal. f_equal; [|f_equal; [|f_equal]]; apply (Rmult_eq_reg_r (w1 * (w1 * den))); auto;
  unfold Rdiv; rewrite Rmult_assoc, Rinv_l, Rmult_1_r by auto; rewrite <- Hdw; unfold det3; ring.
Qed.

(** A current so large that none of the trial steps is accepted. *)
Let P := (Rabs Nh * A0 + 2 * e0 * g) + 2 * (Rabs Nh * A1 + 2 * e1 * g).
Definition big (tol : R) : R := 1 + 16 * (Rabs Nh / i1) + 2048 * (P / (i1 * (s1 * s1))) + (Rabs tol + Rabs Nh * A1) / (2 * e1 * g).
Lemma big_facts tol : let lam := big tol in 1 <= lam /\ 16 * Rabs Nh <= lam * i1 /\ 2048 * P <= lam * (i1 * (s1 * s1)) /\ Rabs tol + Rabs Nh * A1 <= lam * (2 * e1 * g).
Proof.
  intros lam. pose proof i1_pos as Hi. pose proof s1_ne as Hs. destruct Hpos as (p0 & p1). pose proof (Rabs_pos Nh) as HN. pose proof (Rabs_pos tol) as HT.
  assert (HS : 0 < s1 * s1) by nra. assert (HA0 : 0 < A0) by (unfold A0; nra). assert (HA1 : 0 < A1) by (unfold A1; nra).
  assert (HP : 0 <= P). { unfold P. assert (0 <= Rabs Nh * A0) by (apply Rmult_le_pos; lra). assert (0 <= Rabs Nh * A1) by (apply Rmult_le_pos; lra).
    assert (0 <= e0 * g) by (apply Rmult_le_pos; lra). assert (0 <= e1 * g) by (apply Rmult_le_pos; lra). lra. }
  assert (Heg : 0 < 2 * e1 * g) by (repeat apply Rmult_lt_0_compat; lra).
  assert (H1 : 0 <= Rabs Nh / i1) by (apply Rmult_le_pos; [lra|apply Rlt_le, Rinv_0_lt_compat; auto]).
  assert (His : 0 < i1 * (s1 * s1)) by (apply Rmult_lt_0_compat; auto).
  assert (H2 : 0 <= P / (i1 * (s1 * s1))) by (apply Rmult_le_pos; [lra|apply Rlt_le, Rinv_0_lt_compat; auto]).
  assert (H3 : 0 <= (Rabs tol + Rabs Nh * A1) / (2 * e1 * g)). { apply Rmult_le_pos; [|apply Rlt_le, Rinv_0_lt_compat; auto]. assert (0 <= Rabs Nh * A1) by (apply Rmult_le_pos; lra). lra. }
  assert (L : forall q z c, 0 < z -> 0 <= c -> c * (q / z) <= lam -> c * q <= lam * z).
  { intros q z c Hz Hc Hl. replace (c * q) with (c * (q / z) * z) by (field; lra). apply Rmult_le_compat_r; lra. }
  unfold lam, big in *. split; [lra|]. split; [apply L; lra|]. split; [apply L; lra|].
  apply Rle_trans with (1 * (Rabs tol + Rabs Nh * A1)); [lra|]. apply L; lra.
Qed.

Lemma trial_worse tol t : let lam := big tol in / 8 <= t <= 1 ->
  norm_sq R_ops [R0_ lam 0; R1_ lam 0; R1_ lam 0] < norm_sq R_ops [R0_ lam t; R1_ lam t; R1_ lam t].
Proof.
  intros lam Ht'. destruct (big_facts tol) as (B1 & B2 & B3 & B4). fold lam in B1, B2, B3, B4.
  pose proof i1_pos as Hi. destruct Hpos as (p0 & p1). pose proof s1_ne as Hs.
  assert (HA0 : 0 < A0) by (unfold A0; nra). assert (HA1 : 0 < A1) by (unfold A1; nra).
  assert (HR0 : R0_ lam 0 = r0 lam) by (unfold R0_; ring). assert (HR1 : R1_ lam 0 = r1' lam) by (unfold R1_; ring). rewrite HR0, HR1.
  unfold norm_sq. cbn [fold_left R_ops fadd fmul fzero].
  assert (Q0 : Rabs (r0 lam) <= lam * (Rabs Nh * A0 + 2 * e0 * g)).
  { unfold r0. eapply Rle_trans; [apply Rabs_triang|]. rewrite Rabs_Ropp, !Rabs_mult, (Rabs_right 2), (Rabs_right e0), (Rabs_right g), (Rabs_right lam), (Rabs_right A0) by lra.
    assert (0 <= Rabs Nh * A0) by (apply Rmult_le_pos; [apply Rabs_pos|lra]). nra. }
  assert (Q1 : Rabs (r1' lam) <= lam * (Rabs Nh * A1 + 2 * e1 * g)).
  { unfold r1'. eapply Rle_trans; [apply Rabs_triang|]. rewrite Rabs_Ropp, !Rabs_mult, (Rabs_right 2), (Rabs_right e1), (Rabs_right g), (Rabs_right lam), (Rabs_right A1) by lra.
    assert (0 <= Rabs Nh * A1) by (apply Rmult_le_pos; [apply Rabs_pos|lra]). nra. }
  set (q0 := Rabs (r0 lam)) in *. set (q1 := Rabs (r1' lam)) in *.
  assert (HP : q0 + 2 * q1 <= lam * P) by (unfold P; lra).
  assert (G0 : 0 <= q0) by apply Rabs_pos. assert (G1 : 0 <= q1) by apply Rabs_pos.
  assert (E0 : r0 lam * r0 lam = q0 * q0). { unfold q0. rewrite <- Rabs_mult, Rabs_right; [ring|apply Rle_ge, Rle_0_sqr]. }
  assert (E1 : r1' lam * r1' lam = q1 * q1). { unfold q1. rewrite <- Rabs_mult, Rabs_right; [ring|apply Rle_ge, Rle_0_sqr]. }
  rewrite E0, E1.
  (* the cubic term *)
  set (m := t * t * (t * x0 lam + Nh) * (x1 lam * x1 lam)).
  assert (Hlin : lam * i1 / 16 <= t * x0 lam + Nh).
  { unfold x0. pose proof (Rle_abs (- Nh)). rewrite Rabs_Ropp in H.
    assert (Li : 0 < lam * i1) by (apply Rmult_lt_0_compat; lra).
    assert (T1 : / 8 * (lam * i1) <= t * (lam * i1)) by (apply Rmult_le_compat_r; lra). assert (T2 : - Rabs Nh <= (1 - t) * Nh).
    { assert ((1 - t) * - Nh <= (1 - t) * Rabs Nh) by (apply Rmult_le_compat_l; lra). pose proof (Rabs_pos Nh).
      assert ((1 - t) * Rabs Nh <= 1 * Rabs Nh) by (apply Rmult_le_compat_r; lra). lra. }
    replace (t * (lam * i1 - Nh) + Nh) with (t * (lam * i1) + (1 - t) * Nh) by ring. lra. }
  assert (Hm : 2 * (lam * P) <= m).
  { unfold m. assert (Hx : 0 <= x1 lam * x1 lam) by apply Rle_0_sqr.
    assert (Ht2 : / 8 * / 8 <= t * t) by (apply Rmult_le_compat; lra).
    assert (Hl0 : 0 < lam * i1 / 16) by (assert (0 < lam * i1) by (apply Rmult_lt_0_compat; lra); lra).
    apply Rle_trans with (/ 64 * (lam * i1 / 16) * (x1 lam * x1 lam)).
    - unfold x1. replace (/ 64 * (lam * i1 / 16) * (lam * s1 * (lam * s1))) with ((lam * lam) * (lam * (i1 * (s1 * s1))) / 1024) by field.
      assert (0 <= lam * P) by lra. assert (0 <= P) by (apply (Rmult_le_reg_l lam); lra).
      assert (lam * 1 <= lam * lam) by (apply Rmult_le_compat_l; lra). assert (lam * (2048 * P) <= lam * lam * (lam * (i1 * (s1 * s1)))).
      { apply Rmult_le_compat; lra. } lra.
    - apply Rmult_le_compat_r; [auto|]. apply Rmult_le_compat; lra. }
  assert (HPp : 0 < P). { unfold P. assert (0 <= Rabs Nh * A0) by (apply Rmult_le_pos; [apply Rabs_pos|lra]). assert (0 <= Rabs Nh * A1) by (apply Rmult_le_pos; [apply Rabs_pos|lra]).
    assert (0 < e0 * g) by (apply Rmult_lt_0_compat; lra). assert (0 < e1 * g) by (apply Rmult_lt_0_compat; lra). lra. }
  assert (HlP : 0 < lam * P) by (apply Rmult_lt_0_compat; lra).
  assert (HR : lam * P <= R1_ lam t).
  { unfold R1_. fold m. assert (- q1 <= (1 - t) * r1' lam).
    { pose proof (Rle_abs (- r1' lam)). rewrite Rabs_Ropp in H. fold q1 in H. assert ((1 - t) * - r1' lam <= (1 - t) * q1) by (apply Rmult_le_compat_l; lra).
      assert ((1 - t) * q1 <= 1 * q1) by (apply Rmult_le_compat_r; lra). lra. }
    lra. }
  pose proof (Rle_0_sqr (R0_ lam t)) as Sq. unfold Rsqr in Sq.
  assert (S1' : (lam * P) * (lam * P) <= R1_ lam t * R1_ lam t) by (apply Rmult_le_compat; lra).
  assert (S2 : q0 * q0 + q1 * q1 + q1 * q1 <= (lam * P) * (lam * P)).
  { apply Rle_trans with ((q0 + 2 * q1) * (q0 + 2 * q1)); [|apply Rmult_le_compat; lra].
    assert (0 <= q0 * q1) by (apply Rmult_le_pos; auto). assert (0 <= q1 * q1) by (apply Rmult_le_pos; auto). lra. }
  assert (0 < (lam * P) * (lam * P)) by (apply Rmult_lt_0_compat; auto). lra.
Qed.

Lemma start_bad tol : let lam := big tol in tol * tol <= norm_sq R_ops [R0_ lam 0; R1_ lam 0; R1_ lam 0].
Proof.
  intros lam. destruct (big_facts tol) as (B1 & B2 & B3 & B4). fold lam in B1, B2, B3, B4. destruct Hpos as (p0 & p1).
  assert (HA1 : 0 < A1) by (unfold A1; nra).
  assert (HR1 : R1_ lam 0 = r1' lam) by (unfold R1_; ring). rewrite HR1. unfold norm_sq. cbn [fold_left R_ops fadd fmul fzero].
  assert (H : Rabs tol <= - r1' lam). { unfold r1'. pose proof (Rle_abs Nh). assert (Nh * A1 <= Rabs Nh * A1) by (apply Rmult_le_compat_r; lra). lra. }
  pose proof (Rabs_pos tol). assert (Rabs tol * Rabs tol <= - r1' lam * - r1' lam) by (apply Rmult_le_compat; lra).
  assert (E : Rabs tol * Rabs tol = tol * tol). { rewrite <- Rabs_mult, Rabs_right; [reflexivity|apply Rle_ge, Rle_0_sqr]. }
  pose proof (Rle_0_sqr (R0_ lam 0)). pose proof (Rle_0_sqr (r1' lam)). unfold Rsqr in *. nra.
Qed.

Lemma axpy_trial lam t : axpy R_ops (trial lam 0) t [x0 lam; x1 lam; - x1 lam] = Ok (trial lam t).
Proof. unfold axpy, trial. cbn [length Nat.eqb combine map fst snd R_ops fadd fmul]. f_equal. f_equal; [ring|f_equal; [ring|f_equal; ring]]. Qed.

Lemma linesearch_fails tol n : let lam := big tol in forall t s, / 8 * 2 ^ n <= t -> t <= 1 ->
  exists t', / 8 <= t' <= 1 /\ linesearch R_ops (sigma_eq_residual R_ops R_math (i lam)) (S n) (trial lam 0) [x0 lam; x1 lam; - x1 lam] t
    (norm_sq R_ops [R0_ lam 0; R1_ lam 0; R1_ lam 0]) s
  = Ok (mkNst (trial lam t') [R0_ lam t'; R1_ lam t'; R1_ lam t'] (norm_sq R_ops [R0_ lam t'; R1_ lam t'; R1_ lam t']) (mkSigmaUser [0; t' * x1 lam; t' * - x1 lam] (t' * x0 lam))).
Proof.
  intros lam. induction n as [|n IH]; intros t s Ht1 Ht2.
  - assert (Hr : / 8 <= t <= 1) by (cbn [pow] in Ht1; lra). exists t. split; [exact Hr|]. cbn [linesearch].
    rewrite axpy_trial. cbn [bind]. rewrite residual_at. cbn [bind fst snd]. rewrite dot_self. cbn [bind].
    destruct (flt R_ops _ _); reflexivity.
  - remember (S n) as n' eqn:En. cbn [linesearch]. rewrite axpy_trial. cbn [bind]. rewrite residual_at. cbn [bind fst snd]. rewrite dot_self. cbn [bind].
    assert (Hp : 1 <= 2 ^ n) by (apply pow_R1_Rle; lra). rewrite En in Ht1. cbn [pow] in Ht1.
    assert (Hr : / 8 <= t <= 1) by lra. pose proof (trial_worse tol t Hr) as W. fold lam in W.
    assert (Ef : flt R_ops (norm_sq R_ops [R0_ lam t; R1_ lam t; R1_ lam t]) (norm_sq R_ops [R0_ lam 0; R1_ lam 0; R1_ lam 0]) = false) by (apply Rltb_false; lra).
    rewrite Ef. subst n'. apply IH; auto; cbn [R_ops fdiv ftwo]; lra.
Qed.

Lemma stale tol u : let lam := big tol in exists r t, / 8 <= t /\
  solve_sigma_equation R_ops R_math (i lam) cramer3 12 4 tol u =
    Ok (NEWTON_LINESEARCH_FAILED, [0; 0; 0], r, mkSigmaUser [0; t * x1 lam; t * - x1 lam] (t * x0 lam)).
Proof.
  intros lam. unfold solve_sigma_equation. cbn [i i_axis i_sigma0]. rewrite Hn. cbn [repeat aset length Nat.ltb Nat.leb upd bind R_ops fzero].
  assert (Et : [0; 0; 0] = trial lam 0) by (unfold trial; f_equal; [ring|f_equal; [ring|f_equal; ring]]).
  rewrite Et. unfold newton_solve. change (mkR1 a nfp h sG spsi 1 lam 1 0) with (i lam). rewrite residual_at. cbn [bind fst snd]. rewrite dot_self. cbn [bind].
  change (Z.to_nat 12) with 12%nat. change (Z.to_nat 4) with 4%nat. cbn [newton_loop n_norm n_state n_user n_residual].
  assert (Ef : flt R_ops (norm_sq R_ops [R0_ lam 0; R1_ lam 0; R1_ lam 0]) (fmul R_ops tol tol) = false) by (apply Rltb_false, start_bad).
  rewrite Ef. destruct (solve_at lam) as (jac & -> & Ec). cbn [bind fst snd]. change (map (fopp R_ops)) with (map Ropp). rewrite Ec. cbn [bind].
  edestruct (linesearch_fails tol 3) as (t & Ht' & El); [| |fold lam in El; rewrite El]; [cbn; lra|cbn; lra|].
  cbn [bind n_norm n_residual n_user]. pose proof (trial_worse tol t Ht') as W. fold lam in W. apply Rltb_true in W. change (flt R_ops) with Rltb. rewrite W.
  cbn [fst snd n_state n_residual n_user]. exists [R0_ lam t; R1_ lam t; R1_ lam t], t. split; [lra|reflexivity].
Qed.
Lemma stale_moved tol : let lam := big tol in x1 lam <> 0 /\ x0 lam <> 0.
Proof.
  intros lam. destruct (big_facts tol) as (B1 & B2 & _). fold lam in B1, B2. split.
  - unfold x1. pose proof s1_ne. apply Rmult_integral_contrapositive; split; [lra|auto].
  - unfold x0. pose proof (Rle_abs Nh). pose proof (Rabs_pos Nh). assert (0 < lam * i1) by (apply Rmult_lt_0_compat; [lra|apply i1_pos]). lra.
Qed.
Lemma stale_exists tol u : exists lam s r u',
  solve_sigma_equation R_ops R_math (mkR1 a nfp h sG spsi 1 lam 1 0) cramer3 12 4 tol u = Ok (NEWTON_LINESEARCH_FAILED, s, r, u') /\
  u_iota u' <> nth 0 s 0 /\ nth 1 (u_sigma u') 0 <> nth 1 s 0.
Proof.
  destruct (stale tol u) as (r & t & Ht' & E). destruct (stale_moved tol) as (M1 & M0). cbv zeta in *. eexists _, _, _, _. split; [exact E|].
  cbn [u_iota u_sigma nth]. split; apply Rmult_integral_contrapositive; split; auto; lra.
Qed.
End Stale.
