(** Facts about the model of the singularity radius. *)
From Coq Require Import String ZArith Reals List Arith Lia Lra Psatz Bool.
From Verif Require Import Base BaseFacts FloatOps MathOps MathFacts NewtonFacts Tensor Newton Diff Axis R1 R2 R2Spec Jet RSing RSingSpec.
Import ListNotations.
Local Open Scope list_scope. Local Open Scope nat_scope.
Local Open Scope R_scope.

(** ** Angles *)
Lemma angle s c : s * s + c * c = 1 -> exists t, sin t = s /\ cos t = c.
Proof.
  intros H. assert (Hc : -1 <= c <= 1) by nra.
  destruct (Rle_dec 0 s) as [Hs|Hs].
  - exists (acos c). split; [|apply cos_acos, Hc]. rewrite sin_acos by exact Hc. replace (1 - c²) with (s * s) by (unfold Rsqr; lra). apply sqrt_square, Hs.
  - exists (- acos c). rewrite sin_neg, cos_neg. split; [|apply cos_acos, Hc]. rewrite sin_acos by exact Hc.
    replace (1 - c²) with (- s * - s) by (unfold Rsqr; lra). rewrite sqrt_square by lra. ring.
Qed.
Lemma cs t : sin t * sin t + cos t * cos t = 1.
Proof. pose proof (sin2_cos2 t) as H. unfold Rsqr in H. exact H. Qed.
Lemma c2t t : cos (2 * t) = cos t * cos t - sin t * sin t. Proof. apply cos_2a. Qed.
Lemma s2t t : sin (2 * t) = 2 * sin t * cos t. Proof. apply sin_2a. Qed.

(** ** The companion matrix *)
Lemma pair_eq (a b c d : R) : (a, b) = (c, d) <-> a = c /\ b = d.
Proof. split; [intros H; injection H; auto|intros (-> & ->); reflexivity]. Qed.
Definition quartic (c : list R) (x : cplx) : cplx := csum 5 (fun k => cmul (creal (nth k c 0)) (cpow x (4 - k))).
Lemma companion_eigenvalues (c : list R) (x : cplx) : nth 0 c 0 <> 0 -> (eigenvalue 4 (companion R_ops c) x <-> quartic c x = c0).
Proof.
  intros Hc. destruct x as (x, y).
  unfold quartic, eigenvalue. set (k0 := nth 0 c 0) in *. set (k1 := nth 1 c 0). set (k2 := nth 2 c 0). set (k3 := nth 3 c 0). set (k4 := nth 4 c 0).
  split.
  - intros (v & (k & Hk & Hv) & Hrow).
    pose proof (Hrow 0%nat ltac:(lia)) as R0. pose proof (Hrow 1%nat ltac:(lia)) as R1. pose proof (Hrow 2%nat ltac:(lia)) as R2. pose proof (Hrow 3%nat ltac:(lia)) as R3.
    clear Hrow. unfold companion in R0, R1, R2, R3. cbv zeta in R0, R1, R2, R3. cbn [nth Nat.add Nat.mul csum] in R0, R1, R2, R3. destruct (v 0%nat) as (a0, b0) eqn:V0. destruct (v 1%nat) as (a1, b1) eqn:V1. destruct (v 2%nat) as (a2, b2) eqn:V2. destruct (v 3%nat) as (a3, b3) eqn:V3.
    unfold cmul, cadd, creal, c0 in R0, R1, R2, R3. cbn [fst snd R_ops fzero fone fdiv fopp] in R0, R1, R2, R3.
    cbn [csum cpow Nat.sub]. unfold cmul, cadd, creal, c0. cbn [fst snd].
    fold k0 k1 k2 k3 k4 in R0, R1, R2, R3. fold k0 k1 k2 k3 k4.
    apply pair_eq in R0. apply pair_eq in R1. apply pair_eq in R2. apply pair_eq in R3. destruct R0 as (R0 & R0'). destruct R1 as (R1 & R1'). destruct R2 as (R2 & R2'). destruct R3 as (R3 & R3').
    assert (E2 : a2 = x * a3 - y * b3) by lra. assert (E2' : b2 = x * b3 + y * a3) by lra.
    assert (E1 : a1 = x * a2 - y * b2) by lra. assert (E1' : b1 = x * b2 + y * a2) by lra.
    assert (E0 : a0 = x * a1 - y * b1) by lra. assert (E0' : b0 = x * b1 + y * a1) by lra.
    assert (N3 : a3 * a3 + b3 * b3 <> 0).
    { intros Z. assert (Za : a3 = 0) by nra. assert (Zb : b3 = 0) by nra. subst a3 b3.
      assert (Za2 : a2 = 0) by (rewrite E2; ring). assert (Zb2 : b2 = 0) by (rewrite E2'; ring). subst a2 b2.
      assert (Za1 : a1 = 0) by (rewrite E1, Za2, Zb2; ring). assert (Zb1 : b1 = 0) by (rewrite E1', Za2, Zb2; ring).
      assert (Za0 : a0 = 0) by (rewrite E0, Za1, Zb1; ring). assert (Zb0 : b0 = 0) by (rewrite E0', Za1, Zb1; ring).
      apply Hv. destruct k as [|[|[|[|k]]]]; try lia; rewrite ?V0, ?V1, ?V2, ?V3; unfold c0; f_equal; auto. }
    (* the polynomial times v3 is zero *)
    apply (f_equal (fun z => k0 * z)) in R0. apply (f_equal (fun z => k0 * z)) in R0'.
    match type of R0 with ?l = _ => replace l with (- k1 * a0 - k2 * a1 - k3 * a2 - k4 * a3) in R0 by (field; auto) end.
    match type of R0' with ?l = _ => replace l with (- k1 * b0 - k2 * b1 - k3 * b2 - k4 * b3) in R0' by (field; auto) end.
    clear R1 R1' R2 R2' R3 R3' Hv V0 V1 V2 V3 v.
    match goal with |- (?p, ?q) = _ => set (P := p); set (Q := q) end.
    assert (Q1 : P * a3 - Q * b3 = 0).
    { transitivity (k0 * (x * a0 - y * b0) + k1 * a0 + k2 * a1 + k3 * a2 + k4 * a3); [|lra]. unfold P, Q. rewrite E0, E0', E1, E1', E2, E2'. ring. }
    assert (Q2 : P * b3 + Q * a3 = 0).
    { transitivity (k0 * (x * b0 + y * a0) + k1 * b0 + k2 * b1 + k3 * b2 + k4 * b3); [|lra]. unfold P, Q. rewrite E0, E0', E1, E1', E2, E2'. ring. }
    clearbody P Q. f_equal.
    + assert (A : P * (a3 * a3 + b3 * b3) = 0) by (replace (P * (a3 * a3 + b3 * b3)) with ((P * a3 - Q * b3) * a3 + (P * b3 + Q * a3) * b3) by ring; rewrite Q1, Q2; ring).
      apply Rmult_integral in A. destruct A; [auto|contradiction].
    + assert (A : Q * (a3 * a3 + b3 * b3) = 0) by (replace (Q * (a3 * a3 + b3 * b3)) with ((P * b3 + Q * a3) * a3 - (P * a3 - Q * b3) * b3) by ring; rewrite Q1, Q2; ring).
      apply Rmult_integral in A. destruct A; [auto|contradiction].
  - intros H. exists (fun k => cpow (x, y) (3 - k)). split.
    { exists 3%nat. split; [lia|]. cbn. unfold c0. intros E. injection E. lra. }
    cbn [csum cpow Nat.sub] in H. unfold cmul, cadd, creal, c0 in H. cbn [fst snd] in H. fold k0 k1 k2 k3 k4 in H. apply pair_eq in H. destruct H as (H1 & H2).
    intros row Hr. destruct row as [|[|[|[|row]]]]; try lia;
      unfold companion; cbv zeta; cbn [csum Nat.add Nat.mul nth cpow Nat.sub]; unfold cmul, cadd, creal, c0; cbn [fst snd R_ops fzero fone fdiv fopp];
      fold k0 k1 k2 k3 k4; apply pair_eq; [|split; ring..].
    split.
    + apply (Rmult_eq_reg_l k0); [|exact Hc]. apply Rminus_diag_uniq. eapply eq_trans; [eapply eq_trans; [|exact (f_equal Ropp H1)]|apply Ropp_0]. field. auto.
    + apply (Rmult_eq_reg_l k0); [|exact Hc]. apply Rminus_diag_uniq. eapply eq_trans; [eapply eq_trans; [|exact (f_equal Ropp H2)]|apply Ropp_0]. field. auto.
Qed.

(** ** The search *)
Lemma is_zero_R x : is_zero R_ops x = true <-> x = 0.
Proof.
  unfold is_zero. cbn [R_ops fle fzero]. rewrite andb_true_iff. split.
  - intros (H1 & H2). apply Rleb_true in H1. apply Rleb_true in H2. lra.
  - intros ->. split; apply Rleb_true; lra.
Qed.
Lemma is_zero_R_false x : is_zero R_ops x = false <-> x <> 0.
Proof. rewrite <- (is_zero_R x). destruct (is_zero R_ops x); split; intros; congruence. Qed.

Definition tol_ok (tol : tolerances R) : Prop := 0 <= sin2_cos2_1_tol tol /\ 0 < acceptable_residual tol /\ 0 <= imag_tol tol.
Section Search.
Variables (tol : tolerances R) (g : jac R).
Hypothesis Htol : tol_ok tol.
Let acc := acceptable_residual tol.
Let big := huge R_math.
(** What holds of the candidate at every moment. *)
Definition candidate (rc : R) : Prop := 0 < rc <= big /\ (rc < big -> exists t, J g rc t = 0 /\ Rabs (J_t g rc t) < acc * rc).

Lemma big_pos : 0 < big.
Proof. unfold big, huge, R_math, m_of_Z. apply IZR_lt. reflexivity. Qed.
Lemma candidate_big : candidate big.
Proof. split; [pose proof big_pos; lra|intros H; lra]. Qed.

Lemma quadratic_root A B C x : A <> 0 -> 0 <= B * B - 4 * A * C -> forall sg, sg * sg = 1 ->
  x = (- B + sg * sqrt (B * B - 4 * A * C)) / (2 * A) -> C + x * B + x ^ 2 * A = 0.
Proof.
  intros HA Hr sg Hs ->. pose proof (sqrt_sqrt _ Hr) as E. set (q := sqrt (B * B - 4 * A * C)) in *.
  replace (C + (- B + sg * q) / (2 * A) * B + ((- B + sg * q) / (2 * A)) ^ 2 * A) with ((4 * A * C - B * B + (sg * sg) * (q * q)) / (4 * A)) by (field; auto).
  rewrite Hs, E. field. auto.
Qed.
Lemma quadratic_formula A B C x : A <> 0 -> C + x * B + x ^ 2 * A = 0 ->
  0 <= B * B - 4 * A * C /\ (x = (- B + -1 * sqrt (B * B - 4 * A * C)) / (2 * A) \/ x = (- B + 1 * sqrt (B * B - 4 * A * C)) / (2 * A)).
Proof.
  intros HA H. assert (E : B * B - 4 * A * C = (2 * A * x + B) * (2 * A * x + B)) by (replace C with (- (x * B + x ^ 2 * A)) by lra; ring).
  rewrite E. split; [apply Rle_0_sqr|]. fold (Rsqr (2 * A * x + B)). rewrite sqrt_Rsqr_abs. unfold Rabs. destruct (Rcase_abs _); [left|right]; field; auto.
Qed.

Lemma try_sign_le s2 c2 s c sg rc : try_sign R_ops R_math tol g s2 c2 s c sg rc <= rc.
Proof.
  unfold try_sign. cbv zeta. destruct (_ || _); [lra|]. cbn [R_ops flt].
  destruct (Rltb _ rc) eqn:E; [|rewrite andb_false_r; lra]. apply Rltb_true in E. destruct (_ && _ && true); lra.
Qed.
Lemma try_sign_candidate t sg rc : (sg = -1 \/ sg = 1)%Z -> candidate rc -> candidate (try_sign R_ops R_math tol g (sin (2 * t)) (cos (2 * t)) (sin t) (cos t) sg rc).
Proof.
  intros Hsg Hc. unfold try_sign. cbv zeta.
  cbn [R_ops R_math fadd fsub fmul fdiv fopp flt fzero m_of_Z m_sqrt m_abs]. set (A := _ + _ + _). set (B := cos t * g1c g). set (rad := B * B - 4 * A * g0 g).
  destruct (is_zero R_ops A || Rltb rad 0) eqn:E; [exact Hc|]. apply orb_false_iff in E. destruct E as (EA & Er). apply is_zero_R_false in EA. apply Rltb_false in Er.
  set (rr := (- B + IZR sg * sqrt rad) / (2 * A)). set (res := - g1c g * sin t + _).
  destruct (Rltb 0 rr) eqn:E1; [|exact Hc]. destruct (Rltb (Rabs res) _) eqn:E2; [|exact Hc]. destruct (Rltb rr rc) eqn:E3; [|exact Hc]. cbn [andb].
  apply Rltb_true in E1. apply Rltb_true in E2. apply Rltb_true in E3. split; [destruct Hc as (? & _); lra|].
  intros _. exists t. split.
  - unfold J. fold A. transitivity (g0 g + rr * B + rr ^ 2 * A); [unfold B; ring|].
    apply (quadratic_root A B (g0 g) rr EA Er (IZR sg)); [destruct Hsg as [-> | ->]; ring|reflexivity].
  - replace (J_t g rr t) with (rr * res) by (unfold J_t, res; ring). rewrite Rabs_mult, (Rabs_pos_eq rr) by lra. unfold acc. rewrite (Rmult_comm _ rr). apply Rmult_lt_compat_l; auto.
Qed.

(** The sine and cosine that are computed from those of the double angle belong to an angle. *)
Definition half_angle (s2 c2 : R) (v : Z) : R * R :=
  if Rltb 0 c2 then let c := IZR v * sqrt (1 / 2 * (1 + c2)) in (s2 / (2 * c), c)
  else let s := IZR v * sqrt (1 / 2 * (1 - c2)) in (s, s2 / (2 * s)).
Lemma half_angle_ok s2 c2 v : (v = -1 \/ v = 1)%Z -> s2 * s2 + c2 * c2 = 1 -> let p := half_angle s2 c2 v in
  fst p * fst p + snd p * snd p = 1 /\ 2 * fst p * snd p = s2 /\ snd p * snd p - fst p * fst p = c2.
Proof.
  intros Hv H p. assert (Hvv : IZR v * IZR v = 1) by (destruct Hv as [-> | ->]; ring). assert (Hv0 : IZR v <> 0) by (intros Z; rewrite Z in Hvv; lra).
  unfold p, half_angle. destruct (Rltb 0 c2) eqn:E.
  - apply Rltb_true in E. cbv zeta. cbn [fst snd]. set (q := sqrt (1 / 2 * (1 + c2))). assert (Hq : q * q = 1 / 2 * (1 + c2)) by (apply sqrt_sqrt; lra).
    assert (Hq0 : q <> 0) by (intros Z; rewrite Z in Hq; lra).
    assert (E1 : IZR v * q * (IZR v * q) = 1 / 2 * (1 + c2)) by (replace (IZR v * q * (IZR v * q)) with ((IZR v * IZR v) * (q * q)) by ring; rewrite Hvv, Hq; ring).
    set (c := IZR v * q) in *. assert (Hc0 : c <> 0) by (intros Z; rewrite Z in E1; lra).
    assert (E2 : s2 / (2 * c) * (s2 / (2 * c)) = 1 / 2 * (1 - c2)).
    { replace (s2 / (2 * c) * (s2 / (2 * c))) with ((s2 * s2) / (4 * (c * c))) by (field; auto). rewrite E1. replace (s2 * s2) with ((1 - c2) * (1 + c2)) by lra. field. lra. }
    rewrite E2, E1. repeat split; try lra. field. auto.
  - apply Rltb_false in E. cbv zeta. cbn [fst snd]. set (q := sqrt (1 / 2 * (1 - c2))). assert (Hq : q * q = 1 / 2 * (1 - c2)) by (apply sqrt_sqrt; lra).
    assert (Hq0 : q <> 0) by (intros Z; rewrite Z in Hq; lra).
    assert (E1 : IZR v * q * (IZR v * q) = 1 / 2 * (1 - c2)) by (replace (IZR v * q * (IZR v * q)) with ((IZR v * IZR v) * (q * q)) by ring; rewrite Hvv, Hq; ring).
    set (c := IZR v * q) in *. assert (Hc0 : c <> 0) by (intros Z; rewrite Z in E1; lra).
    assert (E2 : s2 / (2 * c) * (s2 / (2 * c)) = 1 / 2 * (1 + c2)).
    { replace (s2 / (2 * c) * (s2 / (2 * c))) with ((s2 * s2) / (4 * (c * c))) by (field; auto). rewrite E1. replace (s2 * s2) with ((1 - c2) * (1 + c2)) by lra. field. lra. }
    rewrite E2, E1. repeat split; try lra. field. auto.
Qed.
Lemma try_varsigma_eq s2 c2 v rc : (v = -1 \/ v = 1)%Z -> s2 * s2 + c2 * c2 = 1 ->
  let p := half_angle s2 c2 v in
  try_varsigma R_ops R_math tol g s2 c2 v rc =
    Ok (try_sign R_ops R_math tol g s2 c2 (fst p) (snd p) 1 (try_sign R_ops R_math tol g s2 c2 (fst p) (snd p) (-1) rc)).
Proof.
  intros Hv H p. destruct (half_angle_ok s2 c2 v Hv H) as (H1 & _). fold p in H1.
  assert (E : try_varsigma R_ops R_math tol g s2 c2 v rc =
    let '(sintheta, costheta) := half_angle s2 c2 v in
    if Rltb (sin2_cos2_1_tol tol) (Rabs (costheta * costheta + sintheta * sintheta - 1)) then Throw "sin^2 + cos^2 is far from 1."
    else Ok (try_sign R_ops R_math tol g s2 c2 sintheta costheta 1 (try_sign R_ops R_math tol g s2 c2 sintheta costheta (-1) rc))).
  { unfold try_varsigma, half_angle. cbn [R_ops R_math fadd fsub fmul fdiv fopp flt fzero fone ftwo m_of_Z m_sqrt m_abs]. destruct (Rltb 0 c2); reflexivity. }
  rewrite E. fold p. destruct p as (s, c). cbn [fst snd] in *. replace (c * c + s * s - 1) with 0 by lra. rewrite Rabs_R0.
  destruct (Rltb _ 0) eqn:B; [|reflexivity]. apply Rltb_true in B. destruct Htol as (? & _). lra.
Qed.
Lemma try_varsigma_ok s2 c2 v rc : (v = -1 \/ v = 1)%Z -> s2 * s2 + c2 * c2 = 1 -> candidate rc ->
  exists rc', try_varsigma R_ops R_math tol g s2 c2 v rc = Ok rc' /\ candidate rc' /\ rc' <= rc.
Proof.
  intros Hv H Hc. pose proof (try_varsigma_eq s2 c2 v rc Hv H) as E. pose proof (half_angle_ok s2 c2 v Hv H) as (H1 & H2 & H3). cbv zeta in E.
  destruct (half_angle s2 c2 v) as (s, c). cbn [fst snd] in *. destruct (angle s c H1) as (t & Es & Ec).
  eexists. split; [exact E|]. split.
  - rewrite <- Es, <- Ec in H2, H3 |- *. rewrite <- s2t in H2. rewrite <- c2t in H3. rewrite <- H2, <- H3.
    apply try_sign_candidate; auto. apply try_sign_candidate; auto.
  - eapply Rle_trans; apply try_sign_le.
Qed.

(** The sign of cos(2 theta) that is chosen. *)
Definition K_eq (k : kays R) (s2 c2 : R) : R := K0 k + K2s k * s2 + K2c k * c2 + K4s k * 2 * s2 * c2 + K4c k * (1 - 2 * s2 * s2).
Definition chosen (k : kays R) (s2 : R) : R :=
  let a := sqrt (1 - s2 * s2) in if Rltb (Rabs (K_eq k s2 (- a))) (Rabs (K_eq k s2 a)) then -1 * a else 1 * a.
Lemma chosen_ok k s2 : Rabs s2 <= 1 -> s2 * s2 + chosen k s2 * chosen k s2 = 1.
Proof.
  intros H. assert (s2 * s2 <= 1) by (rewrite <- (Rabs_pos_eq (s2 * s2)) by nra; rewrite Rabs_mult; pose proof (Rabs_pos s2); nra).
  assert (E : sqrt (1 - s2 * s2) * sqrt (1 - s2 * s2) = 1 - s2 * s2) by (apply sqrt_sqrt; lra). unfold chosen. cbv zeta. destruct (Rltb _ _); nra.
Qed.
Lemma try_root_eq k re im rc : Rabs im <= imag_tol tol -> Rabs re <= 1 -> try_root R_ops R_math tol g k (re, im) rc =
  (do rc' <- try_varsigma R_ops R_math tol g re (chosen k re) (-1) rc; try_varsigma R_ops R_math tol g re (chosen k re) 1 rc').
Proof.
  intros Hi Hr. unfold try_root, chosen, K_eq. cbv zeta. cbn [R_ops R_math fadd fsub fmul fdiv fopp flt fzero fone ftwo m_of_Z m_sqrt m_abs].
  destruct (Rltb (imag_tol tol) (Rabs im)) eqn:E1; [apply Rltb_true in E1; lra|]. destruct (Rltb 1 (Rabs re)) eqn:E2; [apply Rltb_true in E2; lra|].
  match goal with |- context [if ?b then (-1)%Z else _] => destruct b end; reflexivity.
Qed.
Lemma try_root_skip k re im rc : imag_tol tol < Rabs im \/ 1 < Rabs re -> try_root R_ops R_math tol g k (re, im) rc = Ok rc.
Proof.
  intros H. unfold try_root. cbn [R_ops R_math flt fone m_abs]. destruct (Rltb (imag_tol tol) (Rabs im)) eqn:E1; [reflexivity|].
  apply Rltb_false in E1. destruct H as [H|H]; [lra|]. destruct (Rltb 1 (Rabs re)) eqn:E2; [reflexivity|]. apply Rltb_false in E2. lra.
Qed.
Lemma try_root_ok k x rc : candidate rc -> exists rc', try_root R_ops R_math tol g k x rc = Ok rc' /\ candidate rc' /\ rc' <= rc.
Proof.
  intros Hc. destruct x as (re, im). destruct (Rle_dec (Rabs im) (imag_tol tol)) as [Hi|Hi].
  2: { exists rc. rewrite try_root_skip by lra. split; [reflexivity|split; [auto|lra]]. }
  destruct (Rle_dec (Rabs re) 1) as [Hr|Hr].
  2: { exists rc. rewrite try_root_skip by lra. split; [reflexivity|split; [auto|lra]]. }
  rewrite try_root_eq by auto. pose proof (chosen_ok k re Hr) as E.
  destruct (try_varsigma_ok re (chosen k re) (-1) rc (or_introl eq_refl) E Hc) as (r1 & E1 & C1 & L1). rewrite E1. cbn [bind].
  destruct (try_varsigma_ok re (chosen k re) 1 r1 (or_intror eq_refl) E C1) as (r2 & E2 & C2 & L2). exists r2. split; [exact E2|]. split; [auto|lra].
Qed.
Lemma try_roots_ok k l : forall rc, candidate rc -> exists rc', try_roots R_ops R_math tol g k l rc = Ok rc' /\ candidate rc' /\ rc' <= rc.
Proof.
  induction l as [|x l IH]; intros rc Hc; cbn [try_roots].
  - exists rc. split; [reflexivity|split; [auto|lra]].
  - destruct (try_root_ok k x rc Hc) as (r1 & E1 & C1 & L1). rewrite E1. cbn [bind]. destruct (IH r1 C1) as (r2 & E2 & C2 & L2). exists r2. split; [auto|split; [auto|lra]].
Qed.

(** Nothing that is tried is missed. *)
Lemma try_sign_complete r t rc : singular_at g r t -> A_of g t <> 0 ->
  try_sign R_ops R_math tol g (sin (2 * t)) (cos (2 * t)) (sin t) (cos t) 1
    (try_sign R_ops R_math tol g (sin (2 * t)) (cos (2 * t)) (sin t) (cos t) (-1) rc) <= r.
Proof.
  intros (Hr & HJ & HJt) HA. set (A := A_of g t) in *. set (B := cos t * g1c g).
  assert (HQ : g0 g + r * B + r ^ 2 * A = 0) by (rewrite <- HJ; unfold J, A, A_of, B; ring).
  destruct (quadratic_formula A B (g0 g) r HA HQ) as (Hrad & Hform).
  assert (Step : forall sg rc, r = (- B + IZR sg * sqrt (B * B - 4 * A * g0 g)) / (2 * A) -> try_sign R_ops R_math tol g (sin (2 * t)) (cos (2 * t)) (sin t) (cos t) sg rc <= r).
  { intros sg rc' E. unfold try_sign. cbv zeta. cbn [R_ops R_math fadd fsub fmul fdiv fopp flt fzero m_of_Z m_sqrt m_abs].
    change (g20 g + g2s g * sin (2 * t) + g2c g * cos (2 * t)) with A. fold B.
    assert (Z : is_zero R_ops A = false) by (apply is_zero_R_false; exact HA). rewrite Z. destruct (Rltb (B * B - 4 * A * g0 g) 0) eqn:Z2; [apply Rltb_true in Z2; lra|]. cbn [orb].
    rewrite <- E. assert (R0 : - g1c g * sin t + 2 * r * (g2s g * cos (2 * t) - g2c g * sin (2 * t)) = 0).
    { apply (Rmult_eq_reg_l r); [|lra]. rewrite Rmult_0_r, <- HJt. unfold J_t. ring. }
    rewrite R0, Rabs_R0. destruct Htol as (_ & Ht & _). assert (T1 : Rltb 0 r = true) by (apply Rltb_true; lra). assert (T2 : Rltb 0 (acceptable_residual tol) = true) by (apply Rltb_true; lra).
    rewrite T1, T2. cbn [andb]. destruct (Rltb r rc') eqn:T3; [lra|]. apply Rltb_false in T3. lra. }
  destruct Hform as [E|E].
  - eapply Rle_trans; [apply try_sign_le|]. apply Step. exact E.
  - apply Step. exact E.
Qed.
Lemma try_root_complete k r t rc : candidate rc -> singular_at g r t -> A_of g t <> 0 -> chosen k (sin (2 * t)) = cos (2 * t) ->
  exists rc', try_root R_ops R_math tol g k (sin (2 * t), 0) rc = Ok rc' /\ candidate rc' /\ rc' <= r.
Proof.
  intros Hc Hs HA Hch. assert (Hr : Rabs (sin (2 * t)) <= 1) by (pose proof (SIN_bound (2 * t)); unfold Rabs; destruct (Rcase_abs _); lra).
  rewrite try_root_eq; [|rewrite Rabs_R0; apply Htol|exact Hr]. rewrite Hch. pose proof (cs (2 * t)) as E.
  destruct (try_varsigma_ok (sin (2 * t)) (cos (2 * t)) (-1) rc (or_introl eq_refl) E Hc) as (r1 & E1 & C1 & L1). rewrite E1. cbn [bind].
  destruct (try_varsigma_ok (sin (2 * t)) (cos (2 * t)) 1 r1 (or_intror eq_refl) E C1) as (r2 & E2 & C2 & L2). exists r2. split; [exact E2|]. split; [auto|].
  (* one of the two signs gives t *)
  assert (Sg : exists v, (v = -1 \/ v = 1)%Z /\ half_angle (sin (2 * t)) (cos (2 * t)) v = (sin t, cos t)).
  { unfold half_angle. pose proof (cs t) as Ht. rewrite (c2t t), (s2t t). destruct (Rltb 0 (cos t * cos t - sin t * sin t)) eqn:B.
    - apply Rltb_true in B. replace (1 / 2 * (1 + (cos t * cos t - sin t * sin t))) with (cos t * cos t) by lra. fold (Rsqr (cos t)). rewrite sqrt_Rsqr_abs.
      assert (cos t <> 0) by (intros Z; rewrite Z in B; nra).
      destruct (Rle_dec 0 (cos t)); [exists 1%Z; split; [auto|]; rewrite Rabs_pos_eq by lra|exists (-1)%Z; split; [auto|]; rewrite Rabs_left by lra]; cbv zeta; f_equal; field; auto.
    - apply Rltb_false in B. replace (1 / 2 * (1 - (cos t * cos t - sin t * sin t))) with (sin t * sin t) by lra. fold (Rsqr (sin t)). rewrite sqrt_Rsqr_abs.
      assert (sin t <> 0) by (intros Z; rewrite Z in B, Ht; nra).
      destruct (Rle_dec 0 (sin t)); [exists 1%Z; split; [auto|]; rewrite Rabs_pos_eq by lra|exists (-1)%Z; split; [auto|]; rewrite Rabs_left by lra]; cbv zeta; f_equal; field; auto. }
  destruct Sg as (v & Hv & Ev). destruct Hv as [-> | ->].
  - eapply Rle_trans; [exact L2|]. rewrite try_varsigma_eq in E1 by auto. rewrite Ev in E1. cbn [fst snd] in E1. injection E1 as <-. apply try_sign_complete; auto.
  - rewrite try_varsigma_eq in E2 by auto. rewrite Ev in E2. cbn [fst snd] in E2. injection E2 as <-. apply try_sign_complete; auto.
Qed.
Lemma try_roots_complete k r t l : singular_at g r t -> A_of g t <> 0 -> chosen k (sin (2 * t)) = cos (2 * t) -> In (sin (2 * t), 0) l ->
  forall rc, candidate rc -> exists rc', try_roots R_ops R_math tol g k l rc = Ok rc' /\ candidate rc' /\ rc' <= r.
Proof.
  intros Hs HA Hch. induction l as [|x l IH]; intros Hin rc Hc; [destruct Hin|]. cbn [try_roots]. destruct Hin as [-> | Hin].
  - destruct (try_root_complete k r t rc Hc Hs HA Hch) as (r1 & E1 & C1 & L1). rewrite E1. cbn [bind]. destruct (try_roots_ok k l r1 C1) as (r2 & E2 & C2 & L2). exists r2. split; [auto|split; [auto|lra]].
  - destruct (try_root_ok k x rc Hc) as (r1 & E1 & C1 & L1). rewrite E1. cbn [bind]. apply IH; auto.
Qed.
End Search.

(** ** The equation for sin(2 theta) *)
Lemma K_eliminant g t : K_eq (kays_of R_ops R_math g) (sin (2 * t)) (cos (2 * t)) = 4 * eliminant g t.
Proof.
  unfold K_eq, eliminant, D_of, A_of, kays_of. destruct g as [h0 h1 h20 h2s h2c]. cbn [g0 g1c g20 g2s g2c K0 K2s K2c K4s K4c R_ops R_math fadd fsub fmul m_of_Z].
  rewrite c2t, s2t. assert (H : sin t * sin t = 1 - cos t * cos t) by (pose proof (cs t); lra). ring [H].
Qed.
Lemma singular_eliminant g r t : singular_at g r t -> eliminant g t = 0.
Proof.
  intros (Hr & HJ & HJt). assert (E : g1c g * sin t = 2 * r * D_of g t).
  { apply (Rmult_eq_reg_l r); [|lra]. apply Rminus_diag_uniq. rewrite <- Ropp_0, <- HJt. unfold J_t, D_of. ring. }
  unfold eliminant. replace (_ + _ + _) with (4 * g0 g * D_of g t ^ 2 + 2 * g1c g * (g1c g * sin t) * cos t * D_of g t + (g1c g * sin t) ^ 2 * A_of g t) by ring.
  rewrite E. transitivity (4 * D_of g t ^ 2 * J g r t); [|rewrite HJ; ring]. unfold J. fold (A_of g t). ring.
Qed.
Lemma K_scale k s2 c2 : K4c k <> 0 -> K_eq (scale R_ops k) s2 c2 = K_eq k s2 c2 / K4c k.
Proof. intros H. unfold K_eq, scale. cbn [K0 K2s K2c K4s K4c R_ops fmul fdiv fone]. field. auto. Qed.
Lemma K_quartic k s2 c2 : s2 * s2 + c2 * c2 = 1 -> K_eq k s2 c2 = 0 -> quartic (coefficients R_ops R_math k) (s2, 0) = c0.
Proof.
  intros H E. unfold quartic, coefficients. destruct k as [k0 k2s k2c k4s k4c]. unfold K_eq in E. cbn [K0 K2s K2c K4s K4c] in E.
  cbn [csum nth cpow Nat.sub]. unfold cmul, cadd, creal, c0. cbn [fst snd R_ops R_math fadd fsub fmul m_of_Z]. f_equal; [|ring].
  assert (E' : k0 + k2s * s2 + k4c * (1 - 2 * s2 * s2) = - ((k2c + 2 * k4s * s2) * c2)) by lra.
  assert (Sq : (k0 + k2s * s2 + k4c * (1 - 2 * s2 * s2)) ^ 2 - (k2c + 2 * k4s * s2) ^ 2 * (1 - s2 * s2) = 0).
  { rewrite E'. replace (1 - s2 * s2) with (c2 * c2) by lra. ring. }
  eapply eq_trans; [|exact Sq]. ring.
Qed.
Lemma kays_cos4 g : K4c (kays_of R_ops R_math g) = cos4_term g.
Proof. destruct g. unfold cos4_term. cbn. ring. Qed.
Lemma chosen_right g r t : cos4_term g <> 0 -> singular_at g r t -> regular_point g t ->
  chosen (scale R_ops (kays_of R_ops R_math g)) (sin (2 * t)) = cos (2 * t).
Proof.
  intros H4 Hs (_ & Ht). pose proof (singular_eliminant g r t Hs) as E. rewrite <- kays_cos4 in H4. set (k := kays_of R_ops R_math g) in *.
  assert (E1 : K_eq (scale R_ops k) (sin (2 * t)) (cos (2 * t)) = 0) by (rewrite K_scale by auto; unfold k; rewrite K_eliminant, E; unfold Rdiv; ring).
  assert (E2 : K_eq (scale R_ops k) (sin (2 * t)) (- cos (2 * t)) = 4 * eliminant g (PI / 2 - t) / K4c k).
  { rewrite K_scale by auto. unfold k. rewrite <- K_eliminant. replace (2 * (PI / 2 - t)) with (PI - 2 * t) by field. rewrite sin_PI_x. rewrite Rtrigo_facts.cos_pi_minus. reflexivity. }
  unfold chosen. cbv zeta. replace (1 - sin (2 * t) * sin (2 * t)) with (Rsqr (cos (2 * t))) by (unfold Rsqr; pose proof (cs (2 * t)); lra). rewrite sqrt_Rsqr_abs.
  destruct (Rle_dec 0 (cos (2 * t))) as [Hc|Hc].
  - rewrite (Rabs_pos_eq (cos (2 * t))) by lra. rewrite E1, Rabs_R0. destruct (Rltb _ 0) eqn:B; [|ring]. apply Rltb_true in B. pose proof (Rabs_pos (K_eq (scale R_ops k) (sin (2 * t)) (- cos (2 * t)))). lra.
  - rewrite (Rabs_left (cos (2 * t))) by lra. rewrite Ropp_involutive, E1, E2, Rabs_R0. destruct (Rltb 0 _) eqn:B; [ring|]. apply Rltb_false in B. exfalso.
    assert (Hne : 4 * eliminant g (PI / 2 - t) / K4c k <> 0).
    { assert (Hnn : eliminant g (PI / 2 - t) <> 0) by (apply Ht; lra). unfold Rdiv. apply Rmult_integral_contrapositive_currified; [lra|]. apply Rinv_neq_0_compat. auto. }
    apply Rabs_pos_lt in Hne. lra.
Qed.

(** ** One point of the grid *)
Lemma r_hat_ok geev tol g : tol_ok tol -> (forall m, fst (geev m) = 0%Z) -> exists rc, r_hat R_ops R_math geev tol (fun _ => true) g = Ok rc /\ candidate tol g rc.
Proof.
  intros Ht Hi. unfold r_hat. destruct (is_zero _ _). { exists (huge R_math). split; [reflexivity|apply candidate_big]. }
  cbv zeta. replace (forallb (fun _ : R => true) _) with true by (symmetry; apply forallb_forall; auto). cbn [negb].
  unfold quartic_roots. destruct (geev _) as (info, (re, im)) eqn:E. pose proof (Hi (companion R_ops (coefficients R_ops R_math (scale R_ops (kays_of R_ops R_math g))))) as Hz. rewrite E in Hz. cbn [fst] in Hz. rewrite Hz. cbn [Z.eqb bind].
  destruct (try_roots_ok tol g Ht (scale R_ops (kays_of R_ops R_math g)) (combine re im) (huge R_math) (candidate_big tol g)) as (rc & E1 & C & _). exists rc. split; auto.
Qed.
Lemma r_hat_sound geev tol g rc : tol_ok tol -> r_hat R_ops R_math geev tol (fun _ => true) g = Ok rc -> candidate tol g rc.
Proof.
  intros Ht. unfold r_hat. destruct (is_zero _ _). { intros E. injection E as <-. apply candidate_big. }
  cbv zeta. replace (forallb (fun _ : R => true) _) with true by (symmetry; apply forallb_forall; auto). cbn [negb].
  unfold quartic_roots. destruct (geev _) as (info, (re, im)). destruct (Z.eqb info 0); [|intros E; discriminate E]. cbn [bind]. intros E.
  destruct (try_roots_ok tol g Ht (scale R_ops (kays_of R_ops R_math g)) (combine re im) (huge R_math) (candidate_big tol g)) as (rc' & E1 & C & _). rewrite E1 in E. injection E as <-. auto.
Qed.
Lemma r_hat_complete geev tol g rc r t : tol_ok tol -> r_hat R_ops R_math geev tol (fun _ => true) g = Ok rc -> cos4_term g <> 0 ->
  finds_real_eigenvalues geev (companion R_ops (coefficients R_ops R_math (scale R_ops (kays_of R_ops R_math g)))) ->
  singular_at g r t -> regular_point g t -> rc <= r.
Proof.
  intros Ht Er H4 (re & im & Eg & Lr & Li & Hf) Hs Hreg. unfold r_hat in Er.
  assert (Z : is_zero R_ops (K4c (kays_of R_ops R_math g)) = false) by (apply is_zero_R_false; rewrite kays_cos4; exact H4). rewrite Z in Er.
  cbv zeta in Er. replace (forallb (fun _ : R => true) _) with true in Er by (symmetry; apply forallb_forall; auto). cbn [negb] in Er.
  unfold quartic_roots in Er. rewrite Eg in Er. cbn [Z.eqb bind] in Er. set (k := scale R_ops (kays_of R_ops R_math g)) in *.
  assert (H4' : K4c (kays_of R_ops R_math g) <> 0) by (rewrite kays_cos4; auto).
  assert (Hc0 : nth 0 (coefficients R_ops R_math k) 0 <> 0).
  { assert (K1 : K4c k = 1) by (unfold k, scale; cbn [K4c R_ops fmul fdiv fone]; field; auto). destruct k as [k0 k2s k2c k4s k4c]. cbn [K4c] in K1. subst k4c.
    cbn [coefficients nth R_ops R_math fmul fadd m_of_Z]. nra. }
  assert (Hq : quartic (coefficients R_ops R_math k) (sin (2 * t), 0) = c0).
  { apply K_quartic with (c2 := cos (2 * t)); [apply cs|]. unfold k. rewrite K_scale by auto. rewrite K_eliminant, (singular_eliminant g r t Hs). unfold Rdiv. ring. }
  apply (companion_eigenvalues _ _ Hc0) in Hq. destruct (Hf _ Hq) as (n & Hn & E1 & E2).
  assert (Hin : In (sin (2 * t), 0) (combine re im)).
  { replace (sin (2 * t), 0) with (nth n (combine re im) (0, 0)). - apply nth_In. rewrite combine_length, Lr, Li. exact Hn. - rewrite combine_nth by congruence. rewrite E1, E2. reflexivity. }
  destruct (try_roots_complete tol g Ht k r t (combine re im) Hs (proj1 Hreg) (chosen_right g r t H4 Hs Hreg) Hin (huge R_math) (candidate_big tol g)) as (rc' & E' & _ & L).
  rewrite E' in Er. injection Er as <-. exact L.
Qed.

(** ** Where the Jacobian vanishes, it has touched zero before *)
Section First.
Variable g : jac R.
Hypothesis Hg0 : g0 g <> 0.
Let m := M (g1c g) 0 (g20 g) (g2s g) (g2c g).
Let f (r t : R) := J g r t / g0 g.
Lemma J_derivative r t : derivable_pt_lim (J g r) t (J_t g r t).
Proof.
  replace (J_t g r t) with (0 + at_t m r t) by (unfold J_t, at_t, m; cbn [k1c k1s k20 k2s k2c]; ring).
  assert (E : forall t, J g r t = g0 g + at_rt m r t) by (intros; unfold J, at_rt, m; cbn [k1c k1s k20 k2s k2c]; ring).
  intros eps He. destruct (derivable_pt_lim_plus (fun _ => g0 g) (at_rt m r) t 0 (at_t m r t) (derivable_pt_lim_const _ _) (at_t_ok m r t) eps He) as (d & Hd).
  exists d. intros h Hh Hb. rewrite !E. apply (Hd h Hh Hb).
Qed.
Lemma f_derivative r t : derivable_pt_lim (f r) t (J_t g r t / g0 g).
Proof.
  replace (J_t g r t / g0 g) with (/ g0 g * J_t g r t) by (unfold Rdiv; ring).
  intros eps He. destruct (dscal (J g r) (/ g0 g) t _ (J_derivative r t) eps He) as (d & Hd). exists d. intros h Hh Hb. unfold f, Rdiv at 2 3. rewrite !(Rmult_comm _ (/ g0 g)). apply (Hd h Hh Hb).
Qed.
Let L r1 := (Rabs (g1c g) + 2 * r1 * (Rabs (g20 g) + Rabs (g2s g) + Rabs (g2c g))) / Rabs (g0 g).
Lemma L_pos r1 : 0 <= r1 -> 0 <= L r1.
Proof.
  intros H. pose proof (Rabs_pos (g1c g)). pose proof (Rabs_pos (g20 g)). pose proof (Rabs_pos (g2s g)). pose proof (Rabs_pos (g2c g)). pose proof (Rabs_pos_lt _ Hg0).
  unfold L. apply Rmult_le_pos; [nra|left; apply Rinv_0_lt_compat; auto].
Qed.
Lemma le_abs_1 x y : Rabs y <= 1 -> Rabs (x * y) <= Rabs x.
Proof. intros H. rewrite Rabs_mult. pose proof (Rabs_pos x). nra. Qed.
Lemma abs_cos t : Rabs (cos t) <= 1. Proof. apply Rabs_le. pose proof (COS_bound t). lra. Qed.
Lemma abs_sin t : Rabs (sin t) <= 1. Proof. apply Rabs_le. pose proof (SIN_bound t). lra. Qed.
Lemma f_lipschitz r1 r r' t : 0 <= r <= r1 -> 0 <= r' <= r1 -> Rabs (f r t - f r' t) <= L r1 * Rabs (r - r').
Proof.
  intros Hr Hr'. replace (f r t - f r' t) with ((g1c g * cos t + (r + r') * A_of g t) / g0 g * (r - r')) by (unfold f, J, A_of; field; auto).
  rewrite Rabs_mult. apply Rmult_le_compat_r; [apply Rabs_pos|]. unfold Rdiv at 1. rewrite Rabs_mult. unfold L, Rdiv.
  rewrite Rabs_inv. apply Rmult_le_compat_r; [left; apply Rinv_0_lt_compat, Rabs_pos_lt; auto|].
  eapply Rle_trans; [apply Rabs_triang|]. apply Rplus_le_compat; [apply le_abs_1, abs_cos|].
  rewrite Rabs_mult. apply Rmult_le_compat; try apply Rabs_pos.
  - rewrite Rabs_pos_eq by lra. lra.
  - unfold A_of. eapply Rle_trans; [apply Rabs_triang|]. apply Rplus_le_compat; [|apply le_abs_1, abs_cos].
    eapply Rle_trans; [apply Rabs_triang|]. apply Rplus_le_compat; [lra|apply le_abs_1, abs_sin].
Qed.
Lemma f_0 t : f 0 t = 1.
Proof. unfold f, J. field. auto. Qed.
Lemma f_reduce r t : exists t', - PI <= t' <= PI /\ f r t' = f r t.
Proof.
  pose proof (cs t) as H. assert (Hc : -1 <= cos t <= 1) by apply COS_bound. pose proof (acos_bound (cos t)) as B.
  assert (E : forall t', sin t' = sin t -> cos t' = cos t -> f r t' = f r t) by (intros t' Es Ec; unfold f, J; rewrite !s2t, !c2t, Es, Ec; reflexivity).
  assert (Q : sin (acos (cos t)) = Rabs (sin t)).
  { rewrite sin_acos by exact Hc. replace (1 - (cos t)²) with (Rsqr (sin t)) by (unfold Rsqr; lra). apply sqrt_Rsqr_abs. }
  destruct (Rle_dec 0 (sin t)) as [Hs|Hs].
  - exists (acos (cos t)). split; [lra|]. apply E; [rewrite Q; apply Rabs_pos_eq; auto|apply cos_acos; auto].
  - exists (- acos (cos t)). split; [lra|]. apply E; [rewrite sin_neg, Q, Rabs_left by lra; ring|rewrite cos_neg; apply cos_acos; auto].
Qed.
Lemma small d l : 0 < d -> 0 <= l -> 0 < d / (2 * (l + 1)) /\ l * (d / (2 * (l + 1))) < d.
Proof.
  intros Hd Hl. assert (P : 0 < d / (2 * (l + 1))) by (apply Rdiv_lt_0_compat; lra). split; [exact P|].
  replace (l * (d / (2 * (l + 1)))) with (d / 2 - d / (2 * (l + 1))) by (field; lra). lra.
Qed.
Lemma first_singularity r1 t1 : 0 < r1 -> J g r1 t1 = 0 -> exists r t, r <= r1 /\ singular_at g r t.
Proof.
  intros H1 HJ1. set (E := fun r => 0 <= r <= r1 /\ forall r' t, 0 <= r' <= r -> 0 < f r' t).
  destruct (completeness E) as (r & Hub & Hlub).
  { exists r1. intros x (Hx & _). lra. }
  { exists 0. split; [lra|]. intros r' t Hr'. replace r' with 0 by lra. rewrite f_0. lra. }
  assert (Hr0 : 0 <= r). { apply Hub. split; [lra|]. intros r' t Hr'. replace r' with 0 by lra. rewrite f_0. lra. }
  assert (Hr1 : r <= r1). { apply Hlub. intros x (Hx & _). lra. }
  assert (Hbelow : forall r' t, 0 <= r' < r -> 0 < f r' t).
  { intros r' t Hr'. destruct (Rlt_dec 0 (f r' t)) as [|N]; [assumption|]. exfalso. assert (r <= r'); [|lra]. apply Hlub. intros x (Hx & Hp).
    destruct (Rle_dec x r'); [assumption|]. exfalso. apply N. apply Hp. lra. }
  pose proof (L_pos r1 (Rlt_le _ _ H1)) as HL.
  assert (Hge : forall t, 0 <= f r t).
  { intros t. destruct (Rle_dec 0 (f r t)) as [|N]; [assumption|]. exfalso. set (d := - f r t). assert (Hd : 0 < d) by (unfold d; lra).
    assert (Hrp : 0 < r). { destruct Hr0 as [|Z]; [assumption|]. exfalso. rewrite <- Z, f_0 in N. lra. }
    destruct (small d (L r1) Hd HL) as (Hs & Hs2). set (e := d / (2 * (L r1 + 1))) in *. set (r' := Rmax 0 (r - e)).
    assert (Hr' : 0 <= r' < r) by (unfold r'; split; [apply Rmax_l|apply Rmax_lub_lt; lra]). assert (Hd' : Rabs (r' - r) <= e).
    { rewrite Rabs_left1 by lra. assert (r - e <= r') by apply Rmax_r. lra. }
    pose proof (f_lipschitz r1 r' r t ltac:(lra) ltac:(lra)) as B. pose proof (Hbelow r' t Hr') as P.
    assert (Rabs (f r' t - f r t) <= L r1 * e) by (eapply Rle_trans; [exact B|]; apply Rmult_le_compat_l; auto).
    rewrite Rabs_pos_eq in H by lra. unfold d in Hs2. lra. }
  assert (HPI := PI_RGT_0).
  destruct (continuity_ab_min (f r) (- PI) PI) as (tm & Hmin & Htm); [lra| |].
  { intros t _. apply derivable_continuous_pt. exists (J_t g r t / g0 g). apply f_derivative. }
  assert (Hz : f r tm = 0).
  { destruct (Hge tm) as [Hpos|]; [|auto]. exfalso. set (d := f r tm) in *.
    assert (Hall : forall t, d <= f r t). { intros t. destruct (f_reduce r t) as (t' & Ht' & <-). apply Hmin; auto. }
    destruct (small d (L r1) Hpos HL) as (Hs & Hs2). set (e := d / (2 * (L r1 + 1))) in *.
    destruct Hr1 as [Hlt|Heq].
    - assert (Hin : E (Rmin (r + e) r1)).
      { assert (M1 : Rmin (r + e) r1 <= r + e) by apply Rmin_l. assert (M2 : Rmin (r + e) r1 <= r1) by apply Rmin_r. assert (M3 : 0 <= Rmin (r + e) r1) by (apply Rmin_glb; lra).
        split; [lra|]. intros r' t Hr'. destruct (Rlt_dec r' r) as [Hb|Hb]; [apply Hbelow; lra|].
        pose proof (f_lipschitz r1 r' r t ltac:(lra) ltac:(lra)) as B. assert (Rabs (r' - r) <= e) by (rewrite Rabs_pos_eq; lra).
        assert (B' : Rabs (f r' t - f r t) <= L r1 * e) by (eapply Rle_trans; [exact B|]; apply Rmult_le_compat_l; auto).
        pose proof (Rle_abs (- (f r' t - f r t))) as B2. rewrite Rabs_Ropp in B2. pose proof (Hall t). lra. }
      apply Hub in Hin. assert (r < Rmin (r + e) r1) by (apply Rmin_glb_lt; lra). lra.
    - pose proof (Hall t1) as Q. rewrite Heq in Q. unfold f in Q. rewrite HJ1 in Q. unfold Rdiv in Q. rewrite Rmult_0_l in Q. lra. }
  exists r, tm. split; [exact Hr1|]. split; [|split].
  - destruct Hr0 as [|Z]; [assumption|]. exfalso. rewrite <- Z, f_0 in Hz. lra.
  - apply (Rmult_eq_reg_r (/ g0 g)); [|apply Rinv_neq_0_compat; auto]. rewrite Rmult_0_l. exact Hz.
  - assert (pr : derivable_pt (f r) tm) by (exists (J_t g r tm / g0 g); apply f_derivative).
    pose proof (deriv_minimum (f r) (tm - 1) (tm + 1) tm pr ltac:(lra) ltac:(lra) ltac:(intros; rewrite Hz; auto)) as D.
    rewrite (derive_pt_eq_0 _ _ _ pr (f_derivative r tm)) in D. apply (Rmult_eq_reg_r (/ g0 g)); [|apply Rinv_neq_0_compat; auto]. rewrite Rmult_0_l. exact D.
Qed.
End First.
