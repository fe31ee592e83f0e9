(** Expansions of polynomials in r up to r^3: proofs for R2Spec.order. *)
From Coq Require Import ZArith Reals List Lra Lia.
From Verif Require Import Base FloatOps MathOps Curve Axis AxisSpec R1 R1Spec R2 R2Spec.
Import ListNotations.
Local Open Scope R_scope.

Fixpoint padd (l1 l2 : list R) : list R :=
  match l1, l2 with [], _ => l2 | _, [] => l1 | x :: l1', y :: l2' => (x + y) :: padd l1' l2' end.
Lemma padd_ok l1 : forall l2 r, poly (padd l1 l2) r = poly l1 r + poly l2 r.
Proof. induction l1 as [|x l1 IH]; intros [|y l2] r; cbn [padd poly]; try ring. rewrite IH. ring. Qed.
Definition pscale (c : R) (l : list R) : list R := map (fun x => c * x) l.
Lemma pscale_ok c l r : poly (pscale c l) r = c * poly l r.
Proof. induction l as [|x l IH]; cbn [pscale map poly]; [ring|]. fold (pscale c l). rewrite IH. ring. Qed.
Fixpoint pmul (l1 l2 : list R) : list R := match l1 with [] => [] | x :: l1' => padd (pscale x l2) (0 :: pmul l1' l2) end.
Lemma pmul_ok l1 l2 r : poly (pmul l1 l2) r = poly l1 r * poly l2 r.
Proof. induction l1 as [|x l1 IH]; cbn [pmul poly]; [ring|]. rewrite padd_ok, pscale_ok. cbn [poly]. rewrite IH. ring. Qed.

(** The function is a polynomial that begins with the given coefficients. *)
Definition jet (f : R -> R) (a0 a1 a2 a3 : R) : Prop := exists l, forall r, f r = poly (a0 :: a1 :: a2 :: a3 :: l) r.
Lemma jet_eq f a0 a1 a2 a3 b0 b1 b2 b3 : jet f a0 a1 a2 a3 -> a0 = b0 -> a1 = b1 -> a2 = b2 -> a3 = b3 -> jet f b0 b1 b2 b3.
Proof. intros; subst; auto. Qed.
Lemma jet_ext f g a0 a1 a2 a3 : (forall r, f r = g r) -> jet g a0 a1 a2 a3 -> jet f a0 a1 a2 a3.
Proof. intros H (l & E). exists l. intros r. rewrite H. apply E. Qed.
Lemma jet_const c : jet (fun _ => c) c 0 0 0.
Proof. exists []. intros r. cbn. ring. Qed.
Lemma jet_id : jet (fun r => r) 0 1 0 0.
Proof. exists []. intros r. cbn. ring. Qed.
Lemma jet_add f g a0 a1 a2 a3 b0 b1 b2 b3 : jet f a0 a1 a2 a3 -> jet g b0 b1 b2 b3 -> jet (fun r => f r + g r) (a0 + b0) (a1 + b1) (a2 + b2) (a3 + b3).
Proof. intros (l & E) (l' & E'). exists (padd l l'). intros r. rewrite E, E'. cbn [poly]. rewrite padd_ok. ring. Qed.
Lemma jet_opp f a0 a1 a2 a3 : jet f a0 a1 a2 a3 -> jet (fun r => - f r) (- a0) (- a1) (- a2) (- a3).
Proof. intros (l & E). exists (pscale (-1) l). intros r. rewrite E. cbn [poly]. rewrite pscale_ok. ring. Qed.
Lemma jet_sub f g a0 a1 a2 a3 b0 b1 b2 b3 : jet f a0 a1 a2 a3 -> jet g b0 b1 b2 b3 -> jet (fun r => f r - g r) (a0 - b0) (a1 - b1) (a2 - b2) (a3 - b3).
Proof.
  intros H H'. eapply jet_ext with (g := fun r => f r + - g r); [intros; ring|]. apply jet_add; [exact H|]. apply jet_opp, H'.
Qed.
Lemma jet_mul f g a0 a1 a2 a3 b0 b1 b2 b3 : jet f a0 a1 a2 a3 -> jet g b0 b1 b2 b3 ->
  jet (fun r => f r * g r) (a0 * b0) (a0 * b1 + a1 * b0) (a0 * b2 + a1 * b1 + a2 * b0) (a0 * b3 + a1 * b2 + a2 * b1 + a3 * b0).
Proof.
  intros (l & E) (l' & E'). set (p := poly [a0; a1; a2; a3]). 
  exists (padd (padd (pmul [a0; a1; a2; a3] l') (pmul [b0; b1; b2; b3] l))
    (padd [a1 * b3 + a2 * b2 + a3 * b1; a2 * b3 + a3 * b2; a3 * b3] (0 :: 0 :: 0 :: 0 :: pmul l l'))).
  intros r. rewrite E, E'. cbn [poly]. rewrite !padd_ok. cbn [poly]. rewrite !pmul_ok. cbn [poly]. ring.
Qed.
Lemma jet_sq f a0 a1 a2 a3 : jet f a0 a1 a2 a3 -> jet (fun r => f r ^ 2) (a0 * a0) (2 * a0 * a1) (2 * a0 * a2 + a1 * a1) (2 * (a0 * a3 + a1 * a2)).
Proof.
  intros H. eapply jet_ext with (g := fun r => f r * f r); [intros; ring|]. eapply jet_eq; [apply jet_mul; exact H| | | |]; ring.
Qed.
Lemma jet_order3 f a3 : jet f 0 0 0 a3 -> order 3 f.
Proof. intros (l & E). exists (a3 :: l). intros r. rewrite E. cbn [poly]. ring. Qed.
Lemma jet_order4 f : jet f 0 0 0 0 -> order 4 f.
Proof. intros (l & E). exists l. intros r. rewrite E. cbn [poly]. ring. Qed.
Lemma jet_order2 f a2 a3 : jet f 0 0 a2 a3 -> order 2 f.
Proof. intros (l & E). exists (a2 :: a3 :: l). intros r. rewrite E. cbn [poly]. ring. Qed.

(** The coefficients of a function of r and theta, and those of its derivative with respect to theta. *)
Definition c1 (m : modes) t := k1c m * cos t + k1s m * sin t.
Definition c2 (m : modes) t := k20 m + k2s m * sin (2 * t) + k2c m * cos (2 * t).
Definition t1 (m : modes) t := k1s m * cos t - k1c m * sin t.
Definition t2 (m : modes) t := 2 * k2s m * cos (2 * t) - 2 * k2c m * sin (2 * t).
Lemma jet_rt m t : jet (fun r => at_rt m r t) 0 (c1 m t) (c2 m t) 0.
Proof. exists []. intros r. unfold at_rt, c1, c2. cbn. ring. Qed.
Lemma jet_r m t : jet (fun r => at_r m r t) (c1 m t) (2 * c2 m t) 0 0.
Proof. exists []. intros r. unfold at_r, c1, c2. cbn. ring. Qed.
Lemma jet_t m t : jet (fun r => at_t m r t) 0 (t1 m t) (t2 m t) 0.
Proof. exists []. intros r. unfold at_t, t1, t2. cbn. ring. Qed.

Ltac jets := cbv beta; repeat first
  [ apply jet_rt | apply jet_r | apply jet_t | apply jet_const | apply jet_id
  | eapply jet_add | eapply jet_sub | eapply jet_mul | eapply jet_sq | eapply jet_opp ].

(** at_r and at_t are the derivatives of at_rt. *)
Lemma at_r_ok m r t : derivable_pt_lim (fun r => at_rt m r t) r (at_r m r t).
Proof.
  unfold at_rt, at_r. set (x := k1c m * cos t + k1s m * sin t). set (y := k20 m + k2s m * sin (2 * t) + k2c m * cos (2 * t)).
  replace (x + 2 * r * y) with ((1 * x + r * 0) + ((INR 2 * r ^ Nat.pred 2) * y + r ^ 2 * 0)) by (cbn; ring).
  apply (derivable_pt_lim_plus (fun r => r * x) (fun r => r ^ 2 * y)).
  - apply (derivable_pt_lim_mult (fun r => r) (fun _ => x)); [apply derivable_pt_lim_id|apply derivable_pt_lim_const].
  - apply (derivable_pt_lim_mult (fun r => r ^ 2) (fun _ => y)); [apply derivable_pt_lim_pow|apply derivable_pt_lim_const].
Qed.
Lemma dsin2 t : derivable_pt_lim (fun t => sin (2 * t)) t (2 * cos (2 * t)).
Proof.
  replace (2 * cos (2 * t)) with (cos (2 * t) * (0 * t + 2 * 1)) by ring. apply (derivable_pt_lim_comp (fun t => 2 * t) sin); [|apply derivable_pt_lim_sin].
  apply (derivable_pt_lim_mult (fun _ => 2) (fun t => t)); [apply derivable_pt_lim_const|apply derivable_pt_lim_id].
Qed.
Lemma dcos2 t : derivable_pt_lim (fun t => cos (2 * t)) t (- 2 * sin (2 * t)).
Proof.
  replace (- 2 * sin (2 * t)) with (- sin (2 * t) * (0 * t + 2 * 1)) by ring. apply (derivable_pt_lim_comp (fun t => 2 * t) cos); [|apply derivable_pt_lim_cos].
  apply (derivable_pt_lim_mult (fun _ => 2) (fun t => t)); [apply derivable_pt_lim_const|apply derivable_pt_lim_id].
Qed.
Lemma dscal f c x l : derivable_pt_lim f x l -> derivable_pt_lim (fun t => c * f t) x (c * l).
Proof. intros H. replace (c * l) with (0 * f x + c * l) by ring. apply (derivable_pt_lim_mult (fun _ => c) f); [apply derivable_pt_lim_const|auto]. Qed.
Lemma at_t_ok m r t : derivable_pt_lim (at_rt m r) t (at_t m r t).
Proof.
  unfold at_rt, at_t.
  replace (r * (k1s m * cos t - k1c m * sin t) + r ^ 2 * (2 * k2s m * cos (2 * t) - 2 * k2c m * sin (2 * t)))
    with (r * (k1c m * - sin t + k1s m * cos t) + r ^ 2 * (0 + k2s m * (2 * cos (2 * t)) + k2c m * (- 2 * sin (2 * t)))) by ring.
  apply (derivable_pt_lim_plus (fun t => r * (k1c m * cos t + k1s m * sin t)) (fun t => r ^ 2 * (k20 m + k2s m * sin (2 * t) + k2c m * cos (2 * t)))).
  - apply dscal. apply (derivable_pt_lim_plus (fun t => k1c m * cos t) (fun t => k1s m * sin t)); apply dscal; [apply derivable_pt_lim_cos|apply derivable_pt_lim_sin].
  - apply dscal. apply (derivable_pt_lim_plus (fun t => k20 m + k2s m * sin (2 * t)) (fun t => k2c m * cos (2 * t))); [|apply dscal, dcos2].
    apply (derivable_pt_lim_plus (fun _ => k20 m) (fun t => k2s m * sin (2 * t))); [apply derivable_pt_lim_const|apply dscal, dsin2].
Qed.
