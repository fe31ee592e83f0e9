(** Vocabulary of space curves, for the statements about the magnetic axis: vectors of R^3,
    derivatives, and the frame of Frenet; with the facts of vector calculus that are needed. *)
From Coq Require Import Reals Lra Psatz.
Local Open Scope R_scope.

Record vec := V { vx : R; vy : R; vz : R }.
Definition vadd u v := V (vx u + vx v) (vy u + vy v) (vz u + vz v).
Definition scal k v := V (k * vx v) (k * vy v) (k * vz v).
Definition dot u v := vx u * vx v + vy u * vy v + vz u * vz v.
Definition cross u v := V (vy u * vz v - vz u * vy v) (vz u * vx v - vx u * vz v) (vx u * vy v - vy u * vx v).
Definition norm v := sqrt (dot v v).
Definition unit v := scal (/ norm v) v.
(** [u] is the derivative of the curve [f] at [x]. *)
Definition vderiv (f : R -> vec) (x : R) (u : vec) : Prop :=
  derivable_pt_lim (fun t => vx (f t)) x (vx u) /\ derivable_pt_lim (fun t => vy (f t)) x (vy u)
  /\ derivable_pt_lim (fun t => vz (f t)) x (vz u).
(** The vector with cylindrical components (a, b, c) at the angle [phi]. *)
Definition cyl (phi : R) (a : vec) : vec :=
  V (vx a * cos phi - vy a * sin phi) (vx a * sin phi + vy a * cos phi) (vz a).

Lemma sc2 x : sin x * sin x + cos x * cos x = 1. Proof. apply sin2_cos2. Qed.
Lemma veq a b c a' b' c' : a = a' -> b = b' -> c = c' -> V a b c = V a' b' c'. Proof. congruence. Qed.
Lemma cyl_scal p k a : cyl p (scal k a) = scal k (cyl p a).
Proof. destruct a. unfold cyl, scal. cbn. apply veq; ring. Qed.
Lemma cyl_add p a b : cyl p (vadd a b) = vadd (cyl p a) (cyl p b).
Proof. destruct a, b. unfold cyl, vadd. cbn. apply veq; ring. Qed.
Lemma cyl_dot p a b : dot (cyl p a) (cyl p b) = dot a b.
Proof. destruct a as [a1 a2 a3], b as [b1 b2 b3]. unfold cyl, dot. cbn.
  transitivity ((sin p * sin p + cos p * cos p) * (a1 * b1 + a2 * b2) + a3 * b3); [ring|]. rewrite sc2. ring. Qed.
Lemma cyl_norm p a : norm (cyl p a) = norm a. Proof. unfold norm. rewrite cyl_dot. reflexivity. Qed.
Lemma cyl_cross p a b : cross (cyl p a) (cyl p b) = cyl p (cross a b).
Proof. destruct a as [a1 a2 a3], b as [b1 b2 b3]. unfold cyl, cross. cbn. apply veq; try ring.
  transitivity ((sin p * sin p + cos p * cos p) * (a1 * b2 - a2 * b1)); [ring|]. rewrite sc2. ring. Qed.

Lemma dot_nonneg v : 0 <= dot v v.
Proof. unfold dot. pose proof (Rle_0_sqr (vx v)). pose proof (Rle_0_sqr (vy v)). pose proof (Rle_0_sqr (vz v)). unfold Rsqr in *. lra. Qed.
Lemma norm_sq v : norm v * norm v = dot v v.
Proof. apply sqrt_sqrt, dot_nonneg. Qed.
Lemma norm_nonneg v : 0 <= norm v. Proof. apply sqrt_pos. Qed.
Lemma norm_scal k v : norm (scal k v) = Rabs k * norm v.
Proof. unfold norm. replace (dot (scal k v) (scal k v)) with (Rsqr k * dot v v) by (unfold dot, scal, Rsqr; cbn; ring).
  rewrite sqrt_mult; [rewrite sqrt_Rsqr_abs; reflexivity|apply Rle_0_sqr|apply dot_nonneg]. Qed.
Lemma norm_pos_dot v : 0 < norm v -> 0 < dot v v. Proof. intros. rewrite <- norm_sq. nra. Qed.

(** Derivatives. *)
Lemma dlim_ext f g x l : (forall t, f t = g t) -> derivable_pt_lim f x l -> derivable_pt_lim g x l.
Proof. intros E H eps He. destruct (H eps He) as (d & Hd). exists d. intros h Hh Hl. rewrite <- !E. auto. Qed.
Lemma dlim_val f x l l' : l = l' -> derivable_pt_lim f x l -> derivable_pt_lim f x l'. Proof. intros; subst; auto. Qed.
Lemma dlim_plus f g x a b : derivable_pt_lim f x a -> derivable_pt_lim g x b -> derivable_pt_lim (fun t => f t + g t) x (a + b).
Proof. apply derivable_pt_lim_plus. Qed.
Lemma dlim_minus f g x a b : derivable_pt_lim f x a -> derivable_pt_lim g x b -> derivable_pt_lim (fun t => f t - g t) x (a - b).
Proof. apply derivable_pt_lim_minus. Qed.
Lemma dlim_mult f g x a b : derivable_pt_lim f x a -> derivable_pt_lim g x b -> derivable_pt_lim (fun t => f t * g t) x (a * g x + f x * b).
Proof. apply derivable_pt_lim_mult. Qed.
Lemma dlim_inv f x a : f x <> 0 -> derivable_pt_lim f x a -> derivable_pt_lim (fun t => / f t) x (- a / (f x * f x)).
Proof.
  intros Hn H. pose proof (derivable_pt_lim_div (fun _ => 1) f x 0 a (derivable_pt_lim_const 1 x) H Hn) as P. cbn beta in P.
  eapply dlim_ext; [|eapply dlim_val; [|exact P]].
  - intros t. unfold div_fct, Rdiv. ring.
  - unfold Rsqr. field. exact Hn.
Qed.
Lemma vderiv_dot f g x a b : vderiv f x a -> vderiv g x b -> derivable_pt_lim (fun t => dot (f t) (g t)) x (dot a (g x) + dot (f x) b).
Proof.
  intros (F1 & F2 & F3) (G1 & G2 & G3). eapply dlim_val; [|unfold dot; apply dlim_plus; [apply dlim_plus|]; apply dlim_mult; eassumption].
  unfold dot. ring.
Qed.
Lemma vderiv_norm f x a : 0 < norm (f x) -> vderiv f x a -> derivable_pt_lim (fun t => norm (f t)) x (dot (f x) a / norm (f x)).
Proof.
  intros Hp H. pose proof (vderiv_dot f f x a a H H) as D.
  pose proof (derivable_pt_lim_comp _ sqrt x _ _ D (derivable_pt_lim_sqrt _ (norm_pos_dot _ Hp))) as P.
  eapply dlim_val; [|exact P]. cbn beta. fold (norm (f x)). unfold dot. field. lra.
Qed.
Lemma vderiv_scal k f x k' a : derivable_pt_lim k x k' -> vderiv f x a -> vderiv (fun t => scal (k t) (f t)) x (vadd (scal k' (f x)) (scal (k x) a)).
Proof. intros K (F1 & F2 & F3). unfold vderiv, scal, vadd. cbn. repeat split; apply dlim_mult; auto. Qed.
Lemma vderiv_unit f x a : 0 < norm (f x) -> vderiv f x a ->
  vderiv (fun t => unit (f t)) x (vadd (scal (- (dot (f x) a / norm (f x)) / (norm (f x) * norm (f x))) (f x)) (scal (/ norm (f x)) a)).
Proof. intros Hp H. unfold unit. apply (vderiv_scal (fun t => / norm (f t)) f); auto. apply (dlim_inv (fun t => norm (f t))); [lra|]. apply vderiv_norm; auto. Qed.
Lemma vderiv_cross f g x a b : vderiv f x a -> vderiv g x b -> vderiv (fun t => cross (f t) (g t)) x (vadd (cross a (g x)) (cross (f x) b)).
Proof.
  intros (F1 & F2 & F3) (G1 & G2 & G3). unfold vderiv, cross, vadd. cbn.
  repeat split; (eapply dlim_val; [|apply dlim_minus; apply dlim_mult; eassumption]); cbv beta; ring.
Qed.
Lemma vderiv_cyl f x a : vderiv f x a -> vderiv (fun t => cyl t (f t)) x (cyl x (V (vx a - vy (f x)) (vy a + vx (f x)) (vz a))).
Proof.
  intros (F1 & F2 & F3). unfold vderiv, cyl. cbn. split; [|split]; [| |exact F3].
  - eapply dlim_val; [|apply dlim_minus; apply dlim_mult; [exact F1|apply derivable_pt_lim_cos|exact F2|apply derivable_pt_lim_sin]]. cbv beta; ring.
  - eapply dlim_val; [|apply dlim_plus; apply dlim_mult; [exact F1|apply derivable_pt_lim_sin|exact F2|apply derivable_pt_lim_cos]]. cbv beta; ring.
Qed.

(** The frame, from the velocity v, the acceleration a and the third derivative w. *)
Section Frame.
Variables v a w : vec.
Let s := norm v.
Let c := cross v a.
(** (what the program computes for d(tangent)/dl) *)
Let dt := scal (/ (s * s)) (vadd (scal (- (dot v a / s) / s) v) a).
Hypothesis Hs : 0 < s.
Lemma ss : s * s = dot v v. Proof. apply norm_sq. Qed.
Lemma vec_eq u u' : vx u = vx u' -> vy u = vy u' -> vz u = vz u' -> u = u'.
Proof. destruct u, u'. cbn. congruence. Qed.
Lemma dt_eq : dt = scal (/ (s * s * s * s)) (cross c v).
Proof.
  assert (E : cross c v = vadd (scal (s * s) a) (scal (- dot v a) v)).
  { unfold c. rewrite ss. destruct v, a. unfold cross, scal, vadd, dot. cbn. apply veq; ring. }
  rewrite E. unfold dt. apply vec_eq; unfold scal, vadd; cbn; field; lra.
Qed.
Lemma cross_cv_sq : dot (cross c v) (cross c v) = dot c c * (s * s).
Proof. unfold c. rewrite ss. destruct v, a. unfold cross, dot. cbn. ring. Qed.
Lemma dt_norm : norm dt = norm c / (s * s * s).
Proof.
  rewrite dt_eq, norm_scal. assert (E : norm (cross c v) = norm c * s).
  { unfold norm at 1. rewrite cross_cv_sq. rewrite sqrt_mult; [|apply dot_nonneg|nra]. fold (norm c). rewrite sqrt_square by lra. reflexivity. }
  rewrite E. rewrite Rabs_right; [field; lra|]. apply Rle_ge, Rlt_le, Rinv_0_lt_compat. repeat apply Rmult_lt_0_compat; auto.
Qed.
Lemma dt_orth : dot v dt = 0.
Proof. rewrite dt_eq. unfold c. destruct v, a. unfold dot, scal, cross. cbn. ring. Qed.
Lemma unit_deriv : vadd (scal (- (dot v a / s) / (s * s)) v) (scal (/ s) a) = scal s dt.
Proof. unfold dt. apply vec_eq; unfold scal, vadd; cbn; field; lra. Qed.
Hypothesis Hk : norm dt <> 0.
Let n := scal (/ norm dt) dt.
Lemma c_pos : 0 < norm c.
Proof.
  pose proof dt_norm as E. destruct (Rle_lt_or_eq_dec 0 (norm c) (norm_nonneg c)) as [|Z]; auto.
  exfalso. apply Hk. rewrite E, <- Z. unfold Rdiv. ring.
Qed.
Lemma normal_eq : n = scal (/ (norm c * s)) (cross c v).
Proof. pose proof c_pos. unfold n. rewrite dt_norm, dt_eq. apply vec_eq; unfold scal; cbn; field; lra. Qed.
Lemma binormal_eq : cross (unit v) n = unit c.
Proof.
  pose proof c_pos as Hc. rewrite normal_eq. fold s.
  assert (E : cross v (cross c v) = scal (s * s) c).
  { rewrite ss. unfold c. destruct v, a. unfold cross, scal, dot. cbn. apply veq; ring. }
  assert (B : forall k l x y, cross (scal k x) (scal l y) = scal (k * l) (cross x y)) by (intros k l [] []; unfold cross, scal; cbn; apply veq; ring).
  unfold unit. fold s. rewrite B, E. apply vec_eq; unfold scal; cbn; field; lra.
Qed.
(** The derivative of the binormal: c' = v x w. *)
Lemma binormal_deriv : vadd (scal (- (dot c (cross v w) / norm c) / (norm c * norm c)) c) (scal (/ norm c) (cross v w))
  = scal (- (s * (dot v (cross a w) / dot c c))) n.
Proof.
  pose proof c_pos as Hc. rewrite normal_eq, <- norm_sq.
  assert (E : vadd (scal (- dot c (cross v w)) c) (scal (norm c * norm c) (cross v w)) = scal (- dot v (cross a w)) (cross c v)).
  { rewrite norm_sq. unfold c. destruct v, a, w. unfold cross, scal, dot, vadd. cbn. apply veq; ring. }
  pose proof (f_equal vx E) as E1. pose proof (f_equal vy E) as E2. pose proof (f_equal vz E) as E3.
  unfold scal, vadd in E1, E2, E3. cbn [vx vy vz] in E1, E2, E3.
  set (k := norm c) in *. 
  apply vec_eq; unfold scal, vadd; cbn [vx vy vz].
  - transitivity (/ (k * k * k) * (- dot c (cross v w) * vx c + k * k * vx (cross v w))); [field; lra|]. rewrite E1. field. lra.
  - transitivity (/ (k * k * k) * (- dot c (cross v w) * vy c + k * k * vy (cross v w))); [field; lra|]. rewrite E2. field. lra.
  - transitivity (/ (k * k * k) * (- dot c (cross v w) * vz c + k * k * vz (cross v w))); [field; lra|]. rewrite E3. field. lra.
Qed.
Lemma normal_unit : dot n n = 1.
Proof.
  unfold n. pose proof (norm_sq dt) as E. unfold dot, scal in *. cbn [vx vy vz] in *.
  set (k := norm dt) in *. clearbody k. transitivity (/ (k * k) * (vx dt * vx dt + vy dt * vy dt + vz dt * vz dt)); [field; auto|]. rewrite <- E. field. auto.
Qed.
End Frame.
