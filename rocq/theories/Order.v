(** Calculation with R2Spec.order: sums, products, and cancelling a factor that does not vanish on the axis. *)
From Coq Require Import Reals List Lra Lia Psatz.
From Verif Require Import Curve R2Spec Jet.
Import ListNotations.
Local Open Scope R_scope.

Lemma order_ext n f g : (forall r, f r = g r) -> order n g -> order n f.
Proof. intros H (l & E). exists l. intros r. rewrite H. apply E. Qed.
Lemma order_add n f g : order n f -> order n g -> order n (fun r => f r + g r).
Proof. intros (l & E) (l' & E'). exists (padd l l'). intros r. rewrite E, E', padd_ok. ring. Qed.
Lemma order_opp n f : order n f -> order n (fun r => - f r).
Proof. intros (l & E). exists (pscale (-1) l). intros r. rewrite E, pscale_ok. ring. Qed.
Lemma order_sub n f g : order n f -> order n g -> order n (fun r => f r - g r).
Proof. intros H H'. eapply order_ext with (g := fun r => f r + - g r); [intros; ring|]. apply order_add; [auto|]. apply order_opp; auto. Qed.
Lemma order_mul n m f g : order n f -> order m g -> order (n + m) (fun r => f r * g r).
Proof. intros (l & E) (l' & E'). exists (pmul l l'). intros r. rewrite E, E', pmul_ok, pow_add. ring. Qed.
Lemma order_mul0 n f g : order n f -> order 0 g -> order n (fun r => f r * g r).
Proof. intros H H'. replace n with (n + 0)%nat by lia. apply order_mul; auto. Qed.
Fixpoint shift (k : nat) (l : list R) : list R := match k with O => l | S k' => 0 :: shift k' l end.
Lemma shift_ok k l r : poly (shift k l) r = r ^ k * poly l r.
Proof. induction k as [|k IH]; cbn [shift poly pow]; [ring|]. rewrite IH. ring. Qed.
Lemma order_weaken n m f : (m <= n)%nat -> order n f -> order m f.
Proof.
  intros H (l & E). exists (shift (n - m) l). intros r. rewrite E, shift_ok. replace n with (m + (n - m))%nat at 1 by lia. rewrite pow_add. ring.
Qed.
Lemma order_const c : order 0 (fun _ => c).
Proof. exists [c]. intros r. cbn. ring. Qed.
Lemma order_pow n : order n (fun r => r ^ n).
Proof. exists [1]. intros r. cbn. ring. Qed.
Lemma order_id : order 1 (fun r => r).
Proof. exists [1]. intros r. cbn. ring. Qed.
Lemma order_scal n c f : order n f -> order n (fun r => c * f r).
Proof. intros H. change n with (0 + n)%nat. apply order_mul; [apply order_const|auto]. Qed.
Lemma jet_order0 f a0 a1 a2 a3 : jet f a0 a1 a2 a3 -> order 0 f.
Proof. intros (l & E). eexists. intros r. rewrite E. cbn [pow]. rewrite Rmult_1_l. reflexivity. Qed.

(** A polynomial is bounded near the axis, so its first coefficient vanishes if the polynomial does away from the axis. *)
Lemma poly_bounded l : exists M, 0 <= M /\ forall r, Rabs r <= 1 -> Rabs (poly l r) <= M.
Proof.
  induction l as [|c l (M & HM & H)]; cbn [poly].
  - exists 0. split; [lra|]. intros r _. rewrite Rabs_R0. lra.
  - exists (Rabs c + M). split; [pose proof (Rabs_pos c); lra|]. intros r Hr. eapply Rle_trans; [apply Rabs_triang|].
    apply Rplus_le_compat_l. rewrite Rabs_mult. specialize (H r Hr). pose proof (Rabs_pos (poly l r)). pose proof (Rabs_pos r). nra.
Qed.
Lemma small_zero c M : 0 <= M -> (forall r, 0 < r <= 1 -> Rabs c <= r * M) -> c = 0.
Proof.
  intros HM H. destruct (Req_dec c 0) as [|N]; [auto|]. exfalso. pose proof (Rabs_pos_lt _ N) as P.
  assert (P2 : 0 < Rabs c / (Rabs c + M + 1)) by (apply Rdiv_lt_0_compat; lra).
  specialize (H (Rabs c / (Rabs c + M + 1))). assert (Hle : 0 < Rabs c / (Rabs c + M + 1) <= 1).
  { split; [auto|]. apply (Rmult_le_reg_r (Rabs c + M + 1)); [lra|]. unfold Rdiv. rewrite Rmult_assoc, Rinv_l by lra. lra. }
  specialize (H Hle). apply (Rmult_le_compat_r (Rabs c + M + 1)) in H; [|lra].
  replace (Rabs c / (Rabs c + M + 1) * M * (Rabs c + M + 1)) with (Rabs c * M) in H by (field; lra). nra.
Qed.
Lemma order1_first c l f : (forall r, f r = poly (c :: l) r) -> order 1 f -> c = 0.
Proof. intros E (l' & E'). specialize (E 0). rewrite E' in E. cbn [poly] in E. rewrite pow_ne_zero in E by lia. lra. Qed.
(** The part of a function beyond its first coefficient. *)
Lemma order_tail n f l : (forall r, f r = r * poly l r) -> order (S n) f -> order n (poly l).
Proof.
  intros E (l' & E'). exists l'.
  assert (H : forall r, r <> 0 -> poly l r = r ^ n * poly l' r).
  { intros r Hr. apply (Rmult_eq_reg_l r); [|auto]. rewrite <- E, E'. cbn [pow]. ring. }
  intros r. destruct (Req_dec r 0) as [->|Hr]; [|auto].
  assert (D : poly (padd l (shift n (pscale (-1) l'))) 0 = 0).
  { set (m := padd l (shift n (pscale (-1) l'))).
    assert (Hm : forall r, r <> 0 -> poly m r = 0). { intros r Hr. unfold m. rewrite padd_ok, shift_ok, pscale_ok, H by auto. ring. }
    destruct m as [|c m']; [reflexivity|]. cbn [poly] in *. destruct (poly_bounded m') as (M & HM & B).
    replace c with 0; [ring|]. symmetry. apply (small_zero c M HM). intros x Hx. specialize (Hm x). specialize (B x).
    assert (Hx0 : x <> 0) by lra. specialize (Hm Hx0). rewrite Rabs_right in B by lra. specialize (B (proj2 Hx)).
    replace c with (- (x * poly m' x)) by lra. rewrite Rabs_Ropp, Rabs_mult, (Rabs_right x) by lra. apply Rmult_le_compat_l; lra. }
  rewrite padd_ok, shift_ok, pscale_ok in D. lra.
Qed.
Lemma order_cancel n : forall f g l, (forall r, f r = poly l r) -> order 0 g -> g 0 <> 0 -> order n (fun r => g r * f r) -> order n f.
Proof.
  induction n as [|n IH]; intros f g l E Hg0 Hg H.
  - exists l. intros r. rewrite E. cbn. ring.
  - destruct l as [|c l].
    { exists []. intros r. rewrite E. cbn. ring. }
    assert (Hc : c = 0).
    { destruct H as (l' & E'). specialize (E' 0). rewrite E in E'. cbn [poly pow] in E'. assert (P : g 0 * c = 0) by lra.
      apply Rmult_integral in P. destruct P; [contradiction|auto]. }
    subst c. assert (T : order n (poly l)).
    { apply (IH (poly l) g l); [reflexivity|auto|auto|]. destruct Hg0 as (lg & Eg).
      assert (Q : order n (poly (pmul lg l))).
      { apply (order_tail n (fun r => g r * f r)); [|exact H]. intros r. rewrite E, Eg, pmul_ok. cbn [poly pow]. ring. }
      eapply order_ext; [|exact Q]. intros r. rewrite Eg, pmul_ok. cbn [pow]. ring. }
    destruct T as (l' & T). exists l'. intros r. rewrite E. cbn [poly pow]. rewrite T. ring.
Qed.
(** The coefficient of the lowest power is determined. *)
Lemma order_unique n c f : order (S n) (fun r => f r - r ^ n * c) -> order (S n) f -> c = 0.
Proof.
  intros H H'. assert (Q : order (S n) (fun r => r ^ n * c)).
  { eapply order_ext; [|apply (order_sub _ _ _ H' H)]. intros r. cbv beta. ring. }
  clear - Q. induction n as [|n IH].
  - destruct Q as (l & E). specialize (E 0). cbn in E. lra.
  - apply IH. assert (T : order (S n) (poly (shift n [c]))).
    { eapply order_tail; [|exact Q]. intros r. cbv beta. rewrite shift_ok. cbn [poly pow]. ring. }
    eapply order_ext; [|exact T]. intros r. cbv beta. rewrite shift_ok. cbn [poly]. ring.
Qed.
