(** Facts about sums of real numbers. *)
From Coq Require Import ZArith Reals List Lia Lra Arith.
From Verif Require Import FloatOps MathOps.
Local Open Scope R_scope.

Lemma rsum_ext n f g : (forall k, (k < n)%nat -> f k = g k) -> rsum n f = rsum n g.
Proof. induction n as [|n IH]; intros H; cbn; [reflexivity|]. rewrite IH, H; auto. Qed.
Lemma rsum_S n f : rsum (S n) f = rsum n f + f n.
Proof. reflexivity. Qed.
Lemma rsum_plus n f g : rsum n (fun k => f k + g k) = rsum n f + rsum n g.
Proof. induction n as [|n IH]; cbn in *; [ring|]. rewrite IH. ring. Qed.
Lemma rsum_minus n f g : rsum n (fun k => f k - g k) = rsum n f - rsum n g.
Proof. induction n as [|n IH]; cbn in *; [ring|]. rewrite IH. ring. Qed.
Lemma rsum_scal n c f : rsum n (fun k => c * f k) = c * rsum n f.
Proof. induction n as [|n IH]; cbn in *; [ring|]. rewrite IH. ring. Qed.
Lemma rsum_scal_r n c f : rsum n (fun k => f k * c) = rsum n f * c.
Proof. induction n as [|n IH]; cbn in *; [ring|]. rewrite IH. ring. Qed.
Lemma rsum_opp n f : rsum n (fun k => - f k) = - rsum n f.
Proof. induction n as [|n IH]; cbn in *; [ring|]. rewrite IH. ring. Qed.
Lemma rsum_zero n f : (forall k, (k < n)%nat -> f k = 0) -> rsum n f = 0.
Proof. induction n as [|n IH]; intros H; cbn; [reflexivity|]. rewrite IH, H; auto. ring. Qed.
Lemma rsum_const n c : rsum n (fun _ => c) = INR n * c.
Proof. induction n as [|n IH]; [cbn; ring|]. rewrite rsum_S, IH, S_INR. ring. Qed.
Lemma rsum_first n f : rsum (S n) f = f 0%nat + rsum n (fun k => f (S k)).
Proof. induction n as [|n IH]; [cbn; ring|]. rewrite rsum_S, IH, rsum_S. ring. Qed.
Lemma rsum_first' n f : (0 < n)%nat -> rsum n f = f 0%nat + rsum (n - 1) (fun k => f (S k)).
Proof. destruct n; [lia|]. intros _. rewrite rsum_first. cbn [Nat.sub]. rewrite Nat.sub_0_r. reflexivity. Qed.
Lemma rsum_app n m f : rsum (n + m) f = rsum n f + rsum m (fun k => f (n + k)%nat).
Proof.
  induction m as [|m IH]; [rewrite Nat.add_0_r; cbn; ring|]. rewrite Nat.add_succ_r, !rsum_S, IH. ring.
Qed.
Lemma rsum_rev n f : rsum n f = rsum n (fun k => f (n - 1 - k)%nat).
Proof.
  induction n as [|n IH]; [reflexivity|]. rewrite rsum_S, IH, (rsum_first n (fun k => f (S n - 1 - k)%nat)).
  replace (S n - 1 - 0)%nat with n by lia.
  rewrite (rsum_ext n (fun k => f (S n - 1 - S k)%nat) (fun k => f (n - 1 - k)%nat)); [ring|]. intros k Hk. f_equal. lia.
Qed.
(** A single term. *)
Lemma rsum_single n f j : (j < n)%nat -> (forall k, (k < n)%nat -> k <> j -> f k = 0) -> rsum n f = f j.
Proof.
  induction n as [|n IH]; intros Hj H; [lia|]. rewrite rsum_S. destruct (Nat.eq_dec j n) as [->|Hn].
  - rewrite rsum_zero; [ring|]. intros k Hk. apply H; lia.
  - rewrite IH, (H n); try lia; [ring|]. intros k Hk. apply H. lia.
Qed.
Lemma rsum_le n f g : (forall k, (k < n)%nat -> f k <= g k) -> rsum n f <= rsum n g.
Proof. induction n as [|n IH]; intros H; cbn; [lra|]. specialize (IH (fun k Hk => H k (Nat.lt_lt_succ_r _ _ Hk))). specialize (H n (Nat.lt_succ_diag_r n)). lra. Qed.
Lemma rsum_pos n f : (0 < n)%nat -> (forall k, (k < n)%nat -> 0 < f k) -> 0 < rsum n f.
Proof.
  induction n as [|n IH]; intros Hn H; [lia|]. rewrite rsum_S. pose proof (H n (Nat.lt_succ_diag_r n)).
  destruct n as [|n]; [cbn in *; lra|]. assert (0 < rsum (S n) f) by (apply IH; [lia|]; intros; apply H; lia). lra.
Qed.
(** Exchange of two sums. *)
Lemma rsum_swap n m f : rsum n (fun i => rsum m (fun j => f i j)) = rsum m (fun j => rsum n (fun i => f i j)).
Proof.
  induction n as [|n IH].
  - cbn. rewrite rsum_zero; auto.
  - rewrite rsum_S, IH, <- rsum_plus. apply rsum_ext. reflexivity.
Qed.
(** The sum over a period does not depend on where it begins. *)
Lemma rsum_rotate n f : (forall k, f (k + n)%nat = f k) -> forall j, rsum n (fun k => f (k + j)%nat) = rsum n f.
Proof.
  intros H. induction j as [|j IH].
  - apply rsum_ext. intros. f_equal. lia.
  - rewrite <- IH. destruct n as [|n]; [reflexivity|]. rewrite (rsum_S n (fun k => f (k + S j)%nat)), (rsum_first n (fun k => f (k + j)%nat)).
    replace (n + S j)%nat with (j + S n)%nat by lia. rewrite H. cbn [Nat.add].
    rewrite (rsum_ext n (fun k => f (k + S j)%nat) (fun k => f (S (k + j))%nat)); [ring|]. intros; f_equal; lia.
Qed.

Lemma fmin_le n f k : (k <= n)%nat -> fmin R_ops n f <= f k.
Proof.
  induction n as [|n IH]; intros Hk; cbn [fmin].
  - replace k with 0%nat by lia. lra.
  - cbn [R_ops flt]. unfold Rltb. destruct (Rlt_dec (f (S n)) (fmin R_ops n f)); destruct (Nat.eq_dec k (S n)) as [->|]; try lra; assert (fmin R_ops n f <= f k) by (apply IH; lia); lra.
Qed.
Lemma fmin_in n f : exists k, (k <= n)%nat /\ fmin R_ops n f = f k.
Proof.
  induction n as [|n (k & Hk & E)]; cbn [fmin]; [exists 0%nat; auto|].
  cbn [R_ops flt]. unfold Rltb. destruct (Rlt_dec (f (S n)) (fmin R_ops n f)); [exists (S n); auto|exists k; auto].
Qed.
Lemma fmax_ge n f k : (k <= n)%nat -> f k <= fmax R_ops n f.
Proof.
  induction n as [|n IH]; intros Hk; cbn [fmax].
  - replace k with 0%nat by lia. lra.
  - cbn [R_ops flt]. unfold Rltb. destruct (Rlt_dec (fmax R_ops n f) (f (S n))); destruct (Nat.eq_dec k (S n)) as [->|]; try lra; assert (f k <= fmax R_ops n f) by (apply IH; lia); lra.
Qed.
Lemma fmax_in n f : exists k, (k <= n)%nat /\ fmax R_ops n f = f k.
Proof.
  induction n as [|n (k & Hk & E)]; cbn [fmax]; [exists 0%nat; auto|].
  cbn [R_ops flt]. unfold Rltb. destruct (Rlt_dec (fmax R_ops n f) (f (S n))); [exists (S n); auto|exists k; auto].
Qed.
