(** Property C63: the points at which newton_solve evaluates the callbacks are those of a
    Newton iteration with step halving. *)
From Coq Require Import String ZArith List Bool Arith Lia Reals Lra SpecFloat.
From Verif Require Import Base BaseFacts FloatOps Newton NewtonSpec NewtonFacts.
Import ListNotations.
Local Open Scope list_scope.
Local Open Scope nat_scope.

(** ** Specification *)
Section Spec.
Context {F : Type} (o : fops F) {M : Type}.
Variables (Fn : list F -> list F) (J : list F -> M) (ls : M -> list F -> outcome (list F)).

(** The k-th trial point of a line search: x + h d, where h is 1 halved k times. *)
Definition trial (x d : list F) (k : nat) : list F :=
  map (fun p => fadd o (fst p) (fmul o (Nat.iter k (fun h => fdiv o h (ftwo o)) (fone o)) (snd p))) (combine x d).
Definition better (x y : list F) : bool := flt o (norm_sq o (Fn y)) (norm_sq o (Fn x)).

(** The calls of an iteration that starts at [x], in chronological order, when line searches
    have at most [ml] trials.  Each turn evaluates the Jacobian at [x], solves for the Newton
    direction d, and tries x + d, x + d/2, ... until a trial has a smaller residual than [x] or
    [ml] trials were made; the last trial is the next [x]. *)
Inductive newton_run (ml : nat) : list F -> list (call F) -> Prop :=
| run_end x : newton_run ml x []
| run_turn x d m rest :
    ls (J x) (map (fopp o) (Fn x)) = Ok d ->
    m <= ml ->
    (forall k, k + 1 < m -> better x (trial x d k) = false) ->
    (m < ml -> 1 <= m /\ better x (trial x d (m - 1)) = true) ->
    newton_run ml (if m =? 0 then x else trial x d (m - 1)) rest ->
    newton_run ml x (CJac x :: map (fun k => CRes (trial x d k)) (seq 0 m) ++ rest).
End Spec.

(** ** Proof *)
Section Proof.
Context {F : Type} (o : fops F) {M : Type}.
Variables (Fn : list F -> list F) (J : list F -> M) (ls : M -> list F -> outcome (list F)).
Notation st := (@nst F (list (call F))).

Lemma linesearch_trace n : forall k x d (s s' : st),
  linesearch o (log_res Fn) n x d (Nat.iter k (fun h => fdiv o h (ftwo o)) (fone o)) (norm_sq o (Fn x)) s = Ok s' ->
  exists m, m <= n /\
    n_user s' = rev (map (fun i => CRes (trial o x d i)) (seq k m)) ++ n_user s /\
    (forall i, i + 1 < m -> better o Fn x (trial o x d (k + i)) = false) /\
    (m < n -> 1 <= m /\ better o Fn x (trial o x d (k + m - 1)) = true) /\
    (m = 0 -> s' = s) /\
    (1 <= m -> n_state s' = trial o x d (k + m - 1) /\ n_residual s' = Fn (n_state s') /\ n_norm s' = norm_sq o (n_residual s')).
Proof.
  induction n as [|n IH]; cbn [linesearch]; intros k x d s s' H.
  - injection H as <-. exists 0. repeat split; auto; intros; lia.
  - unfold axpy in H. destruct (length x =? length d) eqn:El; [|discriminate]. cbn [bind] in H.
    change (map _ (combine x d)) with (trial o x d k) in H.
    unfold log_res at 1 in H. cbn [bind fst snd] in H. rewrite dot_self in H. cbn [bind] in H.
    destruct (flt o (norm_sq o (Fn (trial o x d k))) (norm_sq o (Fn x))) eqn:Eb.
    + injection H as <-. exists 1. cbn [n_user n_state n_residual n_norm].
      replace (k + 1 - 1) with k by lia.
      repeat split; auto; try (intros; lia).
    + change (fdiv o (Nat.iter k (fun h => fdiv o h (ftwo o)) (fone o)) (ftwo o))
        with (Nat.iter (S k) (fun h => fdiv o h (ftwo o)) (fone o)) in H.
      apply IH in H. destruct H as (m & Hm & Hu & Hf & Hl & H0 & H1). exists (S m).
      split; [lia|]. split; [|split; [|split; [|split]]].
      * rewrite Hu. cbn [n_user]. change (seq k (S m)) with (k :: seq (S k) m). cbn [map rev]. rewrite <- app_assoc. reflexivity.
      * intros [|i] Hi; [rewrite Nat.add_0_r; exact Eb|]. replace (k + S i) with (S k + i) by lia. apply Hf. lia.
      * intros Hlt. destruct (Hl ltac:(lia)) as (A & B). split; [lia|].
        replace (k + S m - 1) with (S k + m - 1) by lia. auto.
      * discriminate.
      * intros _. replace (k + S m - 1) with (S k + m - 1) by lia.
        destruct m as [|m]; [|apply H1; lia]. rewrite (H0 eq_refl). cbn [n_state n_residual n_norm].
        replace (S k + 0 - 1) with k by lia. auto.
Qed.

Lemma newton_loop_trace n ml tol : forall (s : st) stt s',
  consistent o Fn s -> newton_loop o (log_res Fn) (log_jac J) ls n ml tol s = Ok (stt, s') ->
  exists rest, n_user s' = rev rest ++ n_user s /\ newton_run o Fn J ls ml (n_state s) rest.
Proof.
  induction n as [|n IH]; cbn [newton_loop]; intros s stt s' Hc H.
  - injection H as <- <-. exists []. split; auto. constructor.
  - destruct (flt o (n_norm s) tol) eqn:Et.
    { injection H as <- <-. exists []. split; auto. constructor. }
    unfold log_jac at 1 in H. cbn [bind fst snd] in H.
    destruct Hc as (Hr & Hn). rewrite Hr in H.
    destruct (ls (J (n_state s)) (map (fopp o) (Fn (n_state s)))) as [d| |] eqn:Ed; try discriminate. cbn [bind] in H.
    assert (Hn' : n_norm s = norm_sq o (Fn (n_state s))) by congruence. rewrite Hn' in H.
    destruct (linesearch o (log_res Fn) ml (n_state s) d (fone o) _ _) as [s1| |] eqn:El; try discriminate.
    cbn [bind] in H. apply (linesearch_trace ml 0) in El.
    destruct El as (m & Hm & Hu & Hf & Hl & H0 & H1). cbn [n_user] in Hu.
    assert (Hs : n_state s1 = if m =? 0 then n_state s else trial o (n_state s) d (m - 1)).
    { destruct m as [|m]; [rewrite (H0 eq_refl); reflexivity|]. apply H1; lia. }
    assert (Hc1 : consistent o Fn s1).
    { destruct m as [|m].
      - rewrite (H0 eq_refl). split; cbn; auto.
      - destruct (H1 ltac:(lia)) as (_ & A & B). split; auto. congruence. }
    assert (Hturn : forall rest, newton_run o Fn J ls ml (n_state s1) rest ->
       newton_run o Fn J ls ml (n_state s) (CJac (n_state s) :: map (fun k => CRes (trial o (n_state s) d k)) (seq 0 m) ++ rest)).
    { intros rest Hrest. eapply run_turn; eauto. rewrite <- Hs. auto. }
    destruct (flt o (norm_sq o (Fn (n_state s))) (n_norm s1)).
    + injection H as <- <-. cbn [n_user n_state].
      eexists. split; [|apply (Hturn [])]; [|constructor].
      rewrite app_nil_r. cbn [rev]. rewrite Hu, <- app_assoc. reflexivity.
    + apply IH in H; auto. destruct H as (rest & Hu' & Hrun). eexists. split; [|apply Hturn; eauto].
      rewrite Hu', Hu. cbn [rev]. rewrite rev_app_distr, <- !app_assoc. reflexivity.
Qed.
End Proof.

(** ** C63 *)
Theorem newton_evaluates_newton_points :
  forall (F : Type) (o : fops F) (M : Type) (Fn : list F -> list F) (J : list F -> M)
         (ls : M -> list F -> outcome (list F)) s0 mn ml tol st s r log,
  newton_solve o (log_res Fn) (log_jac J) ls s0 [] mn ml tol = Ok (st, s, r, log) ->
  exists calls, rev log = CRes s0 :: calls /\ newton_run o Fn J ls (Z.to_nat ml) s0 calls.
Proof.
  intros F o M Fn J ls s0 mn ml tol st s r log H. unfold newton_solve in H.
  unfold log_res at 1 in H. cbn [bind fst snd] in H. rewrite dot_self in H. cbn [bind] in H.
  destruct (newton_loop _ _ _ _ _ _ _ _) as [[stt s1]| |] eqn:E; try discriminate. cbn [bind fst snd] in H.
  injection H as <- <- <- <-. apply newton_loop_trace in E; [|split; reflexivity].
  destruct E as (rest & Hu & Hrun). exists rest. cbn [n_state n_user] in *. split; auto.
  rewrite Hu, rev_app_distr, rev_involutive. reflexivity.
Qed.
Print Assumptions newton_evaluates_newton_points.

(** In exact arithmetic the k-th trial is x + d / 2^k. *)
Theorem trial_exact : forall (x d : list R) k i, length x = length d -> i < length x ->
  nth i (trial R_ops x d k) 0%R = (nth i x 0 + (/ 2) ^ k * nth i d 0)%R.
Proof.
  intros x d k i Hl Hi. unfold trial.
  assert (E : forall k, Nat.iter k (fun h => fdiv R_ops h (ftwo R_ops)) (fone R_ops) = ((/ 2) ^ k)%R).
  { intros n. induction n; [reflexivity|]. change (fdiv R_ops (Nat.iter n (fun h => fdiv R_ops h (ftwo R_ops)) (fone R_ops)) (ftwo R_ops) = ((/ 2) ^ S n)%R).
    rewrite IHn. simpl. unfold Rdiv. ring. }
  rewrite E. cbn [fadd fmul R_ops].
  revert d i Hl Hi; induction x as [|a x IH]; intros [|b d] [|i] Hl Hi; simpl in *; try lia; auto.
  apply IH; lia.
Qed.
Print Assumptions trial_exact.

(** An example with a rejected first trial, in double precision: for r(x) = x^3 - 1 starting at
    x = 1/4 the full step is rejected several times. *)
Example newton_trace_example :
  let Fn := fun v : list spec_float => match v with [x] => [SFsub 53 1024 (SFmul 53 1024 x (SFmul 53 1024 x x)) (d_of_Z 1)] | _ => v end in
  let J := fun v : list spec_float => match v with [x] => SFmul 53 1024 (d_of_Z 3) (SFmul 53 1024 x x) | _ => d_of_Z 0 end in
  let ls := fun m v => match v with [b] => Ok [SFdiv 53 1024 b m] | _ => Throw "size"%string end in
  exists st s r log, newton_solve D_ops (log_res Fn) (log_jac J) ls [SFdiv 53 1024 (d_of_Z 1) (d_of_Z 4)] [] 1 10 (d_of_Z 0)
    = Ok (st, s, r, log) /\ n_res log = 5.
Proof. do 4 eexists. vm_compute. split; reflexivity. Qed.
