(** Properties C12-C15: the Newton solver.
    In all of them the callbacks may change their user data arbitrarily; [evaluates rf Fn]
    says that the residual callback fills the residual array with [Fn state]. *)
From Coq Require Import ZArith Reals List SpecFloat Lra.
From Verif Require Import Base FloatOps Newton NewtonSpec NewtonFacts.
Import ListNotations.

(** ** C12.  For every arithmetic (in particular IEEE doubles), every callback pair, linear
    solver, initial guess, iteration limits and tolerance. *)
Theorem C12_newton_status_truthful :
  forall (F : Type) (o : fops F) (M U : Type)
         (rf : list F -> U -> outcome (list F * U)) (jf : list F -> U -> outcome (M * U))
         (ls : M -> list F -> outcome (list F)) (Fn : list F -> list F),
  evaluates rf Fn ->
  forall s0 u0 mn ml tol st s r u,
  newton_solve o rf jf ls s0 u0 mn ml tol = Ok (st, s, r, u) ->
  match st with
  | NEWTON_CONVERGED => r = Fn s /\ flt o (norm_sq o (Fn s)) (fmul o tol tol) = true
  | NEWTON_MAX_ITERATIONS => r = Fn s /\ flt o (norm_sq o (Fn s)) (fmul o tol tol) = false
  | NEWTON_LINESEARCH_FAILED => flt o (norm_sq o (Fn s)) (fmul o tol tol) = false
  end.
Proof. intros. eapply newton_status_truthful; eauto. Qed.
Print Assumptions C12_newton_status_truthful.

(** The solver always returns when the callbacks and the linear solver do. *)
Theorem C12_newton_total :
  forall (F : Type) (o : fops F) (M U : Type)
         (rf : list F -> U -> outcome (list F * U)) (jf : list F -> U -> outcome (M * U))
         (ls : M -> list F -> outcome (list F)) (n : nat),
  (forall s u, length s = n -> exists r u', rf s u = Ok (r, u') /\ length r = n) ->
  (forall s u, length s = n -> exists m u', jf s u = Ok (m, u')) ->
  (forall m v, length v = n -> exists x, ls m v = Ok x /\ length x = n) ->
  forall s0 u0 mn ml tol, length s0 = n ->
  exists st s r u, newton_solve o rf jf ls s0 u0 mn ml tol = Ok (st, s, r, u)
    /\ length s = n /\ length r = n.
Proof. intros. eapply newton_total; eauto. Qed.
Print Assumptions C12_newton_total.

(** ** C13, in exact arithmetic. *)
Theorem C13_newton_never_worse :
  forall (M U : Type) (rf : list R -> U -> outcome (list R * U)) (jf : list R -> U -> outcome (M * U))
         (ls : M -> list R -> outcome (list R)) (Fn : list R -> list R),
  evaluates rf Fn ->
  forall s0 u0 mn ml tol st s r u,
  newton_solve R_ops rf jf ls s0 u0 mn ml tol = Ok (st, s, r, u) ->
  (norm_sq R_ops (Fn s) <= norm_sq R_ops (Fn s0))%R.
Proof. intros. eapply newton_never_worse_R; eauto. Qed.
Print Assumptions C13_newton_never_worse.

(** In IEEE double arithmetic the same holds when no residual norm is NaN. *)
Theorem C13_newton_never_worse_binary64 :
  forall (M U : Type) (rf : list spec_float -> U -> outcome (list spec_float * U))
         (jf : list spec_float -> U -> outcome (M * U))
         (ls : M -> list spec_float -> outcome (list spec_float)) (Fn : list spec_float -> list spec_float),
  evaluates rf Fn ->
  (forall x, norm_sq D_ops (Fn x) <> S754_nan) ->
  forall s0 u0 mn ml tol st s r u,
  newton_solve D_ops rf jf ls s0 u0 mn ml tol = Ok (st, s, r, u) ->
  SFltb (norm_sq D_ops (Fn s0)) (norm_sq D_ops (Fn s)) = false.
Proof. intros. eapply newton_never_worse_D; eauto. Qed.
Print Assumptions C13_newton_never_worse_binary64.

(** Finding: a NaN residual passes the line search test, so from a finite initial residual
    the solver can hand back a state whose residual is NaN.  Here f(x) = x/x, x0 = 1, and
    the Newton step leads to x = 0. *)
Definition one_unknown (f : spec_float -> spec_float) (s : list spec_float) : list spec_float := map f s.
Definition divide_solve (m : spec_float) (v : list spec_float) : outcome (list spec_float) :=
  Ok (map (fun x => fdiv D_ops x m) v).
Definition f_ratio (x : spec_float) : spec_float := fdiv D_ops x x.

Theorem C13_newton_nan_refuted :
  exists (Fn : list spec_float -> list spec_float) s0 s r log,
    newton_solve D_ops (log_res Fn) (log_jac (fun _ => d_of_Z 1)) divide_solve
      s0 [] 1 1 (d_of_Z 0) = Ok (NEWTON_MAX_ITERATIONS, s, r, log)
    /\ norm_sq D_ops (Fn s0) = d_of_Z 1
    /\ norm_sq D_ops (Fn s) = S754_nan.
Proof.
  exists (one_unknown f_ratio), [d_of_Z 1], [d_of_Z 0], [S754_nan], [CRes [d_of_Z 0]; CJac [d_of_Z 1]; CRes [d_of_Z 1]].
  vm_compute. auto.
Qed.
Print Assumptions C13_newton_nan_refuted.

(** ** C14.  Every exit except the line search failure. *)
Theorem C14_residual_belongs_to_state_partial :
  forall (F : Type) (o : fops F) (M U : Type)
         (rf : list F -> U -> outcome (list F * U)) (jf : list F -> U -> outcome (M * U))
         (ls : M -> list F -> outcome (list F)) (Fn : list F -> list F),
  evaluates rf Fn ->
  forall s0 u0 mn ml tol st s r u,
  newton_solve o rf jf ls s0 u0 mn ml tol = Ok (st, s, r, u) ->
  st <> NEWTON_LINESEARCH_FAILED -> r = Fn s.
Proof.
  intros F o M U rf jf ls Fn Hr s0 u0 mn ml tol st s r u H Hst.
  apply (newton_status_truthful o rf jf ls Fn Hr) in H. destruct st; tauto.
Qed.
Print Assumptions C14_residual_belongs_to_state_partial.

(** Finding: after a failed line search the state is put back but the residual array (and
    whatever the callback stored in the user data) is that of the rejected trial state.
    Here f(x) = x*x + 1 from x0 = 0 with one line search step and Jacobian 1. *)
Definition f_noroot (x : spec_float) : spec_float := fadd D_ops (fmul D_ops x x) (d_of_Z 1).

Theorem C14_linesearch_failure_refuted :
  exists (Fn : list spec_float -> list spec_float) s0 s r t log,
    newton_solve D_ops (log_res Fn) (log_jac (fun _ => d_of_Z 1)) divide_solve
      s0 [] 1 1 (d_of_Z 0) = Ok (NEWTON_LINESEARCH_FAILED, s, r, CRes t :: log)
    /\ r <> Fn s /\ s <> t /\ r = Fn t.
Proof.
  exists (one_unknown f_noroot), [d_of_Z 0], [d_of_Z 0], [d_of_Z 2], [d_of_Z (-1)], [CJac [d_of_Z 0]; CRes [d_of_Z 0]].
  vm_compute. repeat split; auto; intros H; inversion H.
Qed.
Print Assumptions C14_linesearch_failure_refuted.

(** ** C15.  The callbacks record each call; the log is newest first. *)
Theorem C15_newton_calls :
  forall (F : Type) (o : fops F) (M : Type) (Fn : list F -> list F) (J : list F -> M)
         (ls : M -> list F -> outcome (list F)) s0 mn ml tol st s r log,
  newton_solve o (log_res Fn) (log_jac J) ls s0 [] mn ml tol = Ok (st, s, r, log) ->
  (n_res log <= 1 + Z.to_nat mn * Z.to_nat ml)%nat
  /\ (n_jac log <= Z.to_nat mn)%nat
  /\ jac_after_res log
  /\ ((1 <= ml)%Z -> jac_right_after_res log).
Proof. intros. eapply newton_calls; eauto. Qed.
Print Assumptions C15_newton_calls.

(** With no line search steps allowed the Jacobian is evaluated repeatedly at the initial
    guess, so "immediately" needs [1 <= ml]. *)
Example C15_without_linesearch :
  exists s r, newton_solve D_ops (log_res (one_unknown f_noroot)) (log_jac (fun _ => d_of_Z 1)) divide_solve
     [d_of_Z 1] [] 2 0 (d_of_Z 0)
  = Ok (NEWTON_MAX_ITERATIONS, s, r, [CJac [d_of_Z 1]; CJac [d_of_Z 1]; CRes [d_of_Z 1]]).
Proof. do 2 eexists. vm_compute. reflexivity. Qed.

(** ** The hypotheses are met by a run that converges: x*x - 4 = 0 from x0 = 3. *)
Definition f_square (x : spec_float) : spec_float := fsub D_ops (fmul D_ops x x) (d_of_Z 4).
Example newton_example :
  evaluates (log_res (one_unknown f_square)) (one_unknown f_square)
  /\ exists s r log, newton_solve D_ops (log_res (one_unknown f_square))
      (log_jac (fun s => match s with x :: _ => fmul D_ops (d_of_Z 2) x | [] => d_of_Z 0 end)) divide_solve
      [d_of_Z 3] [] 10 5 (fdiv D_ops (d_of_Z 1) (d_of_Z 1000000))
     = Ok (NEWTON_CONVERGED, s, r, log) /\ n_jac log = 4%nat /\ n_res log = 5%nat.
Proof.
  split. { intros s u. eexists. reflexivity. }
  do 3 eexists. split; [vm_compute; reflexivity|]. vm_compute. auto.
Qed.
(** A residual that is never NaN (the constant 1) for [C13_newton_never_worse_binary64]. *)
Example newton_no_nan : forall x : list spec_float,
  norm_sq D_ops ((fun _ => [d_of_Z 1]) x) <> S754_nan.
Proof. intros x. vm_compute. discriminate. Qed.
