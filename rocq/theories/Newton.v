(** Model of src/newton.cpp (qsc::newton_solve) and of dot_product in
    src/vector_matrix.cpp. *)
From Coq Require Import String ZArith List Arith.
From Verif Require Import Base FloatOps.
Import ListNotations.
Open Scope string_scope.

(** NEWTON_* in qsc.hpp. *)
Inductive newton_status := NEWTON_CONVERGED | NEWTON_LINESEARCH_FAILED | NEWTON_MAX_ITERATIONS.

Section Newton.
Context {F : Type} (o : fops F).
(** The matrix type: only handed from the Jacobian callback to LAPACK. *)
Context {M : Type}.
(** The callback data ([user_data]); callbacks may change it. *)
Context {U : Type}.

(** residual_function(state, residual, user_data): new residual and user data.  The old
    contents of the residual array are ignored (newton.cpp line 17). *)
Variable residual_function : list F -> U -> outcome (list F * U).
(** jacobian_function(state, m, user_data). *)
Variable jacobian_function : list F -> U -> outcome (M * U).
(** linear_solve(m, v, ipiv), vector_matrix.cpp lines 166-185 (LAPACK *gesv; throws when
    INFO is not 0).  Not modelled further. *)
Variable linear_solve : M -> list F -> outcome (list F).

(** dot_product, vector_matrix.cpp lines 91-98. *)
Definition dot_product (u v : list F) : outcome F :=
  if (length u =? length v)%nat then
    for_loop (length u)
      (fun j sum => do a <- aget u j; do b <- aget v j; Ok (fadd o sum (fmul o a b)))
      (fzero o)
  else Throw "assert u.size() == v.size()".

(** state0 + step_scale * step_direction on valarrays, newton.cpp line 73 (undefined
    when the sizes differ). *)
Definition axpy (state0 : list F) (a : F) (step : list F) : outcome (list F) :=
  if (length state0 =? length step)%nat then
    Ok (map (fun p => fadd o (fst p) (fmul o a (snd p))) (combine state0 step))
  else UB "valarray sizes differ".

(** The variables of newton_solve that change. *)
Record nst := mkNst { n_state : list F; n_residual : list F; n_norm : F; n_user : U }.

(** The line search, newton.cpp lines 71-82, with [n] steps left and the current
    [step_scale]. *)
Fixpoint linesearch (n : nat) (state0 step : list F) (step_scale last : F) (s : nst) : outcome nst :=
  match n with
  | O => Ok s
  | S n' =>
      do state <- axpy state0 step_scale step;
      do ru <- residual_function state (n_user s);
      do norm <- dot_product (fst ru) (fst ru);
      let s' := mkNst state (fst ru) norm (snd ru) in
      if flt o norm last then Ok s'
      else linesearch n' state0 step (fdiv o step_scale (ftwo o)) last s'
  end.

(** The Newton iteration, newton.cpp lines 56-96, with [n] iterations left. *)
Fixpoint newton_loop (n : nat) (max_ls : nat) (tolerance_sq : F) (s : nst)
  : outcome (newton_status * nst) :=
  match n with
  | O => Ok (if flt o (n_norm s) tolerance_sq then NEWTON_CONVERGED else NEWTON_MAX_ITERATIONS, s)
  | S n' =>
      let last := n_norm s in
      if flt o (n_norm s) tolerance_sq then Ok (NEWTON_CONVERGED, s)
      else
        do mu <- jacobian_function (n_state s) (n_user s);
        let state0 := n_state s in
        do step <- linear_solve (fst mu) (map (fopp o) (n_residual s));
        do s' <- linesearch max_ls state0 step (fone o) last
                   (mkNst (n_state s) (n_residual s) (n_norm s) (snd mu));
        if flt o last (n_norm s') then
          Ok (NEWTON_LINESEARCH_FAILED, mkNst state0 (n_residual s') (n_norm s') (n_user s'))
        else newton_loop n' max_ls tolerance_sq s'
  end.

(** newton_solve, newton.cpp lines 31-98 (printing omitted).  Result: status, state,
    residual array and user data. *)
Definition newton_solve (state : list F) (u : U)
    (max_newton_iterations max_linesearch_iterations : Z) (tolerance : F)
  : outcome (newton_status * list F * list F * U) :=
  let tolerance_sq := fmul o tolerance tolerance in
  do ru <- residual_function state u;
  do norm <- dot_product (fst ru) (fst ru);
  do r <- newton_loop (Z.to_nat max_newton_iterations) (Z.to_nat max_linesearch_iterations)
            tolerance_sq (mkNst state (fst ru) norm (snd ru));
  Ok (fst r, n_state (snd r), n_residual (snd r), n_user (snd r)).
End Newton.
