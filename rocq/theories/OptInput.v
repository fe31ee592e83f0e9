(** Opt::run from the input file on: the reading of the tables "qsc" and "opt", and the optimization with what has been read. *)
From Coq Require Import String ZArith List Arith Bool Lia.
From Verif Require Import Base FloatOps MathOps Tensor RSing Toml NetCDFOut MScan Opt Run OptQsc ScanInput.
Import ListNotations.
Local Open Scope string_scope.
Local Open Scope nat_scope.

Section Model.
Context {F : Type} (o : fops F) (mo : mops F).
(** The literals 0.4 and 0.3. *)
Variables point4 point3 : F.
Variable newton_tol : F.
Notation store := (Toml.store F).
Notation table := (Toml.table F).
Notation opt := (@stage F (@rest F (members F))).

(** Opt::defaults, opt.cpp lines 5-54: the variables that Opt::input may change.  The vary_ arrays are set again by Opt::input (opt_input in Toml.v); algorithm and
    diff_method are separate arguments there. *)
Definition opt_defaults : store := fun x =>
  if existsb (String.eqb x) ["verbose"] then VInt 1
  else if existsb (String.eqb x) ["max_iter"] then VInt 3000
  else if existsb (String.eqb x) ["fourier_refine"] then VInt 0
  else if existsb (String.eqb x) ["nphi"] then VInts []
  else if existsb (String.eqb x) ["make_names"; "vary_eta_bar"; "vary_B2c"] then VBool true
  else if existsb (String.eqb x) ["vary_sigma0"; "vary_B2s"] then VBool false
  else if existsb (String.eqb x) ["weight_B20"; "weight_iota"; "weight_elongation"; "weight_curvature"; "weight_R0"; "weight_d2_volume_d_psi2"; "weight_DMerc_times_r2"; "weight_XY2";
      "weight_XY2Prime"; "weight_XY2PrimePrime"; "weight_Z2"; "weight_Z2Prime"; "weight_XY3"; "weight_XY3Prime"; "weight_XY3PrimePrime"; "weight_grad_B"; "weight_grad_grad_B";
      "weight_r_singularity"; "weight_axis_length"; "weight_standard_deviation_of_R"; "weight_B20_mean"] then VFloat (fopp o (fone o))
  else if existsb (String.eqb x) ["target_iota"] then VFloat point4
  else if existsb (String.eqb x) ["min_R0"] then VFloat point3
  else if existsb (String.eqb x) ["max_d2_volume_d_psi2"; "min_DMerc_times_r2"; "target_axis_length"] then VFloat (fzero o)
  else VUninit.

(** Opt::input, opt_input.cpp lines 11-101: first q.input (line 14), then the table "opt". *)
Definition opt_inputs (tq tx : table) : outcome (store * (store * algorithm_type * diff_method_type)) :=
  do sq <- qsc_input (m_of_Z mo) (fzero o) tq (default_store o newton_tol);
  do r0c <- vec_of (sq "R0c");
  do so <- opt_input (m_of_Z mo) (length r0c) tx opt_defaults GSL_LM DIFF_METHOD_FORWARD;
  Ok (sq, so).

Definition v_ints (s : store) x : list Z := match s x with VInts v => v | _ => [] end.
Definition v_bools (s : store) x : list bool := match s x with VBools v => v | _ => [] end.
(** The object of class Opt after the reading, with the object [q], in the memory [s0] (opt.hpp; the members that opt.cpp does not initialise keep what was there). *)
Definition opt_object (so : store) (q : members F) (s0 : opt) : opt :=
  let r := st_rest s0 in
  mkStage (fun x => match so x with VFloat v => v | _ => st_num s0 x end) (fst (view_of q)) (st_iter s0) (st_iter_axis s0) (Z.to_nat (v_int so "fourier_refine"))
    (mkRest (snd (view_of q)) (v_int so "max_iter") (r_n_iter r) 0%Z (r_j_fourier_refine r) (v_ints so "nphi")
       (fun m => v_bool so (String.append "vary_" m)) (fun a => v_bools so (String.append "vary_" (axis_name a)))
       (r_n_parameters r) (r_n_terms r) (r_state_vector_names r) (r_residual_names r) (r_residuals r) (r_objective r) (r_terms r) (r_iter_fourier_refine_step r)).

Section Program.
Context (ge0 : F -> bool) (mu0 : F)
    (newton_linear_solve : (nat -> nat -> F) -> list F -> outcome (list F)) (linear_solve : matrix F -> list F -> outcome (list F))
    (geev : list F -> Z * (list F * list F)) (tol : tolerances F) (finite : F -> bool).
(** The GSL minimizer for an algorithm and a method of differentiation, and the contents of an uninitialized array, as in Opt.v. *)
Variable gsl : algorithm_type -> diff_method_type -> nat -> opt -> Z -> list F -> list (@event F).
Variable junk : nat -> list F.
(** Opt::run, opt.cpp lines 60-66, up to the writing of the output file (NetCDFOut.v); the name of this file is in Outfile.v.  [e]: the memory for q before its construction,
    [s0]: that for the other members.  A negative fourier_refine, for which the matrices get fewer rows than the axis has modes, is taken as undefined behaviour. *)
Definition opt_program (tq tx : table) (e : members F) (s0 : opt) : outcome (opt * @Opt.log F (members F)) :=
  do s <- opt_inputs tq tx;
  let '(sq, (so, alg, dm)) := s in
  if (v_int so "fourier_refine" <? 0)%Z then UB "negative fourier_refine" else
  run_opt o (m_sqrt mo) (m_of_Z mo) (qsc_routines o mo ge0 mu0 newton_linear_solve linear_solve geev tol finite) (gsl alg dm) junk
    (opt_object so (load sq (constructed o e)) s0).
End Program.
End Model.
