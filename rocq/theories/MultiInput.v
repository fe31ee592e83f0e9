(** MultiOpt::run from the input file on: the reading of the tables "multiopt", "qsc" and "opt0", "opt1", ..., and the stages with what has been read. *)
From Coq Require Import String ZArith List Arith Bool Lia.
From Verif Require Import Base FloatOps MathOps Tensor RSing Toml NetCDFOut MScan Opt Run OptQsc ScanInput OptInput.
Import ListNotations.
Local Open Scope string_scope.
Local Open Scope nat_scope.

Section Model.
Context {F : Type} (o : fops F) (mo : mops F).
Variables point4 point3 newton_tol : F.
Notation store := (Toml.store F).
Notation table := (Toml.table F).
Notation opt := (@stage F (@rest F (members F))).
Notation multiopt := (@MScan.multiopt F (@rest F (members F))).
(** The enumerations of opt.hpp, lines 11-22. *)
Definition algorithm_code (a : algorithm_type) : Z := match a with GSL_LM => 0 | GSL_DOGLEG => 1 | GSL_DDOGLEG => 2 | GSL_SUBSPACE2D => 3 end.
Definition diff_method_code (d : diff_method_type) : Z := match d with DIFF_METHOD_FORWARD => 0 | DIFF_METHOD_CENTERED => 1 end.
(** An object of class Opt after the reading (OptInput.v).  Its members algorithm and diff_method, which the minimizer depends on, are among the numbers here. *)
Definition stage_object (so : store) (alg : algorithm_type) (dm : diff_method_type) (q : members F) (s0 : opt) : opt :=
  let s := opt_object so q s0 in
  mkStage (fun x => if String.eqb x "algorithm" then m_of_Z mo (algorithm_code alg) else if String.eqb x "diff_method" then m_of_Z mo (diff_method_code dm) else st_num s x)
    (st_q s) (st_iter s) (st_iter_axis s) (st_fourier_refine s) (st_rest s).
(** multiopt.cpp lines 48-53, from stage [j] on, for [n] stages: [tx j] is the table "opt" followed by j; toml::find throws an exception if there is none.  [e], [s0]: the memory
    of the objects, as in OptInput.v.  A negative fourier_refine is taken as undefined behaviour, as there. *)
Fixpoint read_stages (tq : table) (tx : nat -> option table) (e : nat -> members F) (s0 : nat -> opt) (j n : nat) : outcome (list opt) :=
  match n with
  | O => Ok []
  | S n' =>
      do t <- match tx j with Some t => Ok t | None => Throw "std::out_of_range" end;
      do s <- opt_inputs o mo point4 point3 newton_tol tq t;
      let '(sq, (so, alg, dm)) := s in
      if (v_int so "fourier_refine" <? 0)%Z then UB "negative fourier_refine" else
      do l <- read_stages tq tx e s0 (S j) n';
      Ok (stage_object so alg dm (load sq (constructed o (e j))) (s0 j) :: l)
  end.
(** MultiOpt::input, multiopt.cpp lines 36-55, for a new object (verbose = 0, n_evals = 0; lines 9-17). *)
Definition multi_input (tm tq : table) (tx : nat -> option table) (e : nat -> members F) (s0 : nat -> opt) : outcome multiopt :=
  do n <- multiopt_input_nopts (m_of_Z mo) tm 0;
  do l <- read_stages tq tx e s0 0 (Z.to_nat n);
  Ok (mkMO l 0%Z).

Section Program.
Context (ge0 : F -> bool) (mu0 : F)
    (newton_linear_solve : (nat -> nat -> F) -> list F -> outcome (list F)) (linear_solve : matrix F -> list F -> outcome (list F))
    (geev : list F -> Z * (list F * list F)) (tol : tolerances F) (finite : F -> bool).
Variable gsl : nat -> opt -> Z -> list F -> list (@event F).
Variable junk : nat -> list F.
(** MultiOpt::run, multiopt.cpp lines 19-31, up to the writing of the files (NetCDFOut.v; their names are in Outfile.v). *)
Definition multi_program (tm tq : table) (tx : nat -> option table) (e : nat -> members F) (s0 : nat -> opt) : outcome multiopt :=
  do s <- multi_input tm tq tx e s0;
  multiopt_optimize o (m_sqrt mo) (m_of_Z mo) (qsc_routines o mo ge0 mu0 newton_linear_solve linear_solve geev tol finite) gsl junk s.
End Program.
End Model.
