(** Model of src/random.cpp and src/random.hpp (class Random). *)
From Coq Require Import String ZArith List Bool Reals.
From Verif Require Import Base FloatOps.
Import ListNotations.
Local Open Scope string_scope.

(** Elementary functions of <cmath> used by Random: exp, log, abs, x -> fmod(x, 1); the
    constants 0.5 and gamma = (1 + sqrt 5)/2 (random.hpp line 27). *)
Record rfuns (F : Type) := mkRfuns {
  fexp : F -> F; flog : F -> F; fabs : F -> F; ffmod1 : F -> F; fhalf : F; fgamma : F }.
Arguments fexp {F}. Arguments flog {F}. Arguments fabs {F}. Arguments ffmod1 {F}.
Arguments fhalf {F}. Arguments fgamma {F}.

(** C++ x == y and x != y: NaN is not equal to anything. *)
Definition feqb {F} (o : fops F) (x y : F) : bool := fle o x y && fle o y x.

(** random.hpp lines 14-17. *)
Inductive distrib := LINEAR | LOG | TWO_SIDED_LOG.

Section Random.
Context {F : Type} (o : fops F) (f : rfuns F).
(** std::default_random_engine and std::uniform_real_distribution(0, 1): a state and a
    function drawing the next number. *)
Context {G : Type} (uniform : G -> F * G).

Record random := mkRandom {
  r_det : bool; r_distrib : distrib; r_min : F; r_max : F; r_logmin : F; r_logmax : F;
  r_last : F; r_sign : F; r_gen : G }.

(** random.cpp lines 18-59.  [seed] is the engine seeded from the clock. *)
Definition make_random (deterministic : bool) (distrib_in : string) (min max : F) (seed : G)
  : outcome random :=
  let mk d := mkRandom deterministic d min max (flog f (fabs f min)) (flog f (fabs f max))
                (fzero o) (if flt o max (fzero o) then fopp o (fone o) else fone o) seed in
  if String.eqb distrib_in "linear" then Ok (mk LINEAR)
  else if String.eqb distrib_in "log" then
    if flt o (fmul o max min) (fzero o) then
      Throw "Error initializing Random with log distribution: max and min must have the same sign"
    else if negb (feqb o max min) && (feqb o max (fzero o) || feqb o min (fzero o)) then
      Throw "Error initializing Random with log distribution: max and min must both be nonzero, unless they are both 0"
    else Ok (mk LOG)
  else if String.eqb distrib_in "2 sided log" then
    if feqb o min (fzero o) && feqb o max (fzero o) then Ok (mk TWO_SIDED_LOG)
    else if fle o min (fzero o) || fle o max (fzero o) then
      Throw "Error initializing Random with 2-sided log distribution: max and min must both be positive, or both 0"
    else Ok (mk TWO_SIDED_LOG)
  else Throw "Unrecognized random distribution type".

(** random.cpp lines 75-96: mapping a number in [0,1] to the distribution. *)
Definition map_distrib (r : random) (rand01 : F) : F :=
  match r_distrib r with
  | LINEAR => fadd o (r_min r) (fmul o (fsub o (r_max r) (r_min r)) rand01)
  | LOG => fmul o (r_sign r) (fexp f (fadd o (r_logmin r) (fmul o (fsub o (r_logmax r) (r_logmin r)) rand01)))
  | TWO_SIDED_LOG =>
      let temp := fabs f (fmul o (fsub o rand01 (fhalf f)) (ftwo o)) in
      let val := fexp f (fadd o (r_logmin r) (fmul o (fsub o (r_logmax r) (r_logmin r)) temp)) in
      if flt o (fhalf f) rand01 then fopp o val else val
  end.

(** Random::get, random.cpp lines 61-97. *)
Definition get (r : random) : F * random :=
  if feqb o (r_max r) (r_min r) then (r_max r, r)
  else
    let '(rand01, r') :=
      if r_det r then
        let l := ffmod1 f (fadd o (r_last r) (fgamma f)) in
        (l, mkRandom (r_det r) (r_distrib r) (r_min r) (r_max r) (r_logmin r) (r_logmax r) l (r_sign r) (r_gen r))
      else
        let '(u, g) := uniform (r_gen r) in
        (u, mkRandom (r_det r) (r_distrib r) (r_min r) (r_max r) (r_logmin r) (r_logmax r) (r_last r) (r_sign r) g)
    in (map_distrib r rand01, r').

(** n calls of get, results discarded: the loop of random.cpp line 110. *)
Fixpoint gets (n : nat) (r : random) : random :=
  match n with O => r | S n' => gets n' (snd (get r)) end.

(** Random::set_to_nth, random.cpp lines 104-111 ([n <= 0] draws nothing). *)
Definition set_to_nth (n : Z) (r : random) : random :=
  gets (Z.to_nat n)
    (mkRandom (r_det r) (r_distrib r) (r_min r) (r_max r) (r_logmin r) (r_logmax r) (fzero o) (r_sign r) (r_gen r)).
End Random.

(** The elementary functions on real numbers (fmod for non-negative arguments). *)
Definition R_funs : rfuns R :=
  mkRfuns R exp ln Rabs (fun x => (x - IZR (Int_part x))%R) (1 / 2)%R ((1 + sqrt 5) / 2)%R.
