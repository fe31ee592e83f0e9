(** Specification vocabulary for the random number generator. *)
From Coq Require Import String ZArith Reals List.
From Verif Require Import Base FloatOps RandomGen.
Local Open Scope R_scope.

(** [x] lies between [a] and [b], in either order. *)
Definition between (a b x : R) : Prop := Rmin a b <= x <= Rmax a b.

(** Limits the documentation comment (random.cpp lines 9-17) allows. *)
Definition limits_allowed (distrib_in : string) (min max : R) : Prop :=
  (distrib_in = "linear"%string)
  \/ (distrib_in = "log"%string /\ (0 < min /\ 0 < max \/ min < 0 /\ max < 0 \/ min = 0 /\ max = 0))
  \/ (distrib_in = "2 sided log"%string /\ (0 < min /\ 0 < max \/ min = 0 /\ max = 0)).

(** Objects a program can have in its hands: constructed, then used in any way. *)
Inductive reachable {F} (o : fops F) (f : rfuns F) {G} (uniform : G -> F * G)
    (det : bool) (distrib_in : string) (min max : F) : random (F:=F) (G:=G) -> Prop :=
| reach_make seed r : make_random o f det distrib_in min max seed = Ok r -> reachable o f uniform det distrib_in min max r
| reach_get r : reachable o f uniform det distrib_in min max r ->
    reachable o f uniform det distrib_in min max (snd (get o f uniform r))
| reach_set n r : reachable o f uniform det distrib_in min max r ->
    reachable o f uniform det distrib_in min max (set_to_nth o f uniform n r).

(** Fractional part. *)
Definition frac (x : R) : R := x - IZR (Int_part x).
Definition golden : R := (1 + sqrt 5) / 2.
