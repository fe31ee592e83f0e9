(** Model of src/helicity.cpp (Qsc::calculate_helicity). *)
From Coq Require Import String ZArith List Bool.
From Verif Require Import Base.
Import ListNotations.
Local Open Scope string_scope.
Local Open Scope Z_scope.

(** helicity.cpp lines 9-21: the quadrant of one normal vector.  [ge0 x] is the C++ test
    x >= 0, which is false when x is NaN. *)
Definition quadrant_of {F} (ge0 : F -> bool) (n1 n3 : F) : Z :=
  if ge0 n1 then (if ge0 n3 then 1 else 4) else (if ge0 n3 then 2 else 3).

(** helicity.cpp lines 27-33: the contribution of one pair of neighbours. *)
Definition quadrant_step (a b : Z) : Z :=
  if (a =? 4) && (b =? 1) then 1
  else if (a =? 1) && (b =? 4) then -1
  else b - a.

(** Qsc::calculate_helicity, helicity.cpp lines 6-48.  The grid size [nphi] is given; the
    member array [quadrant] has nphi+1 entries (allocate.cpp line 69).  Overflow of int is
    not modelled. *)
Definition calculate_helicity {F} (ge0 : F -> bool) (nphi : nat) (normal1 normal3 : list F)
    (quadrant : list Z) (spsi sG : Z) : outcome Z :=
  do quadrant <- for_loop nphi (fun j quadrant =>
       do n1 <- aget normal1 j; do n3 <- aget normal3 j;
       aset quadrant j (quadrant_of ge0 n1 n3)) quadrant;
  do q0 <- aget quadrant 0;
  do quadrant <- aset quadrant nphi q0;
  do counter <- for_loop nphi (fun j counter =>
       do a <- aget quadrant j; do b <- aget quadrant (j + 1);
       Ok (counter + quadrant_step a b)) 0;
  let counter := counter * (spsi * sG) in
  let helicity := Z.quot counter 4 in
  if negb (Z.rem counter 4 =? 0) then
    Throw "Axis helicity counter was not a multiple of 4"
  else Ok helicity.
