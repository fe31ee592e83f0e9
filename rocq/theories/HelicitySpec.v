(** Specification vocabulary for the helicity. *)
From Coq Require Import ZArith Reals List Bool.
Import ListNotations.
Local Open Scope Z_scope.

(** A normal vector (n1 = radial, n3 = vertical component) in the quadrant n1 >= 0,
    n3 >= 0, or in the quadrant n1 >= 0, not n3 >= 0. *)
Definition upper_right {F} (ge0 : F -> bool) (v : F * F) : bool := ge0 (fst v) && ge0 (snd v).
Definition lower_right {F} (ge0 : F -> bool) (v : F * F) : bool := ge0 (fst v) && negb (ge0 (snd v)).

(** Signed number of crossings of the ray n1 >= 0, n3 = 0 on the way from [v] to [w]:
    +1 upwards, -1 downwards. *)
Definition crossing {F} (ge0 : F -> bool) (v w : F * F) : Z :=
  (if lower_right ge0 v && upper_right ge0 w then 1 else 0)
  - (if upper_right ge0 v && lower_right ge0 w then 1 else 0).

(** Sum of [f] over the neighbouring pairs of a list ... *)
Fixpoint sum_pairs {A} (f : A -> A -> Z) (l : list A) : Z :=
  match l with
  | x :: ((y :: _) as l') => f x y + sum_pairs f l'
  | _ => 0
  end.
(** ... and around the closed loop through the points of a list. *)
Definition sum_closed {A} (f : A -> A -> Z) (l : list A) : Z :=
  match l with [] => 0 | x :: _ => sum_pairs f (l ++ [x]) end.

(** Winding number of the closed sequence of vectors: signed crossings of the ray. *)
Definition winding {F} (ge0 : F -> bool) (l : list (F * F)) : Z := sum_closed (crossing ge0) l.

(** ** Angles.  [turns theta n k]: the angles theta 0, ..., theta n follow a path that
    advances by less than a quarter turn per step and makes k full turns. *)
Definition turns (theta : nat -> R) (n : nat) (k : Z) : Prop :=
  (forall j, (j < n)%nat -> (Rabs (theta (S j) - theta j) < PI / 2)%R)
  /\ theta n = (theta 0%nat + IZR k * (2 * PI))%R.
