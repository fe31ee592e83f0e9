(** What a tensor-product grid is, independently of the program. *)
From Coq Require Import ZArith List Arith.
Import ListNotations.

(** Number of points of a grid with the given number of values in each dimension. *)
Definition product (l : list Z) : Z := fold_right Z.mul 1%Z l.
Definition nproduct (l : list nat) : nat := fold_right Nat.mul 1 l.

(** A point of the grid: one index per dimension, each within its range. *)
Definition grid_point (sizes : list nat) (indices : list nat) : Prop :=
  Forall2 (fun n i => i < n) sizes indices.

(** Position of a point when the points are listed in lexicographic order (the first
    dimension varies slowest). *)
Fixpoint rank_of (sizes indices : list nat) : nat :=
  match sizes, indices with
  | n :: sizes', i :: indices' => i * nproduct sizes' + rank_of sizes' indices'
  | _, _ => 0
  end.
