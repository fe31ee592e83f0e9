(** Property C07: the number of grid points and the shapes of the arrays. *)
From Coq Require Import String ZArith List Bool Lia.
From Verif Require Import Base Alloc AllocSpec AllocFacts.
Import ListNotations.
Local Open Scope string_scope.
Local Open Scope Z_scope.

(** For every requested number of points up to 2^30 - 2, every combination of orders and
    whatever the arrays were before (fresh object, or a refinement of an earlier grid):
    allocate succeeds, the resulting number of points [n] is odd and is the requested
    number or, when that is even, one more; every array member needed at that order has
    exactly the shape that [n] points require; the axis shape arrays are untouched. *)
Theorem C07_grid_and_arrays : forall r2 r2p1 r3 nphi before,
  0 < nphi < 2 ^ 30 - 1 ->
  exists n after,
    allocate r2 r2p1 r3 nphi before = Ok (n, after)
    /\ Z.odd n = true
    /\ (Z.odd nphi = true -> n = nphi) /\ (Z.odd nphi = false -> n = nphi + 1)
    /\ (forall x s, required r2 r2p1 r3 n x s -> after x = s)
    /\ (forall x, In x axis_members -> after x = before x).
Proof.
  intros r2 r2p1 r3 nphi before H.
  assert (H' : 0 < odd_nphi nphi < 1073741824) by (destruct (odd_nphi_least nphi) as [[-> _]|[-> _]]; lia).
  destruct (allocate_required r2 r2p1 r3 nphi before H') as [sh' [E [R A]]].
  exists (odd_nphi nphi), sh'. split; [exact E|]. split; [apply odd_nphi_odd|].
  split. { intros Ho. destruct (odd_nphi_least nphi) as [[E' _]|[_ Ho']]; congruence. }
  split. { intros Ho. destruct (odd_nphi_least nphi) as [[_ Ho']|[E' _]]; congruence. }
  split; auto.
Qed.
Print Assumptions C07_grid_and_arrays.

(** Allocating again with the resulting number of points changes neither it nor any
    required shape. *)
Theorem C07_idempotent : forall r2 r2p1 r3 nphi before n after,
  0 < nphi < 2 ^ 30 - 1 ->
  allocate r2 r2p1 r3 nphi before = Ok (n, after) ->
  exists again, allocate r2 r2p1 r3 n after = Ok (n, again)
    /\ forall x s, required r2 r2p1 r3 n x s -> again x = after x.
Proof.
  intros r2 r2p1 r3 nphi before n after H E.
  destruct (C07_grid_and_arrays r2 r2p1 r3 nphi before H) as (n1 & a1 & E1 & O1 & A1 & B1 & R1 & _).
  rewrite E in E1. injection E1 as <- <-.
  assert (Hn : 0 < n < 2 ^ 30) by (destruct (Z.odd nphi) eqn:O; [rewrite A1 by auto|rewrite B1 by auto]; lia).
  assert (H' : 0 < odd_nphi n < 1073741824).
  { destruct (odd_nphi_least n) as [[-> _]|[_ Ho]]; [lia|congruence]. }
  destruct (allocate_required r2 r2p1 r3 n after H') as [sh' [E' [R' _]]].
  assert (En : odd_nphi n = n) by (destruct (odd_nphi_least n) as [[-> _]|[_ Ho]]; [auto|congruence]).
  rewrite En in E', R'. exists sh'. split; auto. intros x s Hx. rewrite (R' x s Hx). symmetry. auto.
Qed.
Print Assumptions C07_idempotent.

(** The hypotheses are met by the default of 15 and by an even request. *)
Example C07_example : exists sh,
  allocate true true true 20 (fun _ => []) = Ok (21, sh)
  /\ sh "curvature" = [21] /\ sh "r2_matrix" = [42; 42] /\ sh "quadrant" = [22]
  /\ sh "grad_grad_B_tensor" = [21; 3; 3; 3].
Proof. eexists. split; [vm_compute; reflexivity|]. vm_compute. auto. Qed.
(** A request of zero points is turned into one; a negative one throws. *)
Example C07_zero : exists sh, allocate false false false 0 (fun _ => []) = Ok (1, sh).
Proof. eexists. vm_compute. reflexivity. Qed.
Example C07_negative : allocate false false false (-3) (fun _ => []) = Throw "std::bad_alloc".
Proof. vm_compute. reflexivity. Qed.
