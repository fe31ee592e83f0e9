(** Specification vocabulary for matrix and tensor storage: histories of writes
    ([*op], run by [*_run] on the model) and what they mean for a plain function
    from indices to values ([*_spec]). *)
From Coq Require Import List Arith Bool.
From Verif Require Import Base Tensor.
Import ListNotations.

Section H.
Context {A : Type}.

(** ** Histories of writes and their abstract meaning (specification side). *)
Inductive mop := MSet (i j : nat) (v : A).
Definition mop_ok (r c : nat) (o : mop) := match o with MSet i j _ => i < r /\ j < c end.
Definition mop_run (o : mop) (m : matrix A) := match o with MSet i j v => matrix_set m i j v end.
Definition mop_spec (o : mop) (f : nat -> nat -> A) : nat -> nat -> A :=
  match o with MSet i j v => fun i' j' => if (i' =? i) && (j' =? j) then v else f i' j' end.

Inductive t3op := T3Set (i j k : nat) (v : A) | T3Row (v : list A) (j k : nat).
Definition t3op_ok (a b c : nat) (o : t3op) :=
  match o with
  | T3Set i j k _ => i < a /\ j < b /\ k < c
  | T3Row v j k => length v = a /\ j < b /\ k < c
  end.
Definition t3op_run (o : t3op) (t : tensor3 A) :=
  match o with T3Set i j k v => t3_set t i j k v | T3Row v j k => t3_set_row t v j k end.
Definition t3op_spec (o : t3op) (f : nat -> nat -> nat -> A) :=
  match o with
  | T3Set i j k v => fun i' j' k' => if (i' =? i) && (j' =? j) && (k' =? k) then v else f i' j' k'
  | T3Row v j k => fun i' j' k' => if (j' =? j) && (k' =? k) then nth i' v (f i' j' k') else f i' j' k'
  end.

Inductive t4op := T4Set (i j k l : nat) (v : A) | T4Row (v : list A) (j k l : nat).
Definition t4op_ok (a b c d : nat) (o : t4op) :=
  match o with
  | T4Set i j k l _ => i < a /\ j < b /\ k < c /\ l < d
  | T4Row v j k l => length v = a /\ j < b /\ k < c /\ l < d
  end.
Definition t4op_run (o : t4op) (t : tensor4 A) :=
  match o with T4Set i j k l v => t4_set t i j k l v | T4Row v j k l => t4_set_row t v j k l end.
Definition t4op_spec (o : t4op) (f : nat -> nat -> nat -> nat -> A) :=
  match o with
  | T4Set i j k l v => fun i' j' k' l' =>
      if (i' =? i) && (j' =? j) && (k' =? k) && (l' =? l) then v else f i' j' k' l'
  | T4Row v j k l => fun i' j' k' l' =>
      if (j' =? j) && (k' =? k) && (l' =? l) then nth i' v (f i' j' k' l') else f i' j' k' l'
  end.

(** Run a history of operations. *)
Fixpoint run_hist {O S} (step : O -> S -> outcome S) (os : list O) (s : S) : outcome S :=
  match os with
  | [] => Ok s
  | o :: os' => do s' <- step o s; run_hist step os' s'
  end.
Fixpoint spec_hist {O F} (step : O -> F -> F) (os : list O) (f : F) : F :=
  match os with [] => f | o :: os' => spec_hist step os' (step o f) end.

End H.
