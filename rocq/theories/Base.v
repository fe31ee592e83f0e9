(** Common vocabulary of the model: outcomes of C++ code and arrays.

    No particular file of /repo is modelled here; this file fixes how C++
    failures and [std::valarray] accesses are represented everywhere else. *)
From Coq Require Import String ZArith List Arith Lia.
Import ListNotations.

(** Outcome of running a piece of C++ code:
    - [Ok v]      normal completion with result [v];
    - [Throw msg] a C++ exception (or a failed [assert]) with message [msg];
    - [UB why]    undefined behaviour, e.g. an out-of-bounds access. *)
Inductive outcome (A : Type) : Type :=
| Ok (a : A)
| Throw (msg : string)
| UB (why : string).
Arguments Ok {A} _.
Arguments Throw {A} _.
Arguments UB {A} _.

Definition bind {A B} (x : outcome A) (f : A -> outcome B) : outcome B :=
  match x with
  | Ok a => f a
  | Throw m => Throw m
  | UB w => UB w
  end.

Notation "'do' x <- a ; b" := (bind a (fun x => b))
  (at level 200, x binder, a at level 100, b at level 200, right associativity).
Notation "a ;; b" := (bind a (fun _ => b))
  (at level 190, b at level 200, right associativity).

(** [std::valarray<T>::operator[]] (read).  The C++ operator does not check
    the index; reading outside the array is undefined behaviour. *)
Definition aget {A} (l : list A) (i : nat) : outcome A :=
  match nth_error l i with
  | Some a => Ok a
  | None => UB "array read out of bounds"
  end.

Fixpoint upd {A} (l : list A) (i : nat) (v : A) : list A :=
  match l, i with
  | [], _ => []
  | _ :: t, O => v :: t
  | h :: t, S j => h :: upd t j v
  end.

(** [std::valarray<T>::operator[]] (write). *)
Definition aset {A} (l : list A) (i : nat) (v : A) : outcome (list A) :=
  if i <? length l then Ok (upd l i v) else UB "array write out of bounds".

(** [for (i = 0; i < n; i++) s = body(i, s)] where the body may fail. *)
Fixpoint for_from {S} (i n : nat) (body : nat -> S -> outcome S) (s : S) : outcome S :=
  match n with
  | O => Ok s
  | Datatypes.S n' => do s' <- body i s; for_from (Datatypes.S i) n' body s'
  end.
Definition for_loop {S} (n : nat) (body : nat -> S -> outcome S) (s : S) : outcome S :=
  for_from 0 n body s.
