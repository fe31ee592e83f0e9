(** A small model of MPI point-to-point messages and barriers, for the pattern used by
    Scan::collect_results (src/scan_collect_results.cpp): every process other than 0 only
    sends to process 0, process 0 only receives, always naming the sender and with the
    sender's rank as the tag, and all processes take part in barriers.

    MPI guarantees that messages from one sender with one tag are received in the order they
    were sent.  MPI_Send may return before the message is received (the message is buffered)
    or only when it is received; which of the two happens is not up to the program, so every
    send carries a flag chosen by the environment and the theorems hold for all flags. *)
From Coq Require Import List Arith.
From Verif Require Import Base.
Import ListNotations.

Section Star.
(** [M]: messages; [A]: what process 0 has at the end. *)
Context {M A : Type}.

(** What process 0 still has to do. *)
Inductive rprog : Type :=
| RDone (a : A)
| RFail                                    (* error or undefined behaviour *)
| RRecv (src : nat) (k : M -> rprog)       (* MPI_Recv from sender number src *)
| RBarrier (r : rprog).

(** What a sender still has to do. *)
Inductive lact : Type :=
| LSend (buffered : bool) (m : M)
| LBarrier.

(** A sender: its remaining actions and its messages in transit. *)
Definition leaf : Type := (list lact * list M)%type.

(** Process 0 and the senders.  Sender number i (from 0) is the process of rank i+1. *)
Record state := mkState { st_root : rprog; st_leaves : list leaf }.

Inductive step : state -> state -> Prop :=
| StepBuffer r ls i m a q :
    nth_error ls i = Some (LSend true m :: a, q) ->
    step (mkState r ls) (mkState r (upd ls i (a, q ++ [m])))
| StepRecv k ls i m a q :
    nth_error ls i = Some (a, m :: q) ->
    step (mkState (RRecv i k) ls) (mkState (k m) (upd ls i (a, q)))
| StepSync k ls i m a :
    nth_error ls i = Some (LSend false m :: a, []) ->
    step (mkState (RRecv i k) ls) (mkState (k m) (upd ls i (a, [])))
| StepBarrier r ls :
    Forall (fun l : leaf => exists a q, l = (LBarrier :: a, q)) ls ->
    step (mkState (RBarrier r) ls) (mkState r (map (fun l : leaf => (tl (fst l), snd l)) ls)).

Inductive steps : nat -> state -> state -> Prop :=
| steps0 s : steps 0 s s
| stepsS n s t u : step s t -> steps n t u -> steps (S n) s u.

(** All processes have finished. *)
Definition completed (a : A) (s : state) : Prop :=
  st_root s = RDone a /\ Forall (fun l : leaf => fst l = []) (st_leaves s).
(** Nobody can move. *)
Definition stuck (s : state) : Prop := forall t, ~ step s t.
End Star.
Arguments rprog : clear implicits.
Arguments lact : clear implicits.
Arguments leaf : clear implicits.
Arguments state : clear implicits.
