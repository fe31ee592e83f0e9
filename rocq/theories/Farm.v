(** Model of the master/worker exchange of a parameter scan: MultiOptScan::scan and the message
    part of MultiOptScan::proc0_recv in src/multiopt_scan.cpp.

    Process 0 (the master) hands out scan indices and collects results; the other processes
    (workers) evaluate them.  Worker number i (from 0) is the MPI process of rank i+1.

    Messages: MPI guarantees that messages from one sender to one receiver are received in the
    order they were sent.  MPI_Send may return before the message is received (it is buffered)
    or only when it is received; which one is not up to the program, so the environment says
    for every send whether it is buffered.  A receive from MPI_ANY_SOURCE takes a message of
    any worker that has sent one. *)
From Coq Require Import String ZArith List Bool Arith.
From Verif Require Import Base.
Import ListNotations.
Local Open Scope list_scope.
Local Open Scope nat_scope.

Section Farm.
(** The two messages of a result: int_parameters_single and parameters_single. *)
Context {IP FP : Type}.
(** The memory of a worker, and what eval_scan_index can do to it. *)
Context {L : Type}.
Variable evaluates : L -> nat -> outcome L -> Prop.
(** The two arrays as sent from that memory (lines 191-192). *)
Variables (ints : L -> IP) (floats : L -> FP).
(** The memory of process 0, the storing of a result (proc0_recv lines 222-236; the first
    argument is the number of the worker it came from), and the saving of intermediate results
    (lines 149-154) with what is written. *)
Context {D O : Type}.
Variable store : nat -> IP -> FP -> D -> outcome D.
Variable save : D -> outcome O.
(** n_procs - 1 and n_scan_all. *)
Variables (nw n_all : nat).

(** Which sends are buffered, by index sent or evaluated, or by worker told to stop. *)
Record env := mkEnv { buf_index : nat -> bool; buf_stop : nat -> bool;
                      buf_ints : nat -> bool; buf_floats : nat -> bool }.
Variable e : env.

(** Where a worker is in its loop (lines 178-197). *)
Inductive wpc := WWait            (* MPI_Recv of an instruction, line 182 *)
               | WWork (j : nat)  (* eval_scan_index(j), line 188 *)
               | WInts (j : nat)  (* first MPI_Send, line 191 *)
               | WFloats (j : nat)(* second MPI_Send, line 192 *)
               | WEnd.            (* MPI_Barrier, line 203 *)
(** [w_in]: instructions in transit to the worker ([None] is -1, the order to stop);
    [w_out]: messages in transit from it. *)
Record worker := mkW { w_pc : wpc; w_mem : L; w_in : list (option nat); w_out : list (IP + FP) }.

(** The receives of process 0: in the main loop, before index j is given out (line 157), or in
    the final loop, turn i (line 169). *)
Inductive turn := Next (j : nat) | Final (i : nat).
(** The sends of process 0: the first batch (line 134), an index to a worker that finished
    (line 163), the order to stop (line 173). *)
Inductive sending := SFirst (i : nat) | SNext (j w : nat) | SStop (i : nat).
Inductive master := MSend (s : sending)
                  | MLoop (j : nat)                          (* top of the main loop, line 137 *)
                  | MRecv (t : turn)                         (* proc0_recv line 218 *)
                  | MRecv2 (t : turn) (w : nat) (ip : IP)    (* proc0_recv line 220 *)
                  | MEnd.                                    (* MPI_Barrier, line 203 *)
Record state := mkS { s_master : master; s_data : D; s_workers : list worker;
                      s_saved : list O;                      (* history: files written so far *)
                      s_log : list (nat * nat) }.            (* history: (worker, index) evaluated *)

(** Loop conditions. *)
Definition final (i : nat) : master := if i <? nw then MRecv (Final i) else MEnd.   (* line 166 *)
Definition main (j : nat) : master := if j <? n_all then MLoop j else final 0.      (* line 137 *)
Definition first (i : nat) : master := if i <? nw then MSend (SFirst i) else main nw. (* line 132 *)

(** Destination, content and continuation of a send.  Note that the order to stop of turn i of
    the final loop goes to worker i, whichever worker's result was just received (line 173). *)
Definition dest (s : sending) : nat := match s with SFirst i => i | SNext _ w => w | SStop i => i end.
Definition content (s : sending) : option nat :=
  match s with SFirst i => Some i | SNext j _ => Some j | SStop _ => None end.
Definition after (s : sending) : master :=
  match s with SFirst i => first (S i) | SNext j _ => main (S j) | SStop i => final (S i) end.
Definition buffered (s : sending) : bool :=
  match s with SFirst i => buf_index e i | SNext j _ => buf_index e j | SStop i => buf_stop e i end.
Definition reply (t : turn) (w : nat) : sending :=
  match t with Next j => SNext j w | Final i => SStop i end.

(** What a worker does with an instruction (line 183). *)
Definition obey (m : option nat) : wpc := match m with Some j => WWork j | None => WEnd end.

(** Result of a step: a new state, or the failure of a process: an exception or undefined
    behaviour, or a message received into a buffer of the wrong type. *)
Inductive result := Run (s : state) | Fail.

Definition received (t : turn) (w : nat) (ip : IP) (fp : FP) (d : D) ws sv lg : result :=
  match store w ip fp d with
  | Ok d' => Run (mkS (MSend (reply t w)) d' ws sv lg)
  | _ => Fail
  end.

Inductive step : state -> result -> Prop :=
(* process 0 sends *)
| st_send s d ws sv lg w :
    nth_error ws (dest s) = Some w -> buffered s = true ->
    step (mkS (MSend s) d ws sv lg)
         (Run (mkS (after s) d (upd ws (dest s) (mkW (w_pc w) (w_mem w) (w_in w ++ [content s]) (w_out w))) sv lg))
| st_send_sync s d ws sv lg w :
    nth_error ws (dest s) = Some w -> buffered s = false -> w_pc w = WWait -> w_in w = [] ->
    step (mkS (MSend s) d ws sv lg)
         (Run (mkS (after s) d (upd ws (dest s) (mkW (obey (content s)) (w_mem w) [] (w_out w))) sv lg))
(* process 0 at the top of its loop: saves intermediate results, or not, depending on the clock *)
| st_no_save j d ws sv lg :
    step (mkS (MLoop j) d ws sv lg) (Run (mkS (MRecv (Next j)) d ws sv lg))
| st_save j d ws sv lg :
    step (mkS (MLoop j) d ws sv lg)
         (match save d with Ok x => Run (mkS (MRecv (Next j)) d ws (sv ++ [x]) lg) | _ => Fail end)
(* process 0 receives the ints of a result, from any worker *)
| st_ints t d ws sv lg i w m q :
    nth_error ws i = Some w -> w_out w = m :: q ->
    step (mkS (MRecv t) d ws sv lg)
         (match m with
          | inl ip => Run (mkS (MRecv2 t i ip) d (upd ws i (mkW (w_pc w) (w_mem w) (w_in w) q)) sv lg)
          | inr _ => Fail
          end)
| st_ints_sync t d ws sv lg i w j :
    nth_error ws i = Some w -> w_pc w = WInts j -> buf_ints e j = false -> w_out w = [] ->
    step (mkS (MRecv t) d ws sv lg)
         (Run (mkS (MRecv2 t i (ints (w_mem w))) d (upd ws i (mkW (WFloats j) (w_mem w) (w_in w) [])) sv lg))
| st_ints_wrong t d ws sv lg i w j :
    nth_error ws i = Some w -> w_pc w = WFloats j -> buf_floats e j = false -> w_out w = [] ->
    step (mkS (MRecv t) d ws sv lg) Fail
(* process 0 receives the floats from the same worker *)
| st_floats t i ip d ws sv lg w m q :
    nth_error ws i = Some w -> w_out w = m :: q ->
    step (mkS (MRecv2 t i ip) d ws sv lg)
         (match m with
          | inl _ => Fail
          | inr fp => received t i ip fp d (upd ws i (mkW (w_pc w) (w_mem w) (w_in w) q)) sv lg
          end)
| st_floats_sync t i ip d ws sv lg w j :
    nth_error ws i = Some w -> w_pc w = WFloats j -> buf_floats e j = false -> w_out w = [] ->
    step (mkS (MRecv2 t i ip) d ws sv lg)
         (received t i ip (floats (w_mem w)) d (upd ws i (mkW WWait (w_mem w) (w_in w) [])) sv lg)
| st_floats_wrong t i ip d ws sv lg w j :
    nth_error ws i = Some w -> w_pc w = WInts j -> buf_ints e j = false -> w_out w = [] ->
    step (mkS (MRecv2 t i ip) d ws sv lg) Fail
(* workers *)
| st_take m d ws sv lg i w x q :
    nth_error ws i = Some w -> w_pc w = WWait -> w_in w = x :: q ->
    step (mkS m d ws sv lg) (Run (mkS m d (upd ws i (mkW (obey x) (w_mem w) q (w_out w))) sv lg))
| st_eval m d ws sv lg i w j r :
    nth_error ws i = Some w -> w_pc w = WWork j -> evaluates (w_mem w) j r ->
    step (mkS m d ws sv lg)
         (match r with
          | Ok l => Run (mkS m d (upd ws i (mkW (WInts j) l (w_in w) (w_out w))) sv (lg ++ [(i, j)]))
          | _ => Fail
          end)
| st_send_ints m d ws sv lg i w j :
    nth_error ws i = Some w -> w_pc w = WInts j -> buf_ints e j = true ->
    step (mkS m d ws sv lg)
         (Run (mkS m d (upd ws i (mkW (WFloats j) (w_mem w) (w_in w) (w_out w ++ [inl (ints (w_mem w))]))) sv lg))
| st_send_floats m d ws sv lg i w j :
    nth_error ws i = Some w -> w_pc w = WFloats j -> buf_floats e j = true ->
    step (mkS m d ws sv lg)
         (Run (mkS m d (upd ws i (mkW WWait (w_mem w) (w_in w) (w_out w ++ [inr (floats (w_mem w))]))) sv lg)).

(** Executions. *)
Inductive steps : nat -> state -> state -> Prop :=
| steps0 s : steps 0 s s
| stepsS n s t u : step s (Run t) -> steps n t u -> steps (S n) s u.

(** The beginning of scan() (lines 122-132) and its end, when every process is at the barrier. *)
Definition initial (d : D) (mems : list L) : state :=
  mkS (first 0) d (map (fun l => mkW WWait l [] []) mems) [] [].
Definition ended (s : state) : Prop :=
  s_master s = MEnd /\ Forall (fun w => w_pc w = WEnd) (s_workers s).
(** Nobody can move. *)
Definition stuck (s : state) : Prop := forall r, ~ step s r.
End Farm.

(** Checks at the beginning of scan() (lines 113-116): 2 <= n_procs <= n_scan_all + 1. *)
Definition procs_accepted (n_procs n_scan_all : nat) : outcome unit :=
  if n_procs <? 2 then Throw "For MultiOptScan, the number of MPI processes must be at least 2."
  else if n_scan_all <? n_procs - 1
  then Throw "For MultiOptScan, the number of MPI processes cannot exceed n_scan_all + 1."
  else Ok tt.
