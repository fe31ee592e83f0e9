(** Model of Scan::collect_results, src/scan_collect_results.cpp lines 14-304: results of all
    MPI processes are brought together on process 0.  Message passing is modelled in Star.v.
    Not modelled: the summed timings (the messages that carry them are), printing, and the
    conversion of message lengths to int. *)
From Coq Require Import String ZArith List Bool Arith.
From Verif Require Import Base FloatOps Tensor Scan Star.
Import ListNotations.
Local Open Scope list_scope.
Local Open Scope nat_scope.

Section Collect.
Context {F : Type} (o : fops F).
(** Conversion of a counter to qscfloat (line 189). *)
Variable fof : nat -> F.
(** axis_nmax_plus_1. *)
Variable na : nat.

(** The five kinds of messages, lines 41-45. *)
Inductive msg :=
| MFilters (l : list nat)
| MTiming (l : list F)
| MParams (l : list F)
| MFourier (l : list F)
| MInts (l : list Z).

(** What process 0 has after the collection: members filters, filter_fractions, n_scan,
    scan_* (the 20 arrays, in order), scan_helicity, and the matrices scan_R0c, scan_R0s,
    scan_Z0c, scan_Z0s, as lists of columns. *)
Record merged := mkMerged {
  g_filters : list nat; g_fractions : list F; g_n_scan : nat;
  g_scan : list (list F); g_helicity : list Z; g_fourier : list (list (list F)) }.

(** What one process brings to one collection: the snapshot of Scan.v (KEPT already set,
    line 33) and its timings. *)
Record contribution := mkContrib { c_snap : @snapshot F; c_timing : list F }.
Definition c_j_scan (c : contribution) := sn_j_scan (c_snap c).

(** Lines 35-45 and 297, any process but 0.  [e]: which sends are buffered. *)
Definition collect_leaf (e : nat -> bool) (c : contribution) : list (lact msg) :=
  [ LBarrier;
    LSend (e 0) (MFilters (sn_filters (c_snap c)));
    LSend (e 1) (MTiming (c_timing c));
    LSend (e 2) (MParams (firstn (n_parameters * c_j_scan c) (m_data (b_params (sn_buf (c_snap c))))));
    LSend (e 3) (MFourier (firstn (na * 4 * c_j_scan c) (m_data (b_fourier (sn_buf (c_snap c))))));
    LSend (e 4) (MInts (firstn (n_int_parameters * c_j_scan c) (b_int (sn_buf (c_snap c)))));
    LBarrier ].

(** MPI_Recv of at most [count] elements to position [off] of an array. *)
Definition recv_into {B} (buf : list B) (off count : nat) (data : list B) : outcome (list B) :=
  if length data <=? count then
    if off + length data <=? length buf then Ok (firstn off buf ++ data ++ skipn (off + length data) buf)
    else UB "receive outside the array"
  else Throw "MPI_ERR_TRUNCATE".

Fixpoint mapM {B C} (f : B -> outcome C) (l : list B) : outcome (list C) :=
  match l with [] => Ok [] | x :: l' => do y <- f x; do ys <- mapM f l'; Ok (y :: ys) end.

(** Process 0 stops on an error. *)
Definition rbind {B C} (x : outcome B) (k : B -> rprog msg C) : rprog msg C :=
  match x with Ok b => k b | _ => RFail end.

Section Root.
Context {C : Type}.

(** Lines 62-68.  [js]: the ranks still to be received from. *)
Fixpoint recv_counts (js : list nat) (fcomb : list nat) (tcomb : list F)
    (k : list nat -> list F -> rprog msg C) : rprog msg C :=
  match js with
  | [] => k fcomb tcomb
  | j :: js' =>
      RRecv (j - 1) (fun m => match m with
        | MFilters d => rbind (recv_into fcomb (N_FILTERS * j) N_FILTERS d) (fun fcomb =>
            RRecv (j - 1) (fun m => match m with
              | MTiming d => rbind (recv_into tcomb (8 * j) 8 d) (fun tcomb => recv_counts js' fcomb tcomb k)
              | _ => RFail end))
        | _ => RFail end)
  end.

(** Lines 70-77: adding up the counters. *)
Definition sum_filters (n_procs : nat) (fcomb : list nat) : outcome (list nat) :=
  for_loop n_procs (fun k filters =>
    for_loop N_FILTERS (fun j filters =>
      do v <- aget fcomb (j + k * N_FILTERS); do w <- aget filters j; aset filters j (w + v)) filters)
    (repeat 0 N_FILTERS).

(** Lines 102-112, one array with [r] rows (Matrix::operator() has the same index in source
    and destination). *)
Definition copy_flat {B} (r j_scan : nat) (src dst : list B) : outcome (list B) :=
  for_loop j_scan (fun j dst =>
    for_loop r (fun k dst => do v <- aget src (k + r * j); aset dst (k + r * j) v) dst) dst.

(** Lines 114-124. *)
Fixpoint recv_data (js : list nat) (kept : list nat) (offset : nat) (P X : list F) (I : list Z)
    (k : list F -> list F -> list Z -> rprog msg C) : rprog msg C :=
  match js with
  | [] => k P X I
  | j :: js' =>
      rbind (aget kept j) (fun nk =>
      RRecv (j - 1) (fun m => match m with
        | MParams d => rbind (recv_into P (n_parameters * offset) (n_parameters * nk) d) (fun P =>
          RRecv (j - 1) (fun m => match m with
            | MFourier d => rbind (recv_into X (na * 4 * offset) (na * 4 * nk) d) (fun X =>
              RRecv (j - 1) (fun m => match m with
                | MInts d => rbind (recv_into I (offset * n_int_parameters) (n_int_parameters * nk) d) (fun I =>
                    recv_data js' kept (offset + nk) P X I k)
                | _ => RFail end))
            | _ => RFail end))
        | _ => RFail end))
  end.

(** Lines 126-189: unpacking. *)
Definition unpack (filters : list nat) (n_scan : nat) (P X : list F) (I : list Z) : outcome merged :=
  do scan <- mapM (fun x => mapM (fun j => aget P (x + n_parameters * j)) (seq 0 n_scan)) (seq 0 n_parameters);
  do hel <- mapM (fun j => aget I (0 + j * n_int_parameters)) (seq 0 n_scan);
  do four <- mapM (fun b => mapM (fun j => mapM (fun k => aget X (k + b * na + na * 4 * j)) (seq 0 na)) (seq 0 n_scan)) (seq 0 4);
  do f0 <- aget filters 0;
  do fr <- mapM (fun j => do v <- aget filters j; Ok (fdiv o (fof v) (fof f0))) (seq 0 N_FILTERS);
  Ok (mkMerged filters fr n_scan scan hel four).

(** Process 0, lines 33-297. *)
Definition collect_root (n_procs : nat) (c : contribution) (k : merged -> rprog msg C) : rprog msg C :=
  RBarrier (
    rbind (recv_into (repeat 0 (N_FILTERS * n_procs)) 0 N_FILTERS (sn_filters (c_snap c))) (fun fcomb =>
    rbind (recv_into (repeat (fzero o) (8 * n_procs)) 0 8 (c_timing c)) (fun tcomb =>
    recv_counts (seq 1 (n_procs - 1)) fcomb tcomb (fun fcomb tcomb =>
    rbind (sum_filters n_procs fcomb) (fun filters =>
    rbind (mapM (fun k => aget fcomb (KEPT + k * N_FILTERS)) (seq 0 n_procs)) (fun kept =>
    rbind (aget filters KEPT) (fun n_scan =>
    rbind (copy_flat n_parameters (c_j_scan c) (m_data (b_params (sn_buf (c_snap c)))) (repeat (fzero o) (n_parameters * n_scan))) (fun P =>
    rbind (copy_flat (na * 4) (c_j_scan c) (m_data (b_fourier (sn_buf (c_snap c)))) (repeat (fzero o) (na * 4 * n_scan))) (fun X =>
    rbind (copy_flat n_int_parameters (c_j_scan c) (b_int (sn_buf (c_snap c))) (repeat 0%Z (n_int_parameters * n_scan))) (fun I =>
    recv_data (seq 1 (n_procs - 1)) kept (c_j_scan c) P X I (fun P X I =>
    rbind (unpack filters n_scan P X I) (fun out =>
    RBarrier (k out))))))))))))).
End Root.

(** A whole scan, as far as communication goes: each process goes through its collections (one
    per intermediate save and one at the end, see Scan.v) in order. *)
Fixpoint root_prog (n_procs : nat) (cs : list contribution) (acc : list merged) : rprog msg (list merged) :=
  match cs with
  | [] => RDone (rev acc)
  | c :: cs' => collect_root n_procs c (fun out => root_prog n_procs cs' (out :: acc))
  end.
(** A collection by another process, with the flags that say which of its sends are buffered. *)
Definition sending : Type := ((nat -> bool) * contribution)%type.
Definition leaf_prog (cs : list sending) : list (lact msg) :=
  flat_map (fun ec => collect_leaf (fst ec) (snd ec)) cs.
(** Initial state: [root] is what process 0 collects, [leaves] what ranks 1, 2, ... collect. *)
Definition scan_comm (root : list contribution) (leaves : list (list sending)) : state msg (list merged) :=
  mkState (root_prog (S (length leaves)) root []) (map (fun l => (leaf_prog l, [])) leaves).
End Collect.
