(** Model of src/scan_random.cpp (Scan::random): the loop one MPI process runs.
    Parameters of the model: the arithmetic, the physics routines of class Qsc (each may
    throw, and each sets the members listed here), the random draws, and the clock. *)
From Coq Require Import String ZArith List Bool Arith.
From Verif Require Import Base FloatOps Tensor.
Import ListNotations.
Local Open Scope nat_scope.

(** scan.hpp lines 23-40: positions in the array of counters. *)
Definition ATTEMPTS := 0.
Definition KEPT := 1.
Definition REJECTED_DUE_TO_R0_CRUDE := 2.
Definition REJECTED_DUE_TO_R0 := 3.
Definition REJECTED_DUE_TO_HELICITY := 4.
Definition REJECTED_DUE_TO_CURVATURE := 5.
Definition REJECTED_DUE_TO_IOTA := 6.
Definition REJECTED_DUE_TO_ELONGATION := 7.
Definition REJECTED_DUE_TO_L_GRAD_B := 8.
Definition REJECTED_DUE_TO_B20_VARIATION := 9.
Definition REJECTED_DUE_TO_L_GRAD_GRAD_B := 10.
Definition REJECTED_DUE_TO_D2_VOLUME_D_PSI2 := 11.
Definition REJECTED_DUE_TO_DMERC := 12.
Definition REJECTED_DUE_TO_R_SINGULARITY := 13.
Definition REJECTED_DUE_TO_BETA := 14.
Definition N_SIGMA_EQ_SOLVES := 15.
Definition N_R2_SOLVES := 16.
Definition N_FILTERS := 17.

(** scan_random.cpp lines 13-14. *)
Definition n_parameters := 20.
Definition n_int_parameters := 1.

(** The random parameters of one configuration: members of q set at scan_random.cpp lines
    113-127. *)
Record sample (F : Type) := mkSample {
  s_eta_bar : F; s_sigma0 : F; s_B2c : F; s_B2s : F; s_p2 : F;
  s_R0c : list F; s_R0s : list F; s_Z0c : list F; s_Z0s : list F }.
Arguments mkSample {F}. Arguments s_eta_bar {F}. Arguments s_sigma0 {F}. Arguments s_B2c {F}.
Arguments s_B2s {F}. Arguments s_p2 {F}. Arguments s_R0c {F}. Arguments s_R0s {F}.
Arguments s_Z0c {F}. Arguments s_Z0s {F}.

Section Scan.
Context {F : Type} (o : fops F).
Variable fabs : F -> F.
(** Random generators of the process. *)
Context {G : Type}.
(** The draws of scan_random.cpp lines 113-127; the previous values are an argument because
    B2c, B2s and p2 are left alone at first order. *)
Variable pick : G -> sample F -> sample F * G.
(** The rest of the Qsc object. *)
Context {X : Type}.

(** The members of q that Scan::random reads, by the routine that sets them. *)
Record qsc := mkQ {
  q_in : sample F;
  (* init_axis *)
  q_axis_length : F; q_grid_min_R0 : F; q_grid_max_curvature : F;
  q_standard_deviation_of_R : F; q_standard_deviation_of_Z : F; q_helicity : Z;
  (* solve_sigma_equation *)
  q_iota : F;
  (* r1_diagnostics *)
  q_grid_max_elongation : F; q_grid_min_L_grad_B : F;
  (* calculate_r2 *)
  q_B20_grid_variation : F; q_B20_residual : F;
  (* mercier *)
  q_d2_volume_d_psi2 : F; q_DMerc_times_r2 : F;
  (* calculate_grad_grad_B_tensor *)
  q_grid_min_L_grad_grad_B : F;
  (* calculate_r_singularity *)
  q_r_singularity_robust : F; q_beta : F;
  q_rest : X }.

(** The physics routines: each computes new values of its members from the whole object. *)
Record physics := mkPhys {
  ph_init_axis : qsc -> outcome (F * F * F * F * F * Z * X);
  ph_solve_sigma : qsc -> outcome (F * X);
  ph_r1_diagnostics : qsc -> outcome (F * F * X);
  ph_calculate_r2 : qsc -> outcome (F * F * X);
  ph_mercier : qsc -> outcome (F * F * X);
  ph_grad_grad_B : qsc -> outcome (F * X);
  ph_r_singularity : qsc -> outcome (F * F * X) }.
Variable ph : physics.

Definition set_sample (s : sample F) (q : qsc) : qsc :=
  mkQ s (q_axis_length q) (q_grid_min_R0 q) (q_grid_max_curvature q) (q_standard_deviation_of_R q)
    (q_standard_deviation_of_Z q) (q_helicity q) (q_iota q) (q_grid_max_elongation q) (q_grid_min_L_grad_B q)
    (q_B20_grid_variation q) (q_B20_residual q) (q_d2_volume_d_psi2 q) (q_DMerc_times_r2 q)
    (q_grid_min_L_grad_grad_B q) (q_r_singularity_robust q) (q_beta q) (q_rest q).
Definition init_axis (q : qsc) : outcome qsc :=
  do r <- ph_init_axis ph q;
  let '(len, r0, curv, sdr, sdz, h, x) := r in
  Ok (mkQ (q_in q) len r0 curv sdr sdz h (q_iota q) (q_grid_max_elongation q) (q_grid_min_L_grad_B q)
    (q_B20_grid_variation q) (q_B20_residual q) (q_d2_volume_d_psi2 q) (q_DMerc_times_r2 q)
    (q_grid_min_L_grad_grad_B q) (q_r_singularity_robust q) (q_beta q) x).
Definition solve_sigma_equation (q : qsc) : outcome qsc :=
  do r <- ph_solve_sigma ph q;
  let '(iota, x) := r in
  Ok (mkQ (q_in q) (q_axis_length q) (q_grid_min_R0 q) (q_grid_max_curvature q) (q_standard_deviation_of_R q)
    (q_standard_deviation_of_Z q) (q_helicity q) iota (q_grid_max_elongation q) (q_grid_min_L_grad_B q)
    (q_B20_grid_variation q) (q_B20_residual q) (q_d2_volume_d_psi2 q) (q_DMerc_times_r2 q)
    (q_grid_min_L_grad_grad_B q) (q_r_singularity_robust q) (q_beta q) x).
Definition r1_diagnostics (q : qsc) : outcome qsc :=
  do r <- ph_r1_diagnostics ph q;
  let '(elong, lgb, x) := r in
  Ok (mkQ (q_in q) (q_axis_length q) (q_grid_min_R0 q) (q_grid_max_curvature q) (q_standard_deviation_of_R q)
    (q_standard_deviation_of_Z q) (q_helicity q) (q_iota q) elong lgb
    (q_B20_grid_variation q) (q_B20_residual q) (q_d2_volume_d_psi2 q) (q_DMerc_times_r2 q)
    (q_grid_min_L_grad_grad_B q) (q_r_singularity_robust q) (q_beta q) x).
Definition calculate_r2 (q : qsc) : outcome qsc :=
  do r <- ph_calculate_r2 ph q;
  let '(var, res, x) := r in
  Ok (mkQ (q_in q) (q_axis_length q) (q_grid_min_R0 q) (q_grid_max_curvature q) (q_standard_deviation_of_R q)
    (q_standard_deviation_of_Z q) (q_helicity q) (q_iota q) (q_grid_max_elongation q) (q_grid_min_L_grad_B q)
    var res (q_d2_volume_d_psi2 q) (q_DMerc_times_r2 q)
    (q_grid_min_L_grad_grad_B q) (q_r_singularity_robust q) (q_beta q) x).
Definition mercier (q : qsc) : outcome qsc :=
  do r <- ph_mercier ph q;
  let '(d2v, dmerc, x) := r in
  Ok (mkQ (q_in q) (q_axis_length q) (q_grid_min_R0 q) (q_grid_max_curvature q) (q_standard_deviation_of_R q)
    (q_standard_deviation_of_Z q) (q_helicity q) (q_iota q) (q_grid_max_elongation q) (q_grid_min_L_grad_B q)
    (q_B20_grid_variation q) (q_B20_residual q) d2v dmerc
    (q_grid_min_L_grad_grad_B q) (q_r_singularity_robust q) (q_beta q) x).
Definition calculate_grad_grad_B_tensor (q : qsc) : outcome qsc :=
  do r <- ph_grad_grad_B ph q;
  let '(lggb, x) := r in
  Ok (mkQ (q_in q) (q_axis_length q) (q_grid_min_R0 q) (q_grid_max_curvature q) (q_standard_deviation_of_R q)
    (q_standard_deviation_of_Z q) (q_helicity q) (q_iota q) (q_grid_max_elongation q) (q_grid_min_L_grad_B q)
    (q_B20_grid_variation q) (q_B20_residual q) (q_d2_volume_d_psi2 q) (q_DMerc_times_r2 q)
    lggb (q_r_singularity_robust q) (q_beta q) x).
Definition calculate_r_singularity (q : qsc) : outcome qsc :=
  do r <- ph_r_singularity ph q;
  let '(rs, beta, x) := r in
  Ok (mkQ (q_in q) (q_axis_length q) (q_grid_min_R0 q) (q_grid_max_curvature q) (q_standard_deviation_of_R q)
    (q_standard_deviation_of_Z q) (q_helicity q) (q_iota q) (q_grid_max_elongation q) (q_grid_min_L_grad_B q)
    (q_B20_grid_variation q) (q_B20_residual q) (q_d2_volume_d_psi2 q) (q_DMerc_times_r2 q)
    (q_grid_min_L_grad_grad_B q) rs beta x).

(** The settings of the scan (scan.hpp lines 79-89) and the order of the expansion. *)
Record settings := mkSettings {
  keep_all : bool; at_least_order_r2 : bool; helicity_to_keep : Z;
  min_R0_to_keep : F; min_iota_to_keep : F; max_elongation_to_keep : F;
  min_L_grad_B_to_keep : F; min_L_grad_grad_B_to_keep : F;
  max_B20_variation_to_keep : F; min_r_singularity_to_keep : F;
  max_d2_volume_d_psi2_to_keep : F; min_DMerc_times_r2_to_keep : F; min_beta_to_keep : F;
  max_keep_per_proc : nat; max_attempts_per_proc : Z;
  max_seconds : F; save_period : F }.
Variable cfg : settings.

(** filters_local[k]++; the array has N_FILTERS elements.  Wrap-around of the 64-bit
    counters is not modelled. *)
Definition incr (filters : list nat) (k : nat) : outcome (list nat) :=
  do v <- aget filters k; aset filters k (S v).

(** scan_random.cpp lines 121-135: R0 at toroidal angles 0 and half a field period (the
    latter with alternating signs, accumulated in the loop; the former by valarray::sum). *)
Fixpoint half_period_sum (even : bool) (l : list F) (acc : F) : F :=
  match l with
  | [] => acc
  | v :: l' => half_period_sum (negb even) l' (if even then fadd o acc v else fsub o acc v)
  end.
(** std::valarray::sum: starts from the first element. *)
Definition vsum (l : list F) : F :=
  match l with [] => fzero o | x :: l' => fold_left (fadd o) l' x end.

Definition R0_crude_bad (s : sample F) : bool :=
  fle o (vsum (s_R0c s)) (fzero o)
  || fle o (half_period_sum true (s_R0c s) (fzero o)) (fzero o).

(** filters_local[k]++; continue;  The third component says how the attempt ended. *)
Definition reject (filters : list nat) (k : nat) (q : qsc) : outcome (list nat * qsc * option nat) :=
  do f <- incr filters k; Ok (f, q, Some k).

(** scan_random.cpp lines 193-245, the second-order part. *)
Definition attempt_r2 (filters : list nat) (q : qsc) : outcome (list nat * qsc * option nat) :=
  do q <- calculate_r2 q;
  do filters <- incr filters N_R2_SOLVES;
  if negb (keep_all cfg) && flt o (max_B20_variation_to_keep cfg) (q_B20_grid_variation q)
  then reject filters REJECTED_DUE_TO_B20_VARIATION q else
  do q <- mercier q;
  if negb (keep_all cfg) && flt o (max_d2_volume_d_psi2_to_keep cfg) (q_d2_volume_d_psi2 q)
  then reject filters REJECTED_DUE_TO_D2_VOLUME_D_PSI2 q else
  if negb (keep_all cfg) && flt o (q_DMerc_times_r2 q) (min_DMerc_times_r2_to_keep cfg)
  then reject filters REJECTED_DUE_TO_DMERC q else
  do q <- calculate_grad_grad_B_tensor q;
  if negb (keep_all cfg) && flt o (q_grid_min_L_grad_grad_B q) (min_L_grad_grad_B_to_keep cfg)
  then reject filters REJECTED_DUE_TO_L_GRAD_GRAD_B q else
  do q <- calculate_r_singularity q;
  if negb (keep_all cfg) && flt o (q_r_singularity_robust q) (min_r_singularity_to_keep cfg)
  then reject filters REJECTED_DUE_TO_R_SINGULARITY q else
  if negb (keep_all cfg) && flt o (q_beta q) (min_beta_to_keep cfg)
  then reject filters REJECTED_DUE_TO_BETA q else
  Ok (filters, q, None).

(** scan_random.cpp lines 139-245: from the crude R0 check to the end of the filters. *)
Definition attempt (filters : list nat) (q : qsc) : outcome (list nat * qsc * option nat) :=
  if R0_crude_bad (q_in q) then reject filters REJECTED_DUE_TO_R0_CRUDE q else
  do q <- init_axis q;
  if negb (keep_all cfg) && flt o (q_grid_min_R0 q) (min_R0_to_keep cfg)
  then reject filters REJECTED_DUE_TO_R0 q else
  if negb (keep_all cfg) &&
     (((helicity_to_keep cfg =? 0)%Z && negb (q_helicity q =? 0)%Z)
      || ((helicity_to_keep cfg =? 1)%Z && negb (Z.abs (q_helicity q) =? 1)%Z))
  then reject filters REJECTED_DUE_TO_HELICITY q else
  if negb (keep_all cfg) && flt o (fdiv o (fone o) (q_grid_max_curvature q)) (min_L_grad_B_to_keep cfg)
  then reject filters REJECTED_DUE_TO_CURVATURE q else
  do q <- solve_sigma_equation q;
  do filters <- incr filters N_SIGMA_EQ_SOLVES;
  do q <- r1_diagnostics q;
  if negb (keep_all cfg) && flt o (fabs (q_iota q)) (min_iota_to_keep cfg)
  then reject filters REJECTED_DUE_TO_IOTA q else
  if negb (keep_all cfg) && flt o (max_elongation_to_keep cfg) (q_grid_max_elongation q)
  then reject filters REJECTED_DUE_TO_ELONGATION q else
  if negb (keep_all cfg) && flt o (q_grid_min_L_grad_B q) (min_L_grad_B_to_keep cfg)
  then reject filters REJECTED_DUE_TO_L_GRAD_B q else
  if at_least_order_r2 cfg then attempt_r2 filters q else Ok (filters, q, None).

(** The buffers of kept configurations (column-major, one column per configuration). *)
Record buffers := mkBuf { b_params : matrix F; b_fourier : matrix F; b_int : list Z }.

(** scan_random.cpp lines 248-267: the column of real parameters, in order. *)
Definition params_of (q : qsc) : list F :=
  [ s_eta_bar (q_in q); s_sigma0 (q_in q); s_B2c (q_in q); s_B2s (q_in q); s_p2 (q_in q);
    q_axis_length q; q_grid_min_R0 q; q_grid_max_curvature q; q_iota q; q_grid_max_elongation q;
    q_grid_min_L_grad_B q; q_grid_min_L_grad_grad_B q; q_r_singularity_robust q;
    q_d2_volume_d_psi2 q; q_DMerc_times_r2 q; q_B20_grid_variation q; q_B20_residual q;
    q_standard_deviation_of_R q; q_standard_deviation_of_Z q; q_beta q ].

Fixpoint set_column (m : matrix F) (i j : nat) (l : list F) : outcome (matrix F) :=
  match l with
  | [] => Ok m
  | v :: l' => do m <- matrix_set m i j v; set_column m (S i) j l'
  end.

(** scan_random.cpp lines 271-276. *)
Definition set_fourier (na : nat) (m : matrix F) (j_scan : nat) (s : sample F) : outcome (matrix F) :=
  for_loop na (fun j m =>
    do v <- aget (s_R0c s) j; do m <- matrix_set m (j + 0 * na) j_scan v;
    do v <- aget (s_R0s s) j; do m <- matrix_set m (j + 1 * na) j_scan v;
    do v <- aget (s_Z0c s) j; do m <- matrix_set m (j + 2 * na) j_scan v;
    do v <- aget (s_Z0s s) j; matrix_set m (j + 3 * na) j_scan v) m.

(** scan_random.cpp lines 247-276: storing a keeper. *)
Definition store (na : nat) (b : buffers) (j_scan : nat) (q : qsc) : outcome buffers :=
  do p <- set_column (b_params b) 0 j_scan (params_of q);
  do i <- aset (b_int b) (0 + n_int_parameters * j_scan) (q_helicity q);
  do f <- set_fourier na (b_fourier b) j_scan (q_in q);
  Ok (mkBuf p f i).

(** What a process hands to collect_results: counters (with KEPT set, scan_collect_results.cpp
    line 35) and the buffers.  The collective itself is modelled in Collect.v. *)
Record snapshot := mkSnap { sn_filters : list nat; sn_buf : buffers; sn_j_scan : nat }.

(** State of a process.  [p_log] is a ghost list of the attempts made, newest first, each with the
    object at the end of the attempt and the counter that rejected it ([None]: kept); [p_saves] the snapshots handed to collect_results, newest first. *)
Record proc := mkProc {
  p_gen : G; p_q : qsc; p_filters : list nat; p_buf : buffers; p_j_scan : nat;
  p_checkpoint : F; p_keep_going : bool; p_saves : list snapshot; p_log : list (qsc * option nat) }.

Definition collect (p : proc) : outcome proc :=
  do f <- aset (p_filters p) KEPT (p_j_scan p);
  Ok (mkProc (p_gen p) (p_q p) f (p_buf p) (p_j_scan p) (p_checkpoint p) (p_keep_going p)
        (mkSnap f (p_buf p) (p_j_scan p) :: p_saves p) (p_log p)).

(** One pass through the while loop, scan_random.cpp lines 86-281.  [now1], [now2]: the two
    clock readings; [start]: the start time.  The boolean says whether to go on. *)
Definition iteration (na : nat) (start now1 now2 : F) (p : proc) : outcome (proc * bool) :=
  let keep_going := if flt o (max_seconds cfg) (fsub o now1 start) then false else p_keep_going p in
  do p <- (if flt o (save_period cfg) (fsub o now2 (p_checkpoint p)) then
             collect (mkProc (p_gen p) (p_q p) (p_filters p) (p_buf p) (p_j_scan p) now2 keep_going
                        (p_saves p) (p_log p))
           else Ok (mkProc (p_gen p) (p_q p) (p_filters p) (p_buf p) (p_j_scan p) (p_checkpoint p) keep_going
                        (p_saves p) (p_log p)));
  do attempts <- aget (p_filters p) ATTEMPTS;
  if (0 <? max_attempts_per_proc cfg)%Z && (max_attempts_per_proc cfg <=? Z.of_nat attempts)%Z then Ok (p, false)
  else
    do filters <- incr (p_filters p) ATTEMPTS;
    let '(s, g) := pick (p_gen p) (q_in (p_q p)) in
    let q := set_sample s (p_q p) in
    do r <- attempt filters q;
    let '(filters, q, verdict) := r in
    match verdict with
    | None =>
      do b <- store na (p_buf p) (p_j_scan p) q;
      let j := S (p_j_scan p) in
      let kg := if max_keep_per_proc cfg <=? j then false else p_keep_going p in
      Ok (mkProc g q filters b j (p_checkpoint p) kg (p_saves p) ((q, verdict) :: p_log p), kg)
    | Some _ =>
      Ok (mkProc g q filters (p_buf p) (p_j_scan p) (p_checkpoint p) (p_keep_going p) (p_saves p) ((q, verdict) :: p_log p),
          p_keep_going p)
    end.

(** The while loop for the clock readings in [clock] (two per pass); [true]: the loop ended. *)
Fixpoint loop (na : nat) (start : F) (clock : list (F * F)) (p : proc) : outcome (proc * bool) :=
  match clock with
  | [] => Ok (p, false)
  | (now1, now2) :: clock' =>
      do r <- iteration na start now1 now2 p;
      let '(p, go_on) := r in
      if go_on then loop na start clock' p else Ok (p, true)
  end.

(** Scan::random after construction of the generators: initial state (lines 17-20 and 66-84) ... *)
Definition init_proc (na : nat) (g : G) (q : qsc) (start : F) : proc :=
  mkProc g q (repeat 0 N_FILTERS)
    (mkBuf (matrix_new (fzero o) n_parameters (max_keep_per_proc cfg))
           (matrix_new (fzero o) (na * 4) (max_keep_per_proc cfg))
           (repeat 0%Z (n_int_parameters * max_keep_per_proc cfg)))
    0 start true [] [].
(** ... the loop, and the final collect_results (line 287). *)
Definition run (na : nat) (g : G) (q : qsc) (start : F) (clock : list (F * F)) : outcome (proc * bool) :=
  do r <- loop na start clock (init_proc na g q start);
  let '(p, ended) := r in
  if ended then do p <- collect p; Ok (p, true) else Ok (p, false).
End Scan.
