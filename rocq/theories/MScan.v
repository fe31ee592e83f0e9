(** Model of what a parameter scan does at one point, of the collection of the results and of
    the arrays it writes: MultiOptScan::eval_scan_index, the storing part of proc0_recv,
    print_status (the numbers that are saved) and filter_global_arrays in
    src/multiopt_scan.cpp, and src/multiopt_scan_write_netcdf.cpp (which member goes to which
    variable).  The exchange of messages is in Farm.v, the grid of points in Grid.v.

    The members of classes Opt and Qsc that are plain numbers are given by name: [string -> F].
    MultiOpt::optimize is a parameter.  Counters are unbounded integers. *)
From Coq Require Import String ZArith List Bool Arith.
From Verif Require Import Base FloatOps Tensor Outfile Grid Farm.
Import ListNotations.
Local Open Scope list_scope.
Local Open Scope nat_scope.

(** multiopt_scan.hpp lines 20-37: positions in the array of counters. *)
Definition P_ATTEMPTS := 0.
Definition P_KEPT := 1.
Definition P_REJECTED_DUE_TO_R0 := 2.
Definition P_REJECTED_DUE_TO_IOTA := 3.
Definition P_REJECTED_DUE_TO_ELONGATION := 4.
Definition P_REJECTED_DUE_TO_L_GRAD_B := 5.
Definition P_REJECTED_DUE_TO_B20_VARIATION := 6.
Definition P_REJECTED_DUE_TO_L_GRAD_GRAD_B := 7.
Definition P_REJECTED_DUE_TO_D2_VOLUME_D_PSI2 := 8.
Definition P_REJECTED_DUE_TO_DMERC := 9.
Definition P_REJECTED_DUE_TO_R_SINGULARITY := 10.
Definition P_REJECTED_DUE_TO_MAX_XY2 := 11.
Definition P_REJECTED_DUE_TO_MAX_Z2 := 12.
Definition P_REJECTED_DUE_TO_MAX_XY3 := 13.
Definition P_REJECTED_DUE_TO_MAX_D_XY2_D_VARPHI := 14.
Definition P_REJECTED_DUE_TO_MAX_D_Z2_D_VARPHI := 15.
Definition P_REJECTED_DUE_TO_MAX_D_XY3_D_VARPHI := 16.
Definition P_N_FILTERS := 17.
(** multiopt_scan.hpp lines 69-71. *)
Definition n_parameters_base := 58.
Definition n_int_parameters_base := 4.
Definition n_int_parameters := n_int_parameters_base + P_N_FILTERS.

(** multiopt_scan.cpp lines 308-398: the recognised names and the members of mo.opts[stage]
    they set ... *)
Definition opt_params : list (string * string) :=
  [("weight_iota", "weight_iota"); ("target_iota", "target_iota");
   ("weight_elongation", "weight_elongation"); ("weight_B20", "weight_B20");
   ("weight_r_singularity", "weight_r_singularity"); ("weight_grad_B", "weight_grad_B");
   ("weight_grad_grad_B", "weight_grad_grad_B"); ("weight_axis_length", "weight_axis_length");
   ("target_axis_length", "target_axis_length");
   ("weight_standard_deviation_of_R", "weight_standard_deviation_of_R");
   ("weight_XY2", "weight_XY2"); ("weight_Z2", "weight_Z2"); ("weight_XY3", "weight_XY3");
   ("weight_XY2Prime", "weight_XY2Prime"); ("weight_XY2PrimePrime", "weight_XY2PrimePrime");
   ("weight_Z2Prime", "weight_Z2Prime"); ("weight_XY3Prime", "weight_XY3Prime");
   ("weight_XY3PrimePrime", "weight_XY3PrimePrime"); ("weight_B20_mean", "weight_B20_mean");
   ("weight_d2_volume_d_psi2", "weight_d2_volume_d_psi2");
   ("max_d2_volume_d_psi2", "max_d2_volume_d_psi2");
   ("weight_DMerc_times_r2", "weight_DMerc_times_r2"); ("min_DMerc_times_r2", "min_DMerc_times_r2")]%string.
(** ... and lines 400-418, of mo.opts[stage].q. *)
Definition q_params : list (string * string) :=
  [("eta_bar", "eta_bar"); ("p2", "p2"); ("B2c", "B2c"); ("B2s", "B2s")]%string.

(** Where a number that is sent comes from: a member of opts[index].q, where index is the last
    stage; a member of opts[index]; or the first element of an array of opts[0]. *)
Inductive source := Last_q (m : string) | Last_opt (m : string) | First_iter (m : string).
(** multiopt_scan.cpp lines 549-606: parameters_single[i] = ... *)
Definition pack_table : list (nat * source) :=
  [(1, Last_q "eta_bar"); (2, Last_q "sigma0"); (3, Last_q "B2c");
   (4, Last_q "B2s"); (5, Last_q "grid_min_R0"); (6, Last_q "grid_max_curvature");
   (7, Last_q "iota"); (8, Last_q "grid_max_elongation"); (9, Last_q "grid_min_L_grad_B");
   (10, Last_q "grid_min_L_grad_grad_B"); (11, Last_q "r_singularity_robust");
   (12, Last_q "d2_volume_d_psi2"); (13, Last_q "DMerc_times_r2");
   (14, Last_q "B20_grid_variation"); (15, Last_q "B20_residual"); (16, Last_q "B20_mean");
   (17, Last_q "standard_deviation_of_R"); (18, Last_q "standard_deviation_of_Z");
   (19, Last_q "grid_max_XY2"); (20, Last_q "grid_max_Z2"); (21, Last_q "grid_max_XY3");
   (22, Last_q "grid_max_d_XY2_d_varphi"); (23, Last_q "grid_max_d_Z2_d_varphi");
   (24, Last_q "grid_max_d_XY3_d_varphi"); (25, Last_q "grid_max_d2_XY2_d_varphi2");
   (26, Last_q "grid_max_d2_XY3_d_varphi2"); (27, Last_q "axis_length"); (28, Last_q "p2");
   (29, First_iter "iter_eta_bar"); (30, First_iter "iter_B2c"); (31, First_iter "iter_B2s");
   (32, Last_opt "weight_B20"); (33, Last_opt "weight_iota"); (34, Last_opt "target_iota");
   (35, Last_opt "weight_elongation"); (36, Last_opt "weight_curvature");
   (37, Last_opt "weight_R0"); (38, Last_opt "min_R0"); (39, Last_opt "weight_d2_volume_d_psi2");
   (40, Last_opt "max_d2_volume_d_psi2"); (41, Last_opt "weight_DMerc_times_r2");
   (42, Last_opt "min_DMerc_times_r2"); (43, Last_opt "weight_XY2");
   (44, Last_opt "weight_XY2Prime"); (45, Last_opt "weight_XY2PrimePrime");
   (46, Last_opt "weight_Z2"); (47, Last_opt "weight_Z2Prime"); (48, Last_opt "weight_XY3");
   (49, Last_opt "weight_XY3Prime"); (50, Last_opt "weight_XY3PrimePrime");
   (51, Last_opt "weight_grad_B"); (52, Last_opt "weight_grad_grad_B");
   (53, Last_opt "weight_r_singularity"); (54, Last_opt "weight_axis_length");
   (55, Last_opt "target_axis_length"); (56, Last_opt "weight_standard_deviation_of_R");
   (57, Last_opt "weight_B20_mean")]%string.
(** multiopt_scan.cpp lines 786-843: scan_...[j] = parameters(i, j_global). *)
Definition unpack_table : list (string * nat) :=
  [("scan_eta_bar", 1); ("scan_sigma0", 2); ("scan_B2c", 3); ("scan_B2s", 4); ("scan_min_R0", 5);
   ("scan_max_curvature", 6); ("scan_iota", 7); ("scan_max_elongation", 8);
   ("scan_min_L_grad_B", 9); ("scan_min_L_grad_grad_B", 10); ("scan_r_singularity", 11);
   ("scan_d2_volume_d_psi2", 12); ("scan_DMerc_times_r2", 13); ("scan_B20_variation", 14);
   ("scan_B20_residual", 15); ("scan_B20_mean", 16); ("scan_standard_deviation_of_R", 17);
   ("scan_standard_deviation_of_Z", 18); ("scan_max_XY2", 19); ("scan_max_Z2", 20);
   ("scan_max_XY3", 21); ("scan_max_d_XY2_d_varphi", 22); ("scan_max_d_Z2_d_varphi", 23);
   ("scan_max_d_XY3_d_varphi", 24); ("scan_max_d2_XY2_d_varphi2", 25);
   ("scan_max_d2_XY3_d_varphi2", 26); ("scan_axis_length", 27); ("scan_p2", 28);
   ("scan_initial_eta_bar", 29); ("scan_initial_B2c", 30); ("scan_initial_B2s", 31);
   ("scan_weight_B20", 32); ("scan_weight_iota", 33); ("scan_target_iota", 34);
   ("scan_weight_elongation", 35); ("scan_weight_curvature", 36); ("scan_weight_R0", 37);
   ("scan_target_min_R0", 38); ("scan_weight_d2_volume_d_psi2", 39);
   ("scan_max_d2_volume_d_psi2", 40); ("scan_weight_DMerc_times_r2", 41);
   ("scan_min_DMerc_times_r2", 42); ("scan_weight_XY2", 43); ("scan_weight_XY2Prime", 44);
   ("scan_weight_XY2PrimePrime", 45); ("scan_weight_Z2", 46); ("scan_weight_Z2Prime", 47);
   ("scan_weight_XY3", 48); ("scan_weight_XY3Prime", 49); ("scan_weight_XY3PrimePrime", 50);
   ("scan_weight_grad_B", 51); ("scan_weight_grad_grad_B", 52); ("scan_weight_r_singularity", 53);
   ("scan_weight_axis_length", 54); ("scan_target_axis_length", 55);
   ("scan_weight_standard_deviation_of_R", 56); ("scan_weight_B20_mean", 57)]%string.

(** multiopt_scan.cpp lines 437-531: the filters, in the order of the code: counter, kind of
    comparison, member of opts[index].q, limit. *)
Inductive comparison_kind := Below | Above | Abs_below.
Definition filter_table : list (nat * comparison_kind * string * string) :=
  [(P_REJECTED_DUE_TO_R0, Below, "grid_min_R0", "min_R0_to_keep");
   (P_REJECTED_DUE_TO_IOTA, Abs_below, "iota", "min_iota_to_keep");
   (P_REJECTED_DUE_TO_ELONGATION, Above, "grid_max_elongation", "max_elongation_to_keep");
   (P_REJECTED_DUE_TO_L_GRAD_B, Below, "grid_min_L_grad_B", "min_L_grad_B_to_keep");
   (P_REJECTED_DUE_TO_B20_VARIATION, Above, "B20_grid_variation", "max_B20_variation_to_keep");
   (P_REJECTED_DUE_TO_D2_VOLUME_D_PSI2, Above, "d2_volume_d_psi2", "max_d2_volume_d_psi2_to_keep");
   (P_REJECTED_DUE_TO_DMERC, Below, "DMerc_times_r2", "min_DMerc_times_r2_to_keep");
   (P_REJECTED_DUE_TO_L_GRAD_GRAD_B, Below, "grid_min_L_grad_grad_B", "min_L_grad_grad_B_to_keep");
   (P_REJECTED_DUE_TO_R_SINGULARITY, Below, "r_singularity_robust", "min_r_singularity_to_keep");
   (P_REJECTED_DUE_TO_MAX_XY2, Above, "grid_max_XY2", "max_XY2_to_keep");
   (P_REJECTED_DUE_TO_MAX_Z2, Above, "grid_max_Z2", "max_Z2_to_keep");
   (P_REJECTED_DUE_TO_MAX_XY3, Above, "grid_max_XY3", "max_XY3_to_keep");
   (P_REJECTED_DUE_TO_MAX_D_XY2_D_VARPHI, Above, "grid_max_d_XY2_d_varphi", "max_d_XY2_d_varphi_to_keep");
   (P_REJECTED_DUE_TO_MAX_D_Z2_D_VARPHI, Above, "grid_max_d_Z2_d_varphi", "max_d_Z2_d_varphi_to_keep");
   (P_REJECTED_DUE_TO_MAX_D_XY3_D_VARPHI, Above, "grid_max_d_XY3_d_varphi", "max_d_XY3_d_varphi_to_keep")]%string.

(** multiopt_scan_write_netcdf.cpp lines 39-54 and 56-71. *)
Definition counter_table : list (string * nat) :=
  [("attempts", P_ATTEMPTS); ("rejected_due_to_R0", P_REJECTED_DUE_TO_R0);
   ("rejected_due_to_iota", P_REJECTED_DUE_TO_IOTA);
   ("rejected_due_to_elongation", P_REJECTED_DUE_TO_ELONGATION);
   ("rejected_due_to_L_grad_B", P_REJECTED_DUE_TO_L_GRAD_B);
   ("rejected_due_to_B20_variation", P_REJECTED_DUE_TO_B20_VARIATION);
   ("rejected_due_to_L_grad_grad_B", P_REJECTED_DUE_TO_L_GRAD_GRAD_B);
   ("rejected_due_to_d2_volume_d_psi2", P_REJECTED_DUE_TO_D2_VOLUME_D_PSI2);
   ("rejected_due_to_DMerc", P_REJECTED_DUE_TO_DMERC);
   ("rejected_due_to_r_singularity", P_REJECTED_DUE_TO_R_SINGULARITY);
   ("rejected_due_to_max_XY2", P_REJECTED_DUE_TO_MAX_XY2);
   ("rejected_due_to_max_Z2", P_REJECTED_DUE_TO_MAX_Z2);
   ("rejected_due_to_max_XY3", P_REJECTED_DUE_TO_MAX_XY3);
   ("rejected_due_to_max_d_XY2_d_varphi", P_REJECTED_DUE_TO_MAX_D_XY2_D_VARPHI);
   ("rejected_due_to_max_d_Z2_d_varphi", P_REJECTED_DUE_TO_MAX_D_Z2_D_VARPHI);
   ("rejected_due_to_max_d_XY3_d_varphi", P_REJECTED_DUE_TO_MAX_D_XY3_D_VARPHI)]%string.
Definition fraction_table : list (string * nat) :=
  [("fraction_kept", P_KEPT); ("fraction_rejected_due_to_R0", P_REJECTED_DUE_TO_R0);
   ("fraction_rejected_due_to_iota", P_REJECTED_DUE_TO_IOTA);
   ("fraction_rejected_due_to_elongation", P_REJECTED_DUE_TO_ELONGATION);
   ("fraction_rejected_due_to_L_grad_B", P_REJECTED_DUE_TO_L_GRAD_B);
   ("fraction_rejected_due_to_B20_variation", P_REJECTED_DUE_TO_B20_VARIATION);
   ("fraction_rejected_due_to_L_grad_grad_B", P_REJECTED_DUE_TO_L_GRAD_GRAD_B);
   ("fraction_rejected_due_to_d2_volume_d_psi2", P_REJECTED_DUE_TO_D2_VOLUME_D_PSI2);
   ("fraction_rejected_due_to_DMerc", P_REJECTED_DUE_TO_DMERC);
   ("fraction_rejected_due_to_r_singularity", P_REJECTED_DUE_TO_R_SINGULARITY);
   ("fraction_rejected_due_to_max_XY2", P_REJECTED_DUE_TO_MAX_XY2);
   ("fraction_rejected_due_to_max_Z2", P_REJECTED_DUE_TO_MAX_Z2);
   ("fraction_rejected_due_to_max_XY3", P_REJECTED_DUE_TO_MAX_XY3);
   ("fraction_rejected_due_to_max_d_XY2_d_varphi", P_REJECTED_DUE_TO_MAX_D_XY2_D_VARPHI);
   ("fraction_rejected_due_to_max_d_Z2_d_varphi", P_REJECTED_DUE_TO_MAX_D_Z2_D_VARPHI);
   ("fraction_rejected_due_to_max_d_XY3_d_varphi", P_REJECTED_DUE_TO_MAX_D_XY3_D_VARPHI)]%string.
(** multiopt_scan.cpp lines 845-856 and multiopt_scan_write_netcdf.cpp lines 169-177: the
    arrays of axis shapes and the number of their block in a result. *)
Definition axis_table : list (string * nat) :=
  [("scan_R0c", 0); ("scan_R0s", 1); ("scan_Z0c", 2); ("scan_Z0s", 3);
   ("scan_initial_R0c", 4); ("scan_initial_R0s", 5); ("scan_initial_Z0c", 6); ("scan_initial_Z0s", 7)]%string.

Fixpoint lookup {A} (l : list (string * A)) (k : string) : option A :=
  match l with
  | [] => None
  | (x, v) :: r => if String.eqb k x then Some v else lookup r k
  end.

Section MScan.
Context {F : Type} (o : fops F).
Variable fabs : F -> F.
Variable of_Z : Z -> F.
(** The rest of an Opt object. *)
Context {X : Type}.

(** The parts of classes Qsc, Opt and MultiOpt that the scan reads or writes. *)
Record qobj := mkQo { qo_num : string -> F; qo_helicity : Z;
                      qo_R0c : list F; qo_R0s : list F; qo_Z0c : list F; qo_Z0s : list F }.
Record stage := mkStage { st_num : string -> F; st_q : qobj;
                          st_iter : string -> list F; st_iter_axis : string -> matrix F;
                          st_fourier_refine : nat; st_rest : X }.
Record multiopt := mkMO { mo_opts : list stage; mo_n_evals : Z }.
Variable optimize : multiopt -> outcome multiopt.

Definition set_num (f : string -> F) (m : string) (v : F) : string -> F :=
  fun x => if String.eqb x m then v else f x.
Definition set_q_num (m : string) (v : F) (q : qobj) : qobj :=
  mkQo (set_num (qo_num q) m v) (qo_helicity q) (qo_R0c q) (qo_R0s q) (qo_Z0c q) (qo_Z0s q).
Definition set_q_R0c (l : list F) (q : qobj) : qobj :=
  mkQo (qo_num q) (qo_helicity q) l (qo_R0s q) (qo_Z0c q) (qo_Z0s q).
Definition set_q_Z0s (l : list F) (q : qobj) : qobj :=
  mkQo (qo_num q) (qo_helicity q) (qo_R0c q) (qo_R0s q) (qo_Z0c q) l.
Definition set_st_num (m : string) (v : F) (s : stage) : stage :=
  mkStage (set_num (st_num s) m v) (st_q s) (st_iter s) (st_iter_axis s) (st_fourier_refine s) (st_rest s).
Definition set_st_q (q : qobj) (s : stage) : stage :=
  mkStage (st_num s) q (st_iter s) (st_iter_axis s) (st_fourier_refine s) (st_rest s).

(** mo.opts[k] = f(mo.opts[k]). *)
Definition on_stage (k : nat) (f : stage -> outcome stage) (mo : multiopt) : outcome multiopt :=
  do s <- aget (mo_opts mo) k; do s' <- f s;
  do l <- aset (mo_opts mo) k s'; Ok (mkMO l (mo_n_evals mo)).

Definition only_stage0 (k : nat) (what : string) (mo : multiopt) : outcome multiopt :=
  if k =? 0 then Ok mo
  else Throw (String.append "In a multiopt_scan, " (String.append what " should only be set at stage 0.")).

(** multiopt_scan.cpp lines 289-424: setting one parameter of one stage.  [na] is
    axis_nmax_plus_1. *)
Definition set_mode (name : string) (val : F) (k mode_num : nat) (st : multiopt * bool) : outcome (multiopt * bool) :=
  let '(mo, found) := st in
  if String.eqb name (String.append "R0c" (to_string mode_num)) then
    do mo <- on_stage k (fun s => do l <- aset (qo_R0c (st_q s)) mode_num val; Ok (set_st_q (set_q_R0c l (st_q s)) s)) mo;
    do mo <- only_stage0 k "R0c" mo; Ok (mo, true)
  else if String.eqb name (String.append "Z0s" (to_string mode_num)) then
    do mo <- on_stage k (fun s => do l <- aset (qo_Z0s (st_q s)) mode_num val; Ok (set_st_q (set_q_Z0s l (st_q s)) s)) mo;
    do mo <- only_stage0 k "Z0s" mo; Ok (mo, true)
  else Ok (mo, found).
Definition set_param (na : nat) (name : string) (val : F) (k : nat) (mo : multiopt) : outcome multiopt :=
  do r <- for_from 1 (na - 1) (set_mode name val k) (mo, false);
  let '(mo, found) := r in
  if found then Ok mo else
  match lookup opt_params name with
  | Some m => on_stage k (fun s => Ok (set_st_num m val s)) mo
  | None =>
    match lookup q_params name with
    | Some m => do mo <- on_stage k (fun s => Ok (set_st_q (set_q_num m val (st_q s)) s)) mo;
                only_stage0 k m mo
    | None => Throw "Unrecognized entry in params"
    end
  end.

(** The dimensions of the scan: params[j], params_vals[j], params_stage[j]; params_n[j] is the
    number of values. *)
Record dim := mkDim { d_name : string; d_vals : list F; d_stage : Z }.

(** Lines 280-288: the stages a parameter is set in. *)
Definition stage_range (s : Z) (n_opts : nat) : nat * nat :=
  if (s <? 0)%Z then (0, n_opts) else (Z.to_nat s, 1).
Definition set_dim (na : nat) (d : dim) (i : nat) (mo : multiopt) : outcome multiopt :=
  do val <- aget (d_vals d) i;
  let '(from, count) := stage_range (d_stage d) (length (mo_opts mo)) in
  for_from from count (set_param na (d_name d) val) mo.
(** Lines 277-425. *)
Fixpoint set_dims (na : nat) (dims : list dim) (indices : list nat) (mo : multiopt) : outcome multiopt :=
  match dims, indices with
  | d :: dims', i :: indices' => do mo <- set_dim na d i mo; set_dims na dims' indices' mo
  | _, _ => Ok mo
  end.

(** The filters, lines 434-534.  [limits]: the members ..._to_keep by name. *)
Variable keep_all : bool.
Variable limits : string -> F.
Definition fails (c : comparison_kind) (x lim : F) : bool :=
  match c with
  | Below => flt o x lim
  | Above => flt o lim x
  | Abs_below => flt o (fabs x) lim
  end.
Definition incrZ (l : list Z) (k : nat) : outcome (list Z) :=
  do v <- aget l k; aset l k (v + 1)%Z.
Fixpoint run_filters (t : list (nat * comparison_kind * string * string)) (q : qobj)
    (filters : list Z) (passed : bool) : outcome (list Z * bool) :=
  match t with
  | [] => Ok (filters, passed)
  | (k, c, m, lim) :: r =>
      if fails c (qo_num q m) (limits lim)
      then do f <- incrZ filters k; run_filters r q f false
      else run_filters r q filters passed
  end.
(** Lines 259-260 and 434-534. *)
Definition judge (q : qobj) : outcome (list Z * bool) :=
  do f <- incrZ (repeat 0%Z P_N_FILTERS) P_ATTEMPTS;
  do r <- (if keep_all then Ok (f, true) else run_filters filter_table q f true);
  let '(f, passed) := r in
  if passed : bool then do f <- incrZ f P_KEPT; Ok (f, true) else Ok (f, false).

(** The memory of a worker: int_parameters_single and parameters_single. *)
Record memory := mkMem { me_ints : list Z; me_floats : list F }.

(** Lines 538-543. *)
Definition pack_ints (j_scan : nat) (passed : bool) (mo : multiopt) (last : stage) (f : list Z) (p : list Z) :
    outcome (list Z) :=
  do p <- aset p 0 (Z.of_nat j_scan);
  do p <- aset p 1 (if passed then 1 else 0)%Z;
  do p <- aset p 2 (mo_n_evals mo);
  do p <- aset p 3 (qo_helicity (st_q last));
  for_loop P_N_FILTERS (fun j p => do v <- aget f j; aset p (j + n_int_parameters_base) v) p.

Definition read_source (first last : stage) (s : source) : outcome F :=
  match s with
  | Last_q m => Ok (qo_num (st_q last) m)
  | Last_opt m => Ok (st_num last m)
  | First_iter m => aget (st_iter first m) 0
  end.
Fixpoint pack_scalars (t : list (nat * source)) (first last : stage) (p : list F) : outcome (list F) :=
  match t with
  | [] => Ok p
  | (i, s) :: r => do v <- read_source first last s; do p <- aset p i v; pack_scalars r first last p
  end.
(** Lines 608-619. *)
Definition block (na b j : nat) : nat := j + b * na + n_parameters_base.
Definition pack_axis (na : nat) (first last : stage) (p : list F) : outcome (list F) :=
  do p <- for_loop na (fun j p =>
    do v <- aget (qo_R0c (st_q last)) j; do p <- aset p (block na 0 j) v;
    do v <- aget (qo_R0s (st_q last)) j; do p <- aset p (block na 1 j) v;
    do v <- aget (qo_Z0c (st_q last)) j; do p <- aset p (block na 2 j) v;
    do v <- aget (qo_Z0s (st_q last)) j; aset p (block na 3 j) v) p;
  for_loop (length (qo_R0c (st_q first))) (fun j p =>
    do v <- matrix_get (st_iter_axis first "iter_R0c"%string) j 0; do p <- aset p (block na 4 j) v;
    do v <- matrix_get (st_iter_axis first "iter_R0s"%string) j 0; do p <- aset p (block na 5 j) v;
    do v <- matrix_get (st_iter_axis first "iter_Z0c"%string) j 0; do p <- aset p (block na 6 j) v;
    do v <- matrix_get (st_iter_axis first "iter_Z0s"%string) j 0; aset p (block na 7 j) v) p.

(** eval_scan_index, lines 244-625.  [elapsed]: what the clock says (line 547).
    [mo = mo_ref] (line 275) is a copy of every member; the matrices of Opt and Qsc, whose
    assignment does not copy the dimensions (Tensor.matrix_assign), are set to their sizes by
    Opt::allocate before they are used. *)
Definition eval_scan_index (mo_ref : multiopt) (na : nat) (dims : list dim) (elapsed : F) (j_scan : nat)
    (me : memory) : outcome memory :=
  let indices := decode (map (fun d => length (d_vals d)) dims) j_scan in
  do mo <- set_dims na dims indices mo_ref;
  do mo <- optimize mo;
  do first <- aget (mo_opts mo) 0;
  do last <- aget (mo_opts mo) (length (mo_opts mo) - 1);
  do r <- judge (st_q last);
  let '(f, passed) := r in
  do ints <- pack_ints j_scan passed mo last f (me_ints me);
  do p <- aset (me_floats me) 0 elapsed;
  do p <- pack_scalars pack_table first last p;
  do p <- pack_axis na first last p;
  Ok (mkMem ints p).

(** The memory of process 0. *)
Record data := mkData { da_parameters : matrix F; da_int_parameters : list Z; da_filters : list Z;
                        da_attempts_per_proc : list Z; da_n_solves_kept : list Z;
                        da_cpu_seconds : F; da_n_evals : Z }.

(** Lines 89-90: axis_nmax_plus_1. *)
Definition axis_nmax_plus_1 (mo_ref : multiopt) : nat :=
  match mo_opts mo_ref with
  | [] => 0
  | s :: _ => fold_left (fun n s => n + st_fourier_refine s) (mo_opts mo_ref) (length (qo_R0c (st_q s)))
  end.
(** Lines 91-93. *)
Definition n_parameters (na : nat) : nat := n_parameters_base + na * 8.
(** Lines 94-102 and 125-126: the memory at the beginning. *)
Definition memory0 (na : nat) : memory :=
  mkMem (repeat 0%Z n_int_parameters) (repeat (fzero o) (n_parameters na)).
Definition data0 (na n_scan_all n_procs : nat) : data :=
  mkData (matrix_new (fzero o) (n_parameters na) n_scan_all) (repeat 0%Z (n_int_parameters_base * n_scan_all))
    (repeat 0%Z P_N_FILTERS) (repeat 0%Z n_procs) (repeat 0%Z n_procs) (fzero o) 0%Z.

Definition addZ (l : list Z) (k : nat) (x : Z) : outcome (list Z) :=
  do v <- aget l k; aset l k (v + x)%Z.

(** proc0_recv lines 223-235.  Worker w is process w+1. *)
Definition store_result (na : nat) (w : nat) (ints : list Z) (floats : list F) (d : data) : outcome data :=
  do j <- aget ints 0;
  if (j <? 0)%Z then UB "negative index" else
  let j_scan := Z.to_nat j in
  do par <- for_loop (n_parameters na)
              (fun i m => do v <- aget floats i; matrix_set m i j_scan v) (da_parameters d);
  do ip <- for_loop n_int_parameters_base
              (fun i p => do v <- aget ints i; aset p (i + n_int_parameters_base * j_scan) v) (da_int_parameters d);
  do fl <- for_loop P_N_FILTERS
              (fun i f => do v <- aget ints (i + n_int_parameters_base); addZ f i v) (da_filters d);
  do att <- incrZ (da_attempts_per_proc d) (S w);
  do kept <- aget ints (P_KEPT + n_int_parameters_base);
  do sk <- (if (0 <? kept)%Z then incrZ (da_n_solves_kept d) (S w) else Ok (da_n_solves_kept d));
  do t <- aget floats 0;
  do ne <- aget ints 2;
  Ok (mkData par ip fl att sk (fadd o (da_cpu_seconds d) t) (da_n_evals d + ne)%Z).

(** What write_netcdf puts in the file that depends on the results: n_scan, n_evals, counters,
    fractions, and the arrays. *)
Record output := mkOut { out_n_scan : Z; out_n_evals : Z;
                         out_counters : list (string * Z); out_fractions : list (string * F);
                         out_ints : list (string * list Z); out_floats : list (string * list F);
                         out_axis : list (string * matrix F) }.

(** filter_global_arrays, lines 703-773 (resize) and 779-856 (one pass of the loop).  The arrays
    are kept in the order in which they are unpacked. *)
Record arrays := mkArr { ar_j : nat; ar_n_evals : list Z; ar_helicity : list Z;
                         ar_floats : list (list F); ar_axis : list (matrix F) }.
Definition arrays0 (na n_scan : nat) : arrays :=
  mkArr 0 (repeat 0%Z n_scan) (repeat 0%Z n_scan)
    (map (fun _ => repeat (fzero o) n_scan) unpack_table)
    (map (fun _ => matrix_new (fzero o) na n_scan) axis_table).
Fixpoint unpack_scalars (t : list (string * nat)) (m : matrix F) (j_global j : nat) (a : list (list F)) :
    outcome (list (list F)) :=
  match t, a with
  | (_, i) :: t', x :: a' => do v <- matrix_get m i j_global; do x <- aset x j v;
                             do r <- unpack_scalars t' m j_global j a'; Ok (x :: r)
  | _, _ => Ok []
  end.
Fixpoint unpack_axis (na : nat) (t : list (string * nat)) (m : matrix F) (j_global j : nat) (a : list (matrix F)) :
    outcome (list (matrix F)) :=
  match t, a with
  | (_, b) :: t', x :: a' =>
      do x <- for_loop na (fun k x => do v <- matrix_get m (block na b k) j_global; matrix_set x k j v) x;
      do r <- unpack_axis na t' m j_global j a'; Ok (x :: r)
  | _, _ => Ok []
  end.
Definition unpack_one (na : nat) (d : data) (j_global : nat) (a : arrays) : outcome arrays :=
  do keep <- aget (da_int_parameters d) (1 + j_global * n_int_parameters_base);
  if (keep <? 1)%Z then Ok a else
  let j := ar_j a in
  do v <- aget (da_int_parameters d) (2 + j_global * n_int_parameters_base);
  do ne <- aset (ar_n_evals a) j v;
  do v <- aget (da_int_parameters d) (3 + j_global * n_int_parameters_base);
  do he <- aset (ar_helicity a) j v;
  do fl <- unpack_scalars unpack_table (da_parameters d) j_global j (ar_floats a);
  do ax <- unpack_axis na axis_table (da_parameters d) j_global j (ar_axis a);
  Ok (mkArr (S j) ne he fl ax).
(** Lines 701-861. *)
Definition filter_global_arrays (na n_scan_all : nat) (d : data) : outcome arrays :=
  do n_scan <- aget (da_filters d) P_KEPT;
  if (n_scan <? 0)%Z then UB "negative size" else
  do a <- for_loop n_scan_all (unpack_one na d) (arrays0 na (Z.to_nat n_scan));
  if (Z.of_nat (ar_j a) =? n_scan)%Z then Ok a else Throw "mismatch in number of configs saved.".

Fixpoint read_counters (t : list (string * nat)) (f : list Z) : outcome (list (string * Z)) :=
  match t with
  | [] => Ok []
  | (n, k) :: r => do v <- aget f k; do l <- read_counters r f; Ok ((n, v) :: l)
  end.
(** print_status line 653: [filter_fractions[j] = ((qscfloat)filters[j]) / filters[0]]. *)
Fixpoint read_fractions (t : list (string * nat)) (f : list Z) (total : Z) : outcome (list (string * F)) :=
  match t with
  | [] => Ok []
  | (n, k) :: r => do v <- aget f k; do l <- read_fractions r f total;
                   Ok ((n, fdiv o (of_Z v) (of_Z total)) :: l)
  end.
(** Lines 150-152 and 205-206 with write_netcdf: print_status, filter_global_arrays, write.
    Not modelled: the address [&scan_R0c(0, 0)] is taken even when no configuration is kept. *)
Definition save_results (na n_scan_all : nat) (d : data) : outcome output :=
  do a <- filter_global_arrays na n_scan_all d;
  do n_scan <- aget (da_filters d) P_KEPT;
  do total <- aget (da_filters d) P_ATTEMPTS;
  do cs <- read_counters counter_table (da_filters d);
  do fs <- read_fractions fraction_table (da_filters d) total;
  Ok (mkOut n_scan (da_n_evals d) cs fs
        [("scan_n_evals"%string, ar_n_evals a); ("scan_helicity"%string, ar_helicity a)]
        (combine (map fst unpack_table) (ar_floats a)) (combine (map fst axis_table) (ar_axis a))).

(** The whole scan: the exchange of Farm.v with these evaluations, this storing and this
    saving.  An evaluation depends on the clock: it can return any elapsed time. *)
Variable mo_ref : multiopt.
Variable dims : list dim.
Definition scan_na : nat := axis_nmax_plus_1 mo_ref.
(** Lines 69-72, in the case without overflow (see Grid.grid_total). *)
Definition n_scan_all : nat := fold_right Nat.mul 1 (map (fun d => length (d_vals d)) dims).
Definition evaluates (na : nat) (me : memory) (j : nat) (r : outcome memory) : Prop :=
  exists elapsed, r = eval_scan_index mo_ref na dims elapsed j me.
Definition scan_step (nw : nat) (e : env) : state -> result -> Prop :=
  Farm.step (evaluates scan_na) me_ints me_floats (store_result scan_na) (save_results scan_na n_scan_all) nw n_scan_all e.
Definition scan_steps (nw : nat) (e : env) : nat -> state -> state -> Prop :=
  Farm.steps (evaluates scan_na) me_ints me_floats (store_result scan_na) (save_results scan_na n_scan_all) nw n_scan_all e.
(** Lines 94-102 and 118-132: the beginning, with nw+1 processes. *)
Definition scan_start (nw : nat) : @state (list Z) (list F) memory data output :=
  initial nw n_scan_all (data0 scan_na n_scan_all (S nw)) (repeat (memory0 scan_na) nw).
(** Lines 205-206 and driver.cpp: what is written at the end. *)
Definition scan_output (s : @state (list Z) (list F) memory data output) : outcome output :=
  save_results scan_na n_scan_all (s_data s).
End MScan.
