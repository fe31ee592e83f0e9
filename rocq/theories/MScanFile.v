(** The object of class MultiOptScan whose results are written: what process 0 has stored when it calls write_netcdf(). *)
From Coq Require Import String Ascii ZArith List Arith Bool Lia.
From Verif Require Import Base FloatOps Tensor NetCDF NetCDFOut MScan ScanFile.
Import ListNotations.
Local Open Scope string_scope.
Local Open Scope nat_scope.

(** multiopt_scan.hpp lines 20-37: the indices of filters and filter_fractions. *)
Definition mscan_filter_names : list (string * nat) :=
  [("ATTEMPTS", 0); ("KEPT", 1); ("REJECTED_DUE_TO_R0", 2); ("REJECTED_DUE_TO_IOTA", 3); ("REJECTED_DUE_TO_ELONGATION", 4); ("REJECTED_DUE_TO_L_GRAD_B", 5);
   ("REJECTED_DUE_TO_B20_VARIATION", 6); ("REJECTED_DUE_TO_L_GRAD_GRAD_B", 7); ("REJECTED_DUE_TO_D2_VOLUME_D_PSI2", 8); ("REJECTED_DUE_TO_DMERC", 9);
   ("REJECTED_DUE_TO_R_SINGULARITY", 10); ("REJECTED_DUE_TO_MAX_XY2", 11); ("REJECTED_DUE_TO_MAX_Z2", 12); ("REJECTED_DUE_TO_MAX_XY3", 13);
   ("REJECTED_DUE_TO_MAX_D_XY2_D_VARPHI", 14); ("REJECTED_DUE_TO_MAX_D_Z2_D_VARPHI", 15); ("REJECTED_DUE_TO_MAX_D_XY3_D_VARPHI", 16)].

Section Model.
Context {F : Type} (o : fops F) (of_Z : Z -> F).
Notation members := (members F).

(** multiopt_scan.hpp line 44 and multiopt.hpp: the name "mo_ref.opts[0].q.x" means the member x of the configuration of the first stage in the input file. *)
Definition reference_prefix : string := "mo_ref.opts[0].q.".
Definition member_of_reference (x : string) : option string :=
  if String.prefix reference_prefix x then Some (String.substring (String.length reference_prefix) (String.length x) x) else None.

(** multiopt_scan.cpp lines 632, 653, 701 and 776-861: the members that print_status and filter_global_arrays set, from the filters [d] and from the arrays of [out],
    which save_results of MScan.v computes from the same data; line 89 for axis_nmax_plus_1.  A matrix is stored by columns (vector_matrix.hpp lines 88-94).  The other members are those of
    the input file: [s] for the object itself, [first] for mo_ref.opts[0].q. *)
Definition store_scan (na : nat) (first : members) (d : @data F) (out : @MScan.output F) (s : members) : members :=
  let own {A} (f : members -> string -> A) (x : string) := match member_of_reference x with Some y => f first y | None => f s x end in
  mkMembers F
    (fun x => match row_of x (at_name "filters" mscan_filter_names) with
              | Some k => nth k (da_filters d) (m_int F s x)
              | None => if String.eqb x "n_scan" then nth P_KEPT (da_filters d) (m_int F s x)
                        else if String.eqb x "axis_nmax_plus_1" then Z.of_nat na else own (m_int F) x
              end)
    (own (m_flag F))
    (fun x => match row_of x (at_name "filter_fractions" mscan_filter_names) with
              | Some k => fdiv o (of_Z (nth k (da_filters d) 0%Z)) (of_Z (nth P_ATTEMPTS (da_filters d) 0%Z))
              | None => own (m_float F) x
              end)
    (fun x => if String.eqb x "n_evals" then da_n_evals d else own (m_big F) x)
    (own (m_text F))
    (fun x => match MScan.lookup (out_ints out) x with Some l => l | None => own (m_ints F) x end)
    (fun x => match MScan.lookup (out_floats out) x with
              | Some l => l
              | None => match MScan.lookup (out_axis out) x with Some m => m_data m | None => own (m_array F) x end
              end).
(** driver.cpp (multiopt_scan branch) and multiopt_scan_write_netcdf.cpp: the file at the end of a scan with final data [d]. *)
Definition mscan_file (na n_scan_all : nat) (first s : members) (d : @data F) : outcome (file F) :=
  do out <- save_results o of_Z na n_scan_all d; multiopt_scan_write_netcdf F of_Z (store_scan na first d out s).
End Model.
