(** The object of class Scan whose results are written: the members of its object q of class Qsc, and what collect_results stores. *)
From Coq Require Import String Ascii ZArith List Arith Bool Lia.
From Verif Require Import Base NetCDF NetCDFOut Collect.
Import ListNotations.
Local Open Scope string_scope.
Local Open Scope nat_scope.

Section Model.
Context {F : Type}.
Notation members := (members F).

(** scan.hpp line 61: the member q.  A name "q.x" means the member x of q; the other names are members of the object itself.  (The members of class Scan are
    looked up by name, as in scan_write_netcdf.cpp.) *)
Definition member_of_q (x : string) : option string :=
  match x with String "q"%char (String "."%char y) => Some y | _ => None end.
Definition with_q (s q : members) : members :=
  let pick {A} (f : members -> string -> A) x := match member_of_q x with Some y => f q y | None => f s x end in
  mkMembers F (pick (m_int F)) (pick (m_flag F)) (pick (m_float F)) (pick (m_big F)) (pick (m_text F)) (pick (m_ints F)) (pick (m_array F)).

(** scan_collect_results.cpp lines 156-175: the array that gets a row of the real parameters ... *)
Definition scan_columns : list (string * nat) :=
  [("scan_eta_bar", 0); ("scan_sigma0", 1); ("scan_B2c", 2); ("scan_B2s", 3); ("scan_p2", 4); ("scan_axis_length", 5); ("scan_min_R0", 6);
   ("scan_max_curvature", 7); ("scan_iota", 8); ("scan_max_elongation", 9); ("scan_min_L_grad_B", 10); ("scan_min_L_grad_grad_B", 11);
   ("scan_r_singularity", 12); ("scan_d2_volume_d_psi2", 13); ("scan_DMerc_times_r2", 14); ("scan_B20_variation", 15); ("scan_B20_residual", 16);
   ("scan_standard_deviation_of_R", 17); ("scan_standard_deviation_of_Z", 18); ("scan_beta", 19)].
(** ... and lines 179-184: the matrix that gets a block of the Fourier amplitudes. *)
Definition scan_matrices : list (string * nat) := [("scan_R0c", 0); ("scan_R0s", 1); ("scan_Z0c", 2); ("scan_Z0s", 3)].
(** scan.hpp lines 22-39: the indices of filters and filter_fractions. *)
Definition filter_names : list (string * nat) :=
  [("ATTEMPTS", 0); ("KEPT", 1); ("REJECTED_DUE_TO_R0_CRUDE", 2); ("REJECTED_DUE_TO_R0", 3); ("REJECTED_DUE_TO_HELICITY", 4); ("REJECTED_DUE_TO_CURVATURE", 5);
   ("REJECTED_DUE_TO_IOTA", 6); ("REJECTED_DUE_TO_ELONGATION", 7); ("REJECTED_DUE_TO_L_GRAD_B", 8); ("REJECTED_DUE_TO_B20_VARIATION", 9);
   ("REJECTED_DUE_TO_L_GRAD_GRAD_B", 10); ("REJECTED_DUE_TO_D2_VOLUME_D_PSI2", 11); ("REJECTED_DUE_TO_DMERC", 12); ("REJECTED_DUE_TO_R_SINGULARITY", 13);
   ("REJECTED_DUE_TO_BETA", 14); ("N_SIGMA_EQ_SOLVES", 15); ("N_R2_SOLVES", 16)].
Fixpoint row_of (x : string) (l : list (string * nat)) : option nat :=
  match l with [] => None | (y, i) :: l' => if String.eqb x y then Some i else row_of x l' end.
(** The element of an array, by the name of its index. *)
Definition at_name (array : string) (l : list (string * nat)) : list (string * nat) := map (fun p => (array ++ "[" ++ fst p ++ "]", snd p)) l.
(** scan_collect_results.cpp lines 70-86, 126-186 and 189: the members that process 0 sets from the results [out] of Collect.v.  A matrix is stored by columns
    (vector_matrix.hpp lines 88-94).  The timings, which are not written, are left out. *)
Definition store_merged (out : @merged F) (s : members) : members :=
  mkMembers F (m_int F s) (m_flag F s)
    (fun x => match row_of x (at_name "filter_fractions" filter_names) with Some k => nth k (g_fractions out) (m_float F s x) | None => m_float F s x end)
    (fun x => match row_of x (at_name "filters" filter_names) with
              | Some k => Z.of_nat (nth k (g_filters out) 0)
              | None => if String.eqb x "n_scan" then Z.of_nat (g_n_scan out) else m_big F s x
              end)
    (m_text F s)
    (fun x => if String.eqb x "scan_helicity" then g_helicity out else m_ints F s x)
    (fun x => match row_of x scan_columns with
              | Some i => nth i (g_scan out) []
              | None => match row_of x scan_matrices with Some b => concat (nth b (g_fourier out) []) | None => m_array F s x end
              end).
End Model.
