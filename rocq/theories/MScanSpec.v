(** Specification vocabulary for a parameter scan: what the name of a scanned parameter
    stands for, what each limit requires, what each saved array holds, and what a file written
    by the scan must say about the points of the grid that have been evaluated. *)
From Coq Require Import String ZArith List Bool Arith.
From Verif Require Import Base FloatOps Tensor Outfile Grid MScan.
Import ListNotations.
Local Open Scope list_scope.
Local Open Scope nat_scope.

(** ** Names of scanned parameters *)
(** Inputs of one optimization stage that can be scanned ... *)
Definition scannable_opt : list string :=
  ["weight_iota"; "target_iota"; "weight_elongation"; "weight_B20"; "weight_r_singularity";
   "weight_grad_B"; "weight_grad_grad_B"; "weight_axis_length"; "target_axis_length";
   "weight_standard_deviation_of_R"; "weight_XY2"; "weight_Z2"; "weight_XY3"; "weight_XY2Prime";
   "weight_XY2PrimePrime"; "weight_Z2Prime"; "weight_XY3Prime"; "weight_XY3PrimePrime";
   "weight_B20_mean"; "weight_d2_volume_d_psi2"; "max_d2_volume_d_psi2";
   "weight_DMerc_times_r2"; "min_DMerc_times_r2"]%string.
(** ... and of the initial configuration. *)
Definition scannable_q : list string := ["eta_bar"; "p2"; "B2c"; "B2s"]%string.

Inductive target := TOpt (m : string) | TQ (m : string) | TR0c (n : nat) | TZ0s (n : nat).
Inductive means : string -> target -> Prop :=
| means_opt m : In m scannable_opt -> means m (TOpt m)
| means_q m : In m scannable_q -> means m (TQ m)
| means_R0c n : 1 <= n -> means (String.append "R0c" (to_string n)) (TR0c n)
| means_Z0s n : 1 <= n -> means (String.append "Z0s" (to_string n)) (TZ0s n).

Section Spec.
Context {F : Type} (o : fops F) (fabs : F -> F) (of_Z : Z -> F) {X : Type}.
Notation stage := (@stage F X).
Notation multiopt := (@multiopt F X).
Notation qobj := (@qobj F).

(** The value of an input in a stage. *)
Definition reading (s : stage) (t : target) : option F :=
  match t with
  | TOpt m => Some (st_num s m)
  | TQ m => Some (qo_num (st_q s) m)
  | TR0c n => nth_error (qo_R0c (st_q s)) n
  | TZ0s n => nth_error (qo_Z0s (st_q s)) n
  end.
(** A dimension of the scan applies to stage [k]: its stage number is [k], or negative. *)
Definition applies (d : @dim F) (k : nat) : Prop := (d_stage d < 0)%Z \/ d_stage d = Z.of_nat k.
(** [wanted dims idx k t v0 v]: input [t] of stage [k] has value [v] at the point [idx] of the
    grid, if its value in the input file is [v0]: that of the last dimension which sets it. *)
Inductive wanted : list (@dim F) -> list nat -> nat -> target -> option F -> option F -> Prop :=
| wanted_nil k t v : wanted [] [] k t v v
| wanted_set d dims i idx k t v0 val v :
    means (d_name d) t -> applies d k -> nth_error (d_vals d) i = Some val ->
    wanted dims idx k t (Some val) v -> wanted (d :: dims) (i :: idx) k t v0 v
| wanted_other d dims i idx k t v0 v :
    ~ (means (d_name d) t /\ applies d k) ->
    wanted dims idx k t v0 v -> wanted (d :: dims) (i :: idx) k t v0 v.

(** Everything else about a stage. *)
Definition rest_same (s s' : stage) : Prop :=
  st_iter s' = st_iter s /\ st_iter_axis s' = st_iter_axis s /\ st_fourier_refine s' = st_fourier_refine s
  /\ st_rest s' = st_rest s /\ qo_helicity (st_q s') = qo_helicity (st_q s)
  /\ qo_R0s (st_q s') = qo_R0s (st_q s) /\ qo_Z0c (st_q s') = qo_Z0c (st_q s)
  /\ length (qo_R0c (st_q s')) = length (qo_R0c (st_q s))
  /\ length (qo_Z0s (st_q s')) = length (qo_Z0s (st_q s)).

(** A dimension the scan accepts: a known name; stages that exist; inputs of the initial
    configuration only for the first stage; axis modes that are in the arrays. *)
Definition dim_ok (mo : multiopt) (d : @dim F) : Prop :=
  (d_stage d < Z.of_nat (length (mo_opts mo)))%Z /\
  exists t, means (d_name d) t /\
    match t with
    | TOpt _ => True
    | TQ _ => d_stage d = 0%Z \/ (d_stage d < 0)%Z /\ length (mo_opts mo) <= 1
    | TR0c n => (d_stage d = 0%Z \/ (d_stage d < 0)%Z /\ length (mo_opts mo) <= 1)
                /\ forall s, nth_error (mo_opts mo) 0 = Some s -> n < length (qo_R0c (st_q s))
    | TZ0s n => (d_stage d = 0%Z \/ (d_stage d < 0)%Z /\ length (mo_opts mo) <= 1)
                /\ forall s, nth_error (mo_opts mo) 0 = Some s -> n < length (qo_Z0s (st_q s))
    end.

(** ** The limits *)
Variable keep_all : bool.
Variable limits : string -> F.
(** The counters of rejections, and when a final configuration falls short. *)
Definition requirements : list (string * (qobj -> bool)) :=
  [("rejected_due_to_R0", fun q => flt o (qo_num q "grid_min_R0") (limits "min_R0_to_keep"));
   ("rejected_due_to_iota", fun q => flt o (fabs (qo_num q "iota")) (limits "min_iota_to_keep"));
   ("rejected_due_to_elongation", fun q => flt o (limits "max_elongation_to_keep") (qo_num q "grid_max_elongation"));
   ("rejected_due_to_L_grad_B", fun q => flt o (qo_num q "grid_min_L_grad_B") (limits "min_L_grad_B_to_keep"));
   ("rejected_due_to_B20_variation", fun q => flt o (limits "max_B20_variation_to_keep") (qo_num q "B20_grid_variation"));
   ("rejected_due_to_L_grad_grad_B", fun q => flt o (qo_num q "grid_min_L_grad_grad_B") (limits "min_L_grad_grad_B_to_keep"));
   ("rejected_due_to_d2_volume_d_psi2", fun q => flt o (limits "max_d2_volume_d_psi2_to_keep") (qo_num q "d2_volume_d_psi2"));
   ("rejected_due_to_DMerc", fun q => flt o (qo_num q "DMerc_times_r2") (limits "min_DMerc_times_r2_to_keep"));
   ("rejected_due_to_r_singularity", fun q => flt o (qo_num q "r_singularity_robust") (limits "min_r_singularity_to_keep"));
   ("rejected_due_to_max_XY2", fun q => flt o (limits "max_XY2_to_keep") (qo_num q "grid_max_XY2"));
   ("rejected_due_to_max_Z2", fun q => flt o (limits "max_Z2_to_keep") (qo_num q "grid_max_Z2"));
   ("rejected_due_to_max_XY3", fun q => flt o (limits "max_XY3_to_keep") (qo_num q "grid_max_XY3"));
   ("rejected_due_to_max_d_XY2_d_varphi", fun q => flt o (limits "max_d_XY2_d_varphi_to_keep") (qo_num q "grid_max_d_XY2_d_varphi"));
   ("rejected_due_to_max_d_Z2_d_varphi", fun q => flt o (limits "max_d_Z2_d_varphi_to_keep") (qo_num q "grid_max_d_Z2_d_varphi"));
   ("rejected_due_to_max_d_XY3_d_varphi", fun q => flt o (limits "max_d_XY3_d_varphi_to_keep") (qo_num q "grid_max_d_XY3_d_varphi"))
  ]%string.

(** The final configuration of an optimization is that of its last stage. *)
Definition last_stage (mo : multiopt) : option stage := nth_error (mo_opts mo) (length (mo_opts mo) - 1).
Definition first_stage (mo : multiopt) : option stage := nth_error (mo_opts mo) 0.
Definition falls_short (f : qobj -> bool) (mo : multiopt) : bool :=
  match last_stage mo with Some s => negb keep_all && f (st_q s) | None => false end.
Definition acceptable (mo : multiopt) : bool :=
  forallb (fun r => negb (falls_short (snd r) mo)) requirements.

(** ** The saved arrays *)
Definition q_of_last (m : string) (mo : multiopt) : option F := option_map (fun s => qo_num (st_q s) m) (last_stage mo).
Definition opt_of_last (m : string) (mo : multiopt) : option F := option_map (fun s => st_num s m) (last_stage mo).
Definition iter_of_first (m : string) (mo : multiopt) : option F :=
  match first_stage mo with Some s => nth_error (st_iter s m) 0 | None => None end.

Definition named (pre : string) (l : list string) (f : string -> multiopt -> option F) : list (string * (multiopt -> option F)) :=
  map (fun m => (String.append pre m, f m)) l.
Definition columns : list (string * (multiopt -> option F)) :=
  (* results and inputs of the final configuration, under their own names *)
  named "scan_" ["eta_bar"; "sigma0"; "B2c"; "B2s"; "iota"; "d2_volume_d_psi2"; "DMerc_times_r2"; "B20_residual";
                 "B20_mean"; "standard_deviation_of_R"; "standard_deviation_of_Z"; "axis_length"; "p2"]%string q_of_last
  (* results that are extrema over the grid *)
  ++ named "scan_" ["min_R0"; "max_curvature"; "max_elongation"; "min_L_grad_B"; "min_L_grad_grad_B"; "max_XY2"; "max_Z2";
                    "max_XY3"; "max_d_XY2_d_varphi"; "max_d_Z2_d_varphi"; "max_d_XY3_d_varphi"; "max_d2_XY2_d_varphi2";
                    "max_d2_XY3_d_varphi2"]%string (fun m => q_of_last (String.append "grid_" m))
  ++ [("scan_r_singularity", q_of_last "r_singularity_robust"); ("scan_B20_variation", q_of_last "B20_grid_variation")]%string
  (* inputs at the first evaluation of the first stage *)
  ++ named "scan_initial_" ["eta_bar"; "B2c"; "B2s"]%string (fun m => iter_of_first (String.append "iter_" m))
  (* weights and targets of the last stage *)
  ++ named "scan_" ["weight_B20"; "weight_iota"; "target_iota"; "weight_elongation"; "weight_curvature"; "weight_R0";
                    "weight_d2_volume_d_psi2"; "max_d2_volume_d_psi2"; "weight_DMerc_times_r2"; "min_DMerc_times_r2";
                    "weight_XY2"; "weight_XY2Prime"; "weight_XY2PrimePrime"; "weight_Z2"; "weight_Z2Prime"; "weight_XY3";
                    "weight_XY3Prime"; "weight_XY3PrimePrime"; "weight_grad_B"; "weight_grad_grad_B";
                    "weight_r_singularity"; "weight_axis_length"; "target_axis_length";
                    "weight_standard_deviation_of_R"; "weight_B20_mean"]%string opt_of_last
  ++ [("scan_target_min_R0", opt_of_last "min_R0")]%string.

(** Axis shapes: those of the final configuration, and those at the first evaluation of the
    first stage, element by element ([None] where there is no such amplitude: 0 is saved). *)
Definition axis_of_last (f : qobj -> list F) (mo : multiopt) (k : nat) : option F :=
  match last_stage mo with Some s => nth_error (f (st_q s)) k | None => None end.
Definition axis_of_first (m : string) (mo : multiopt) (k : nat) : option F :=
  match first_stage mo with
  | Some s => if k <? length (qo_R0c (st_q s)) then nth_error (m_data (st_iter_axis s m)) k else None
  | None => None
  end.
Definition axis_columns : list (string * (multiopt -> nat -> option F)) :=
  [("scan_R0c", axis_of_last qo_R0c); ("scan_R0s", axis_of_last qo_R0s);
   ("scan_Z0c", axis_of_last qo_Z0c); ("scan_Z0s", axis_of_last qo_Z0s);
   ("scan_initial_R0c", axis_of_first "iter_R0c"); ("scan_initial_R0s", axis_of_first "iter_R0s");
   ("scan_initial_Z0c", axis_of_first "iter_Z0c"); ("scan_initial_Z0s", axis_of_first "iter_Z0s")]%string.

(** ** The file *)
Definition count {A} (f : A -> bool) (l : list A) : Z := Z.of_nat (length (filter f l)).
(** [describes na mos out]: the file contents [out] describe the results [mos], in this order. *)
Record describes (na : nat) (mos : list multiopt) (out : @output F) : Prop := mkDescribes {
  de_n_scan : out_n_scan out = count acceptable mos;
  de_n_evals : out_n_evals out = fold_right Z.add 0%Z (map mo_n_evals mos);
  de_attempts : lookup (out_counters out) "attempts" = Some (Z.of_nat (length mos));
  de_rejected : forall name f, In (name, f) requirements ->
    lookup (out_counters out) name = Some (count (falls_short f) mos);
  de_fraction_kept : lookup (out_fractions out) "fraction_kept"
    = Some (fdiv o (of_Z (count acceptable mos)) (of_Z (Z.of_nat (length mos))));
  de_fractions : forall name f, In (name, f) requirements ->
    lookup (out_fractions out) (String.append "fraction_" name)
    = Some (fdiv o (of_Z (count (falls_short f) mos)) (of_Z (Z.of_nat (length mos))));
  de_ints : lookup (out_ints out) "scan_n_evals" = Some (map mo_n_evals (filter acceptable mos))
    /\ exists l, lookup (out_ints out) "scan_helicity" = Some l
       /\ map Some l = map (fun mo => option_map (fun s => qo_helicity (st_q s)) (last_stage mo)) (filter acceptable mos);
  de_columns : forall name f, In (name, f) columns ->
    exists l, lookup (out_floats out) name = Some l /\ map Some l = map f (filter acceptable mos);
  de_axis : forall name f, In (name, f) axis_columns ->
    exists m, lookup (out_axis out) name = Some m
      /\ m_nrows m = na /\ m_ncols m = length (filter acceptable mos)
      /\ forall k p mo, k < na -> nth_error (filter acceptable mos) p = Some mo ->
           matrix_get m k p = Ok (match f mo k with Some v => v | None => fzero o end) }.

(** The result at point [j] of the grid: the optimization started from the input file, with the
    scanned parameters set to the values of that point. *)
Definition point (optimize : multiopt -> outcome multiopt) (mo_ref : multiopt) (na : nat) (dims : list (@dim F)) (j : nat) :
    outcome multiopt :=
  do mo <- set_dims na dims (decode (map (fun d => length (d_vals d)) dims) j) mo_ref; optimize mo.

(** What MultiOpt::optimize leaves behind: the last stage has [na] axis amplitudes, the first
    one [n0], and the histories of the first stage have at least one element. *)
Record shaped (na n0 : nat) (mo : multiopt) : Prop := mkShaped {
  sh_n0 : n0 <= na;
  sh_last : exists s, last_stage mo = Some s /\ length (qo_R0c (st_q s)) = na /\ length (qo_R0s (st_q s)) = na
              /\ length (qo_Z0c (st_q s)) = na /\ length (qo_Z0s (st_q s)) = na;
  sh_first : exists s, first_stage mo = Some s /\ length (qo_R0c (st_q s)) = n0
              /\ (forall m, In m ["iter_eta_bar"; "iter_B2c"; "iter_B2s"]%string -> st_iter s m <> [])
              /\ (forall m, In m ["iter_R0c"; "iter_R0s"; "iter_Z0c"; "iter_Z0s"]%string ->
                    n0 <= length (m_data (st_iter_axis s m))) }.
End Spec.
