(** Model of one optimization: src/optimize.cpp (class Opt), src/opt_allocate.cpp, and of
    MultiOpt::optimize in src/multiopt.cpp.

    An Opt object is a [stage] of MScan.v whose last component is [rest] below.  Parameters of
    the model: the routines Qsc::allocate, Qsc::init and Qsc::calculate, and the GSL
    minimizer, which calls back into this code: it is represented by the sequence of its calls.
    Printing, the choice of the GSL algorithm and the file "residual_vector" are not modelled.
    fourier_refine is a natural number here, an int in the code. *)
From Coq Require Import String ZArith List Bool Arith.
From Verif Require Import Base FloatOps Tensor Outfile MScan.
Import ListNotations.
Local Open Scope list_scope.
Local Open Scope nat_scope.

(** The four arrays of axis amplitudes. *)
Inductive axis := R0c | R0s | Z0c | Z0s.
Definition axis_name (a : axis) : string :=
  match a with R0c => "R0c" | R0s => "R0s" | Z0c => "Z0c" | Z0s => "Z0s" end%string.
Definition axis_eqb (a b : axis) : bool :=
  match a, b with R0c, R0c | R0s, R0s | Z0c, Z0c | Z0s, Z0s => true | _, _ => false end.

Section Opt.
Context {F : Type} (o : fops F).
Variable fsqrt : F -> F.
Variable of_Z : Z -> F.
(** The rest of a Qsc object. *)
Context {Y : Type}.

(** Qsc objects, beyond the members in MScan.qobj: nphi, nfp, the order of the expansion (input
    and flag), and the arrays over the grid, by name. *)
Record qextra := mkQx { qx_nphi : Z; qx_nfp : Z; qx_order_r_option : string; qx_order_r2p1 : bool; qx_arr : string -> list F; qx_rest : Y }.
(** Opt objects, beyond the members in MScan.stage (opt.hpp). *)
Record rest := mkRest {
  r_q : qextra;
  r_max_iter : Z; r_n_iter : nat; r_n_evals : Z; r_j_fourier_refine : nat;
  r_nphi : list Z;
  r_vary_num : string -> bool;       (* vary_eta_bar, vary_sigma0, vary_B2c, vary_B2s *)
  r_vary : axis -> list bool;        (* vary_R0c, ... *)
  r_n_parameters : nat; r_n_terms : nat;
  r_state_vector_names : list string; r_residual_names : list string;
  r_residuals : list F; r_objective : F; r_terms : string -> F;
  r_iter_fourier_refine_step : list Z }.
Notation opt := (@stage F rest).

Definition set_rest (r : rest) (s : opt) : opt :=
  mkStage (st_num s) (st_q s) (st_iter s) (st_iter_axis s) (st_fourier_refine s) r.
Definition with_q (q : @qobj F) (x : qextra) (s : opt) : opt :=
  let r := st_rest s in
  mkStage (st_num s) q (st_iter s) (st_iter_axis s) (st_fourier_refine s)
    (mkRest x (r_max_iter r) (r_n_iter r) (r_n_evals r) (r_j_fourier_refine r) (r_nphi r) (r_vary_num r) (r_vary r)
       (r_n_parameters r) (r_n_terms r) (r_state_vector_names r) (r_residual_names r) (r_residuals r) (r_objective r) (r_terms r)
       (r_iter_fourier_refine_step r)).
Definition set_vary (v : axis -> list bool) (r : rest) : rest :=
  mkRest (r_q r) (r_max_iter r) (r_n_iter r) (r_n_evals r) (r_j_fourier_refine r) (r_nphi r) (r_vary_num r) v
       (r_n_parameters r) (r_n_terms r) (r_state_vector_names r) (r_residual_names r) (r_residuals r) (r_objective r) (r_terms r)
       (r_iter_fourier_refine_step r).
Definition set_counts (n_iter : nat) (n_evals : Z) (j : nat) (r : rest) : rest :=
  mkRest (r_q r) (r_max_iter r) n_iter n_evals j (r_nphi r) (r_vary_num r) (r_vary r)
       (r_n_parameters r) (r_n_terms r) (r_state_vector_names r) (r_residual_names r) (r_residuals r) (r_objective r) (r_terms r)
       (r_iter_fourier_refine_step r).
Definition set_parameters (n : nat) (names : list string) (r : rest) : rest :=
  mkRest (r_q r) (r_max_iter r) (r_n_iter r) (r_n_evals r) (r_j_fourier_refine r) (r_nphi r) (r_vary_num r) (r_vary r)
       n (r_n_terms r) names (r_residual_names r) (r_residuals r) (r_objective r) (r_terms r)
       (r_iter_fourier_refine_step r).
Definition set_terms_shape (n : nat) (names : list string) (res : list F) (r : rest) : rest :=
  mkRest (r_q r) (r_max_iter r) (r_n_iter r) (r_n_evals r) (r_j_fourier_refine r) (r_nphi r) (r_vary_num r) (r_vary r)
       (r_n_parameters r) n (r_state_vector_names r) names res (r_objective r) (r_terms r)
       (r_iter_fourier_refine_step r).
Definition set_objective (res : list F) (obj : F) (terms : string -> F) (r : rest) : rest :=
  mkRest (r_q r) (r_max_iter r) (r_n_iter r) (r_n_evals r) (r_j_fourier_refine r) (r_nphi r) (r_vary_num r) (r_vary r)
       (r_n_parameters r) (r_n_terms r) (r_state_vector_names r) (r_residual_names r) res obj terms
       (r_iter_fourier_refine_step r).
Definition set_steps (l : list Z) (r : rest) : rest :=
  mkRest (r_q r) (r_max_iter r) (r_n_iter r) (r_n_evals r) (r_j_fourier_refine r) (r_nphi r) (r_vary_num r) (r_vary r)
       (r_n_parameters r) (r_n_terms r) (r_state_vector_names r) (r_residual_names r) (r_residuals r) (r_objective r) (r_terms r)
       l.

Definition get_axis (q : @qobj F) (a : axis) : list F :=
  match a with R0c => qo_R0c q | R0s => qo_R0s q | Z0c => qo_Z0c q | Z0s => qo_Z0s q end.
Definition set_axis (a : axis) (l : list F) (q : @qobj F) : @qobj F :=
  match a with
  | R0c => mkQo (qo_num q) (qo_helicity q) l (qo_R0s q) (qo_Z0c q) (qo_Z0s q)
  | R0s => mkQo (qo_num q) (qo_helicity q) (qo_R0c q) l (qo_Z0c q) (qo_Z0s q)
  | Z0c => mkQo (qo_num q) (qo_helicity q) (qo_R0c q) (qo_R0s q) l (qo_Z0s q)
  | Z0s => mkQo (qo_num q) (qo_helicity q) (qo_R0c q) (qo_R0s q) (qo_Z0c q) l
  end.
Definition upd_vary (a : axis) (l : list bool) (v : axis -> list bool) : axis -> list bool :=
  fun b => if axis_eqb b a then l else v b.

(** ** The state vector *)
(** optimize.cpp lines 256-317, init_parameters: the order eta_bar, sigma0, B2c, B2s, R0c, R0s,
    Z0c, Z0s, with its own names and counting. *)
Definition name_num (r : rest) (m : string) (st : nat * list string) : nat * list string :=
  if r_vary_num r m then (S (fst st), snd st ++ [m]) else st.
Definition name_axis (r : rest) (a : axis) (st : nat * list string) : outcome (nat * list string) :=
  for_loop (length (r_vary r a)) (fun j st =>
    do v <- aget (r_vary r a) j;
    if v : bool then Ok (S (fst st), snd st ++ [String.append (axis_name a) (String.append "[" (String.append (to_string j) "]"))])
    else Ok st) st.
Definition init_parameters (s : opt) : outcome opt :=
  let r := st_rest s in
  let st := (0, []) in
  let st := name_num r "eta_bar"%string st in
  let st := name_num r "sigma0"%string st in
  let st := name_num r "B2c"%string st in
  let st := name_num r "B2s"%string st in
  do st <- name_axis r R0c st;
  do st <- name_axis r R0s st;
  do st <- name_axis r Z0c st;
  do st <- name_axis r Z0s st;
  if fst st <? 1 then Throw "There must be at least 1 parameter varied."
  else Ok (set_rest (set_parameters (fst st) (snd st) r) s).

(** buffer[j] = v; j++. *)
Definition put (v : F) (st : nat * list F) : outcome (nat * list F) :=
  do b <- aset (snd st) (fst st) v; Ok (S (fst st), b).

(** Lines 454-499, set_state_vector, writing to an array of the given contents. *)
Definition pack_num (s : opt) (m : string) (st : nat * list F) : outcome (nat * list F) :=
  if r_vary_num (st_rest s) m then put (qo_num (st_q s) m) st else Ok st.
Definition pack_axis (s : opt) (a : axis) (st : nat * list F) : outcome (nat * list F) :=
  let vary := r_vary (st_rest s) a in
  for_loop (length vary) (fun k st =>
    do v <- aget vary k;
    if v : bool then do x <- aget (get_axis (st_q s) a) k; put x st else Ok st) st.
Definition set_state_vector (s : opt) (buffer : list F) : outcome (list F) :=
  do st <- pack_num s "eta_bar"%string (0, buffer);
  do st <- pack_num s "sigma0"%string st;
  do st <- pack_num s "B2c"%string st;
  do st <- pack_num s "B2s"%string st;
  do st <- pack_axis s R0c st;
  do st <- pack_axis s R0s st;
  do st <- pack_axis s Z0c st;
  do st <- pack_axis s Z0s st;
  if fst st =? r_n_parameters (st_rest s) then Ok (snd st) else Throw "assertion j == n_parameters failed".

(** Lines 503-549, unpack_state_vector. *)
Definition unpack_num (r : rest) (x : list F) (m : string) (st : nat * @qobj F) : outcome (nat * @qobj F) :=
  if r_vary_num r m then do v <- aget x (fst st); Ok (S (fst st), set_q_num m v (snd st)) else Ok st.
Definition unpack_axis (r : rest) (x : list F) (a : axis) (st : nat * @qobj F) : outcome (nat * @qobj F) :=
  for_loop (length (r_vary r a)) (fun k st =>
    do v <- aget (r_vary r a) k;
    if v : bool then
      do y <- aget x (fst st);
      do l <- aset (get_axis (snd st) a) k y;
      Ok (S (fst st), set_axis a l (snd st))
    else Ok st) st.
Definition unpack_state_vector (x : list F) (s : opt) : outcome opt :=
  let r := st_rest s in
  do st <- unpack_num r x "eta_bar"%string (0, st_q s);
  do st <- unpack_num r x "sigma0"%string st;
  do st <- unpack_num r x "B2c"%string st;
  do st <- unpack_num r x "B2s"%string st;
  do st <- unpack_axis r x R0c st;
  do st <- unpack_axis r x R0s st;
  do st <- unpack_axis r x Z0c st;
  do st <- unpack_axis r x Z0s st;
  if fst st =? r_n_parameters r then Ok (with_q (snd st) (r_q r) s) else Throw "assertion j == n_parameters failed".

(** ** The residuals *)
(** How many residuals a term has: one, or some for each grid point. *)
Inductive size := Once | PerPhi (m : nat).
(** Lines 330-430, init_residuals: the terms, their numbers of residuals and their names; the
    weight is the member weight_NAME. *)
Definition residual_sizes : list (string * size) :=
  [("B20", PerPhi 1); ("iota", Once); ("elongation", PerPhi 1); ("curvature", PerPhi 1); ("R0", PerPhi 1);
   ("d2_volume_d_psi2", Once); ("DMerc_times_r2", Once); ("XY2", PerPhi 6); ("XY2Prime", PerPhi 6);
   ("XY2PrimePrime", PerPhi 6); ("Z2", PerPhi 3); ("Z2Prime", PerPhi 3); ("XY3", PerPhi 3);
   ("XY3Prime", PerPhi 3); ("XY3PrimePrime", PerPhi 3); ("grad_B", PerPhi 9); ("grad_grad_B", PerPhi 27);
   ("r_singularity", PerPhi 1); ("axis_length", Once); ("standard_deviation_of_R", PerPhi 1);
   ("B20_mean", PerPhi 1)]%string.
Definition weight (s : opt) (name : string) : F := st_num s (String.append "weight_" name).
Definition active (s : opt) (name : string) : bool := flt o (fzero o) (weight s name).
Definition name_term (s : opt) (nphi : nat) (g : string * size) (st : nat * list string) : nat * list string :=
  let '(name, sz) := g in
  if active s name then
    match sz with
    | Once => (S (fst st), snd st ++ [name])
    | PerPhi m => (fst st + nphi * m,
                   snd st ++ map (fun j => String.append name (String.append "[" (String.append (to_string j) "]"))) (seq 0 (nphi * m)))
    end
  else st.
(** Lines 321-450.  q.nphi is positive here (it has been used in q.allocate). *)
Definition init_residuals (s : opt) : outcome opt :=
  let nphi := Z.to_nat (qx_nphi (r_q (st_rest s))) in
  let st := fold_left (fun st g => name_term s nphi g st) residual_sizes (0, []) in
  if fst st <? 1 then Throw "There must be at least 1 residual term."
  else Ok (set_rest (set_terms_shape (fst st) (snd st) (repeat (fzero o) (fst st)) (st_rest s)) s).

(** Lines 583-815: the terms, in the order of the code; [k] is the grid point, [i] counts the
    residuals of a grid point. *)
Section Terms.
Variable s : opt.
Let q := st_q s.
Let x := r_q (st_rest s).
Let nphi := Z.to_nat (qx_nphi x).
(** Line 557. *)
Definition arclength_factor : list F :=
  map (fun l => fsqrt (fmul o l (fdiv o (fmul o (qo_num q "d_phi") (of_Z (qx_nfp x))) (qo_num q "axis_length"))))
      (qx_arr x "d_l_d_phi"%string).
Definition scaled (name : string) (k : nat) : outcome F :=
  do a <- aget arclength_factor k; do v <- aget (qx_arr x name) k; Ok (fmul o a v).
Definition among (names : list string) (k i : nat) : outcome F :=
  do name <- aget names i; scaled name k.
Definition tensor (name : string) (k i : nat) : outcome F :=
  do a <- aget arclength_factor k; do v <- aget (qx_arr x name) (k + nphi * i); Ok (fmul o a v).
Definition once (v : F) (k i : nat) : outcome F := Ok v.
Definition R0_shortfall (k i : nat) : outcome F :=
  do R <- aget (qx_arr x "R0"%string) k;
  if flt o R (st_num s "min_R0") then
    do a <- aget arclength_factor k; Ok (fmul o a (fsub o (st_num s "min_R0") R))
  else Ok (fzero o).
Definition R0_deviation (k i : nat) : outcome F :=
  do a <- aget arclength_factor k; do R <- aget (qx_arr x "R0"%string) k;
  Ok (fmul o a (fsub o R (qo_num q "mean_R"))).
Definition inverse_r_singularity (k i : nat) : outcome F :=
  do a <- aget arclength_factor k; do v <- aget (qx_arr x "r_hat_singularity_robust"%string) k; Ok (fdiv o a v).
Definition groups : list (string * size * (nat -> nat -> outcome F)) :=
  [("B20", PerPhi 1, fun k _ => scaled "B20_anomaly" k);
   ("iota", Once, once (fsub o (qo_num q "iota") (st_num s "target_iota")));
   ("elongation", PerPhi 1, fun k _ => scaled "elongation" k);
   ("curvature", PerPhi 1, fun k _ => scaled "curvature" k);
   ("R0", PerPhi 1, R0_shortfall);
   ("d2_volume_d_psi2", Once,
      once (if flt o (st_num s "max_d2_volume_d_psi2") (qo_num q "d2_volume_d_psi2")
            then fsub o (qo_num q "d2_volume_d_psi2") (st_num s "max_d2_volume_d_psi2") else fzero o));
   ("DMerc_times_r2", Once,
      once (if flt o (qo_num q "DMerc_times_r2") (st_num s "min_DMerc_times_r2")
            then fsub o (st_num s "min_DMerc_times_r2") (qo_num q "DMerc_times_r2") else fzero o));
   ("XY2", PerPhi 6, among ["X20"; "X2s"; "X2c"; "Y20"; "Y2s"; "Y2c"]);
   ("XY2Prime", PerPhi 6, among ["d_X20_d_varphi"; "d_X2s_d_varphi"; "d_X2c_d_varphi"; "d_Y20_d_varphi"; "d_Y2s_d_varphi"; "d_Y2c_d_varphi"]);
   ("XY2PrimePrime", PerPhi 6, among ["d2_X20_d_varphi2"; "d2_X2s_d_varphi2"; "d2_X2c_d_varphi2"; "d2_Y20_d_varphi2"; "d2_Y2s_d_varphi2"; "d2_Y2c_d_varphi2"]);
   ("Z2", PerPhi 3, among ["Z20"; "Z2s"; "Z2c"]);
   ("Z2Prime", PerPhi 3, among ["d_Z20_d_varphi"; "d_Z2s_d_varphi"; "d_Z2c_d_varphi"]);
   ("XY3", PerPhi 3, among ["X3c1"; "Y3c1"; "Y3s1"]);
   ("XY3Prime", PerPhi 3, among ["d_X3c1_d_varphi"; "d_Y3c1_d_varphi"; "d_Y3s1_d_varphi"]);
   ("XY3PrimePrime", PerPhi 3, among ["d2_X3c1_d_varphi2"; "d2_Y3c1_d_varphi2"; "d2_Y3s1_d_varphi2"]);
   ("grad_B", PerPhi 9, tensor "grad_B_tensor");
   ("grad_grad_B", PerPhi 27, tensor "grad_grad_B_tensor");
   ("r_singularity", PerPhi 1, inverse_r_singularity);
   ("axis_length", Once, once (fsub o (qo_num q "axis_length") (st_num s "target_axis_length")));
   ("standard_deviation_of_R", PerPhi 1, R0_deviation);
   ("B20_mean", PerPhi 1, fun k _ => scaled "B20" k)]%string.

(** [term = ...; NAME_term += term * term; if (weight_NAME > 0) residuals[j++] = weight_NAME * term]. *)
Definition add_term (name : string) (t : F) (st : (nat * list F) * F) : outcome ((nat * list F) * F) :=
  do b <- (if active s name then put (fmul o (weight s name) t) (fst st) else Ok (fst st));
  Ok (b, fadd o (snd st) (fmul o t t)).
Definition run_group (name : string) (sz : size) (f : nat -> nat -> outcome F) (b : nat * list F) :
    outcome ((nat * list F) * F) :=
  match sz with
  | Once => do t <- f 0 0;
            do b <- (if active s name then put (fmul o (weight s name) t) b else Ok b);
            Ok (b, fmul o t t)                                (* NAME_term = term * term *)
  | PerPhi m => for_loop nphi (fun k st => for_loop m (fun i st => do t <- f k i; add_term name t st) st) (b, fzero o)
  end.
Fixpoint run_groups (gs : list (string * size * (nat -> nat -> outcome F))) (b : nat * list F) (terms : string -> F) :
    outcome ((nat * list F) * (string -> F)) :=
  match gs with
  | [] => Ok (b, terms)
  | (name, sz, f) :: gs' =>
      do r <- run_group name sz f b;
      run_groups gs' (fst r) (fun y => if String.eqb y name then snd r else terms y)
  end.
End Terms.

(** Lines 817-832: the arrays weights and terms, and the objective function. *)
Definition weight_order : list string :=
  ["B20"; "iota"; "elongation"; "curvature"; "R0"; "d2_volume_d_psi2"; "DMerc_times_r2"; "XY2"; "XY2Prime"; "XY2PrimePrime";
   "Z2"; "Z2Prime"; "XY3"; "XY3Prime"; "XY3PrimePrime"; "grad_B"; "grad_grad_B"; "r_singularity"; "axis_length";
   "standard_deviation_of_R"; "B20_mean"]%string.
Definition term_order : list string :=
  ["B20"; "iota"; "elongation"; "curvature"; "R0"; "d2_volume_d_psi2"; "DMerc_times_r2"; "XY2"; "XY2Prime"; "XY2PrimePrime";
   "Z2"; "Z2Prime"; "XY3"; "XY3Prime"; "XY3PrimePrime"; "grad_B"; "grad_grad_B"; "r_singularity"; "axis_length";
   "standard_deviation_of_R"; "B20_mean"]%string.
Definition half : F := fdiv o (fone o) (ftwo o).
Definition add_objective (s : opt) (terms : string -> F) (obj : F) (wt : string * string) : F :=
  let w := weight s (fst wt) in
  if flt o (fzero o) w then fadd o obj (fmul o (fmul o (fmul o half w) w) (terms (snd wt))) else obj.
Definition objective (s : opt) (terms : string -> F) : F :=
  fold_left (add_objective s terms) (combine weight_order term_order) (fzero o).

(** Lines 553-841, set_residuals: the new object, and the contents of the GSL vector. *)
Definition set_residuals (s : opt) : outcome (opt * list F) :=
  let r := st_rest s in
  do st <- run_groups s (groups s) (0, r_residuals r) (fun _ => fzero o);
  if fst (fst st) =? r_n_terms r then
    do f <- for_loop (r_n_terms r) (fun j f => do v <- aget (snd (fst st)) j; aset f j v) (repeat (fzero o) (r_n_terms r));
    Ok (set_rest (set_objective (snd (fst st)) (objective s (snd st)) (snd st) r) s, f)
  else Throw "assertion j == n_terms failed".

(** ** The history of the iterations *)
Inductive quantity := Objective | Term (name : string) | Qnum (name : string).
(** gsl_callback, lines 873-913. *)
Definition history_table : list (string * quantity) :=
  [("iter_objective_function", Objective); ("iter_B20_term", Term "B20"); ("iter_iota_term", Term "iota");
   ("iter_elongation_term", Term "elongation"); ("iter_curvature_term", Term "curvature"); ("iter_R0_term", Term "R0");
   ("iter_d2_volume_d_psi2_term", Term "d2_volume_d_psi2"); ("iter_DMerc_times_r2_term", Term "DMerc_times_r2");
   ("iter_XY2_term", Term "XY2"); ("iter_XY2Prime_term", Term "XY2Prime"); ("iter_XY2PrimePrime_term", Term "XY2PrimePrime");
   ("iter_Z2_term", Term "Z2"); ("iter_Z2Prime_term", Term "Z2Prime"); ("iter_XY3_term", Term "XY3");
   ("iter_XY3Prime_term", Term "XY3Prime"); ("iter_XY3PrimePrime_term", Term "XY3PrimePrime");
   ("iter_grad_B_term", Term "grad_B"); ("iter_grad_grad_B_term", Term "grad_grad_B");
   ("iter_r_singularity_term", Term "r_singularity"); ("iter_axis_length_term", Term "axis_length");
   ("iter_standard_deviation_of_R_term", Term "standard_deviation_of_R"); ("iter_B20_mean_term", Term "B20_mean");
   ("iter_eta_bar", Qnum "eta_bar"); ("iter_sigma0", Qnum "sigma0"); ("iter_B2c", Qnum "B2c"); ("iter_B2s", Qnum "B2s");
   ("iter_min_R0", Qnum "grid_min_R0"); ("iter_max_curvature", Qnum "grid_max_curvature"); ("iter_iota", Qnum "iota");
   ("iter_max_elongation", Qnum "grid_max_elongation"); ("iter_min_L_grad_B", Qnum "grid_min_L_grad_B");
   ("iter_min_L_grad_grad_B", Qnum "grid_min_L_grad_grad_B"); ("iter_r_singularity", Qnum "r_singularity_robust");
   ("iter_B20_variation", Qnum "B20_grid_variation"); ("iter_B20_residual", Qnum "B20_residual");
   ("iter_d2_volume_d_psi2", Qnum "d2_volume_d_psi2"); ("iter_DMerc_times_r2", Qnum "DMerc_times_r2");
   ("iter_standard_deviation_of_R", Qnum "standard_deviation_of_R");
   ("iter_standard_deviation_of_Z", Qnum "standard_deviation_of_Z"); ("iter_axis_length", Qnum "axis_length")]%string.
(** opt_allocate.cpp lines 11-57: the arrays of size max_iter. *)
Definition history_arrays : list string :=
  ["iter_objective_function"; "iter_B20_term"; "iter_iota_term"; "iter_elongation_term"; "iter_curvature_term"; "iter_R0_term";
   "iter_d2_volume_d_psi2_term"; "iter_DMerc_times_r2_term"; "iter_XY2_term"; "iter_XY2Prime_term"; "iter_XY2PrimePrime_term";
   "iter_Z2_term"; "iter_Z2Prime_term"; "iter_XY3_term"; "iter_XY3Prime_term"; "iter_XY3PrimePrime_term"; "iter_grad_B_term";
   "iter_grad_grad_B_term"; "iter_r_singularity_term"; "iter_axis_length_term"; "iter_standard_deviation_of_R_term";
   "iter_B20_mean_term"; "iter_eta_bar"; "iter_sigma0"; "iter_B2s"; "iter_B2c"; "iter_min_R0"; "iter_max_curvature"; "iter_iota";
   "iter_max_elongation"; "iter_min_L_grad_B"; "iter_min_L_grad_grad_B"; "iter_r_singularity"; "iter_B20_variation";
   "iter_B20_residual"; "iter_d2_volume_d_psi2"; "iter_DMerc_times_r2"; "iter_standard_deviation_of_R";
   "iter_standard_deviation_of_Z"; "iter_axis_length"]%string.
Definition history_axes : list (string * axis) :=
  [("iter_R0c", R0c); ("iter_R0s", R0s); ("iter_Z0c", Z0c); ("iter_Z0s", Z0s)]%string.

Definition quantity_of (s : opt) (x : quantity) : F :=
  match x with
  | Objective => r_objective (st_rest s)
  | Term t => r_terms (st_rest s) t
  | Qnum m => qo_num (st_q s) m
  end.
Definition set_iter {A} (f : string -> A) (m : string) (v : A) : string -> A :=
  fun y => if String.eqb y m then v else f y.
Fixpoint record_numbers (t : list (string * quantity)) (s : opt) (i : nat) (it : string -> list F) : outcome (string -> list F) :=
  match t with
  | [] => Ok it
  | (m, x) :: t' => do l <- aset (it m) i (quantity_of s x); record_numbers t' s i (set_iter it m l)
  end.
(** Lines 914-919. *)
Definition record_axis (s : opt) (i : nat) (it : string -> matrix F) : outcome (string -> matrix F) :=
  for_loop (length (qo_R0c (st_q s))) (fun j it =>
    do v <- aget (qo_R0c (st_q s)) j; do m <- matrix_set (it "iter_R0c"%string) j i v; let it := set_iter it "iter_R0c" m in
    do v <- aget (qo_R0s (st_q s)) j; do m <- matrix_set (it "iter_R0s"%string) j i v; let it := set_iter it "iter_R0s" m in
    do v <- aget (qo_Z0c (st_q s)) j; do m <- matrix_set (it "iter_Z0c"%string) j i v; let it := set_iter it "iter_Z0c" m in
    do v <- aget (qo_Z0s (st_q s)) j; do m <- matrix_set (it "iter_Z0s"%string) j i v; Ok (set_iter it "iter_Z0s"%string m)) it.
(** Lines 873-922. *)
Definition record (s : opt) : outcome opt :=
  let r := st_rest s in
  let i := r_n_iter r in
  do it <- record_numbers history_table s i (st_iter s);
  do ax <- record_axis s i (st_iter_axis s);
  do st <- aset (r_iter_fourier_refine_step r) i (Z.of_nat (r_j_fourier_refine r));
  Ok (mkStage (st_num s) (st_q s) it ax (st_fourier_refine s)
        (set_counts (S i) (r_n_evals r) (r_j_fourier_refine r) (set_steps st r))).

(** ** The optimization *)
(** The routines of class Qsc. *)
Record routines := mkRoutines {
  q_allocate : @qobj F -> qextra -> outcome (@qobj F * qextra);
  q_init : @qobj F -> qextra -> outcome (@qobj F * qextra);
  q_calculate : @qobj F -> qextra -> outcome (@qobj F * qextra) }.
Variable rt : routines.
Definition on_q (f : @qobj F -> qextra -> outcome (@qobj F * qextra)) (s : opt) : outcome opt :=
  do y <- f (st_q s) (r_q (st_rest s)); Ok (with_q (fst y) (snd y) s).

(** What GSL does: evaluations of the residuals (calls of gsl_residual_function) and reports
    (calls of gsl_callback), with the state vector. *)
Inductive event := Eval (x : list F) | Report (x : list F).
(** The sequence of calls, given the step of Fourier refinement, the object, the limit on the
    number of iterations and the initial state vector. *)
Variable gsl : nat -> opt -> Z -> list F -> list event.

(** gsl_residual_function (lines 218-252), and the first half of gsl_callback (866-871). *)
Definition evaluate (x : list F) (s : opt) : outcome opt :=
  do s <- unpack_state_vector x s;
  do s <- on_q (q_calculate rt) s;
  do y <- set_residuals s; Ok (fst y).

(** The log lists what has been evaluated so far: was it a report, and the object afterwards. *)
Definition log : Type := list (bool * opt).
Definition run_event (e : event) (st : opt * log) : outcome (opt * log) :=
  match e with
  | Eval x => do s <- evaluate x (fst st); Ok (s, snd st ++ [(false, s)])
  | Report x => do s <- evaluate x (fst st); do s <- record s; Ok (s, snd st ++ [(true, s)])
  end.
Fixpoint run_events (es : list event) (st : opt * log) : outcome (opt * log) :=
  match es with
  | [] => Ok st
  | e :: es' => do st <- run_event e st; run_events es' st
  end.
Definition n_evaluations (es : list event) : Z :=
  Z.of_nat (length (filter (fun e => match e with Eval _ => true | Report _ => false end) es)).

(** Lines 35-46: [arr = a; a.resize(newsize, fill); for (j < oldsize) a[j] = arr[j]]. *)
Definition extend {A} (fill : A) (oldsize newsize : nat) (l : list A) : outcome (list A) :=
  for_loop oldsize (fun j b => do v <- aget l j; aset b j v) (repeat fill newsize).

(** Lines 24-59. *)
Definition check_sizes (s : opt) : outcome unit :=
  let bad a := negb (length (r_vary (st_rest s) a) =? length (get_axis (st_q s) a)) in
  if bad R0c then Throw "Size of vary_R0c is incorrect"
  else if bad R0s then Throw "Size of vary_R0s is incorrect"
  else if bad Z0c then Throw "Size of vary_Z0c is incorrect"
  else if bad Z0s then Throw "Size of vary_Z0s is incorrect"
  else Ok tt.
Definition extend_axis (old new : nat) (a : axis) (s : opt) : outcome opt :=
  do l <- extend (fzero o) old new (get_axis (st_q s) a);
  Ok (with_q (set_axis a l (st_q s)) (r_q (st_rest s)) s).
Definition extend_vary (old new : nat) (a : axis) (s : opt) : outcome opt :=
  do l <- extend false old new (r_vary (st_rest s) a);
  Ok (set_rest (set_vary (upd_vary a l (r_vary (st_rest s))) (st_rest s)) s).
Definition add_modes (s : opt) : outcome opt :=
  let old := length (qo_R0c (st_q s)) in
  let new := old + st_fourier_refine s in
  do s <- extend_axis old new R0c s; do s <- extend_axis old new R0s s;
  do s <- extend_axis old new Z0c s; do s <- extend_axis old new Z0s s;
  do s <- extend_vary old new R0c s; do s <- extend_vary old new R0s s;
  do s <- extend_vary old new Z0c s; extend_vary old new Z0s s.

(** Lines 94-98. *)
Definition free_mode (a : axis) (k : nat) (s : opt) : outcome opt :=
  do l <- aset (r_vary (st_rest s) a) k true;
  Ok (set_rest (set_vary (upd_vary a l (r_vary (st_rest s))) (st_rest s)) s).
Definition set_nphi (n : Z) (s : opt) : opt :=
  let x := r_q (st_rest s) in
  with_q (st_q s) (mkQx n (qx_nfp x) (qx_order_r_option x) (qx_order_r2p1 x) (qx_arr x) (qx_rest x)) s.
(** Lines 94-124. *)
Definition prepare (oldsize j : nat) (s : opt) : outcome opt :=
  let s := set_rest (set_counts (r_n_iter (st_rest s)) (r_n_evals (st_rest s)) j (st_rest s)) s in
  do s <- (if 0 <? j then do s <- free_mode R0c (oldsize + j - 1) s; free_mode Z0s (oldsize + j - 1) s else Ok s);
  do s <- (if 0 <? length (r_nphi (st_rest s)) then
             do n <- aget (r_nphi (st_rest s)) j;
             do s <- on_q (q_allocate rt) (set_nphi n s);
             init_residuals s
           else if j =? 0 then init_residuals s else Ok s);
  do s <- init_parameters s;
  on_q (q_init rt) s.
(** Lines 150-186.  The array handed to set_state_vector is not initialized: [junk]. *)
Variable junk : nat -> list F.
Definition minimize (j : nat) (st : opt * log) : outcome (opt * log) :=
  let s := fst st in
  do x0 <- set_state_vector s (junk (r_n_parameters (st_rest s)));
  let es := gsl j s (r_max_iter (st_rest s) - 1 - Z.of_nat (r_n_iter (st_rest s)))%Z x0 in
  do st <- run_events es st;
  let r := st_rest (fst st) in
  Ok (set_rest (set_counts (r_n_iter r) (r_n_evals r + n_evaluations es)%Z (r_j_fourier_refine r) r) (fst st), snd st).
(** Lines 89-212, with [count] values of j_fourier_refine left. *)
Fixpoint refine (oldsize j count : nat) (st : opt * log) : outcome (opt * log) :=
  match count with
  | O => Ok st
  | S count' =>
      let r := st_rest (fst st) in
      if (r_max_iter r - 1 <=? Z.of_nat (r_n_iter r))%Z then Ok st
      else
        do s <- prepare oldsize j (fst st);
        if qx_order_r2p1 (r_q (st_rest s)) then
          do st <- minimize j (s, snd st);
          refine oldsize (S j) count' st
        else Ok (s, snd st)
  end.
(** Lines 17-214 (double precision). *)
Definition optimize_log (s : opt) : outcome (opt * log) :=
  do _ <- check_sizes s;
  let oldsize := length (qo_R0c (st_q s)) in
  do s <- add_modes s;
  let s := set_rest (set_counts 0 (r_n_evals (st_rest s)) (r_j_fourier_refine (st_rest s)) (st_rest s)) s in
  refine oldsize 0 (S (st_fourier_refine s)) (s, []).

(** opt_allocate.cpp lines 7-60. *)
Definition allocate (s : opt) : outcome opt :=
  do s <- on_q (q_allocate rt) s;
  let r := st_rest s in
  if (r_max_iter r <? 0)%Z then Throw "std::bad_alloc" else
  let n := Z.to_nat (r_max_iter r) in
  let rows := length (qo_R0c (st_q s)) + st_fourier_refine s in
  Ok (mkStage (st_num s) (st_q s)
        (fold_left (fun it m => set_iter it m (repeat (fzero o) n)) history_arrays (st_iter s))
        (fold_left (fun it x => set_iter it (fst x) (matrix_resize (it (fst x)) rows n (fzero o))) history_axes (st_iter_axis s))
        (st_fourier_refine s) (set_steps (repeat 0%Z n) r)).

(** opt.cpp lines 61-67, Opt::run, without reading the input and writing the file. *)
Definition run_opt (s : opt) : outcome (opt * log) := do s <- allocate s; optimize_log s.

(** ** Several stages *)
(** multiopt.cpp lines 60-101.  [prev]: the q of the previous stage.  The log of each stage is
    returned. *)
Definition take_q (prev : option (@qobj F * qextra)) (s : opt) : opt :=
  match prev with Some (q, x) => with_q q x s | None => s end.
Fixpoint run_stages (prev : option (@qobj F * qextra)) (opts : list opt) (n_evals : Z) : outcome (list (opt * log) * Z) :=
  match opts with
  | [] => Ok ([], n_evals)
  | s :: opts' =>
      do y <- run_opt (take_q prev s);
      let s := fst y in
      do z <- run_stages (Some (st_q s, r_q (st_rest s))) opts' (n_evals + r_n_evals (st_rest s))%Z;
      Ok (y :: fst z, snd z)
  end.
Definition multiopt_optimize (mo : @multiopt F rest) : outcome (@multiopt F rest) :=
  do z <- run_stages None (mo_opts mo) (mo_n_evals mo);
  Ok (mkMO (map fst (fst z)) (snd z)).
End Opt.
