(** Model of src/qsc.cpp (Qsc::Qsc, Qsc::init, Qsc::calculate, Qsc::run) and of src/configurations.cpp: the whole calculation of one
    configuration, from the input file to the output file.

    The object is represented by its members, by name ([members] of NetCDFOut).  The functions called are those of the other files of
    the model; they return records, and the definitions here say which member every field is assigned to.  Members that no output
    file contains and no other function of this file reads (such as the work arrays) are left out, and so are timing and messages. *)
From Coq Require Import String ZArith List Arith Bool.
From Verif Require Import Base FloatOps MathOps Tensor Newton Diff Axis R1 R2 RSing GradGradB Toml Options NetCDF NetCDFOut.
Import ListNotations.
Local Open Scope string_scope.
Local Open Scope nat_scope.

Section Run.
Context {F : Type} (o : fops F) (mo : mops F).
(** x >= 0 in calculate_helicity; the literal 1.0e-12 (or 1.0e-5) of qsc.cpp lines 27-31; mu0 of qsc.hpp line 10; the other decimal
    literals of configurations.cpp are quotients of integers. *)
Variable ge0 : F -> bool.
Variable newton_tol : F.
Variable mu0 : F.
(** LAPACK: the linear solve in Newton's method, that for the second order, the eigenvalues. *)
Variable newton_linear_solve : (nat -> nat -> F) -> list F -> outcome (list F).
Variable linear_solve : matrix F -> list F -> outcome (list F).
Variable geev : list F -> Z * (list F * list F).
Variable tol : tolerances F.
(** std::isfinite in r_singularity.cpp. *)
Variable finite : F -> bool.
Notation members := (members F).

(** ** Assignments to members *)
Definition update {A} (l : list (string * A)) (f : string -> A) : string -> A :=
  fun x => match find (fun p => String.eqb x (fst p)) l with Some p => snd p | None => f x end.
Definition with_ints (l : list (string * Z)) (e : members) : members :=
  mkMembers F (update l (m_int F e)) (m_flag F e) (m_float F e) (m_big F e) (m_text F e) (m_ints F e) (m_array F e).
Definition with_flags (l : list (string * bool)) (e : members) : members :=
  mkMembers F (m_int F e) (update l (m_flag F e)) (m_float F e) (m_big F e) (m_text F e) (m_ints F e) (m_array F e).
Definition with_floats (l : list (string * F)) (e : members) : members :=
  mkMembers F (m_int F e) (m_flag F e) (update l (m_float F e)) (m_big F e) (m_text F e) (m_ints F e) (m_array F e).
Definition with_text (l : list (string * string)) (e : members) : members :=
  mkMembers F (m_int F e) (m_flag F e) (m_float F e) (m_big F e) (update l (m_text F e)) (m_ints F e) (m_array F e).
Definition with_arrays (l : list (string * list F)) (e : members) : members :=
  mkMembers F (m_int F e) (m_flag F e) (m_float F e) (m_big F e) (m_text F e) (m_ints F e) (update l (m_array F e)).

(** An array of [n] elements; a matrix, the rank 3 and the rank 4 tensors, stored with the first index varying fastest
    (vector_matrix.hpp, multiarray.hpp). *)
Definition vec (n : nat) (f : nat -> F) : list F := map f (seq 0 n).
Definition mat (n m : nat) (f : nat -> nat -> F) : list F := flat_map (fun k => map (fun j => f j k) (seq 0 n)) (seq 0 m).
Definition ten3 (n : nat) (f : nat -> nat -> nat -> F) : list F :=
  flat_map (fun c => flat_map (fun r => map (fun j => f j r c) (seq 0 n)) (seq 0 3)) (seq 0 3).
Definition ten4 (n : nat) (f : nat -> nat -> nat -> nat -> F) : list F :=
  flat_map (fun d => flat_map (fun c => flat_map (fun r => map (fun j => f j r c d) (seq 0 n)) (seq 0 3)) (seq 0 3)) (seq 0 3).

(** ** qsc.cpp lines 6-62 *)
(** Qsc::Qsc, lines 44-61, after the assignments that Toml.qsc_defaults models: members that are set to 0.  (Assigning 0.0 to an array
    with no elements has no effect.) *)
Definition constructed (e : members) : members :=
  with_ints [("helicity", 0%Z)] (with_floats (map (fun x => (x, fzero o))
    ["grid_min_R0"; "grid_max_curvature"; "iota"; "grid_max_elongation"; "grid_min_L_grad_B"; "grid_min_L_grad_grad_B"; "r_singularity_robust"; "beta";
     "B20_grid_variation"; "B20_residual"; "d2_volume_d_psi2"; "DMerc_times_r2"; "DGeod_times_r2"; "DWell_times_r2"]) e).
Definition default_store : store F := qsc_defaults (fone o) (fopp o (fone o)) (fzero o) newton_tol.
(** The members that the variables of the input functions are. *)
Definition load (s : store F) (e : members) : members :=
  mkMembers F (fun x => match s x with VInt z => z | _ => m_int F e x end) (m_flag F e)
    (fun x => match s x with VFloat v => v | _ => m_float F e x end) (m_big F e)
    (fun x => match s x with VStr v => v | _ => m_text F e x end) (m_ints F e)
    (fun x => match s x with VVec v => v | _ => m_array F e x end).

(** ** Qsc::init, lines 66-70 *)
(** validate.cpp. *)
Definition validate_members (e : members) : outcome members :=
  do f <- validate (m_text F e "order_r_option");
  Ok (with_flags [("at_least_order_r2", at_least_order_r2 f); ("order_r2p1", order_r2p1 f); ("order_r3", order_r3 f)] e).
Definition init (e : members) : outcome members :=
  do e <- validate_members e;
  allocate_members F (fzero o) e.

(** ** Qsc::calculate, lines 74-84 *)
(** init_axis.cpp.  [init_axis] of Axis does not return the matrix d_d_phi and the shape, so they are calculated here once more. *)
Definition axis_input_of (e : members) : axis_input F :=
  mkAxisInput (Z.to_nat (m_int F e "nphi")) (m_int F e "nfp") (m_array F e "R0c") (m_array F e "R0s") (m_array F e "Z0c") (m_array F e "Z0s")
    (m_int F e "sG") (m_int F e "spsi") (m_float F e "B0").
Definition assign_axis (d : matrix F) (s : shape F) (a : axis F) (h : Z) (e : members) : members :=
  let n := a_nphi a in
  with_ints [("helicity", h)] (with_floats [
    ("d_phi", a_d_phi a); ("B0_over_abs_G0", a_B0_over_abs_G0 a); ("abs_G0_over_B0", a_abs_G0_over_B0 a); ("d_l_d_varphi", a_abs_G0_over_B0 a);
    ("G0", a_G0 a); ("grid_min_R0", a_grid_min_R0 a); ("axis_length", a_axis_length a); ("grid_max_curvature", a_grid_max_curvature a);
    ("rms_curvature", a_rms_curvature a); ("mean_R", a_mean_R a); ("mean_Z", a_mean_Z a); ("standard_deviation_of_R", a_standard_deviation_of_R a);
    ("standard_deviation_of_Z", a_standard_deviation_of_Z a)] (with_arrays [
    ("phi", vec n (a_phi a)); ("d_d_phi", m_data d); ("R0", vec n (a_R0 a)); ("Z0", vec n (a_Z0 a)); ("R0p", vec n (a_R0p a)); ("Z0p", vec n (a_Z0p a));
    ("R0pp", vec n (s_Rpp s)); ("Z0pp", vec n (s_Zpp s)); ("R0ppp", vec n (s_Rppp s)); ("Z0ppp", vec n (s_Zppp s));
    ("d_l_d_phi", vec n (a_d_l_d_phi a));
    ("d2_l_d_phi2", vec n (fun j => fdiv o (fadd o (fadd o (fmul o (s_R s j) (s_Rp s j)) (fmul o (s_Rp s j) (s_Rpp s j))) (fmul o (s_Zp s j) (s_Zpp s j))) (a_d_l_d_phi a j)));
    ("curvature", vec n (a_curvature a)); ("torsion", vec n (a_torsion a)); ("d_d_varphi", mat n n (a_d_d_varphi a));
    ("Boozer_toroidal_angle", vec n (a_Boozer a))] e)).
Definition run_init_axis (e : members) : outcome (axis F * members) :=
  let i := axis_input_of e in
  do d <- differentiation_matrix o mo (ai_nphi i) (fzero o) (fdiv o (fmul o (ftwo o) (m_pi mo)) (m_of_Z mo (ai_nfp i)));
  do s <- axis_shape o mo i (phi_grid o (d_phi_of o mo i));
  do ah <- init_axis o mo ge0 i;
  Ok (fst ah, assign_axis d s (fst ah) (snd ah) e).

(** calculate_r1.cpp: solve_sigma_equation and r1_diagnostics.  sigma and iota are the members the callbacks leave. *)
Definition r1_input_of (a : axis F) (e : members) : r1_input F :=
  mkR1 a (m_int F e "nfp") (m_int F e "helicity") (m_int F e "sG") (m_int F e "spsi") (m_float F e "B0") (m_float F e "I2") (m_float F e "eta_bar") (m_float F e "sigma0").
Definition run_solve_sigma (a : axis F) (e : members) : outcome (newton_status * members) :=
  let i := r1_input_of a e in
  do r <- solve_sigma_equation o mo i newton_linear_solve (m_int F e "max_newton_iterations") (m_int F e "max_linesearch_iterations")
            (m_float F e "newton_tolerance") (mkSigmaUser (m_array F e "sigma") (m_float F e "iota"));
  let '(status, _, _, u) := r in
  Ok (status, with_floats [("iota", u_iota u)] (with_arrays [("sigma", u_sigma u)] e)).
Definition assign_r1 (n : nat) (q : r1 F) (e : members) : members :=
  with_floats [("iota_N", r_iota_N q); ("grid_max_elongation", r_grid_max_elongation q); ("mean_elongation", r_mean_elongation q);
    ("grid_min_L_grad_B", r_grid_min_L_grad_B q)] (with_arrays [
    ("X1c", vec n (r_X1c q)); ("Y1s", vec n (r_Y1s q)); ("Y1c", vec n (r_Y1c q)); ("elongation", vec n (r_elongation q));
    ("d_X1c_d_varphi", vec n (r_d_X1c q)); ("d_Y1s_d_varphi", vec n (r_d_Y1s q)); ("d_Y1c_d_varphi", vec n (r_d_Y1c q));
    ("grad_B_tensor", ten3 n (r_grad_B q)); ("L_grad_B", vec n (r_L_grad_B q)); ("L_grad_B_inverse", vec n (r_L_grad_B_inverse q))] e).
Definition sigma_of (e : members) : nat -> F := fun j => nth j (m_array F e "sigma") (fzero o).
Definition run_r1_diagnostics (a : axis F) (e : members) : members :=
  assign_r1 (a_nphi a) (r1_diagnostics o mo (r1_input_of a e) (sigma_of e) (m_float F e "iota")) e.

(** calculate_r2.cpp: calculate_r2 (line 272 calls calculate_r2p1). *)
Definition r2_input_of (a : axis F) (e : members) : r2_input F :=
  mkR2 (r1_input_of a e) (sigma_of e) (m_float F e "iota") (m_float F e "p2") (m_float F e "B2s") (m_float F e "B2c") mu0.
Definition assign_r2 (i : r2_input F) (s : r2 F) (e : members) : members :=
  let n := a_nphi (i_axis (j_r1 i)) in
  let D := ddv o (j_r1 i) in
  with_floats [("G2", s_G2 s); ("beta_1s", s_beta_1s s); ("B20_grid_variation", s_B20_grid_variation s); ("B20_mean", s_B20_mean s); ("B20_residual", s_B20_residual s);
    ("grid_max_XY2", s_grid_max_XY2 s); ("grid_max_Z2", s_grid_max_Z2 s); ("grid_max_d_XY2_d_varphi", s_grid_max_d_XY2 s);
    ("grid_max_d2_XY2_d_varphi2", s_grid_max_d2_XY2 s); ("grid_max_d_Z2_d_varphi", s_grid_max_d_Z2 s)] (with_arrays [
    ("X20", vec n (s_X20 s)); ("X2s", vec n (s_X2s s)); ("X2c", vec n (s_X2c s)); ("Y20", vec n (s_Y20 s)); ("Y2s", vec n (s_Y2s s)); ("Y2c", vec n (s_Y2c s));
    ("Z20", vec n (s_Z20 s)); ("Z2s", vec n (s_Z2s s)); ("Z2c", vec n (s_Z2c s)); ("B20", vec n (s_B20 s)); ("B20_anomaly", vec n (s_B20_anomaly s));
    ("d_X20_d_varphi", vec n (D (s_X20 s))); ("d_X2s_d_varphi", vec n (D (s_X2s s))); ("d_X2c_d_varphi", vec n (D (s_X2c s)));
    ("d_Y20_d_varphi", vec n (D (s_Y20 s))); ("d_Y2s_d_varphi", vec n (D (s_Y2s s))); ("d_Y2c_d_varphi", vec n (D (s_Y2c s)));
    ("d_Z20_d_varphi", vec n (D (s_Z20 s))); ("d_Z2s_d_varphi", vec n (D (s_Z2s s))); ("d_Z2c_d_varphi", vec n (D (s_Z2c s)));
    ("d2_X20_d_varphi2", vec n (D (D (s_X20 s)))); ("d2_X2s_d_varphi2", vec n (D (D (s_X2s s)))); ("d2_X2c_d_varphi2", vec n (D (D (s_X2c s))));
    ("d2_Y20_d_varphi2", vec n (D (D (s_Y20 s)))); ("d2_Y2s_d_varphi2", vec n (D (D (s_Y2s s)))); ("d2_Y2c_d_varphi2", vec n (D (D (s_Y2c s))));
    ("d2_Z20_d_varphi2", vec n (D (D (s_Z20 s)))); ("d2_Z2s_d_varphi2", vec n (D (D (s_Z2s s)))); ("d2_Z2c_d_varphi2", vec n (D (D (s_Z2c s))))] e).
Definition assign_r2p1 (i : r2_input F) (t : r2p1 F) (e : members) : members :=
  let n := a_nphi (i_axis (j_r1 i)) in
  let D := ddv o (j_r1 i) in
  with_floats [("grid_max_XY3", t_grid_max_XY3 t); ("grid_max_d_XY3_d_varphi", t_grid_max_d_XY3 t); ("grid_max_d2_XY3_d_varphi2", t_grid_max_d2_XY3 t)] (with_arrays [
    ("lambda_for_XY3", vec n (t_lambda t)); ("X3c1", vec n (t_X3c1 t)); ("Y3c1", vec n (t_Y3c1 t)); ("Y3s1", vec n (t_Y3s1 t));
    ("d_X3c1_d_varphi", vec n (D (t_X3c1 t))); ("d_Y3c1_d_varphi", vec n (D (t_Y3c1 t))); ("d_Y3s1_d_varphi", vec n (D (t_Y3s1 t)));
    ("d2_X3c1_d_varphi2", vec n (D (D (t_X3c1 t)))); ("d2_Y3c1_d_varphi2", vec n (D (D (t_Y3c1 t)))); ("d2_Y3s1_d_varphi2", vec n (D (D (t_Y3s1 t))))] e).
Definition run_calculate_r2 (a : axis F) (e : members) : outcome (r2 F * members) :=
  let i := r2_input_of a e in
  let n := a_nphi a in
  do s <- calculate_r2 o mo i linear_solve (mkMatrix (2 * n) (2 * n) (2 * n * (2 * n)) (m_array F e "r2_matrix")) (m_array F e "r2_rhs");
  let e := assign_r2 i s e in
  Ok (s, if m_flag F e "order_r2p1" then assign_r2p1 i (calculate_r2p1 o mo i s) e else e).

(** r2_diagnostics, calculate_r2.cpp lines 289-304: mercier, calculate_grad_grad_B_tensor, calculate_r_singularity. *)
Definition assign_mercier (w : mercier_terms F) (e : members) : members :=
  with_floats [("d2_volume_d_psi2", w_d2_volume_d_psi2 w); ("DWell_times_r2", w_DWell w); ("DGeod_times_r2", w_DGeod w); ("DMerc_times_r2", w_DMerc w)] e.
Definition assign_grad_grad_B (i : r2_input F) (s : r2 F) (e : members) : members :=
  let n := a_nphi (i_axis (j_r1 i)) in
  with_floats [("grid_min_L_grad_grad_B", grid_min_L_grad_grad_B o mo i s)] (with_arrays [
    ("grad_grad_B_tensor", ten4 n (grad_grad_B_tensor o mo i s)); ("L_grad_grad_B", vec n (L_grad_grad_B o mo i s));
    ("L_grad_grad_B_inverse", vec n (L_grad_grad_B_inverse o mo i s))] e).
Definition assign_singularity (g : singularity F) (e : members) : members :=
  with_floats [("r_singularity_robust", RSing.r_singularity_robust g); ("beta", beta_max g)]
    (with_arrays [("r_hat_singularity_robust", RSing.r_hat_singularity_robust g)] e).
Definition run_r2_diagnostics (a : axis F) (s : r2 F) (e : members) : outcome members :=
  let i := r2_input_of a e in
  let e := assign_mercier (mercier o mo i s) e in
  let e := assign_grad_grad_B i s e in
  do g <- calculate_r_singularity o mo geev tol finite i s;
  Ok (assign_singularity g e).

(** Qsc::calculate.  The result of Newton's method is printed. *)
Definition calculate (e : members) : outcome (newton_status * members) :=
  do p <- run_init_axis e;
  let a := fst p in
  do p <- run_solve_sigma a (snd p);
  let status := fst p in
  let e := run_r1_diagnostics a (snd p) in
  if m_flag F e "at_least_order_r2" then
    do p <- run_calculate_r2 a e;
    do e <- run_r2_diagnostics a (fst p) (snd p);
    Ok (status, e)
  else Ok (status, e).

(** ** Qsc::run, lines 95-101 *)
(** [e] are the contents of the memory before the object is constructed, [t] the [qsc] table of the input file.  The result: the
    message about Newton's method and the output file (its name is that of Outfile). *)
Definition run (e : members) (t : table F) : outcome (newton_status * file F) :=
  do s <- qsc_input (m_of_Z mo) (fzero o) t default_store;
  do e <- init (load s (constructed e));
  do r <- calculate e;
  do f <- qsc_write_netcdf F (m_of_Z mo) (snd r);
  Ok (fst r, f).

(** ** configurations.cpp: Qsc::Qsc(std::string) *)
(** The decimal literal m * 10^-k.  (Simplified: the quotient of m and 10^k, which for double precision is the number nearest to the literal if both are exact.) *)
Definition dec (m : Z) (k : Z) : F :=
  if Z.eqb k 0 then if Z.eqb m 0 then fzero o else if Z.eqb m 1 then fone o else m_of_Z mo m
  else fdiv o (m_of_Z mo m) (m_of_Z mo (10 ^ k)).
(** What a configuration sets besides the defaults: nfp, the numbers, the option, and the four arrays of equal lengths. *)
Record preset := mkPreset { p_nfp : Z; p_floats : list (string * F); p_order : string; p_R0c : list F; p_R0s : list F; p_Z0c : list F; p_Z0s : list F }.
Definition zeros (n : nat) : list F := repeat (fzero o) n.
Definition preset_of (name : string) : outcome preset :=
  let z := fzero o in
  if String.eqb name "r1 section 5.1" then
    Ok (mkPreset 3 [("eta_bar", dec (-9) 1)] "r1" [fone o; dec 45 3] (zeros 2) (zeros 2) [z; dec (-45) 3])
  else if String.eqb name "r1 section 5.2" then
    Ok (mkPreset 4 [("eta_bar", dec (-225) 2)] "r1" [fone o; dec 265 3] (zeros 2) (zeros 2) [z; dec (-21) 2])
  else if String.eqb name "r1 section 5.3" then
    Ok (mkPreset 3 [("eta_bar", dec (-11) 1); ("sigma0", dec (-6) 1)] "r1" [fone o; dec 42 3] (zeros 2) [z; dec (-25) 3] [z; dec (-42) 3])
  else if String.eqb name "r2 section 5.1" || String.eqb name "1" then
    Ok (mkPreset 2 [("eta_bar", dec 64 2); ("B2c", dec (-322) 5)] "r2.1" [fone o; dec 155 3; dec 102 4] (zeros 3) (zeros 3) [z; dec 154 3; dec 111 4])
  else if String.eqb name "r2 section 5.2" || String.eqb name "2" then
    Ok (mkPreset 2 [("eta_bar", dec 632 3); ("B2c", dec (-158) 3)] "r2.1" [fone o; dec 173 3; dec 168 4; dec 101 5] (zeros 4) (zeros 4)
          [z; dec 159 3; dec 165 4; dec 985 6])
  else if String.eqb name "r2 section 5.3" || String.eqb name "3" then
    Ok (mkPreset 2 [("eta_bar", dec 95 2); ("B2c", dec (-7) 1); ("I2", dec 9 1); ("p2", m_of_Z mo (-600000))] "r2.1" [fone o; dec 9 2] (zeros 2) (zeros 2) [z; dec (-9) 2])
  else if String.eqb name "r2 section 5.4" || String.eqb name "4" then
    Ok (mkPreset 4 [("eta_bar", dec 1569 3); ("B2c", dec 1348 4)] "r2.1" [fone o; dec 17 2; dec 1804 5; dec 1409 6; dec 5877 8] (zeros 5) (zeros 5)
          [z; dec 1581 4; dec 1820 5; dec 1548 6; dec 7772 8])
  else if String.eqb name "r2 section 5.5" || String.eqb name "5" then
    Ok (mkPreset 5 [("eta_bar", dec 25 1); ("sigma0", dec 3 1); ("B2c", fone o); ("B2s", m_of_Z mo 3); ("I2", dec 16 1); ("p2", m_of_Z mo (-5000000))] "r2.1"
          [fone o; dec 3 1] (zeros 2) (zeros 2) [z; dec 3 1])
  else Throw "Configuration name not recognized".
(** Qsc::Qsc(std::string): defaults() (which, unlike Qsc(), leaves the axis arrays empty and the results unset), the configuration,
    init and calculate. *)
Definition construct_preset (e : members) (name : string) : outcome (newton_status * members) :=
  do p <- preset_of name;
  let e := with_arrays [("R0c", []); ("R0s", []); ("Z0c", []); ("Z0s", [])] (load default_store e) in
  let e := with_arrays [("R0c", p_R0c p); ("R0s", p_R0s p); ("Z0c", p_Z0c p); ("Z0s", p_Z0s p)]
             (with_text [("order_r_option", p_order p)] (with_floats (p_floats p) (with_ints [("nfp", p_nfp p)] e))) in
  do e <- init e;
  calculate e.
End Run.
