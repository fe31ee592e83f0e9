(** Model of src/toml_util.cpp and of the input-reading functions built on it
    (src/qsc_input.cpp, scan_input.cpp, opt_input.cpp, multiopt.cpp,
    multiopt_scan_input.cpp).

    The external TOML parser is not modelled: a parsed table is a list of
    key/value pairs.  [F] is the floating point type (qscfloat); [of_int] is the
    conversion static_cast<double>(int64). *)
From Coq Require Import String ZArith List Arith Bool.
From Verif Require Import Base.
Import ListNotations.
Open Scope string_scope.

Section Toml.
Variable F : Type.
Variable of_int : Z -> F.

(** A TOML value, as seen through toml11's [toml::value].  Tables and dates are
    lumped into [TOther]. *)
Inductive tval :=
| TInt (z : Z) | TBool (b : bool) | TFloat (x : F) | TStr (s : string)
| TArr (l : list tval) | TOther.

Definition table := list (string * tval).

(** toml::value::contains / toml::find on a table. *)
Fixpoint lookup (k : string) (t : table) : option tval :=
  match t with
  | [] => None
  | (k', v) :: t' => if String.eqb k k' then Some v else lookup k t'
  end.

(** A C++ variable filled from the input file. *)
Inductive cval :=
| VInt (z : Z) | VBool (b : bool) | VFloat (x : F) | VStr (s : string)
| VVec (l : list F) | VBools (l : list bool) | VInts (l : list Z) | VStrs (l : list string)
| VUninit.

(** Which overload of toml_read is selected, i.e. the C++ type of the variable. *)
Inductive kind := KInt | KBool | KFloat | KStr | KVec | KBools | KInts | KStrs.

(** int64 to int, as done by toml::get<int> (two's complement truncation). *)
Definition to_int32 (z : Z) : Z := ((z + 2147483648) mod 4294967296 - 2147483648)%Z.

Fixpoint map_outcome {A B} (f : A -> outcome B) (l : list A) : outcome (list B) :=
  match l with
  | [] => Ok []
  | a :: l' => do b <- f a; do bs <- map_outcome f l'; Ok (b :: bs)
  end.

Definition as_int (v : tval) : outcome Z :=
  match v with TInt z => Ok (to_int32 z) | _ => Throw "toml::type_error" end.
Definition as_float_strict (v : tval) : outcome F :=
  match v with TFloat x => Ok x | _ => Throw "toml::type_error" end.
Definition as_bool_strict (v : tval) : outcome bool :=
  match v with TBool b => Ok b | _ => Throw "toml::type_error" end.
Definition as_str (v : tval) : outcome string :=
  match v with TStr s => Ok s | _ => Throw "toml::type_error" end.
Definition as_arr (v : tval) : outcome (list tval) :=
  match v with TArr l => Ok l | _ => Throw "toml::type_error" end.

(** The conversions inside the toml_read overloads, toml_util.cpp lines 8-107:
    bool (25-38) also accepts an integer, qscfloat (42-55) also accepts an integer. *)
Definition convert (k : kind) (v : tval) : outcome cval :=
  match k with
  | KInt => do z <- as_int v; Ok (VInt z)
  | KBool => match v with
             | TBool b => Ok (VBool b)
             | TInt z => Ok (VBool (negb (Z.eqb z 0)))
             | _ => Throw "toml::type_error"
             end
  | KFloat => match v with
              | TFloat x => Ok (VFloat x)
              | TInt z => Ok (VFloat (of_int z))
              | _ => Throw "toml::type_error"
              end
  | KStr => do s <- as_str v; Ok (VStr s)
  | KVec => do l <- as_arr v; do xs <- map_outcome as_float_strict l; Ok (VVec xs)
  | KBools => do l <- as_arr v; do xs <- map_outcome as_bool_strict l; Ok (VBools xs)
  | KInts => do l <- as_arr v; do xs <- map_outcome as_int l; Ok (VInts xs)
  | KStrs => do l <- as_arr v; do xs <- map_outcome as_str l; Ok (VStrs xs)
  end.

(** The variables of an object, by C++ name. *)
Definition store := string -> cval.
Definition sset (s : store) (x : string) (v : cval) : store :=
  fun y => if String.eqb y x then v else s y.

(** toml_read(varlist, indata, key, var), toml_util.cpp lines 8-107. *)
Definition toml_read (indata : table) (key : string) (var : string) (k : kind)
    (st : list string * store) : outcome (list string * store) :=
  do s' <- (match lookup key indata with
            | Some v => do c <- convert k v; Ok (sset (snd st) var c)
            | None => Ok (snd st)
            end);
  Ok (fst st ++ [key], s')%list.

(** toml_unused, toml_util.cpp lines 121-145. *)
Fixpoint toml_unused (varlist : list string) (indata : table) : outcome unit :=
  match indata with
  | [] => Ok tt
  | (key, _) :: rest =>
      if existsb (String.eqb key) varlist then toml_unused varlist rest
      else Throw ("Unused key in input file: " ++ key)
  end.

(** One toml_read call: key, C++ variable, type of the variable. *)
Definition read_call := (string * string * kind)%type.

Fixpoint run_reads (indata : table) (calls : list read_call) (st : list string * store)
  : outcome (list string * store) :=
  match calls with
  | [] => Ok st
  | (key, var, k) :: cs => do st' <- toml_read indata key var k st; run_reads indata cs st'
  end.

(** The common shape of all the input functions: the toml_read calls, then toml_unused. *)
Definition read_section (calls : list read_call) (indata : table) (s : store) : outcome store :=
  do st <- run_reads indata calls ([], s);
  toml_unused (fst st) indata ;;
  Ok (snd st).

(** Qsc::input, qsc_input.cpp lines 21-40. *)
Definition qsc_reads : list read_call :=
  [("nphi", "nphi", KInt); ("nfp", "nfp", KInt); ("eta_bar", "eta_bar", KFloat);
   ("spsi", "spsi", KInt); ("sG", "sG", KInt); ("B0", "B0", KFloat); ("I2", "I2", KFloat);
   ("sigma0", "sigma0", KFloat); ("B2s", "B2s", KFloat); ("B2c", "B2c", KFloat);
   ("p2", "p2", KFloat); ("max_newton_iterations", "max_newton_iterations", KInt);
   ("max_linesearch_iterations", "max_linesearch_iterations", KInt);
   ("newton_tolerance", "newton_tolerance", KFloat); ("verbose", "verbose", KInt);
   ("order_r_option", "order_r_option", KStr); ("R0c", "R0c", KVec); ("R0s", "R0s", KVec);
   ("Z0c", "Z0c", KVec); ("Z0s", "Z0s", KVec)].

(** Scan::input, scan_input.cpp lines 20-66. *)
Definition scan_reads : list read_call :=
  [("eta_bar_scan_option", "eta_bar_scan_option", KStr);
   ("sigma0_scan_option", "sigma0_scan_option", KStr);
   ("B2c_scan_option", "B2c_scan_option", KStr); ("B2s_scan_option", "B2s_scan_option", KStr);
   ("p2_scan_option", "p2_scan_option", KStr); ("fourier_scan_option", "fourier_scan_option", KStr);
   ("eta_bar_min", "eta_bar_min", KFloat); ("eta_bar_max", "eta_bar_max", KFloat);
   ("sigma0_min", "sigma0_min", KFloat); ("sigma0_max", "sigma0_max", KFloat);
   ("B2c_min", "B2c_min", KFloat); ("B2c_max", "B2c_max", KFloat);
   ("B2s_min", "B2s_min", KFloat); ("B2s_max", "B2s_max", KFloat);
   ("p2_min", "p2_min", KFloat); ("p2_max", "p2_max", KFloat);
   ("R0c_min", "R0c_min", KVec); ("R0c_max", "R0c_max", KVec);
   ("R0s_min", "R0s_min", KVec); ("R0s_max", "R0s_max", KVec);
   ("Z0c_min", "Z0c_min", KVec); ("Z0c_max", "Z0c_max", KVec);
   ("Z0s_min", "Z0s_min", KVec); ("Z0s_max", "Z0s_max", KVec);
   ("deterministic", "deterministic", KBool); ("save_period", "save_period", KFloat);
   ("max_seconds", "max_seconds", KFloat); ("max_keep_per_proc", "max_keep_per_proc", KInt);
   ("max_attempts_per_proc", "max_attempts_per_proc", KInt); ("keep_all", "keep_all", KBool);
   ("min_R0_to_keep", "min_R0_to_keep", KFloat); ("min_iota_to_keep", "min_iota_to_keep", KFloat);
   ("max_elongation_to_keep", "max_elongation_to_keep", KFloat);
   ("min_L_grad_B_to_keep", "min_L_grad_B_to_keep", KFloat);
   ("min_L_grad_grad_B_to_keep", "min_L_grad_grad_B_to_keep", KFloat);
   ("max_B20_variation_to_keep", "max_B20_variation_to_keep", KFloat);
   ("min_r_singularity_to_keep", "min_r_singularity_to_keep", KFloat);
   ("min_DMerc_times_r2_to_keep", "min_DMerc_times_r2_to_keep", KFloat);
   ("max_d2_volume_d_psi2_to_keep", "max_d2_volume_d_psi2_to_keep", KFloat);
   ("min_beta_to_keep", "min_beta_to_keep", KFloat); ("helicity_to_keep", "helicity_to_keep", KInt)].

(** Opt::input, opt_input.cpp lines 31-111.  "algorithm" and "diff_method" are read into
    local strings which [opt_input] below translates. *)
Definition opt_reads : list read_call :=
  [("vary_eta_bar", "vary_eta_bar", KBool); ("vary_sigma0", "vary_sigma0", KBool);
   ("vary_B2c", "vary_B2c", KBool); ("vary_B2s", "vary_B2s", KBool);
   ("vary_R0c", "vary_R0c", KBools); ("vary_R0s", "vary_R0s", KBools);
   ("vary_Z0c", "vary_Z0c", KBools); ("vary_Z0s", "vary_Z0s", KBools);
   ("weight_B20", "weight_B20", KFloat); ("weight_iota", "weight_iota", KFloat);
   ("target_iota", "target_iota", KFloat); ("weight_elongation", "weight_elongation", KFloat);
   ("weight_curvature", "weight_curvature", KFloat); ("weight_R0", "weight_R0", KFloat);
   ("min_R0", "min_R0", KFloat); ("weight_d2_volume_d_psi2", "weight_d2_volume_d_psi2", KFloat);
   ("max_d2_volume_d_psi2", "max_d2_volume_d_psi2", KFloat);
   ("weight_DMerc_times_r2", "weight_DMerc_times_r2", KFloat);
   ("min_DMerc_times_r2", "min_DMerc_times_r2", KFloat); ("weight_XY2", "weight_XY2", KFloat);
   ("weight_XY2Prime", "weight_XY2Prime", KFloat);
   ("weight_XY2PrimePrime", "weight_XY2PrimePrime", KFloat); ("weight_Z2", "weight_Z2", KFloat);
   ("weight_Z2Prime", "weight_Z2Prime", KFloat); ("weight_XY3", "weight_XY3", KFloat);
   ("weight_XY3Prime", "weight_XY3Prime", KFloat);
   ("weight_XY3PrimePrime", "weight_XY3PrimePrime", KFloat);
   ("weight_grad_B", "weight_grad_B", KFloat); ("weight_grad_grad_B", "weight_grad_grad_B", KFloat);
   ("weight_r_singularity", "weight_r_singularity", KFloat);
   ("weight_axis_length", "weight_axis_length", KFloat);
   ("target_axis_length", "target_axis_length", KFloat);
   ("weight_standard_deviation_of_R", "weight_standard_deviation_of_R", KFloat);
   ("weight_B20_mean", "weight_B20_mean", KFloat); ("max_iter", "max_iter", KInt);
   ("verbose", "verbose", KInt); ("make_names", "make_names", KBool);
   ("fourier_refine", "fourier_refine", KInt); ("nphi", "nphi", KInts)].

(** MultiOpt::input, multiopt.cpp lines 40-44.  [nopts] is an uninitialised local. *)
Definition multiopt_reads : list read_call :=
  [("nopts", "nopts", KInt); ("verbose", "verbose", KInt)].

(** MultiOptScan::input, multiopt_scan_input.cpp lines 23-51. *)
Definition multiopt_scan_reads : list read_call :=
  [("verbose", "verbose", KInt); ("quit_after_init", "quit_after_init", KBool);
   ("save_period", "save_period", KFloat); ("print_status_period", "print_status_period", KFloat);
   ("max_seconds", "max_seconds", KFloat); ("params", "params", KStrs);
   ("params_min", "params_min", KVec); ("params_max", "params_max", KVec);
   ("params_n", "params_n", KInts); ("params_stage", "params_stage", KInts);
   ("params_log", "params_log", KBools); ("keep_all", "keep_all", KBool);
   ("min_R0_to_keep", "min_R0_to_keep", KFloat); ("min_iota_to_keep", "min_iota_to_keep", KFloat);
   ("max_elongation_to_keep", "max_elongation_to_keep", KFloat);
   ("min_L_grad_B_to_keep", "min_L_grad_B_to_keep", KFloat);
   ("min_L_grad_grad_B_to_keep", "min_L_grad_grad_B_to_keep", KFloat);
   ("max_B20_variation_to_keep", "max_B20_variation_to_keep", KFloat);
   ("min_r_singularity_to_keep", "min_r_singularity_to_keep", KFloat);
   ("max_d2_volume_d_psi2_to_keep", "max_d2_volume_d_psi2_to_keep", KFloat);
   ("min_DMerc_times_r2_to_keep", "min_DMerc_times_r2_to_keep", KFloat);
   ("max_XY2_to_keep", "max_XY2_to_keep", KFloat); ("max_Z2_to_keep", "max_Z2_to_keep", KFloat);
   ("max_XY3_to_keep", "max_XY3_to_keep", KFloat);
   ("max_d_XY2_d_varphi_to_keep", "max_d_XY2_d_varphi_to_keep", KFloat);
   ("max_d_Z2_d_varphi_to_keep", "max_d_Z2_d_varphi_to_keep", KFloat);
   ("max_d_XY3_d_varphi_to_keep", "max_d_XY3_d_varphi_to_keep", KFloat)].

(** pad_vector, toml_util.cpp lines 111-117.  [zero] is 0.0. *)
Definition pad_vector (zero : F) (v : list F) (newsize : nat) : outcome (list F) :=
  if (length v <=? newsize)%nat then
    for_loop (length v) (fun j w => do x <- aget v j; aset w j x) (repeat zero newsize)
  else Throw "assert v.size() <= newsize".

(** The end of Qsc::input, qsc_input.cpp lines 44-53. *)
Record axis_coeffs := mkAxis { R0c : list F; R0s : list F; Z0c : list F; Z0s : list F }.
Definition pad_axis (zero : F) (a : axis_coeffs) : outcome axis_coeffs :=
  let newsize := 0%nat in
  let newsize := Nat.max newsize (length (R0c a)) in
  let newsize := Nat.max newsize (length (R0s a)) in
  let newsize := Nat.max newsize (length (Z0c a)) in
  let newsize := Nat.max newsize (length (Z0s a)) in
  do c1 <- pad_vector zero (R0c a) newsize;
  do c2 <- pad_vector zero (R0s a) newsize;
  do c3 <- pad_vector zero (Z0c a) newsize;
  do c4 <- pad_vector zero (Z0s a) newsize;
  Ok (mkAxis c1 c2 c3 c4).

Definition vec_of (c : cval) : outcome (list F) :=
  match c with VVec l => Ok l | _ => UB "variable has another type" end.

(** Qsc::input, qsc_input.cpp lines 10-53 (printing and timing omitted).  [s] holds the
    variables before the call. *)
Definition qsc_input (zero : F) (indata : table) (s : store) : outcome store :=
  do s1 <- read_section qsc_reads indata s;
  do r0c <- vec_of (s1 "R0c"); do r0s <- vec_of (s1 "R0s");
  do z0c <- vec_of (s1 "Z0c"); do z0s <- vec_of (s1 "Z0s");
  do a <- pad_axis zero (mkAxis r0c r0s z0c z0s);
  Ok (sset (sset (sset (sset s1 "R0c" (VVec (R0c a))) "R0s" (VVec (R0s a)))
           "Z0c" (VVec (Z0c a))) "Z0s" (VVec (Z0s a))).

(** Qsc::defaults and Qsc::Qsc, qsc.cpp lines 6-41 (double precision): the variables
    that Qsc::input may change.  The literals 1.0, -1.0, 0.0 and 1.0e-12 are parameters. *)
Definition qsc_defaults (one minus_one zero tol : F) : store := fun x =>
  if existsb (String.eqb x) ["sG"; "spsi"] then VInt 1
  else if existsb (String.eqb x) ["B0"] then VFloat one
  else if existsb (String.eqb x) ["eta_bar"] then VFloat minus_one
  else if existsb (String.eqb x) ["I2"; "sigma0"; "B2s"; "B2c"; "p2"] then VFloat zero
  else if existsb (String.eqb x) ["nfp"] then VInt 3
  else if existsb (String.eqb x) ["nphi"] then VInt 15
  else if existsb (String.eqb x) ["verbose"] then VInt 1
  else if existsb (String.eqb x) ["max_newton_iterations"] then VInt 12
  else if existsb (String.eqb x) ["max_linesearch_iterations"] then VInt 4
  else if existsb (String.eqb x) ["newton_tolerance"] then VFloat tol
  else if existsb (String.eqb x) ["order_r_option"] then VStr "r1"
  else if existsb (String.eqb x) ["R0c"] then VVec [one]
  else if existsb (String.eqb x) ["R0s"; "Z0c"; "Z0s"] then VVec [zero]
  else VUninit.

(** Opt algorithm / diff_method strings, opt_input.cpp lines 80-109. *)
Inductive algorithm_type := GSL_LM | GSL_DOGLEG | GSL_DDOGLEG | GSL_SUBSPACE2D.
Inductive diff_method_type := DIFF_METHOD_FORWARD | DIFF_METHOD_CENTERED.
Definition read_algorithm (s : string) (old : algorithm_type) : outcome algorithm_type :=
  if String.eqb s "lm" then Ok GSL_LM
  else if String.eqb s "dogleg" then Ok GSL_DOGLEG
  else if String.eqb s "ddogleg" then Ok GSL_DDOGLEG
  else if String.eqb s "subspace2d" then Ok GSL_SUBSPACE2D
  else if String.eqb s "" then Ok old
  else Throw "Unrecognized algorithm".
Definition read_diff_method (s : string) (old : diff_method_type) : outcome diff_method_type :=
  if String.eqb s "forward" then Ok DIFF_METHOD_FORWARD
  else if String.eqb s "centered" then Ok DIFF_METHOD_CENTERED
  else if String.eqb s "" then Ok old
  else Throw "Unrecognized diff_method".

Definition ints_of (c : cval) : outcome (list Z) :=
  match c with VInts l => Ok l | _ => UB "variable has another type" end.
Definition int_of (c : cval) : outcome Z :=
  match c with
  | VInt z => Ok z
  | VUninit => UB "read of an uninitialised variable"
  | _ => UB "variable has another type"
  end.
Definition str_of (c : cval) : outcome string :=
  match c with VStr z => Ok z | _ => UB "variable has another type" end.

(** Opt::input, opt_input.cpp lines 25-111, after q.input: [n] is q.R0c.size().  The
    comparison [nphi.size() != fourier_refine + 1] converts the int to size_t, so a
    negative right-hand side is unequal to every size.  The returned store drops the two
    local strings. *)
Definition opt_input (n : nat) (indata : table) (s : store)
    (alg : algorithm_type) (dm : diff_method_type)
  : outcome (store * algorithm_type * diff_method_type) :=
  do r0c <- aset (repeat true n) 0 false;
  do z0s <- aset (repeat true n) 0 false;
  let s0 := sset (sset (sset (sset s "vary_R0c" (VBools r0c)) "vary_R0s" (VBools (repeat false n)))
                       "vary_Z0c" (VBools (repeat false n))) "vary_Z0s" (VBools z0s) in
  do st <- run_reads indata opt_reads ([], s0);
  do nphi <- ints_of (snd st "nphi");
  do fr <- int_of (snd st "fourier_refine");
  (if ((0 <? length nphi)%nat && negb (Z.eqb (Z.of_nat (length nphi)) (fr + 1)))%bool
   then Throw "Size of the multiopt nphi array does not match fourier_refine + 1"
   else Ok tt) ;;
  do st2 <- toml_read indata "algorithm" "algorithm_str" KStr
              (fst st, sset (snd st) "algorithm_str" (VStr ""));
  do a_str <- str_of (snd st2 "algorithm_str");
  do alg' <- read_algorithm a_str alg;
  do st3 <- toml_read indata "diff_method" "diff_method_str" KStr
              (fst st2, sset (snd st2) "diff_method_str" (VStr ""));
  do d_str <- str_of (snd st3 "diff_method_str");
  do dm' <- read_diff_method d_str dm;
  toml_unused (fst st3) indata ;;
  Ok (snd st, alg', dm').

(** MultiOpt::input, multiopt.cpp lines 36-46: the number of stages.  [verbose] keeps its
    previous value [v0]; the local [nopts] starts uninitialised. *)
Definition multiopt_input_nopts (indata : table) (v0 : Z) : outcome Z :=
  do s <- read_section multiopt_reads indata
            (fun x => if String.eqb x "verbose" then VInt v0 else VUninit);
  do nopts <- int_of (s "nopts");
  if (nopts <? 1)%Z then Throw "In the multiopt parameter list, nopts must be at least 1."
  else Ok nopts.
End Toml.

Arguments TInt {F}. Arguments TBool {F}. Arguments TFloat {F}. Arguments TStr {F}.
Arguments TArr {F}. Arguments TOther {F}.
Arguments VInt {F}. Arguments VBool {F}. Arguments VFloat {F}. Arguments VStr {F}.
Arguments VVec {F}. Arguments VBools {F}. Arguments VInts {F}. Arguments VStrs {F}.
Arguments VUninit {F}.
Arguments lookup {F}. Arguments convert {F}. Arguments sset {F}. Arguments toml_read {F}.
Arguments toml_unused {F}. Arguments run_reads {F}. Arguments read_section {F}.
Arguments pad_vector {F}. Arguments pad_axis {F}. Arguments mkAxis {F}.
Arguments R0c {F}. Arguments R0s {F}. Arguments Z0c {F}. Arguments Z0s {F}.
Arguments qsc_input {F}. Arguments qsc_defaults {F}. Arguments opt_input {F}.
Arguments multiopt_input_nopts {F}. Arguments as_int {F}. Arguments as_str {F}.
Arguments as_arr {F}. Arguments as_float_strict {F}. Arguments as_bool_strict {F}.
Arguments vec_of {F}. Arguments int_of {F}. Arguments ints_of {F}. Arguments str_of {F}.
