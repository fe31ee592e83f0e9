(** Scan::run from the input file on: the reading of the tables "qsc" and "scan", and the random scan with what has been read. *)
From Coq Require Import String ZArith List Arith Bool Lia.
From Verif Require Import Base FloatOps MathOps Tensor RSing Toml NetCDFOut RandomGen Scan ScanDet Run ScanQsc ScanDraw.
Import ListNotations.
Local Open Scope string_scope.
Local Open Scope nat_scope.

Section Model.
Context {F : Type} (o : fops F) (mo : mops F).
(** The literal 1.0e+30. *)
Variable big : F.
Variable newton_tol : F.
Notation store := (Toml.store F).
Notation table := (Toml.table F).

(** Scan::defaults, scan.cpp lines 6-55: the variables that Scan::input may change.  (verbose is not read by it.) *)
Definition scan_defaults : store := fun x =>
  if existsb (String.eqb x) ["max_seconds"; "save_period"] then VFloat (m_of_Z mo 60)
  else if existsb (String.eqb x) ["max_keep_per_proc"] then VInt 1000
  else if existsb (String.eqb x) ["max_attempts_per_proc"; "helicity_to_keep"] then VInt (-1)
  else if existsb (String.eqb x) ["deterministic"] then VBool false
  else if existsb (String.eqb x) ["keep_all"] then VBool true
  else if existsb (String.eqb x) ["eta_bar_min"; "eta_bar_max"] then VFloat (fone o)
  else if existsb (String.eqb x) ["sigma0_min"; "sigma0_max"; "B2c_min"; "B2c_max"; "B2s_min"; "B2s_max"; "p2_min"; "p2_max"] then VFloat (fzero o)
  else if existsb (String.eqb x) ["R0c_min"; "R0c_max"] then VVec [fone o]
  else if existsb (String.eqb x) ["R0s_min"; "R0s_max"; "Z0c_min"; "Z0c_max"; "Z0s_min"; "Z0s_max"] then VVec [fzero o]
  else if existsb (String.eqb x) ["eta_bar_scan_option"; "sigma0_scan_option"; "B2c_scan_option"; "B2s_scan_option"; "p2_scan_option"; "fourier_scan_option"] then VStr "linear"
  else if existsb (String.eqb x) ["min_R0_to_keep"; "min_iota_to_keep"; "min_L_grad_B_to_keep"; "min_L_grad_grad_B_to_keep"; "min_r_singularity_to_keep"; "min_beta_to_keep"]
    then VFloat (fopp o (fone o))
  else if existsb (String.eqb x) ["max_elongation_to_keep"] then VFloat (m_of_Z mo 10)
  else if existsb (String.eqb x) ["max_B20_variation_to_keep"; "max_d2_volume_d_psi2_to_keep"] then VFloat big
  else if existsb (String.eqb x) ["min_DMerc_times_r2_to_keep"] then VFloat (fopp o big)
  else VUninit.

(** scan_input.cpp lines 67-83: the eight arrays, in the order in which they are padded. *)
Definition limit_arrays : list string := ["R0c_min"; "R0s_min"; "Z0c_min"; "Z0s_min"; "R0c_max"; "R0s_max"; "Z0c_max"; "Z0s_max"].
Fixpoint newsize_of (s : store) (l : list string) (newsize : nat) : outcome nat :=
  match l with [] => Ok newsize | x :: l' => do v <- vec_of (s x); newsize_of s l' (Nat.max newsize (length v)) end.
Fixpoint pad_limits (newsize : nat) (l : list string) (s : store) : outcome store :=
  match l with [] => Ok s | x :: l' => do v <- vec_of (s x); do v <- pad_vector (fzero o) v newsize; pad_limits newsize l' (sset s x (VVec v)) end.
(** Scan::input, scan_input.cpp lines 14-83 (printing omitted), for the table [t]. *)
Definition scan_input (t : table) (s : store) : outcome store :=
  do s <- read_section (m_of_Z mo) scan_reads t s;
  do n <- newsize_of s limit_arrays 0;
  pad_limits n limit_arrays s.
(** Scan::input, scan_input.cpp lines 10-83: first q.input (line 12), then the table "scan".  The result are the variables of q and of the object itself. *)
Definition scan_inputs (tq ts : table) : outcome (store * store) :=
  do sq <- qsc_input (m_of_Z mo) (fzero o) tq (default_store o newton_tol);
  do ss <- scan_input ts scan_defaults;
  Ok (sq, ss).

(** The values of variables, each with its type. *)
Definition v_int (s : store) x : Z := match s x with VInt z => z | _ => 0%Z end.
Definition v_bool (s : store) x : bool := match s x with VBool b => b | _ => false end.
Definition v_float (s : store) x : F := match s x with VFloat v => v | _ => fzero o end.
Definition v_str (s : store) x : string := match s x with VStr v => v | _ => "" end.
Definition v_vec (s : store) x : list F := match s x with VVec v => v | _ => [] end.
(** The members of class Scan that scan_random.cpp reads: those that decide what is kept and when to stop (Scan.v) ...  (at_least_order_r2 is set by q.validate from the order.
    max_keep_per_proc is an int; a negative value, for which the arrays cannot be allocated, is not modelled.) *)
Definition settings_of (sq ss : store) : @settings F :=
  mkSettings (v_bool ss "keep_all") (negb (String.eqb (v_str sq "order_r_option") "r1")) (v_int ss "helicity_to_keep")
    (v_float ss "min_R0_to_keep") (v_float ss "min_iota_to_keep") (v_float ss "max_elongation_to_keep")
    (v_float ss "min_L_grad_B_to_keep") (v_float ss "min_L_grad_grad_B_to_keep")
    (v_float ss "max_B20_variation_to_keep") (v_float ss "min_r_singularity_to_keep")
    (v_float ss "max_d2_volume_d_psi2_to_keep") (v_float ss "min_DMerc_times_r2_to_keep") (v_float ss "min_beta_to_keep")
    (Z.to_nat (v_int ss "max_keep_per_proc")) (v_int ss "max_attempts_per_proc")
    (v_float ss "max_seconds") (v_float ss "save_period").
(** ... and those for the generators (scan_random.cpp lines 30-56, ScanDet.v). *)
Definition ranges_of (ss : store) : ranges (F:=F) :=
  mkRanges (v_bool ss "deterministic")
    (v_str ss "eta_bar_scan_option", v_float ss "eta_bar_min", v_float ss "eta_bar_max") (v_str ss "sigma0_scan_option", v_float ss "sigma0_min", v_float ss "sigma0_max")
    (v_str ss "B2c_scan_option", v_float ss "B2c_min", v_float ss "B2c_max") (v_str ss "B2s_scan_option", v_float ss "B2s_min", v_float ss "B2s_max")
    (v_str ss "p2_scan_option", v_float ss "p2_min", v_float ss "p2_max") (v_str ss "fourier_scan_option")
    (v_vec ss "R0c_min") (v_vec ss "R0c_max") (v_vec ss "R0s_min") (v_vec ss "R0s_max")
    (v_vec ss "Z0c_min") (v_vec ss "Z0c_max") (v_vec ss "Z0s_min") (v_vec ss "Z0s_max").
(** The object of class Scan after the reading, in the memory [s0]. *)
Definition scan_object (ss : store) (s0 : members F) : members F :=
  let s := load ss s0 in
  mkMembers F (m_int F s) (fun x => match ss x with VBool b => b | _ => m_flag F s x end) (m_float F s) (m_big F s) (m_text F s) (m_ints F s) (m_array F s).

Section Program.
Context (f : rfuns F) {G : Type} (uniform : G -> F * G) (ge0 : F -> bool) (mu0 : F)
    (newton_linear_solve : (nat -> nat -> F) -> list F -> outcome (list F)) (linear_solve : matrix F -> list F -> outcome (list F))
    (geev : list F -> Z * (list F * list F)) (tol : tolerances F) (finite : F -> bool).
(** Scan::run, scan.cpp lines 61-64, up to the communication between the processes: what one process does, with the rank [rank], the seeds [seed], the memory [e] for the
    object q before its construction and the readings of the clock [start] and [clock].  The name of the output file is modelled in Outfile.v. *)
Definition scan_program (tq ts : table) (seed : nat -> G) (rank : Z) (e : members F) (start : F) (clock : list (F * F)) : outcome (@proc F (gens (F:=F) (G:=G)) (calc F) * bool) :=
  do s <- scan_inputs tq ts;
  whole_scan o mo f uniform ge0 mu0 newton_linear_solve linear_solve geev tol finite (settings_of (fst s) (snd s)) (ranges_of (snd s)) seed rank
    (load (fst s) (constructed o e)) start clock.
End Program.
End Model.
