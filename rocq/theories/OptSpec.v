(** Specification vocabulary for an optimization: its parameters, the terms of the objective
    function, the recorded history, and what is assumed of the routines that are called. *)
From Coq Require Import String ZArith List Bool Arith.
From Verif Require Import Base FloatOps Tensor Outfile MScan Alloc Opt.
Import ListNotations.
Local Open Scope list_scope.
Local Open Scope nat_scope.

(** ** Parameters *)
(** A number of the initial configuration that can be varied, and what it is called. *)
Inductive param := PNum (m : string) | PAxis (a : axis) (k : nat).
Definition param_name (p : param) : string :=
  match p with
  | PNum m => m
  | PAxis a k => String.append (axis_name a) (String.append "[" (String.append (to_string k) "]"))
  end.
Definition varied_numbers : list string := ["eta_bar"; "sigma0"; "B2c"; "B2s"]%string.

Section Spec.
Context {F : Type} (o : fops F) (fsqrt : F -> F) (of_Z : Z -> F) {Y : Type}.
Notation qobj := (@qobj F).
Notation qextra := (@qextra F Y).
Notation opt := (@stage F (@rest F Y)).

(** The parameters the user asked to vary. *)
Definition free (s : opt) (p : param) : Prop :=
  match p with
  | PNum m => In m varied_numbers /\ r_vary_num (st_rest s) m = true
  | PAxis a k => nth_error (r_vary (st_rest s) a) k = Some true
  end.
(** The value a parameter has in a configuration. *)
Definition value (q : qobj) (p : param) : option F :=
  match p with PNum m => Some (qo_num q m) | PAxis a k => nth_error (get_axis q a) k end.
(** There is a flag for each axis amplitude. *)
Definition flagged (s : opt) : Prop :=
  forall a, length (r_vary (st_rest s) a) = length (get_axis (st_q s) a).
(** The same configuration. *)
Definition same_config (q q' : qobj) : Prop :=
  (forall p, value q' p = value q p) /\ qo_helicity q' = qo_helicity q.

(** ** Terms of the objective function *)
(** [af]: the weight of grid point k in an average over arclength, with a square root. *)
Definition arr (s : opt) (name : string) (k : nat) : F := nth k (qx_arr (r_q (st_rest s)) name) (fzero o).
Definition nphi (s : opt) : nat := Z.to_nat (qx_nphi (r_q (st_rest s))).
Definition af (s : opt) (k : nat) : F :=
  fsqrt (fmul o (arr s "d_l_d_phi" k)
           (fdiv o (fmul o (qo_num (st_q s) "d_phi") (of_Z (qx_nfp (r_q (st_rest s))))) (qo_num (st_q s) "axis_length"))).
(** The terms: the name; the number of entries per grid point, or none if there is a single
    entry; the value of entry [i] of grid point [k]. *)
Definition pick (names : list string) (i : nat) : string := nth i names EmptyString.
Definition terms (s : opt) : list (string * option nat * (nat -> nat -> F)) :=
  let num := qo_num (st_q s) in
  let goal := st_num s in
  let list_of names := fun k i => fmul o (af s k) (arr s (pick names i) k) in
  let each name := fun k (_ : nat) => fmul o (af s k) (arr s name k) in
  let flat name := fun k i => fmul o (af s k) (arr s name (k + nphi s * i)) in
  [("B20", Some 1, each "B20_anomaly");
   ("iota", None, fun _ _ => fsub o (num "iota") (goal "target_iota"));
   ("elongation", Some 1, each "elongation");
   ("curvature", Some 1, each "curvature");
   ("R0", Some 1, fun k _ => if flt o (arr s "R0" k) (goal "min_R0")
                             then fmul o (af s k) (fsub o (goal "min_R0") (arr s "R0" k)) else fzero o);
   ("d2_volume_d_psi2", None, fun _ _ => if flt o (goal "max_d2_volume_d_psi2") (num "d2_volume_d_psi2")
                             then fsub o (num "d2_volume_d_psi2") (goal "max_d2_volume_d_psi2") else fzero o);
   ("DMerc_times_r2", None, fun _ _ => if flt o (num "DMerc_times_r2") (goal "min_DMerc_times_r2")
                             then fsub o (goal "min_DMerc_times_r2") (num "DMerc_times_r2") else fzero o);
   ("XY2", Some 6, list_of ["X20"; "X2s"; "X2c"; "Y20"; "Y2s"; "Y2c"]);
   ("XY2Prime", Some 6, list_of ["d_X20_d_varphi"; "d_X2s_d_varphi"; "d_X2c_d_varphi";
                                 "d_Y20_d_varphi"; "d_Y2s_d_varphi"; "d_Y2c_d_varphi"]);
   ("XY2PrimePrime", Some 6, list_of ["d2_X20_d_varphi2"; "d2_X2s_d_varphi2"; "d2_X2c_d_varphi2";
                                      "d2_Y20_d_varphi2"; "d2_Y2s_d_varphi2"; "d2_Y2c_d_varphi2"]);
   ("Z2", Some 3, list_of ["Z20"; "Z2s"; "Z2c"]);
   ("Z2Prime", Some 3, list_of ["d_Z20_d_varphi"; "d_Z2s_d_varphi"; "d_Z2c_d_varphi"]);
   ("XY3", Some 3, list_of ["X3c1"; "Y3c1"; "Y3s1"]);
   ("XY3Prime", Some 3, list_of ["d_X3c1_d_varphi"; "d_Y3c1_d_varphi"; "d_Y3s1_d_varphi"]);
   ("XY3PrimePrime", Some 3, list_of ["d2_X3c1_d_varphi2"; "d2_Y3c1_d_varphi2"; "d2_Y3s1_d_varphi2"]);
   ("grad_B", Some 9, flat "grad_B_tensor");
   ("grad_grad_B", Some 27, flat "grad_grad_B_tensor");
   ("r_singularity", Some 1, fun k _ => fdiv o (af s k) (arr s "r_hat_singularity_robust" k));
   ("axis_length", None, fun _ _ => fsub o (num "axis_length") (goal "target_axis_length"));
   ("standard_deviation_of_R", Some 1, fun k _ => fmul o (af s k) (fsub o (arr s "R0" k) (num "mean_R")));
   ("B20_mean", Some 1, each "B20")]%string.

(** The values of a term, grid point after grid point, and their labels. *)
Definition entries (s : opt) (n : option nat) (f : nat -> nat -> F) : list F :=
  match n with
  | None => [f 0 0]
  | Some m => flat_map (fun k => map (f k) (seq 0 m)) (seq 0 (nphi s))
  end.
Definition labels (s : opt) (name : string) (n : option nat) : list string :=
  match n with
  | None => [name]
  | Some m => map (fun j => String.append name (String.append "[" (String.append (to_string j) "]"))) (seq 0 (nphi s * m))
  end.
(** A term is used if its weight is positive. *)
Definition used (s : opt) (name : string) : bool := flt o (fzero o) (st_num s (String.append "weight_" name)).
Definition term_names : list string :=
  ["B20"; "iota"; "elongation"; "curvature"; "R0"; "d2_volume_d_psi2"; "DMerc_times_r2"; "XY2"; "XY2Prime"; "XY2PrimePrime"; "Z2"; "Z2Prime"; "XY3"; "XY3Prime";
   "XY3PrimePrime"; "grad_B"; "grad_grad_B"; "r_singularity"; "axis_length"; "standard_deviation_of_R"; "B20_mean"]%string.
Definition residual_vector (s : opt) : list F :=
  flat_map (fun t => let '(name, n, f) := t in
              if used s name then map (fmul o (st_num s (String.append "weight_" name))) (entries s n f) else []) (terms s).
Definition residual_labels (s : opt) : list string :=
  flat_map (fun t => let '(name, n, f) := t in if used s name then labels s name n else []) (terms s).

(** ** The arrays of a computed configuration *)
Definition grid_arrays : list string :=
  ["d_l_d_phi"; "B20_anomaly"; "elongation"; "curvature"; "R0"; "X20"; "X2s"; "X2c"; "Y20"; "Y2s"; "Y2c";
   "d_X20_d_varphi"; "d_X2s_d_varphi"; "d_X2c_d_varphi"; "d_Y20_d_varphi"; "d_Y2s_d_varphi"; "d_Y2c_d_varphi";
   "d2_X20_d_varphi2"; "d2_X2s_d_varphi2"; "d2_X2c_d_varphi2"; "d2_Y20_d_varphi2"; "d2_Y2s_d_varphi2"; "d2_Y2c_d_varphi2";
   "Z20"; "Z2s"; "Z2c"; "d_Z20_d_varphi"; "d_Z2s_d_varphi"; "d_Z2c_d_varphi"; "X3c1"; "Y3c1"; "Y3s1";
   "d_X3c1_d_varphi"; "d_Y3c1_d_varphi"; "d_Y3s1_d_varphi"; "d2_X3c1_d_varphi2"; "d2_Y3c1_d_varphi2"; "d2_Y3s1_d_varphi2";
   "r_hat_singularity_robust"; "B20"]%string.
Definition arrays_ok (x : qextra) : Prop :=
  (forall m, In m grid_arrays -> length (qx_arr x m) = Z.to_nat (qx_nphi x)) /\
  length (qx_arr x "grad_B_tensor"%string) = 9 * Z.to_nat (qx_nphi x) /\
  length (qx_arr x "grad_grad_B_tensor"%string) = 27 * Z.to_nat (qx_nphi x).

(** ** History *)
(** What is recorded in each array at each iteration. *)
Definition recorded (s : opt) : list (string * F) :=
  let num := qo_num (st_q s) in
  let term := r_terms (st_rest s) in
  ("iter_objective_function", r_objective (st_rest s))
  :: map (fun t => (String.append "iter_" (String.append t "_term"), term t))
       ["B20"; "iota"; "elongation"; "curvature"; "R0"; "d2_volume_d_psi2"; "DMerc_times_r2"; "XY2"; "XY2Prime";
        "XY2PrimePrime"; "Z2"; "Z2Prime"; "XY3"; "XY3Prime"; "XY3PrimePrime"; "grad_B"; "grad_grad_B"; "r_singularity";
        "axis_length"; "standard_deviation_of_R"; "B20_mean"]
  ++ map (fun m => (String.append "iter_" m, num m))
       ["eta_bar"; "sigma0"; "B2c"; "B2s"; "iota"; "B20_residual"; "d2_volume_d_psi2"; "DMerc_times_r2";
        "standard_deviation_of_R"; "standard_deviation_of_Z"; "axis_length"]
  ++ map (fun m => (String.append "iter_" m, num (String.append "grid_" m)))
       ["min_R0"; "max_curvature"; "max_elongation"; "min_L_grad_B"; "min_L_grad_grad_B"]
  ++ [("iter_r_singularity", num "r_singularity_robust"); ("iter_B20_variation", num "B20_grid_variation")]%string.
Definition recorded_axes : list (string * axis) := [("iter_R0c", R0c); ("iter_R0s", R0s); ("iter_Z0c", Z0c); ("iter_Z0s", Z0s)]%string.

(** ** Assumptions on what is called *)
(** The members that are inputs of the computation of a configuration. *)
Definition same_inputs (q q' : qobj) : Prop :=
  (forall m, In m varied_numbers -> qo_num q' m = qo_num q m) /\ (forall a, get_axis q' a = get_axis q a).
Definition same_extra (x x' : qextra) : Prop :=
  qx_nfp x' = qx_nfp x /\ qx_order_r_option x' = qx_order_r_option x.
(** The limits within which the routines of class Qsc are defined: there is at least one coefficient of the axis and
    one field period, the frequencies n nfp are at most 1290 (C69), and the number of grid points is not negative and less than
    about 2^30. *)
Definition nphi_limits (nphi : Z) : Prop := (0 <= nphi < 1073741822)%Z.
Definition limits (n : nat) (nfp : Z) : Prop := 1 <= n /\ (1 <= nfp)%Z /\ (Z.of_nat (n - 1) * nfp <= 1290)%Z.
Definition acceptable (q : qobj) (x : qextra) : Prop :=
  (forall a, length (get_axis q a) = length (qo_R0c q)) /\ limits (length (qo_R0c q)) (qx_nfp x) /\ nphi_limits (qx_nphi x).
(** Qsc::allocate makes nphi odd; Qsc::init also sets the flag for the order; Qsc::calculate
    fills the arrays, if the order is r2.1.  None of them changes an input.  [fit] are the objects that Qsc::calculate can be
    called for: Qsc::init prepares them, Qsc::calculate leaves them so, and the inputs may be changed, but not the number of
    coefficients. *)
Record qsc_ok (fit : qobj -> qextra -> Prop) (rt : @routines F Y) : Prop := {
  allocate_ok : forall q x q' x', q_allocate rt q x = Ok (q', x') ->
    same_inputs q q' /\ same_extra x x' /\ qx_nphi x' = odd_nphi (qx_nphi x);
  init_ok : forall q x q' x', q_init rt q x = Ok (q', x') ->
    same_inputs q q' /\ same_extra x x' /\ qx_nphi x' = odd_nphi (qx_nphi x) /\
    qx_order_r2p1 x' = String.eqb (qx_order_r_option x) "r2.1";
  init_fit : forall q x q' x', acceptable q x -> q_init rt q x = Ok (q', x') -> fit q' x';
  inputs_fit : forall q q' x, fit q x -> (forall a, length (get_axis q' a) = length (get_axis q a)) -> fit q' x;
  calculate_ok : forall q x q' x', fit q x -> q_calculate rt q x = Ok (q', x') ->
    same_inputs q q' /\ same_extra x x' /\ qx_nphi x' = qx_nphi x /\ qx_order_r2p1 x' = qx_order_r2p1 x
    /\ (qx_order_r2p1 x = true -> arrays_ok x') /\ fit q' x';
  no_ub : forall q x why, (acceptable q x -> q_allocate rt q x <> UB why /\ q_init rt q x <> UB why) /\
    (fit q x -> q_calculate rt q x <> UB why) }.
(** The GSL minimizer: the solver is initialized at the given point, where it evaluates the
    residuals, and reports this point.  Each iteration consists of some evaluations and a report; if
    the first iteration fails, there is no report of it and no other iteration.  At least
    one iteration is tried, and at most maxiter after that. *)
Definition point {G} (e : @event G) : list G := match e with Eval x => x | Report x => x end.
Definition is_report {G} (e : @event G) : bool := match e with Report _ => true | Eval _ => false end.
Definition gsl_calls (x0 : list F) (maxiter : Z) (es : list (@event F)) : Prop :=
  exists (pre : list (list F)) (iterations : list (list (list F) * list F)) (failed : list (list F)),
    es = Eval x0 :: map Eval pre ++ Report x0
         :: flat_map (fun it => map Eval (fst it) ++ [Report (snd it)]) iterations ++ map Eval failed /\
    (iterations = [] \/ failed = []) /\
    (Z.of_nat (length iterations) <= Z.max 1 maxiter)%Z /\
    Forall (fun e => length (point e) = length x0) es.
Definition gsl_ok (gsl : nat -> opt -> Z -> list F -> list (@event F)) : Prop :=
  forall j s maxiter x0, gsl_calls x0 maxiter (gsl j s maxiter x0).

(** ** An optimization *)
(** As read from an input file: the four arrays have the same size; nphi is absent or has an
    entry for each step of refinement; and all is within the limits. *)
Definition n_modes (s : opt) : nat := length (qo_R0c (st_q s)).
Definition nphi_ok (s : opt) : Prop :=
  (r_nphi (st_rest s) = [] \/ length (r_nphi (st_rest s)) = st_fourier_refine s + 1) /\ Forall nphi_limits (r_nphi (st_rest s)).
Definition input_ok (s : opt) : Prop :=
  (forall a, length (get_axis (st_q s) a) = n_modes s) /\ nphi_ok s /\
  1 <= n_modes s /\ limits (n_modes s + st_fourier_refine s) (qx_nfp (r_q (st_rest s))) /\ nphi_limits (qx_nphi (r_q (st_rest s))).
Definition is_input (p : param) : Prop := match p with PNum m => In m varied_numbers | PAxis _ _ => True end.
(** The initial configuration, with the new modes, which are zero. *)
Definition start_value (s : opt) (p : param) : option F :=
  match p with
  | PNum m => Some (qo_num (st_q s) m)
  | PAxis a k => nth_error (get_axis (st_q s) a ++ repeat (fzero o) (st_fourier_refine s)) k
  end.
(** The parameters varied in step [j] of the refinement: those chosen by the user, and the [j]
    lowest new modes of R0c and Z0s. *)
Definition varied_in (s : opt) (j : nat) (p : param) : Prop :=
  free s p \/ exists a k, p = PAxis a k /\ (a = R0c \/ a = Z0s) /\ n_modes s <= k < n_modes s + j.
(** The resolution of step [j]. *)
Definition nphi_in (s : opt) (j : nat) : Z :=
  match nth_error (r_nphi (st_rest s)) j with Some n => odd_nphi n | None => odd_nphi (qx_nphi (r_q (st_rest s))) end.

(** An entry of the log is the evaluation at the point of the state vector, for the list of
    parameters [ps]. *)
Definition made (ps : list param) (e : @event F) (entry : bool * opt) : Prop :=
  fst entry = is_report e /\
  forall i p, nth_error ps i = Some p -> value (st_q (snd entry)) p = nth_error (point e) i.
(** The value of a parameter after what is in a log. *)
Definition value_after (s : opt) (l : list (bool * opt)) (p : param) : option F :=
  match nth_error l (length l - 1) with Some e => value (st_q (snd e)) p | None => start_value s p end.
(** The log of [j] steps: each is the log of a run of the minimizer, for the parameters of
    this step, from where the step before ended, with what is left of the iterations. *)
Inductive steps_logged (gsl : nat -> opt -> Z -> list F -> list (@event F)) (s : opt) : nat -> list (bool * opt) -> Prop :=
| no_step : steps_logged gsl s 0 []
| one_step j l obj ps x0 seg :
    steps_logged gsl s j l ->
    let left := (r_max_iter (st_rest s) - 1 - Z.of_nat (length (filter fst l)))%Z in
    (0 < left)%Z ->
    NoDup ps -> (forall p, In p ps <-> varied_in s j p) ->
    map Some x0 = map (value_after s l) ps ->
    Forall2 (made ps) (gsl j obj left x0) seg ->
    Forall (fun e => r_j_fourier_refine (st_rest (snd e)) = j) seg ->
    steps_logged gsl s (S j) (l ++ seg).

(** The history [s] has an entry [i]; it shows the object [r], or is still zero. *)
Definition cell (m : matrix F) (k i : nat) : option F := nth_error (m_data m) (k + m_nrows m * i).
Definition shows (na : nat) (s : opt) (i : nat) (r : opt) : Prop :=
  (forall m v, In (m, v) (recorded r) -> nth_error (st_iter s m) i = Some v) /\
  (forall n a k, In (n, a) recorded_axes -> k < na -> cell (st_iter_axis s n) k i = nth_error (get_axis (st_q r) a) k) /\
  nth_error (r_iter_fourier_refine_step (st_rest s)) i = Some (Z.of_nat (r_j_fourier_refine (st_rest r))).
Definition unused (na : nat) (s : opt) (i : nat) : Prop :=
  (forall m v, In (m, v) (recorded s) -> nth_error (st_iter s m) i = Some (fzero o)) /\
  (forall n a k, In (n, a) recorded_axes -> k < na -> cell (st_iter_axis s n) k i = Some (fzero o)) /\
  nth_error (r_iter_fourier_refine_step (st_rest s)) i = Some 0%Z.

(** The sum of squares of a term, as the code adds it up. *)
Definition squares (l : list F) : F := fold_left (fun a t => fadd o a (fmul o t t)) l (fzero o).
(** The object has been evaluated: its configuration has been computed, and the residuals, the
    terms and the objective function belong to this configuration. *)
Definition term_sum (s : opt) (n : option nat) (f : nat -> nat -> F) : F :=
  match n with None => fmul o (f 0 0) (f 0 0) | Some _ => squares (entries s n f) end.
Definition evaluated_at (rt : @routines F Y) (s : opt) : Prop :=
  (exists q x, q_calculate rt q x = Ok (st_q s, r_q (st_rest s)) /\ same_inputs q (st_q s)) /\
  r_residuals (st_rest s) = residual_vector s /\
  (forall name n f, In (name, n, f) (terms s) -> r_terms (st_rest s) name = term_sum s n f) /\
  r_objective (st_rest s) =
    fold_left (fun acc t => let '(name, _, _) := t in
      let w := st_num s (String.append "weight_" name) in
      if used s name then fadd o acc (fmul o (fmul o (fmul o (fdiv o (fone o) (ftwo o)) w) w) (r_terms (st_rest s) name)) else acc)
    (terms s) (fzero o).

(** ** Several stages of optimization *)
(** [start]: stage [s], with the configuration of [prev]. *)
Definition continues (prev : option opt) (s start : opt) : Prop :=
  match prev with
  | None => start = s
  | Some s0 => start = with_q (st_q s0) (r_q (st_rest s0)) s
  end.
(** The number of modes before stage [i]. *)
Definition modes_before (n : nat) (opts : list opt) (i : nat) : nat := fold_right Nat.add n (map st_fourier_refine (firstn i opts)).
(** The stages as read from an input file. *)
Definition stages_ok (opts : list opt) : Prop :=
  Forall nphi_ok opts /\ forall s, nth_error opts 0 = Some s ->
    input_ok s /\ limits (modes_before (n_modes s) opts (length opts)) (qx_nfp (r_q (st_rest s))).
Definition previous (prev : option opt) (done : list opt) (i : nat) : option opt :=
  match i with O => prev | S k => nth_error done k end.
End Spec.
