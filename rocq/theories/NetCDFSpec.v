(** Specification of the output files. *)
From Coq Require Import String Ascii ZArith List Arith Bool.
From Verif Require Import Base AllocSpec NetCDF NetCDFOut NetCDFNames.
Import ListNotations.
Local Open Scope string_scope.
Local Open Scope nat_scope.

(** ** Layout *)
(** The position of an element in a variable of a NetCDF file: the last index varies fastest. *)
Fixpoint row_major (lens idx : list nat) : nat :=
  match lens, idx with n :: lens', i :: idx' => i * fold_right Nat.mul 1 lens' + row_major lens' idx' | _, _ => 0 end.
(** The position of an element in the memory of an array of the program: the first index varies fastest. *)
Fixpoint column_major (lens idx : list nat) : nat :=
  match lens, idx with n :: lens', i :: idx' => i + n * column_major lens' idx' | _, _ => 0 end.
Definition in_range (lens idx : list nat) : Prop := Forall2 (fun i n => i < n) idx lens.

Section Spec.
Variable F : Type.
Variable of_int : Z -> F.
Implicit Type e : members F.

(** [lens]: the lengths of the dimensions a writer uses.  The number of elements of an array it writes. *)
Fixpoint len_of (lens : list (string * nat)) (x : string) : option nat :=
  match lens with [] => None | (y, n) :: l => if String.eqb x y then Some n else len_of l x end.
Fixpoint lens_of (lens : list (string * nat)) (l : list string) : option (list nat) :=
  match l with
  | [] => Some []
  | x :: l' => match len_of lens x, lens_of lens l' with Some n, Some r => Some (n :: r) | _, _ => None end
  end.
(** The value that a source denotes: the value of the member; of an array, as many elements as the dimensions say. *)
Definition denotes (lens : list (string * nat)) e (what : source) : option (contents F) :=
  match what with
  | SInt x => Some (Ints [m_int F e x])
  | SFlag x => Some (Ints [if m_flag F e x then 1 else 0]%Z)
  | SFloat x => Some (Floats [m_float F e x])
  | SBig x => Some (Floats [of_int (m_big F e x)])
  | SBigInt x => Some (Ints [int_of_big (m_big F e x)])
  | SText x => Some (Chars (m_text F e x))
  | SLit s => Some (Chars s)
  | SInts d x => option_map (fun n => Ints (firstn n (m_ints F e x))) (len_of lens d)
  | SVector d x => option_map (fun n => Floats (firstn n (m_array F e x))) (len_of lens d)
  | SArray ds x => option_map (fun l => Floats (firstn (fold_right Nat.mul 1 l) (m_array F e x))) (lens_of lens ds)
  end.
(** What a writer needs of the object: strings are not empty; arrays have at least as many elements as the dimensions say, and only the last dimension
    may have length 0. *)
Definition writable (lens : list (string * nat)) e (what : source) : Prop :=
  match what with
  | SText x => m_text F e x <> ""
  | SLit s => s <> ""
  | SInts d x => exists n, len_of lens d = Some n /\ n <= length (m_ints F e x)
  | SVector d x => exists n, len_of lens d = Some n /\ n <= length (m_array F e x)
  | SArray ds x => exists l, lens_of lens ds = Some l /\ fold_right Nat.mul 1 l <= length (m_array F e x) /\ Forall (fun n => n <> 0) (removelast l)
  | _ => True
  end.
(** The lengths of the dimensions of the variable in the file: of an array of several dimensions, in the opposite order. *)
Definition shape (lens : list (string * nat)) e (what : source) : option (list nat) :=
  match what with
  | SText x => Some [String.length (m_text F e x)]
  | SLit s => Some [String.length s]
  | SInts d _ | SVector d _ => option_map (fun n => [n]) (len_of lens d)
  | SArray ds _ => option_map (@rev nat) (lens_of lens ds)
  | _ => Some []
  end.
(** The statements whose conditions hold, as pairs of a name and a source. *)
Definition statements e (l : list put) : list (string * source) :=
  flat_map (fun p => let '(Put when name what) := p in if active F e when then [(name, what)] else []) l.
(** A file has, after the variables of [old], exactly the variables of [l], in this order, with the values that the sources denote; nothing else of
    [old] is changed. *)
Definition contains_exactly (lens : list (string * nat)) e (old : list (variable F)) (l : list (string * source)) (f : file F) : Prop :=
  exists new, f_vars F f = (old ++ new)%list /\
    Forall2 (fun s v => v_name F v = fst s /\ v_contents F v = denotes lens e (snd s) /\ v_contents F v <> None
                        /\ lengths F f (v_dims F v) = shape lens e (snd s)) l new.
(** The element of a variable of a file at the given indices. *)
Definition element (f : file F) (name : string) (idx : list nat) (x : F) : Prop :=
  exists v c l, In v (f_vars F f) /\ v_name F v = name /\ v_contents F v = Some (Floats c) /\ lengths F f (v_dims F v) = Some l
    /\ in_range l idx /\ nth_error c (row_major l idx) = Some x.

(** The variables [vars] of a file are those of the list, with the dimensions it gives (in the file, in the opposite order). *)
Definition has_variables (lens : list (string * nat)) e (l : list group) (f : file F) (vars : list (variable F)) : Prop :=
  (forall when k names name, In (when, k, names) l -> active F e when = true -> In name names -> exists v, In v vars /\ v_name F v = name) /\
  (forall v, In v vars -> exists when k names, In (when, k, names) l /\ active F e when = true /\ In (v_name F v) names /\
    exists d, lengths F f (v_dims F v) = Some d /\
      match k with KScalar => d = [] | KText => length d = 1 | KArray ds => lens_of lens ds = Some (rev d) end).

(** ** A configuration *)
(** A configuration whose arrays have the sizes that allocate() gives them, with an axis that has been padded (C06) and is not empty, and with an
    option for the order of the expansion. *)
Definition allocated (q : members F) : Prop :=
  let n := m_int F q "nphi" in
  Z.odd n = true /\ (0 < n < 1073741824)%Z /\
  (forall x s, required (m_flag F q "at_least_order_r2") (m_flag F q "order_r2p1") (m_flag F q "order_r3") n x s ->
    Z.of_nat (length (m_array F q x)) = fold_right Z.mul 1%Z s) /\
  length (m_array F q "R0c") <> 0 /\ (forall x, In x axis_members -> length (m_array F q x) = length (m_array F q "R0c")) /\
  m_text F q "order_r_option" <> "".
End Spec.

(** What read_netcdf restores. *)
Definition restored_ints : list string := ["nfp"; "sG"; "spsi"; "helicity"; "max_newton_iterations"; "max_linesearch_iterations"].
Definition restored_numbers : list string := [
  "eta_bar"; "sigma0"; "I2"; "d_phi"; "B0"; "G0"; "axis_length"; "d_l_d_varphi"; "B0_over_abs_G0"; "abs_G0_over_B0"; "rms_curvature";
  "grid_max_curvature"; "grid_max_elongation"; "grid_min_R0"; "grid_min_L_grad_B"; "mean_elongation"; "mean_R"; "mean_Z";
  "standard_deviation_of_R"; "standard_deviation_of_Z"; "newton_tolerance"; "iota"; "iota_N"].
Definition restored_numbers_r2 : list string := [
  "B2c"; "B2s"; "p2"; "G2"; "beta_1s"; "B20_mean"; "B20_residual"; "B20_grid_variation"; "d2_volume_d_psi2"; "DWell_times_r2"; "DGeod_times_r2";
  "DMerc_times_r2"; "grid_min_L_grad_grad_B"; "r_singularity_robust"].
Definition restored_vectors : list string := [
  "phi"; "curvature"; "torsion"; "sigma"; "X1c"; "Y1c"; "Y1s"; "R0"; "Z0"; "d_l_d_phi"; "d2_l_d_phi2"; "elongation"; "Boozer_toroidal_angle"; "L_grad_B";
  "L_grad_B_inverse"; "d_X1c_d_varphi"; "d_Y1c_d_varphi"; "d_Y1s_d_varphi"].
Definition restored_vectors_r2 : list string := [
  "X20"; "X2s"; "X2c"; "Y20"; "Y2s"; "Y2c"; "Z20"; "Z2s"; "Z2c"; "B20"; "B20_anomaly"; "d_X20_d_varphi"; "d_X2s_d_varphi"; "d_X2c_d_varphi";
  "d_Y20_d_varphi"; "d_Y2s_d_varphi"; "d_Y2c_d_varphi"; "d_Z20_d_varphi"; "d_Z2s_d_varphi"; "d_Z2c_d_varphi"; "L_grad_grad_B";
  "L_grad_grad_B_inverse"; "r_hat_singularity_robust"].
Definition restored_vectors_r3 : list string := ["X3s1"; "X3s3"; "X3c1"; "X3c3"; "Y3s1"; "Y3s3"; "Y3c1"; "Y3c3"].

(** ** Names of variables *)
Definition upper (c : ascii) : ascii := let n := nat_of_ascii c in if (97 <=? n) && (n <=? 122) then ascii_of_nat (n - 32) else c.
Fixpoint uppercase (s : string) : string := match s with "" => "" | String c s' => String (upper c) (uppercase s') end.
(** The name of a quantity in the program: the name of the variable, possibly of the configuration q, of the configuration of the first stage, or an
    entry of the arrays of counts or of fractions of rejected configurations. *)
Definition quantity_named (name x : string) : Prop :=
  x = name \/ x = "q." ++ name \/ x = "mo_ref.opts[0].q." ++ name \/ x = "filters[" ++ uppercase name ++ "]" \/
  (exists r, name = "fraction_" ++ r /\ (x = "filter_fractions[" ++ uppercase r ++ "]" \/ x = "filter_fractions[N_" ++ uppercase r ++ "]")) \/
  (name = "order_r2.1" /\ x = "order_r2p1").
Definition source_name (what : source) : option string :=
  match what with
  | SInt x | SFlag x | SFloat x | SBig x | SBigInt x | SText x | SInts _ x | SVector _ x | SArray _ x => Some x
  | SLit _ => None
  end.
Definition named_after (s : string * source) : Prop :=
  match source_name (snd s) with Some x => quantity_named (fst s) x | None => fst s = "general_option" end.
