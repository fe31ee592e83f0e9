(** Specification vocabulary for the calculation of a configuration. *)
From Coq Require Import String ZArith List Arith Bool.
From Verif Require Import Base FloatOps MathOps Axis Alloc AllocSpec Toml TomlSpec Options OptionsSpec NetCDF NetCDFOut NetCDFSpec.
Import ListNotations.
Local Open Scope string_scope.
Local Open Scope nat_scope.

(** The input parameters of a configuration (doc: the keys of the [qsc] section except verbose). *)
Definition input_ints : list string := ["nfp"; "nphi"; "sG"; "spsi"; "max_newton_iterations"; "max_linesearch_iterations"].
Definition input_floats : list string := ["B0"; "eta_bar"; "I2"; "sigma0"; "B2s"; "B2c"; "p2"; "newton_tolerance"].
(** The arrays of third order that are reported but are zero (only X3c1, Y3c1, Y3s1 and their derivatives are calculated). *)
Definition never_set : list string :=
  ["X3s1"; "X3s3"; "X3c3"; "Y3s3"; "Y3c3"; "Z3s1"; "Z3s3"; "Z3c1"; "Z3c3";
   "d_X3s1_d_varphi"; "d_X3s3_d_varphi"; "d_X3c3_d_varphi"; "d_Y3s3_d_varphi"; "d_Y3c3_d_varphi";
   "d2_X3s1_d_varphi2"; "d2_X3s3_d_varphi2"; "d2_X3c3_d_varphi2"; "d2_Y3s3_d_varphi2"; "d2_Y3c3_d_varphi2"].

Section Spec.
Variable F : Type.
Variable zero : F.
(** Two objects with the same input parameters (whatever their other members are). *)
Definition same_inputs (e e' : members F) : Prop :=
  (forall x, In x input_ints -> m_int F e x = m_int F e' x) /\ (forall x, In x input_floats -> m_float F e x = m_float F e' x) /\
  (forall x, In x axis_members -> m_array F e x = m_array F e' x) /\ m_text F e "order_r_option" = m_text F e' "order_r_option".
(** An object that init() has prepared, whatever has been calculated with it since. *)
Record ready (e : members F) : Prop := mkReady {
  rd_order : In (m_text F e "order_r_option", mkFlags (m_flag F e "at_least_order_r2") (m_flag F e "order_r2p1") (m_flag F e "order_r3")) order_table;
  rd_alloc : allocated F e;
  rd_zero : m_flag F e "order_r3" = true -> forall x, In x never_set -> m_array F e x = repeat zero (Z.to_nat (m_int F e "nphi")) }.
(** What may happen to an object: init() prepares it, whatever it contained, if the arrays of the axis are padded (C06) and not empty and the number of
    grid points is not negative; then, again and again, its results are calculated, or its members are changed, except those on which the sizes of the
    arrays depend.  (The last rule also covers LAPACK, which overwrites the work arrays.) *)
Definition changed (e e' : members F) : Prop :=
  m_int F e' "nphi" = m_int F e "nphi" /\ m_text F e' "order_r_option" = m_text F e "order_r_option" /\ (forall x, m_flag F e' x = m_flag F e x) /\
  (forall x, In x never_set -> m_array F e' x = m_array F e x) /\
  (forall x, ~ In x axis_members -> length (m_array F e' x) = length (m_array F e x)) /\
  length (m_array F e' "R0c") <> 0 /\ (forall x, In x axis_members -> length (m_array F e' x) = length (m_array F e' "R0c")).
Inductive history {S} (init : members F -> outcome (members F)) (calculate : members F -> outcome (S * members F)) : members F -> Prop :=
| hist_init e e' : (0 <= m_int F e "nphi" < 1073741822)%Z -> length (m_array F e "R0c") <> 0 ->
    (forall x, In x axis_members -> length (m_array F e x) = length (m_array F e "R0c")) -> init e = Ok e' -> history init calculate e'
| hist_change e e' : history init calculate e -> changed e e' -> history init calculate e'
| hist_calculate e s e' : history init calculate e -> calculate e = Ok (s, e') -> history init calculate e'.
(** ** Values in an output file *)
(** The value of a variable of floating-point numbers at the given indices ([zero] if there is none); of a variable of integers with one element; whether
    there is a variable of the name. *)
Definition num (f : file F) (name : string) (idx : list nat) : F :=
  match find (fun v => String.eqb (v_name F v) name) (f_vars F f) with
  | Some v => match v_contents F v, lengths F f (v_dims F v) with Some (Floats c), Some l => nth (row_major l idx) c zero | _, _ => zero end
  | None => zero
  end.
Definition whole (f : file F) (name : string) : Z :=
  match find (fun v => String.eqb (v_name F v) name) (f_vars F f) with
  | Some v => match v_contents F v with Some (Ints [z]) => z | _ => 0%Z end
  | None => 0%Z
  end.
Definition has (f : file F) (name : string) : Prop := exists v, In v (f_vars F f) /\ v_name F v = name.
End Spec.
(** The number of grid points that the input file gives is less than about 2^30. *)
Definition small_grid {F} (of_int : Z -> F) (t : table F) : Prop :=
  forall v z, lookup "nphi" t = Some v -> TomlSpec.denotes of_int KInt v (VInt z) -> (z < 1073741822)%Z.
(** Inputs for which the calculation is defined: the number of grid points is not negative and less than about 2^30; there is at least one field period; the
    axis has at least one coefficient, and the frequencies n nfp are at most 1290 (C69). *)
Definition acceptable {F} (s : store F) : Prop := exists nphi nfp a,
  s "nphi" = VInt nphi /\ (0 <= nphi < 1073741822)%Z /\ s "nfp" = VInt nfp /\ (1 <= nfp)%Z /\
  s "R0c" = VVec (R0c a) /\ s "R0s" = VVec (R0s a) /\ s "Z0c" = VVec (Z0c a) /\ s "Z0s" = VVec (Z0s a) /\
  1 <= max_len a /\ (Z.of_nat (max_len a - 1) * nfp <= 1290)%Z.

(** ** The configurations of the papers *)
(** The input files of the configurations in sections 5.1-5.3 of Landreman and Sengupta (2019), order r1, and in sections 5.1-5.5 of the paper on order r2; [dec m k]
    is the number m 10^-k. *)
Section Published.
Context {F : Type} (dec : Z -> Z -> F).
Local Open Scope Z_scope.
Definition input_file (nfp : Z) (order : string) (numbers : list (string * F)) (rc zs zc : list F) : table F :=
  let arr l := TArr (map (@Toml.TFloat F) l) in let nothing := map (fun _ => dec 0 0) rc in
  ([("nfp", Toml.TInt nfp); ("order_r_option", Toml.TStr order)] ++ map (fun p => (fst p, Toml.TFloat (snd p))) numbers ++
  [("R0c", arr rc); ("R0s", arr nothing); ("Z0c", arr (match zc with [] => nothing | _ => zc end)); ("Z0s", arr zs)])%list.
Definition published (name : string) : option (table F) :=
  let eta m k := ("eta_bar", dec m k) in
  if String.eqb name "r1 section 5.1" then Some (input_file 3 "r1" [eta (-9) 1] [dec 1 0; dec 45 3] [dec 0 0; dec (-45) 3] [])
  else if String.eqb name "r1 section 5.2" then Some (input_file 4 "r1" [eta (-225) 2] [dec 1 0; dec 265 3] [dec 0 0; dec (-21) 2] [])
  else if String.eqb name "r1 section 5.3" then Some (input_file 3 "r1" [eta (-11) 1; ("sigma0", dec (-6) 1)] [dec 1 0; dec 42 3] [dec 0 0; dec (-42) 3] [dec 0 0; dec (-25) 3])
  else if existsb (String.eqb name) ["r2 section 5.1"; "1"] then
    Some (input_file 2 "r2.1" [eta 64 2; ("B2c", dec (-322) 5)] [dec 1 0; dec 155 3; dec 102 4] [dec 0 0; dec 154 3; dec 111 4] [])
  else if existsb (String.eqb name) ["r2 section 5.2"; "2"] then
    Some (input_file 2 "r2.1" [eta 632 3; ("B2c", dec (-158) 3)] [dec 1 0; dec 173 3; dec 168 4; dec 101 5] [dec 0 0; dec 159 3; dec 165 4; dec 985 6] [])
  else if existsb (String.eqb name) ["r2 section 5.3"; "3"] then
    Some (input_file 2 "r2.1" [eta 95 2; ("B2c", dec (-7) 1); ("I2", dec 9 1); ("p2", dec (-600000) 0)] [dec 1 0; dec 9 2] [dec 0 0; dec (-9) 2] [])
  else if existsb (String.eqb name) ["r2 section 5.4"; "4"] then
    Some (input_file 4 "r2.1" [eta 1569 3; ("B2c", dec 1348 4)] [dec 1 0; dec 17 2; dec 1804 5; dec 1409 6; dec 5877 8] [dec 0 0; dec 1581 4; dec 1820 5; dec 1548 6; dec 7772 8] [])
  else if existsb (String.eqb name) ["r2 section 5.5"; "5"] then
    Some (input_file 5 "r2.1" [eta 25 1; ("sigma0", dec 3 1); ("B2c", dec 1 0); ("B2s", dec 3 0); ("I2", dec 16 1); ("p2", dec (-5000000) 0)] [dec 1 0; dec 3 1] [dec 0 0; dec 3 1] [])
  else None.
End Published.
