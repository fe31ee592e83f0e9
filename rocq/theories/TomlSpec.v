(** Specification of input sections: which keys exist, what a value means, what
    reading a section must do.  Independent of the reading code in [Toml] (only the
    data types of tables and variables are shared). *)
From Coq Require Import String ZArith List.
From Verif Require Import Base Toml.
Import ListNotations.
Open Scope string_scope.

Section Spec.
Context {F : Type}.
Variable of_int : Z -> F.

Definition in_int32 (z : Z) : Prop := (- 2147483648 <= z < 2147483648)%Z.

(** [z'] is the int that [z] becomes: the representative of [z] modulo 2^32 in the int
    range; in particular [z] itself when it fits. *)
Definition int32_of (z z' : Z) : Prop := in_int32 z' /\ exists q, (z = z' + q * 4294967296)%Z.

(** [denotes k v c]: a TOML value [v] given for a variable of type [k] means [c].
    Bools may be given as integers, floats as integers.  Integers outside the 32-bit int
    range are reduced modulo 2^32 (the code's conversion truncates). *)
Inductive denotes : kind -> tval F -> cval F -> Prop :=
| den_int z z' : int32_of z z' -> denotes KInt (TInt z) (VInt z')
| den_bool b : denotes KBool (TBool b) (VBool b)
| den_bool_int z b : (b = true <-> z <> 0%Z) -> denotes KBool (TInt z) (VBool b)
| den_float x : denotes KFloat (TFloat x) (VFloat x)
| den_float_int z : denotes KFloat (TInt z) (VFloat (of_int z))
| den_str s : denotes KStr (TStr s) (VStr s)
| den_vec l xs : Forall2 (fun v x => v = TFloat x) l xs -> denotes KVec (TArr l) (VVec xs)
| den_bools l xs : Forall2 (fun v x => v = TBool x) l xs -> denotes KBools (TArr l) (VBools xs)
| den_ints l xs : Forall2 (fun v x => exists z, v = TInt z /\ int32_of z x) l xs ->
    denotes KInts (TArr l) (VInts xs)
| den_strs l xs : Forall2 (fun v x => v = TStr x) l xs -> denotes KStrs (TArr l) (VStrs xs).

(** A section whose documented keys and types are [docs]. *)
Definition valid_section (docs : list (string * kind)) (t : table F) : Prop :=
  (forall key v, In (key, v) t -> In key (map fst docs)) /\
  (forall key k v, In (key, k) docs -> lookup key t = Some v -> exists c, denotes k v c).

(** What reading must do to the variables: given keys set the variable of that name,
    absent keys leave it, no other variable changes. *)
Definition section_effect (docs : list (string * kind)) (t : table F) (s s' : store F) : Prop :=
  (forall key k, In (key, k) docs ->
     match lookup key t with
     | Some v => denotes k v (s' key)
     | None => s' key = s key
     end) /\
  (forall x, ~ In x (map fst docs) -> s' x = s x).

(** The outcome required of a section reader. *)
Definition reads_section (docs : list (string * kind)) (read : table F -> store F -> outcome (store F)) : Prop :=
  forall t s,
    (valid_section docs t /\ exists s', read t s = Ok s' /\ section_effect docs t s s')
    \/ (~ valid_section docs t /\ exists msg, read t s = Throw msg).

(** Zero padding. *)
Definition padded (zero : F) (n : nat) (l : list F) : list F := (l ++ repeat zero (n - length l))%list.

(** The longest of the four axis arrays. *)
Definition max_len (a : axis_coeffs F) : nat :=
  Nat.max (Nat.max (length (R0c a)) (length (R0s a))) (Nat.max (length (Z0c a)) (length (Z0s a))).
End Spec.

(** Documented keys, by section of the input file. *)
Definition qsc_keys : list (string * kind) :=
  [("nphi", KInt); ("nfp", KInt); ("eta_bar", KFloat); ("spsi", KInt); ("sG", KInt);
   ("B0", KFloat); ("I2", KFloat); ("sigma0", KFloat); ("B2s", KFloat); ("B2c", KFloat);
   ("p2", KFloat); ("max_newton_iterations", KInt); ("max_linesearch_iterations", KInt);
   ("newton_tolerance", KFloat); ("verbose", KInt); ("order_r_option", KStr);
   ("R0c", KVec); ("R0s", KVec); ("Z0c", KVec); ("Z0s", KVec)].
Definition axis_keys : list string := ["R0c"; "R0s"; "Z0c"; "Z0s"].

Definition scan_keys : list (string * kind) :=
  map (fun x => (x, KStr))
    ["eta_bar_scan_option"; "sigma0_scan_option"; "B2c_scan_option"; "B2s_scan_option";
     "p2_scan_option"; "fourier_scan_option"] ++
  map (fun x => (x, KFloat))
    ["eta_bar_min"; "eta_bar_max"; "sigma0_min"; "sigma0_max"; "B2c_min"; "B2c_max";
     "B2s_min"; "B2s_max"; "p2_min"; "p2_max"] ++
  map (fun x => (x, KVec))
    ["R0c_min"; "R0c_max"; "R0s_min"; "R0s_max"; "Z0c_min"; "Z0c_max"; "Z0s_min"; "Z0s_max"] ++
  map (fun x => (x, KBool)) ["deterministic"; "keep_all"] ++
  map (fun x => (x, KInt)) ["max_keep_per_proc"; "max_attempts_per_proc"; "helicity_to_keep"] ++
  map (fun x => (x, KFloat))
    ["save_period"; "max_seconds"; "min_R0_to_keep"; "min_iota_to_keep"; "max_elongation_to_keep";
     "min_L_grad_B_to_keep"; "min_L_grad_grad_B_to_keep"; "max_B20_variation_to_keep";
     "min_r_singularity_to_keep"; "min_DMerc_times_r2_to_keep"; "max_d2_volume_d_psi2_to_keep";
     "min_beta_to_keep"].

Definition multiopt_scan_keys : list (string * kind) :=
  map (fun x => (x, KInt)) ["verbose"] ++
  map (fun x => (x, KBool)) ["quit_after_init"; "keep_all"] ++
  map (fun x => (x, KStrs)) ["params"] ++
  map (fun x => (x, KVec)) ["params_min"; "params_max"] ++
  map (fun x => (x, KInts)) ["params_n"; "params_stage"] ++
  map (fun x => (x, KBools)) ["params_log"] ++
  map (fun x => (x, KFloat))
    ["save_period"; "print_status_period"; "max_seconds";
     "min_R0_to_keep"; "min_iota_to_keep"; "max_elongation_to_keep"; "min_L_grad_B_to_keep";
     "min_L_grad_grad_B_to_keep"; "max_B20_variation_to_keep"; "min_r_singularity_to_keep";
     "max_d2_volume_d_psi2_to_keep"; "min_DMerc_times_r2_to_keep"; "max_XY2_to_keep";
     "max_Z2_to_keep"; "max_XY3_to_keep"; "max_d_XY2_d_varphi_to_keep";
     "max_d_Z2_d_varphi_to_keep"; "max_d_XY3_d_varphi_to_keep"].

Definition multiopt_keys : list (string * kind) := [("nopts", KInt); ("verbose", KInt)].

Definition opt_weight_keys : list string :=
  ["weight_B20"; "weight_iota"; "weight_elongation"; "weight_curvature"; "weight_R0";
   "weight_d2_volume_d_psi2"; "weight_DMerc_times_r2"; "weight_XY2"; "weight_XY2Prime";
   "weight_XY2PrimePrime"; "weight_Z2"; "weight_Z2Prime"; "weight_XY3"; "weight_XY3Prime";
   "weight_XY3PrimePrime"; "weight_grad_B"; "weight_grad_grad_B"; "weight_r_singularity";
   "weight_axis_length"; "weight_standard_deviation_of_R"; "weight_B20_mean"].
Definition opt_keys : list (string * kind) :=
  map (fun x => (x, KBool)) ["vary_eta_bar"; "vary_sigma0"; "vary_B2c"; "vary_B2s"; "make_names"] ++
  map (fun x => (x, KBools)) ["vary_R0c"; "vary_R0s"; "vary_Z0c"; "vary_Z0s"] ++
  map (fun x => (x, KFloat)) opt_weight_keys ++
  map (fun x => (x, KFloat))
    ["target_iota"; "min_R0"; "max_d2_volume_d_psi2"; "min_DMerc_times_r2"; "target_axis_length"] ++
  map (fun x => (x, KInt)) ["max_iter"; "verbose"; "fourier_refine"] ++
  map (fun x => (x, KInts)) ["nphi"].
Definition opt_string_keys : list string := ["algorithm"; "diff_method"].

(** Defaults of the vary_* arrays for an axis with [n] modes: R0c and Z0s vary except
    their mode 0, R0s and Z0c do not. *)
Definition vary_default {F} (n : nat) (s : store F) : store F := fun x =>
  if String.eqb x "vary_R0c" then VBools (false :: repeat true (n - 1))
  else if String.eqb x "vary_Z0s" then VBools (false :: repeat true (n - 1))
  else if String.eqb x "vary_R0s" then VBools (repeat false n)
  else if String.eqb x "vary_Z0c" then VBools (repeat false n)
  else s x.

(** Meaning of the optional strings "algorithm" and "diff_method" ("" keeps the default). *)
Definition algorithm_meaning {F} (v : option (tval F)) (old a : algorithm_type) : Prop :=
  match v with
  | None => a = old
  | Some (TStr s) => (s = "" /\ a = old) \/ (s = "lm" /\ a = GSL_LM) \/ (s = "dogleg" /\ a = GSL_DOGLEG)
      \/ (s = "ddogleg" /\ a = GSL_DDOGLEG) \/ (s = "subspace2d" /\ a = GSL_SUBSPACE2D)
  | Some _ => False
  end.
Definition diff_method_meaning {F} (v : option (tval F)) (old d : diff_method_type) : Prop :=
  match v with
  | None => d = old
  | Some (TStr s) => (s = "" /\ d = old) \/ (s = "forward" /\ d = DIFF_METHOD_FORWARD)
      \/ (s = "centered" /\ d = DIFF_METHOD_CENTERED)
  | Some _ => False
  end.

(** The required result of reading an optimisation section. *)
Definition opt_result {F} (of_int : Z -> F) (n : nat) (t : table F) (s : store F)
    (alg : algorithm_type) (dm : diff_method_type) (s' : store F) alg' dm' : Prop :=
  (forall key v, In (key, v) t -> In key (map fst opt_keys) \/ In key opt_string_keys)
  /\ section_effect of_int opt_keys t (vary_default n s) s'
  /\ algorithm_meaning (lookup "algorithm" t) alg alg'
  /\ diff_method_meaning (lookup "diff_method" t) dm dm'
  /\ exists nphi fr, s' "nphi" = VInts nphi /\ s' "fourier_refine" = VInt fr
       /\ (nphi = [] \/ Z.of_nat (length nphi) = (fr + 1)%Z).
