(** C03, C04, C05, C48 and the input-file part of C46. *)
From Coq Require Import String ZArith List Lia.
From Verif Require Import Base Toml TomlSpec TomlFacts Options OptionsSpec OptionsFacts.
Import ListNotations.
Open Scope string_scope.

(** C03.  Exactly the strings of [order_table] are accepted, with those flags. *)
Theorem C03_order_r_option s :
  (exists f, In (s, f) order_table /\ validate s = Ok f)
  \/ (~ In s (map fst order_table) /\ exists m, validate s = Throw m).
Proof. exact (validate_cases s). Qed.
Print Assumptions C03_order_r_option.

Example C03_cases : validate "r2.1" = Ok (mkFlags true true true)
  /\ (exists m, validate "r3" = Throw m) /\ (exists m, validate "R1" = Throw m).
Proof. split; [reflexivity|split; eexists; reflexivity]. Qed.

(** C04.  A wrong argument count runs nothing and exits with status 1. *)
Theorem C04_usage (F : Type) (of_int : Z -> F) run argc (t : table F) :
  argc <> 2%Z -> driver of_int argc t run = Ok (1%Z, []).
Proof. exact (driver_usage of_int run argc t). Qed.
Print Assumptions C04_usage.

(** C04.  Otherwise general_option (default "single") selects exactly its job, or is an
    error that runs nothing. *)
Theorem C04_dispatch (F : Type) (of_int : Z -> F) run g (t : table F) :
  lookup "general_option" t = Some (TStr g) \/ (lookup "general_option" t = None /\ g = "single") ->
  (exists j, In (g, j) option_table /\ driver of_int 2 t run = (run j ;; Ok (0%Z, [j])))
  \/ (~ In g (map fst option_table) /\ exists m, driver of_int 2 t run = Throw m).
Proof. exact (driver_general of_int run g t). Qed.
Print Assumptions C04_dispatch.

Theorem C04_not_a_string (F : Type) (of_int : Z -> F) run v (t : table F) :
  lookup "general_option" t = Some v -> (forall g, v <> TStr g) ->
  exists m, driver of_int 2 t run = Throw m.
Proof. exact (driver_not_string of_int run v t). Qed.
Print Assumptions C04_not_a_string.

Example C04_cases :
  driver (fun z => z) 2 [("general_option", TStr "multiopt")] (fun _ => Ok tt) = Ok (0%Z, [JMultiopt])
  /\ driver (fun z => z) 2 [("title", TStr "x")] (fun _ => Ok tt) = Ok (0%Z, [JSingle])
  /\ driver (fun z => z) 2 [("general_option", TInt 3)] (fun _ => Ok tt) = Throw "toml::type_error".
Proof. repeat split. Qed.

(** C04 is false of the documented value "scan": README.md calls the random scan
    general_option = "scan", but the program rejects it (it wants "random"). *)
Theorem C04_readme_refuted :
  exists g, In g readme_options
    /\ forall (F : Type) (of_int : Z -> F) run,
         exists m, driver of_int 2 [("general_option", TStr g)] run = Throw m.
Proof. exists "scan". split; [simpl; tauto|]. intros. eexists. reflexivity. Qed.
Print Assumptions C04_readme_refuted.

(** C05.  For each section: reading succeeds iff every key of the section is documented
    and every value has the documented type; then each variable named by a key gets that
    key's value, and every other variable keeps its previous value (the default).  In all
    other cases an exception is thrown. *)
Theorem C05_scan_section (F : Type) (of_int : Z -> F) :
  reads_section of_int scan_keys (read_section of_int scan_reads).
Proof. exact (scan_reads_section of_int). Qed.
Print Assumptions C05_scan_section.

Theorem C05_multiopt_scan_section (F : Type) (of_int : Z -> F) :
  reads_section of_int multiopt_scan_keys (read_section of_int multiopt_scan_reads).
Proof. exact (multiopt_scan_reads_section of_int). Qed.
Print Assumptions C05_multiopt_scan_section.

Theorem C05_multiopt_section (F : Type) (of_int : Z -> F) :
  reads_section of_int multiopt_keys (read_section of_int multiopt_reads).
Proof. exact (multiopt_reads_section of_int). Qed.
Print Assumptions C05_multiopt_section.

(** C05, C06 for the [qsc] section: as above, and the four axis arrays are then padded
    with zeros to their common maximal length. *)
Theorem C05_qsc_section (F : Type) (of_int : Z -> F) (zero : F) t s :
  (forall x, In x axis_keys -> exists v, s x = VVec v) ->
  (valid_section of_int qsc_keys t /\
   exists s1 s' a, section_effect of_int qsc_keys t s s1
     /\ s1 "R0c" = VVec (R0c a) /\ s1 "R0s" = VVec (R0s a)
     /\ s1 "Z0c" = VVec (Z0c a) /\ s1 "Z0s" = VVec (Z0s a)
     /\ qsc_input of_int zero t s = Ok s'
     /\ s' "R0c" = VVec (padded zero (max_len a) (R0c a))
     /\ s' "R0s" = VVec (padded zero (max_len a) (R0s a))
     /\ s' "Z0c" = VVec (padded zero (max_len a) (Z0c a))
     /\ s' "Z0s" = VVec (padded zero (max_len a) (Z0s a))
     /\ (forall x, ~ In x axis_keys -> s' x = s1 x))
  \/ (~ valid_section of_int qsc_keys t /\ exists msg, qsc_input of_int zero t s = Throw msg).
Proof. exact (qsc_input_cases of_int zero t s). Qed.
Print Assumptions C05_qsc_section.

Example C05_qsc_case :
  let s0 := qsc_defaults 1%Z (-1)%Z 0%Z 99%Z in
  (forall x, In x axis_keys -> exists v, s0 x = VVec v) /\
  match qsc_input (fun z => z) 0%Z
    [("nfp", TInt 5); ("eta_bar", TInt 2); ("R0c", TArr [TFloat 7%Z; TFloat 8%Z])] s0 with
  | Ok s' => map s' ["nfp"; "eta_bar"; "nphi"; "R0c"; "Z0s"]
  | _ => []
  end = [VInt 5; VFloat 2; VInt 15; VVec [7; 8]; VVec [0; 0]]%Z.
Proof.
  split.
  - intros x [<-|[<-|[<-|[<-|[]]]]]; eexists; reflexivity.
  - vm_compute. reflexivity.
Qed.

Example C05_misspelt :
  qsc_input (fun z => z) 0%Z [("nfp", TInt 5); ("etabar", TFloat 2%Z)] (qsc_defaults 1%Z (-1)%Z 0%Z 99%Z)
  = Throw "Unused key in input file: etabar"
  /\ read_section (fun z => z) scan_reads [("max_second", TInt 5)] (fun _ => VInt 0)
  = Throw "Unused key in input file: max_second".
Proof. vm_compute. split; reflexivity. Qed.

(** C05, C46 for an optimisation section ([opt], [opt0], ...): it is accepted iff some
    result meets [opt_result], and then that result is produced; otherwise an exception is
    thrown.  In particular unknown keys, unknown algorithms and a wrong nphi length are
    rejected, and the vary_* defaults are as documented. *)
Theorem C05_opt_section (F : Type) (of_int : Z -> F) n (t : table F) s alg dm l0 f0 :
  1 <= n -> s "nphi" = VInts l0 -> s "fourier_refine" = VInt f0 ->
  (exists s' a d, opt_input of_int n t s alg dm = Ok (s', a, d)
                  /\ opt_result of_int n t s alg dm s' a d)
  \/ ((exists m, opt_input of_int n t s alg dm = Throw m)
      /\ ~ exists s' a d, opt_result of_int n t s alg dm s' a d).
Proof. exact (opt_input_cases of_int n t s alg dm l0 f0). Qed.
Print Assumptions C05_opt_section.

Example C05_opt_cases :
  let s0 := fun x => if String.eqb x "nphi" then VInts [] else if String.eqb x "fourier_refine" then VInt 0
                     else VFloat (-1)%Z in
  match opt_input (fun z => z) 3 [("fourier_refine", TInt 1); ("nphi", TArr [TInt 31; TInt 41]);
     ("algorithm", TStr "dogleg"); ("weight_B20", TInt 1)] s0 GSL_LM DIFF_METHOD_FORWARD with
  | Ok (s', a, d) => Some (map s' ["vary_R0c"; "vary_R0s"; "weight_B20"; "weight_iota"], a, d)
  | _ => None
  end = Some ([VBools [false; true; true]; VBools [false; false; false]; VFloat 1; VFloat (-1)]%Z,
              GSL_DOGLEG, DIFF_METHOD_FORWARD)
  /\ opt_input (fun z => z) 3 [("nphi", TArr [TInt 31; TInt 41])] s0 GSL_LM DIFF_METHOD_FORWARD
     = Throw "Size of the multiopt nphi array does not match fourier_refine + 1"
  /\ opt_input (fun z => z) 3 [("weight_b20", TInt 1)] s0 GSL_LM DIFF_METHOD_FORWARD
     = Throw "Unused key in input file: weight_b20".
Proof. vm_compute. repeat split. Qed.

(** Finding: outside the sections nothing is checked.  A misspelt top-level key is
    silently ignored, so the job that runs is not the one asked for. *)
Theorem C05_top_level_refuted :
  exists (t : table Z) key, In (key, TStr "random") t /\ key <> "general_option"
    /\ forall run, driver (fun z => z) 2 t run = (run JSingle ;; Ok (0%Z, [JSingle])).
Proof.
  exists [("general_opton", TStr "random")], "general_opton".
  split; [now left|]. split; [discriminate|]. reflexivity.
Qed.
Print Assumptions C05_top_level_refuted.

(** C48 (true part).  A valid multiopt section that gives nopts is accepted iff nopts >= 1. *)
Theorem C48_nopts_given (F : Type) (of_int : Z -> F) (t : table F) v0 z :
  valid_section of_int multiopt_keys t -> lookup "nopts" t = Some (TInt z) -> in_int32 z ->
  multiopt_input_nopts of_int t v0
  = if (z <? 1)%Z then Throw "In the multiopt parameter list, nopts must be at least 1." else Ok z.
Proof. intros V. exact (proj1 (multiopt_nopts of_int t v0 V) z). Qed.
Print Assumptions C48_nopts_given.

Example C48_nopts_given_case :
  let t := [("nopts", TInt 2); ("verbose", @TInt Z 0)] in
  valid_section (fun z => z) multiopt_keys t /\ in_int32 2
  /\ multiopt_input_nopts (fun z => z) t 0 = Ok 2%Z
  /\ exists m, multiopt_input_nopts (fun z : Z => z) [("nopts", TInt 0)] 0 = Throw m.
Proof.
  split; [|split; [unfold in_int32; lia|split; [reflexivity|eexists; reflexivity]]].
  split.
  - intros key v [H|[H|[]]]; inversion H; subst; simpl; tauto.
  - intros key k v [H|[H|[]]]; inversion H; subst; simpl; intros E; inversion E; subst;
      eexists; apply den_int; (split; [|exists 0%Z; rewrite Z.add_0_r; reflexivity]);
      unfold in_int32; lia.
Qed.

(** C48 is false as stated: without nopts the program reads an uninitialised variable
    instead of reporting an error. *)
Theorem C48_nopts_missing_refuted (F : Type) (of_int : Z -> F) :
  exists t, valid_section of_int multiopt_keys t /\ lookup "nopts" t = None
    /\ forall v0, multiopt_input_nopts of_int t v0 = UB "read of an uninitialised variable".
Proof.
  exists []. split; [|split; [reflexivity|reflexivity]].
  split; [intros ? ? []|]. intros key k v _ H. discriminate H.
Qed.
Print Assumptions C48_nopts_missing_refuted.
