(** C01, C02: names of the output files. *)
From Coq Require Import String Ascii List Arith Lia.
From Verif Require Import Base Outfile OutfileSpec OutfileFacts.
Import ListNotations.
Open Scope string_scope.

(** C01.  Input D/qsc_in.X gives output D/qsc_out.X.nc. *)
Theorem C01_output_name D X : is_dir D -> no_slash X ->
  outfile (D ++ "qsc_in." ++ X) = Ok (D ++ "qsc_out." ++ X ++ ".nc").
Proof. exact (outfile_ok D X). Qed.
Print Assumptions C01_output_name.

Example C01_output_name_case :
  is_dir "a/b.c/" /\ no_slash "w7x.2"
  /\ outfile "a/b.c/qsc_in.w7x.2" = Ok "a/b.c/qsc_out.w7x.2.nc".
Proof.
  split. { right. exists "a/b.c". reflexivity. }
  split; [simpl; repeat split; discriminate|reflexivity].
Qed.

(** C01.  Every path either has that form, or is rejected with an exception. *)
Theorem C01_total p :
  (exists D X, is_dir D /\ no_slash X /\ p = D ++ "qsc_in." ++ X
               /\ outfile p = Ok (D ++ "qsc_out." ++ X ++ ".nc"))
  \/ ((forall D X, is_dir D -> no_slash X -> p <> D ++ "qsc_in." ++ X)
      /\ exists msg, outfile p = Throw msg).
Proof. exact (outfile_cases p). Qed.
Print Assumptions C01_total.

Example C01_total_cases :
  outfile "dir/qsc_in" = Throw "Input file must begin with 'qsc_in.'"
  /\ outfile "qsc_in.d/input" = Throw "Input file must begin with 'qsc_in.'".
Proof. split; reflexivity. Qed.

(** C01.  Different inputs have different outputs, and an output is never its input. *)
Theorem C01_injective p q o : outfile p = Ok o -> outfile q = Ok o -> p = q.
Proof. exact (outfile_inj p q o). Qed.
Print Assumptions C01_injective.

Theorem C01_not_input p o : outfile p = Ok o -> o <> p.
Proof. exact (outfile_not_input p o). Qed.
Print Assumptions C01_not_input.

Example C01_accepts : outfile "x/qsc_in.a" = Ok "x/qsc_out.a.nc".
Proof. reflexivity. Qed.

(** C02.  The stage files of a multi-stage job: there is one name per stage, they are
    pairwise different, and none is the single-job name or the input file. *)
Theorem C02_stage_names_distinct p n o :
  outfile p = Ok o ->
  exists names, multiopt_names p n = Ok names
    /\ length names = n /\ NoDup names /\ ~ In o names /\ ~ In p names.
Proof. exact (multiopt_names_total p n o). Qed.
Print Assumptions C02_stage_names_distinct.

(** C02.  Stage k's file is D/qsc_out.X_k.nc. *)
Theorem C02_stage_name_form D X n k : is_dir D -> no_slash X -> k < n ->
  exists names, multiopt_names (D ++ "qsc_in." ++ X) n = Ok names
    /\ nth_error names k = Some (D ++ "qsc_out." ++ X ++ "_" ++ to_string k ++ ".nc").
Proof. exact (multiopt_name_form D X n k). Qed.
Print Assumptions C02_stage_name_form.

Example C02_case :
  multiopt_names "d/qsc_in.q" 3 = Ok ["d/qsc_out.q_0.nc"; "d/qsc_out.q_1.nc"; "d/qsc_out.q_2.nc"].
Proof. reflexivity. Qed.

(** Across jobs the names can collide: stage 0 of qsc_in.a and the single job
    qsc_in.a_0 write the same file. *)
Theorem C02_across_jobs_refuted :
  exists p q o names, p <> q /\ outfile q = Ok o
    /\ multiopt_names p 1 = Ok names /\ In o names.
Proof.
  exists "qsc_in.a", "qsc_in.a_0", "qsc_out.a_0.nc", ["qsc_out.a_0.nc"].
  repeat split; try discriminate. now left.
Qed.
Print Assumptions C02_across_jobs_refuted.
