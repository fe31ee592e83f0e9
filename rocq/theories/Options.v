(** Model of src/validate.cpp (Qsc::validate) and src/driver.cpp (qsc::driver). *)
From Coq Require Import String ZArith List Arith.
From Verif Require Import Base Toml.
Import ListNotations.
Open Scope string_scope.

(** The flags set by Qsc::validate. *)
Record order_flags := mkFlags { at_least_order_r2 : bool; order_r2p1 : bool; order_r3 : bool }.

(** Qsc::validate, validate.cpp lines 9-27; the constants are in qsc.hpp lines 22-24. *)
Definition validate (order_r_option : string) : outcome order_flags :=
  if String.eqb order_r_option "r1" then Ok (mkFlags false false false)
  else if String.eqb order_r_option "r2" then Ok (mkFlags true false false)
  else if String.eqb order_r_option "r2.1" then Ok (mkFlags true true true)
  else Throw "Invalid setting for order_r_option".

(** The jobs the driver can start. *)
Inductive job := JSingle | JRandom | JOpt | JMultiopt | JMultioptScan.

(** qsc::driver, driver.cpp lines 19-95.  [argc] is the argument count, [infile] the
    parsed top-level table, [run] the effect of the [run] method of each class (it may
    throw).  The result is the exit status and the jobs run.  Printing, timing and the
    MPI_Init/MPI_Finalize calls are omitted. *)
Definition driver {F : Type} (of_int : Z -> F) (argc : Z) (indata : table F)
    (run : job -> outcome unit) : outcome (Z * list job) :=
  if negb (Z.eqb argc 2) then Ok (1%Z, [])
  else
    do st <- toml_read of_int indata "general_option" "general_option" KStr
               ([], fun _ => VStr "single");
    do general_option <- str_of (snd st "general_option");
    if String.eqb general_option "single" then run JSingle ;; Ok (0%Z, [JSingle])
    else if String.eqb general_option "random" then run JRandom ;; Ok (0%Z, [JRandom])
    else if String.eqb general_option "opt" then run JOpt ;; Ok (0%Z, [JOpt])
    else if String.eqb general_option "multiopt" then run JMultiopt ;; Ok (0%Z, [JMultiopt])
    else if String.eqb general_option "multiopt_scan" then run JMultioptScan ;; Ok (0%Z, [JMultioptScan])
    else Throw "Unrecognized setting for general_option".
