(** Specification of the string options. *)
From Coq Require Import String List Bool.
From Verif Require Import Options.
Import ListNotations.
Open Scope string_scope.

(** Meaning of order_r_option (second order included?, order r2.1?, order r3?). *)
Definition order_table : list (string * order_flags) :=
  [("r1", mkFlags false false false); ("r2", mkFlags true false false); ("r2.1", mkFlags true true true)].

(** The values of general_option the program knows, with their jobs. *)
Definition option_table : list (string * job) :=
  [("single", JSingle); ("random", JRandom); ("opt", JOpt); ("multiopt", JMultiopt);
   ("multiopt_scan", JMultioptScan)].

(** The values of general_option documented in README.md lines 110-250. *)
Definition readme_options : list string := ["single"; "opt"; "multiopt"; "scan"; "multiopt_scan"].
