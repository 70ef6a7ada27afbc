(** Model of VegaCommandLine::exitCodeToString and of what the main program says of a code.
    Definitions only. *)
From Coq Require Import String ZArith List Bool.
From Verif Require Import Base OptionsModel RunnerModel ProcessModel.
Import ListNotations.
Open Scope Z_scope.

(** VegaCommandLine.h:41-59, the code of a conversion. *)
Definition conversion_number (e : exitcode) : Z :=
  match e with ExitOk => 0 | ExitInvalid => 4 | ExitValidation => 5 | ExitIncomplete => 10 end.
(** VegaCommandLine.cpp:40-56 failureReason_by_ExitCode. *)
Definition reasons : list (Z * string) :=
  [(0, "OK");
   (1, "An unexpected exception was thrown during translation.");
   (6, "While reading the input file, VEGA encountered an error and quit.");
   (7, "While writing the output file, VEGA encountered an error and quit.");
   (2, "No input file was specified.");
   (3, "Output dir can't be created.");
   (4, "Invalid command line argument.");
   (5, "Validation of model failed.");
   (10, "Some translated objects have not been MARKED as written, output COULD be incomplete.");
   (100, "Problem launching the solver (solver not found?).");
   (102, "Solver got a signal (killed?).");
   (103, "Generic Solver problem {exit code !=0}.");
   (104, "Solver did not produce the expected result file.");
   (101, "Solver found a syntax error in vega++ translated file.");
   (105, "internal solver test fail (TEST_RESU).")]%string.
(** VegaCommandLine.cpp:674-681 exitCodeToString. *)
Definition exitCodeToString (n : Z) : string :=
  match find (fun r => fst r =? n) reasons with Some r => snd r | None => "UNKNOWN FAILURE" end.
(** vegamain.cpp:42-48: the reason the child prints, none for a success, a crash or an
    exception; vegamain.cpp:33-38 and 51-53 print nothing of the table. *)
Definition printed (c : call) : option (string * Z) :=
  match fst (process c) with Done n => if n =? 0 then None else Some (exitCodeToString n, n) | _ => None end.
