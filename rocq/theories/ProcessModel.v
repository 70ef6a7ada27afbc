(** Model of the main program: VegaCommandLine::process, convertStudy's place in it and
    vegamain.cpp.  Definitions only.

    Simplifications: what the steps find or do is an input, each step ending with a value,
    an exception or a crash; the settings are whether the level of messages is DEBUG or more
    and whether the solver is to be run; the messages are not modelled; std::invalid_argument
    is told from the other logic errors, and those of the option library are logic errors. *)
From Coq Require Import ZArith List Bool.
From Verif Require Import Base.
Import ListNotations.
Open Scope Z_scope.

Inductive thrown := InvalidArgument | Parsing | Writing | LogicError | OtherException.
Inductive step (A : Type) := Done (a : A) | Raise (e : thrown) | Crash.
Arguments Done {A} a. Arguments Raise {A} e. Arguments Crash {A}.
(** VegaCommandLine.h:41-59, the codes of process itself. *)
Definition GENERIC_EXCEPTION : Z := 1.
Definition NO_INPUT_FILE : Z := 2.
Definition OUTPUT_DIR_NOT_CREATED : Z := 3.
Definition INVALID_COMMAND_LINE : Z := 4.
Definition PARSING_EXCEPTION : Z := 6.
Definition WRITING_EXCEPTION : Z := 7.
Definition CHILD_CRASHED : Z := 8.
Definition FORK_FAILED : Z := 9.
(** What a call finds, in the order of process. *)
Record call := mkCall {
  c_options : step unit;         (* the options of the command line are read *)
  c_version : bool;  c_help : bool;
  c_config : step unit;          (* so are those of the configuration file *)
  c_input : bool;                (* an input file is named *)
  c_settings : step (bool * bool); (* level of DEBUG or more, solver to be run *)
  c_results : option bool;       (* the file of results named, whether it is there *)
  c_exists : bool;               (* the input file is there *)
  c_outdir : bool;  c_create : step bool; (* so is the output directory; else it is made *)
  c_format : step unit;          (* the input format is known *)
  c_convert : step Z;
  c_solver : step Z }.
(** What a call does. *)
Inductive effect := MakesDirectory | Converts | RunsSolver.

(** VegaCommandLine.cpp:640-672: the handlers; at the level of DEBUG they throw again. *)
Definition handle (debug : bool) (e : thrown) : step Z :=
  if debug then Raise e else
  match e with
  | InvalidArgument => Done INVALID_COMMAND_LINE
  | Parsing => Done PARSING_EXCEPTION
  | Writing => Done WRITING_EXCEPTION
  | LogicError | OtherException => Done GENERIC_EXCEPTION
  end.
(** A step under the handlers. *)
Definition try_step {A} (debug : bool) (s : step A) (done : list effect) (k : A -> step Z * list effect) : step Z * list effect :=
  match s with Done a => k a | Raise e => (handle debug e, done) | Crash => (Crash, done) end.
(** VegaCommandLine.cpp:632-639: the formats, the conversion and the solver. *)
Definition convert_and_run (c : call) (debug run : bool) (done : list effect) : step Z * list effect :=
  try_step debug (c_format c) done (fun _ =>
  let done := done ++ [Converts] in
  try_step debug (c_convert c) done (fun n =>
  if (n =? 0) && run then try_step debug (c_solver c) (done ++ [RunsSolver]) (fun m => (Done m, done ++ [RunsSolver]))
  else (Done n, done))).
(** VegaCommandLine.cpp:462-672 process; the level of messages is TRACE until the settings
    are read. *)
Definition process (c : call) : step Z * list effect :=
  try_step true (c_options c) [] (fun _ =>
  if c_version c then (Done 0, []) else
  if c_help c then (Done 0, []) else
  try_step true (c_config c) [] (fun _ =>
  if negb (c_input c) then (Done NO_INPUT_FILE, []) else
  try_step true (c_settings c) [] (fun s =>
  let '(debug, run) := s in
  match c_results c with
  | Some false => (Done NO_INPUT_FILE, [])
  | _ =>
    if negb (c_exists c) then (Done NO_INPUT_FILE, []) else
    if c_outdir c then convert_and_run c debug run []
    else try_step debug (c_create c) [] (fun made =>
         if made then convert_and_run c debug run [MakesDirectory] else (Done OUTPUT_DIR_NOT_CREATED, []))
  end))).
(** vegamain.cpp:28-55 with a fork: the code of the child, or that of a crash; an exception
    that nothing catches aborts the child.  A code is known modulo 256. *)
Definition main (fork_ok : bool) (c : call) : Z :=
  if negb fork_ok then FORK_FAILED else
  match fst (process c) with Done n => n mod 256 | _ => CHILD_CRASHED end.
