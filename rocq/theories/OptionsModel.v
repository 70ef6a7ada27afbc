(** Model of the reading of the options of the command line and of the exit code
    of a conversion.  Definitions only.

    Simplifications: the map of boost::program_options is a record of optional
    values, one for each option modelled (an option without value is a boolean); the
    doubles given by the user are reals; UNAVAILABLE_DOUBLE is [None], and a user who
    types -DBL_MAX is not considered; every exception is [Throw].  The choice of the
    solver (Solver::fromString), the solver command, server and version, the test
    file, the tolerance and the listing of the options are not modelled. *)
From Coq Require Import Ascii String ZArith Reals List Bool.
From Verif Require Import Base TextModel TokenizerModel RealModel CaseControlModel.
Import ListNotations.
Open Scope nat_scope.
Open Scope list_scope.

(** ConfigurationParameters.h:47-53 LogLevel, in increasing order. *)
Inductive loglevel := LvError | LvWarn | LvInfo | LvDebug | LvTrace.
Definition rank (l : loglevel) : nat :=
  match l with LvError => 0 | LvWarn => 1 | LvInfo => 2 | LvDebug => 3 | LvTrace => 4 end.
(** ConfigurationParameters.h TranslationMode. *)
Inductive tmode := BestEffort | MeshAtLeast | Strict.

(** The options given (VegaCommandLine.cpp:470-560), [None] or [false] when absent. *)
Record options := mkOptions {
  o_verbosity : option str;  o_debug : bool;
  o_best : bool;  o_mesh : bool;  o_strict : bool;  o_graph : bool;
  o_dialect : option str;  o_rbe2 : option str;
  o_lagrangian : option R;  o_rigidity : option R;  o_stiffness : option R;  o_coefficient : option R;
  o_analysis : option str;  o_product : option str;  o_method : option str;
  o_matrix : option str;  o_size : option Z;  o_subcases : option (list str) }.

(** The fields of ConfigurationParameters filled from them. *)
Record settings := mkSettings {
  s_level : loglevel;  s_mode : tmode;  s_graph : bool;
  s_dialect : str;  s_rbe2 : str;
  s_stiffness : option R;  s_coefficient : R;
  s_analysis : str;  s_product : str;  s_method : str;
  s_matrix : str;  s_size : Z;  s_subcases : list (list Z) }.

(** VegaCommandLine.cpp:132-146. *)
Definition read_level (verbosity : option str) (debug : bool) : loglevel :=
  let l := match verbosity with
           | None => LvInfo
           | Some v =>
             let v := to_upper v in
             if str_eqb v (txt "TRACE") then LvTrace
             else if str_eqb v (txt "DEBUG") then LvDebug
             else if str_eqb v (txt "INFO") then LvInfo
             else if str_eqb v (txt "WARN") then LvWarn
             else if str_eqb v (txt "ERROR") then LvError
             else LvInfo
           end in
  if debug then (if rank l <? rank LvDebug then LvDebug else l) else l.

(** VegaCommandLine.cpp:173-192; hasParamMeshAtLeast is set nowhere. *)
Definition read_mode (best mesh strict : bool) : outcome tmode :=
  let hasParamMeshAtLeast := false in
  do m <- (if mesh then (if best then Throw else Ok MeshAtLeast) else Ok BestEffort);
  if strict then (if best || hasParamMeshAtLeast then Throw else Ok Strict) else Ok m.

(** VegaCommandLine.cpp:194-198. *)
Definition read_graph (graph : bool) (l : loglevel) : bool :=
  graph && (rank l =? rank LvTrace).

(** VegaCommandLine.cpp:251-259, 262-270, 300-317, 319-341: a word
    to be chosen in a set. *)
Definition read_choice (default : str) (allowed : list str) (given : option str) : outcome str :=
  match given with
  | None => Ok default
  | Some v => if existsb (str_eqb v) allowed then Ok v else Throw
  end.

(** VegaCommandLine.cpp:272-298: the stiffness and the coefficient of rigid elements. *)
Definition read_rigid (rbe2 : str) (lagrangian rigidity stiffness coefficient : option R) : option R * R :=
  let '(k, c) := match lagrangian with Some l => (Some 1%R, Some l) | None => (None, None) end in
  let '(k, c) := match rigidity with
                 | Some r => if str_eqb rbe2 (txt "penalty") then (Some r, Some 1%R) else (k, c)
                 | None => (k, c)
                 end in
  let k := match stiffness with Some s => Some s | None => k end in
  let c := match c with
           | Some c => c
           | None => if str_eqb rbe2 (txt "penalty") then 10%R else 1000%R
           end in
  (k, match coefficient with Some d => d | None => c end).

(** VegaCommandLine.cpp:329-348. *)
Definition read_size (matrix : str) (size : option Z) : outcome Z :=
  match size with
  | None => Ok (if str_eqb matrix (txt "file") then 20 else 9)%Z
  | Some n => if (n <? 2)%Z then Throw else Ok n
  end.

(** VegaCommandLine.cpp:377-383: the loop of find, substr, erase; [tok] holds the
    characters read since the last comma, the last one first. *)
Fixpoint numbers_of (tok l : str) : outcome (list Z) :=
  match l with
  | [] => do n <- stoi (rev tok); Ok [n]
  | c :: r =>
    if Ascii.eqb c "," then do n <- stoi (rev tok); do ns <- numbers_of [] r; Ok (n :: ns)
    else numbers_of (c :: tok) r
  end.
(** VegaCommandLine.cpp:352-386. *)
Fixpoint read_subcases (acc : list (list Z)) (l : list str) : outcome (list (list Z)) :=
  match l with
  | [] => Ok acc
  | s :: r =>
    if str_eqb s (txt "single") then Ok [[(-1)%Z]]
    else if str_eqb s (txt "auto") then Ok []
    else if forallb (fun c => is_digit c || Ascii.eqb c ",") s then
      do v <- numbers_of [] s; read_subcases (acc ++ [v]) r
    else Throw
  end.

(** VegaCommandLine.cpp:131-420 readCommandLineParameters. *)
Definition read_parameters (o : options) : outcome settings :=
  let level := read_level (o_verbosity o) (o_debug o) in
  do mode <- read_mode (o_best o) (o_mesh o) (o_strict o);
  let graph := read_graph (o_graph o) level in
  do dialect <- read_choice (txt "cosmic95") [txt "cosmic95"; txt "modern"] (o_dialect o);
  do rbe2 <- read_choice (txt "penalty") [txt "lagrangian"; txt "penalty"] (o_rbe2 o);
  let '(k, c) := read_rigid rbe2 (o_lagrangian o) (o_rigidity o) (o_stiffness o) (o_coefficient o) in
  do analysis <- read_choice (txt "auto") [txt "auto"; txt "3D"; txt "shell"; txt "shell-multi"] (o_analysis o);
  do product <- read_choice (txt "systus") [txt "systus"; txt "topaze"] (o_product o);
  do method <- read_choice (txt "auto") [txt "direct"; txt "modal"; txt "auto"] (o_method o);
  do matrix <- read_choice (txt "table") [txt "table"; txt "file"] (o_matrix o);
  do size <- read_size matrix (o_size o);
  do subcases <- match o_subcases o with None => Ok [] | Some l => read_subcases [] l end;
  Ok (mkSettings level mode graph dialect rbe2 k c analysis product method matrix size subcases).

(** VegaCommandLine.cpp:123-129 normalize_path, before fs::path: front() of an empty
    string is undefined; erase past the end throws. *)
Definition normalize_path (s : str) : outcome str :=
  match s with
  | [] => UB
  | c :: r =>
    if Ascii.eqb c """" || Ascii.eqb c "'" then
      match r with [] => Throw | _ => Ok (removelast r) end
    else Ok s
  end.

(** VegaCommandLine.cpp:71-121 convertStudy: the exit code, and whether the writer was
    run; [out], [in_] tell if there is a writer and a parser for the formats, [valid]
    and [written] are the answers of validate and checkWritten. *)
Inductive exitcode := ExitOk | ExitInvalid | ExitValidation | ExitIncomplete.
Definition convertStudy (mode : tmode) (out in_ valid written : bool) : exitcode * bool :=
  if negb out then (ExitInvalid, false)
  else if negb in_ then (ExitInvalid, false)
  else if negb valid && (match mode with Strict => true | _ => false end) then (ExitValidation, false)
  else if negb written && (match mode with Strict => true | _ => false end) then (ExitIncomplete, true)
  else (ExitOk, true).
