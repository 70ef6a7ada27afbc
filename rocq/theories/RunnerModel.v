(** Model of the runs of a solver: Runner, AsterRunner, NastranRunner, SystusRunner and
    VegaCommandLine::runSolver.  Definitions only.

    Simplifications: the directory of the outputs is the list of its regular files, by name,
    and the model file is in it; removing a file succeeds; a loop on the directory sees the
    files there were when it began; a solver is any function from its command file and the
    directory to its status, to what it prints and to the directory it leaves; the text of
    the commands, the directory repe_out and the messages are not modelled. *)
From Coq Require Import Ascii String ZArith List Bool.
From Verif Require Import Base TextModel CaseControlModel.
Import ListNotations.
Open Scope Z_scope.
Open Scope list_scope.

(** SolverInterfaces.h:171-179. *)
Inductive exit := RunOk | SolverNotFound | SyntaxError | SolverKilled | ExitNotZero | ResultNotFound | TestFail.
Definition exit_number (e : exit) : Z :=
  match e with RunOk => 0 | SolverNotFound => 100 | SyntaxError => 101 | SolverKilled => 102 | ExitNotZero => 103 | ResultNotFound => 104 | TestFail => 105 end.
(** SolverInterfaces.cpp:240-258 convertExecResult, of what system() returns. *)
Definition convertExecResult (i : Z) : exit :=
  if i =? 0 then RunOk else
  let high := Z.shiftr (Z.land i 65280) 8 in
  if high =? 127 then SolverNotFound
  else if (128 <? high) && (high <=? 165) then SolverKilled
  else if i =? -1 then SolverNotFound
  else ExitNotZero.

(** A directory: names and lines. *)
Definition dir := list (str * list str).
Definition file (d : dir) (n : str) : option (list str) := option_map snd (find (fun f => str_eqb (fst f) n) d).
Definition remove_if (p : str -> bool) (d : dir) : dir := filter (fun f => negb (p (fst f))) d.
Definition put (n : str) (ls : list str) (d : dir) : dir := (n, ls) :: remove_if (fun m => str_eqb m n) d.
(** boost ends_with. *)
Definition ends (p l : str) : bool := has_prefix (rev p) (rev l).
(** A run of a solver on a command file: status, standard output, directory. *)
Definition solver := str -> dir -> Z * list str * dir.
(** The shell: the standard output goes to a file, which it replaces. *)
Definition shell (run : solver) (out command : str) (d : dir) : Z * dir :=
  let '(i, ls, d') := run command d in (i, put out ls d').

(** SolverInterfaces.cpp:227-238 deletePreviousResultFiles. *)
Definition deletePrevious (base : str) (exts : list str) (d : dir) : dir :=
  remove_if (fun n => existsb (fun e => str_eqb n (base ++ e)) exts) d.
(** AsterRunner.cpp:99-106 and SystusRunner.cpp:167-174: a line of a failed check. *)
Definition nook (ls : list str) : bool := existsb (has_infix (txt "NOOK")) ls.

(** AsterRunner.cpp:41-117 execSolver, for the model file [base].export. *)
Definition aster_exec (local : bool) (run : solver) (base : str) (d : dir) : outcome (exit * dir) :=
  let d0 := deletePrevious base [txt ".mess"; txt ".resu"; txt ".rmed"; txt ".stdout"; txt ".stderr"] d in
  if negb local then Throw else
  let '(i, d1) := shell run (base ++ txt ".stdout") (base ++ txt ".export") d0 in
  match convertExecResult i with
  | RunOk =>
    match file d1 (base ++ txt ".resu") with
    | None => Ok (ResultNotFound, d1)
    | Some ls => Ok (if nook ls then TestFail else RunOk, d1)
    end
  | e => Ok (if i =? 4 then SyntaxError else e, d1)
  end.
(** NastranRunner.cpp:40-67 execSolver, for the model file [base].nas. *)
Definition nastran_exec (isdir : bool) (run : solver) (base : str) (d : dir) : outcome (exit * dir) :=
  if negb isdir then Ok (SolverNotFound, d) else
  let d0 := deletePrevious base [txt ".DBALL"; txt ".f04"; txt ".f06"; txt ".IFPDAT"; txt ".log"; txt ".MASTER"; txt ".stdout"; txt ".stderr"] d in
  let '(i, d1) := shell run (base ++ txt ".stdout") (base ++ txt ".nas") d0 in Ok (convertExecResult i, d1).

(** SystusRunner.cpp:41-42: the name of the study, what comes before _ALL. *)
Fixpoint before (p l : str) : str := if has_prefix p l then [] else match l with [] => [] | c :: r => c :: before p r end.
(** SystusRunner.cpp:49-63: the previous results. *)
Definition previous (prefix n : str) : bool :=
  (has_prefix prefix n && (ends (txt ".TIT") n || ends (txt ".fdb") n || ends (txt ".RESU") n)) ||
  (has_prefix (txt "SYSTUS") n && ends (txt ".DAT") n).
(** SystusRunner.cpp:80-105: each command file in turn; no status when there is none. *)
Fixpoint run_all (run : solver) (out : str) (commands : list str) (last : option exit) (d : dir) : option exit * dir * bool :=
  match commands with
  | [] => (last, d, false)
  | c :: r =>
    let '(i, d1) := shell run out c d in
    match convertExecResult i with RunOk => run_all run out r (Some RunOk) d1 | e => (Some e, d1, true) end
  end.
(** SystusRunner.cpp:113-119. *)
Definition error_line (l : str) : bool := has_infix (txt "ERROR") l && negb (has_infix (txt "NO ERROR") l).
Definition some_result (prefix ext : str) (d : dir) : bool := existsb (fun f => ends ext (fst f) && has_prefix prefix (fst f)) d.
(** SystusRunner.cpp:108-177, from the status of the command. *)
Definition systus_results (product : bool) (prefix out : str) (status : option exit) (d : dir) : outcome exit :=
  let errors := existsb error_line (match file d out with Some ls => ls | None => [] end) in
  match (if errors then Some ExitNotZero else status) with
  | None => UB
  | Some RunOk =>
    if product && negb (some_result prefix (txt ".TIT") d) && negb (some_result prefix (txt ".fdb") d) then Ok ResultNotFound
    else Ok (if existsb (fun f => ends (txt ".RESU") (fst f) && has_prefix prefix (fst f) && nook (snd f)) d then TestFail else RunOk)
  | Some e => Ok e
  end.
(** SystusRunner.cpp:37-178 execSolver, for the model file [name].DAT; [product] when the
    output is for Systus. *)
Definition systus_exec (isdir product : bool) (run : solver) (name : str) (d : dir) : outcome (exit * dir) :=
  let prefix := before (txt "_ALL") name in
  let out := name ++ txt ".stdout" in
  if negb isdir then Ok (SolverNotFound, d) else
  let d0 := remove_if (previous prefix) d in
  if product then
    let '(i, d1) := shell run out (name ++ txt ".DAT") d0 in
    do e <- systus_results true prefix out (Some (convertExecResult i)) d1; Ok (e, d1)
  else
    let commands := filter (fun n => ends (txt ".DAT") n && has_prefix prefix n) (map fst d0) in
    let '(status, d1, stop) := run_all run out commands None d0 in
    match stop, status with
    | true, Some e => Ok (e, d1)
    | _, _ => do e <- systus_results false prefix out status d1; Ok (e, d1)
    end.

(** VegaCommandLine.cpp:421-433 runSolver: a missing runner is reported, then used. *)
Definition runSolver (runner : option (outcome (exit * dir))) : outcome (Z * dir) :=
  match runner with None => UB | Some r => do x <- r; Ok (exit_number (fst x), snd x) end.
