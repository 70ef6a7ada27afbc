(** Model of the command files of Systus.  Definitions only.

    Simplifications: a command file is the list of its blocks, one constructor each; their
    text, the comment put before some of them for TOPAZE and the files of matrices are not
    modelled; the analyses are those of SystusCaseModel, and whether one has assertions is
    an input; the marks are the numbers of the analyses marked as written, the other marks
    and the ASC files are not modelled. *)
From Coq Require Import ZArith List Bool.
From Verif Require Import Base OptionsModel SystusCaseModel.
Import ListNotations.
Open Scope Z_scope.

(** Analysis.h:56-66. *)
Definition COMBINATION : Z := 0.
Definition MODAL : Z := 3.
Definition DYNA_MODAL : Z := 6.
(** VegaCommandLine.cpp option of the dynamic method: direct, auto or modal, another word. *)
Inductive dynamic := Direct | ModalBase | OtherMethod.
(** The solver of CONVERT. *)
Inductive solver := RESU | TRAN | NOSOLVER.
Inductive block :=
| Header (subcase : nat)
| SolveStatic | SolveModal | SolveDynaDirect (id : Z) | SolveDynaModal (id : Z)
| Ignored (id : Z)
| Save | Convert (s : solver) | Reload | Clean
| Assertions (id : Z).

(** Model::getAnalysis. *)
Definition get_analysis (l : list sana) (i : Z) : option sana := find (fun a => sn_id a =? i) l.
(** SolverInterfaces.cpp:190-203 handleWritingError: only strict mode stops. *)
Definition writing_error (mode : tmode) : outcome unit := match mode with Strict => Throw | _ => Ok tt end.

(** SystusWriter.cpp:3211-3266: the assertions of each analysis; a missing analysis is
    reported, then dereferenced. *)
Definition write_assertions (mode : tmode) (asserted : Z -> bool) (l : list sana) (ids : list Z) : outcome (list block) :=
  do bs <- mapM (fun i => match get_analysis l i with
                          | None => do _ <- writing_error mode; UB
                          | Some a => Ok (if asserted i then [Assertions i] else [])
                          end) ids;
  Ok (concat bs).
(** SystusWriter.cpp:3126-3182: the commands of the first analysis, the solver, whether
    temporary data is reloaded and cleaned, whether it is marked. *)
Definition write_solve (mode : tmode) (topaze : bool) (method : dynamic) (a : sana) : outcome (list block * solver * bool * bool * bool) :=
  if sn_type a =? STATIC then Ok ([SolveStatic], RESU, false, false, true)
  else if sn_type a =? MODAL then Ok ([SolveModal], RESU, false, false, true)
  else if sn_type a =? DYNA_MODAL then
    match method with
    | Direct => Ok ([SolveDynaDirect (sn_id a)], TRAN, false, false, true)
    | ModalBase => Ok ([SolveDynaModal (sn_id a)], TRAN, topaze, true, true)
    | OtherMethod => do _ <- writing_error mode; Ok ([], TRAN, false, false, true)
    end
  else do _ <- writing_error mode; Ok ([], NOSOLVER, false, false, false).
(** SystusWriter.cpp:3076-3267 writeDat: the blocks and the marks. *)
Definition writeDat (mode : tmode) (topaze : bool) (method : dynamic) (asserted : Z -> bool) (l : list sana) (i : nat) (ids : list Z)
  : outcome (list block * list Z) :=
  match ids with
  | [] => Ok ([Header i], [])
  | first :: _ =>
    match get_analysis l first with
    | None => do _ <- writing_error mode; UB
    | Some a =>
      if sn_type a =? COMBINATION then Ok ([Header i; Ignored (sn_id a)], [sn_id a]) else
      do r <- write_solve mode topaze method a;
      let '(solve, s, reload, clean, mark) := r in
      do checks <- write_assertions mode asserted l ids;
      Ok (Header i :: solve ++ [Save; Convert s] ++ (if reload then [Reload] else []) ++ (if clean then [Clean] else []) ++ checks,
          if mark then [sn_id a] else [])
    end
  end.
(** SystusWriter.cpp:372-409: the loop of writeModel on the subcases, with the marks that
    885-929 puts on every analysis when the subcases are automatic. *)
Fixpoint write_subcases mode topaze method asserted (l : list sana) (i : nat) (subs : list (list Z)) : outcome (list (list block) * list Z) :=
  match subs with
  | [] => Ok ([], [])
  | s :: r =>
    do x <- writeDat mode topaze method asserted l i s;
    do y <- write_subcases mode topaze method asserted l (S i) r;
    Ok (fst x :: fst y, snd x ++ snd y)
  end.
Definition write_dats mode topaze method asserted (cfg : list (list Z)) (l : list sana) : outcome (list (list block) * list Z) :=
  do subs <- generate_subcases cfg l;
  do x <- write_subcases mode topaze method asserted l 0 subs;
  Ok (fst x, match cfg with [] => map sn_id l | _ => [] end ++ snd x).
