(** Model of the reading of results from an F06 file (ResultReaders/F06Parser.cpp):
    displacements, eigenvalues, complex displacements. *)
From Coq Require Import Ascii String ZArith List Bool Arith.
From Verif Require Import Base TextModel TokenizerModel CaseControlModel.
Import ListNotations.
Open Scope nat_scope.
Open Scope list_scope.

(** std::string::find followed by substr: what follows the first occurrence. *)
Fixpoint after (pat l : str) : option str :=
  if has_prefix pat l then Some (skipn (length pat) l)
  else match l with [] => None | _ :: r => after pat r end.
Definition has (pat l : str) : bool := match after pat l with Some _ => true | None => false end.

(** std::istream_iterator<string>: the words of a line. *)
Fixpoint word_list (cur : str) (l : str) : list str :=
  match l with
  | [] => if null cur then [] else [rev cur]
  | c :: r => if is_space c then (if null cur then word_list [] r else rev cur :: word_list [] r)
              else word_list (c :: cur) r
  end.
Definition words (l : str) : list str := word_list [] l.

(** F06Parser.cpp:581-593 readLine: blank lines are never seen; every reading goes through
    it, so that the file is taken without them. *)
Definition readable (file : list str) : list str := filter (fun l => negb (null (trim l))) file.

(** F06Parser.h:41. *)
Definition NO_SUBCASE : Z := -1.
Definition SUBCASE := txt "SUBCASE".
(** F06Parser.cpp:501-514 parseSubcase, from what follows the word; std::stoi on a number
    too large is not caught. *)
Definition parseSubcase (current : Z) (s : str) : outcome Z :=
  let s := trim s in
  if forallb (fun c => is_digit c || Ascii.eqb c " ") s then (if null s then Ok current else stoi s)
  else Ok current.

Definition DISPLACEMENTS := txt "D I S P L A C E M E N T   V E C T O R".
Definition EIGENVALUES := txt "R E A L   E I G E N V A L U E S".
Definition COMPLEX := txt "C O M P L E X   D I S P L A C E M E N T   V E C T O R".
Definition COLUMNS := txt "POINT ID.   TYPE          T1             T2             T3             R1             R2             R3".
Definition is_stress (l : str) : bool := has (txt "S T R E S S E S") l && has (txt "S O L I D   E L E M E N T S") l.

Section F06.
  (** std::stod, istream >> double, the test abs(value) < 1e-12, 0 and -1. *)
  Context {V : Type} (stod : str -> outcome V) (read : str -> V) (small : V -> bool) (zero minus_one : V).
  (** 84-90: the vectors of a node taken from its displacement system to the global one
      (claim C35); an unknown node throws (Mesh.cpp:218-222). *)
  Context (to_global : Z -> outcome (V * V * V -> V * V * V)).
  (** MODE_STRICT, and the numbers of the analyses of the model. *)
  Context (strict : bool) (analyses : list Z).

  (** What an assertion says: a displacement at a node (components by position), with its
      load step; a mode; a complex displacement, with its frequency. *)
  Inductive fact :=
  | Disp (node : Z) (d : nat) (value step : V)
  | Mode (number : Z) (cycles eigenvalue mass stiffness : V)
  | Cplx (node : Z) (d : nat) (re im freq : V).
  (** The set it is in: that of a subcase, or the common one (NO_SUBCASE).  That the set is
      created even when the assertions are discarded is left out. *)
  Definition assertion := (Z * fact)%type.
  Definition clean (v : V) : V := if small v then zero else v.

  (** What a section gives: the facts found, the next subcase, the lines left, and whether
      an exception ended it. *)
  Record section := mkSection { found : list fact; next : Z; rest : list str; failed : bool }.
  Definition more (l : list fact) (s : section) : section := mkSection (l ++ found s) (next s) (rest s) (failed s).
  (** The line of the next subcase, consumed (49-56, 145-153, 208-211). *)
  Definition ended_by (s : str) (r : list str) : section :=
    match parseSubcase NO_SUBCASE s with
    | Ok n => mkSection [] n r false
    | _ => mkSection [] NO_SUBCASE r true
    end.

  Fixpoint numbered (f : nat -> V -> fact) (i : nat) (l : list V) : list fact :=
    match l with [] => [] | v :: r => f i (clean v) :: numbered f (S i) r end.
  (** 68-101, one row of eight words. *)
  Definition disp_row (step : V) (id type : str) (a b c d e f : str) : outcome (list fact) :=
    do n <- stoi id;
    if negb (str_eqb type (txt "G")) then Ok [] else
    do a <- stod a; do b <- stod b; do c <- stod c; do d <- stod d; do e <- stod e; do f <- stod f;
    do g <- to_global n;
    let '(x, y, z) := g (a, b, c) in let '(u, v, w) := g (d, e, f) in
    Ok (numbered (fun i v => Disp n i v step) 0 [x; y; z; u; v; w]).
  (** 45-104. *)
  Fixpoint disp_rows (step : V) (ls : list str) : section :=
    match ls with
    | [] => mkSection [] NO_SUBCASE [] false
    | l :: r =>
      if has (txt "DIAGNOSTIC TOOLS") l then disp_rows step r
      else match after SUBCASE l with
      | Some s => ended_by s r
      | None =>
        if negb (match l with c :: _ => is_space c | [] => false end) then mkSection [] NO_SUBCASE r false
        else match words l with
        | [id; type; a; b; c; d; e; f] =>
            match disp_row step id type a b c d e f with
            | Ok l => more l (disp_rows step r)
            | _ => mkSection [] NO_SUBCASE r true
            end
        | _ => mkSection [] NO_SUBCASE r false
        end
      end
    end.
  (** 36-119: the line of the column titles is skipped. *)
  Definition readDisplacementSection (step : V) (ls : list str) : section := disp_rows step (tl ls).

  (** 160-174. *)
  Definition mode_row (no ev cy ma st : str) : outcome fact :=
    do n <- stoi no; do e <- stod ev; do c <- stod cy; do m <- stod ma; do s <- stod st;
    Ok (Mode n (clean c) e m s).
  (** 143-175. *)
  Fixpoint mode_rows (ls : list str) : section :=
    match ls with
    | [] => mkSection [] NO_SUBCASE [] false
    | l :: r =>
      match after SUBCASE l with
      | Some s => ended_by s r
      | None => match words l with
        | [no; _; ev; _; cy; ma; st] =>
            match mode_row no ev cy ma st with
            | Ok f => more [f] (mode_rows r)
            | _ => mkSection [] NO_SUBCASE r true
            end
        | _ => mkSection [] NO_SUBCASE r false
        end
      end
    end.
  (** 127-142, then the rows. *)
  Fixpoint readEigenvalueSection (ls : list str) : section :=
    match ls with
    | [] => mode_rows []
    | l :: r =>
      if has (txt "ORDER") l then mode_rows r
      else if has (txt "AFTER AUGMENTATION OF RESIDUAL VECTORS") l || has (txt "ACTUAL MODES USED IN THE DYNAMIC ANALYSIS") l
      then mkSection [] NO_SUBCASE r false
      else readEigenvalueSection r
    end.

  (** 235-247: components are added one by one, until one cannot be read. *)
  Fixpoint cplx_row (freq : V) (n : Z) (i : nat) (re im : list str) : list fact * bool :=
    match re, im with
    | a :: re, b :: im =>
        match stod a, stod b with
        | Ok a, Ok b => let '(l, e) := cplx_row freq n (S i) re im in (Cplx n i (clean a) (clean b) freq :: l, e)
        | _, _ => ([], true)
        end
    | _, _ => ([], false)
    end.
  (** 206-248: a row has two lines, of nine and six words; the vectors are not taken to the
      global system. *)
  Fixpoint cplx_rows (freq : V) (ls : list str) : section :=
    match ls with
    | [] => mkSection [] NO_SUBCASE [] false
    | l :: r =>
      match after SUBCASE l with
      | Some s => ended_by s r
      | None =>
        if length (words l) =? 9 then
          match r with
          | [] => mkSection [] NO_SUBCASE [] true
          | l' :: r' =>
            if length (words l') =? 6 then
              match stoi (nth 1 (words l) []) with
              | Ok n => let '(fs, e) := cplx_row freq n 0 (skipn 3 (words l)) (words l') in
                        if e then mkSection fs NO_SUBCASE r' true else more fs (cplx_rows freq r')
              | _ => mkSection [] NO_SUBCASE r' true
              end
            else mkSection [] NO_SUBCASE r' true
          end
        else mkSection [] NO_SUBCASE r false
      end
    end.
  (** 199-205, then the rows. *)
  Fixpoint readComplexDisplacementSection (freq : V) (ls : list str) : section :=
    match ls with
    | [] => cplx_rows freq []
    | l :: r => if has COLUMNS l then cplx_rows freq r else readComplexDisplacementSection freq r
    end.

  (** ** The model *)

  (** The assertions added, in order, and the analyses given a reference to the set of
      their number. *)
  Record state := mkState { kept : list assertion; refs : list Z }.
  Definition has_analysis (n : Z) : bool := existsb (Z.eqb n) analyses.
  Definition keep (sub : Z) (s : section) (st : state) : state :=
    mkState (kept st ++ map (pair sub) (found s)) (if (sub =? NO_SUBCASE)%Z then refs st else refs st ++ [sub]).
  Inductive kind := KDisp | KMode | KCplx.
  (** 366-395 addAssertionsToModel, 397-434 addFrequencyAssertionsToModel, 436-467
      addComplexAssertionsToModel: an analysis that is not there is dereferenced, except for
      the modes; in strict mode an exception goes through. *)
  Definition add_section (k : kind) (sub : Z) (s : section) (st : state) : outcome state :=
    if failed s && strict then Throw
    else if (sub =? NO_SUBCASE)%Z then
      match k, analyses with
      | KCplx, [] => UB
      | _, [] => Ok st
      | _, _ => Ok (keep sub s st)
      end
    else if has_analysis sub then Ok (keep sub s st)
    else match k with KMode => Ok st | _ => UB end.

  (** 525-572; [sub], [step] and [freq] are currentSubCase, loadStep and frequency.  Each turn
      takes one line at least.  The stresses of solids (566-571) are not modelled. *)
  Fixpoint scan (fuel : nat) (ls : list str) (sub : Z) (step freq : V) (st : state) : outcome state :=
    match fuel, ls with
    | _, [] => Ok st
    | O, _ => NoFuel
    | S fuel, l :: r =>
      let l := trim l in
      do x <- (match after SUBCASE l with
               | Some s => do n <- parseSubcase sub s; Ok (n, minus_one)
               | None => Ok (sub, step) end);
      let '(sub, step) := x in
      let step := match after (txt "LOAD STEP = ") l with Some s => read (trim s) | None => step end in
      let freq := match after (txt "FREQUENCY = ") l with Some s => read (trim s) | None => freq end in
      if str_eqb l DISPLACEMENTS then
        let s := readDisplacementSection step r in
        do st <- add_section KDisp sub s st; scan fuel (rest s) (next s) step freq st
      else if str_eqb l EIGENVALUES then
        let s := readEigenvalueSection r in
        do st <- add_section KMode sub s st; scan fuel (rest s) (next s) step freq st
      else if str_eqb l COMPLEX then
        let s := readComplexDisplacementSection freq r in
        do st <- add_section KCplx sub s st; scan fuel (rest s) (next s) step freq st
      else if is_stress l then UB
      else scan fuel r sub step freq st
    end.
  (** 516-575. *)
  Definition add_assertions (file : list str) : outcome state :=
    let ls := readable file in scan (length ls) ls NO_SUBCASE minus_one minus_one (mkState [] []).
End F06.
Arguments fact : clear implicits.
