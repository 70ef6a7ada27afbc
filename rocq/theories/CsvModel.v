(** Model of the reading of results from a CSV file (ResultReaders/CSVResultReader.cpp)
    and of solver names (Abstract/ConfigurationParameters.cpp). *)
From Coq Require Import Ascii String ZArith List Bool Arith.
From Verif Require Import Base TextModel TokenizerModel CaseControlModel.
Import ListNotations.
Open Scope nat_scope.
Open Scope list_scope.

(** ** Solver names *)
(** ConfigurationParameters.h, SolverName; ConfigurationParameters.cpp:93-95. *)
Inductive solver := NASTRAN | CODE_ASTER | SYSTUS | OPTISTRUCT.
Definition solver_names : list (solver * str) :=
  [(NASTRAN, txt "NASTRAN"); (CODE_ASTER, txt "ASTER"); (SYSTUS, txt "SYSTUS"); (OPTISTRUCT, txt "OPTISTRUCT")].
Definition solver_eqb (a b : solver) : bool :=
  match a, b with
  | NASTRAN, NASTRAN | CODE_ASTER, CODE_ASTER | SYSTUS, SYSTUS | OPTISTRUCT, OPTISTRUCT => true
  | _, _ => false
  end.
(** 110-120 fromString; 122-132 to_str. *)
Definition solver_from_string (name : str) : outcome solver :=
  let n := to_upper (trim name) in
  if null n then Throw
  else match find (fun e => str_eqb (snd e) n) solver_names with
       | Some e => Ok (fst e)
       | None => Throw
       end.
Definition solver_to_str (s : solver) : outcome str :=
  match find (fun e => solver_eqb (fst e) s) solver_names with
  | Some e => Ok (snd e)
  | None => Throw
  end.

(** ** CSV *)
(** CSVResultReader.h:22-34 LineItems; [D k] is the displacement of position [k]
    in DX, DY, DZ, DRX, DRY, DRZ (CSVResultReader.cpp:155-162). *)
Inductive item := RESULT | NODE | NUM_ORD | TIME | D (k : nat) | UNUSED.
(** CSVResultReader.cpp:67-74: the names, in the order they are tried. *)
Definition item_names : list (str * item) :=
  [(txt "RESULTAT", RESULT); (txt "NUME_ORDRE", NUM_ORD); (txt "INST", TIME); (txt "NOEUD", NODE);
   (txt "DX", D 0); (txt "DY", D 1); (txt "DZ", D 2); (txt "DRX", D 3); (txt "DRY", D 4); (txt "DRZ", D 5)].

Definition cr : ascii := ascii_of_nat 13.
Definition quote : ascii := """"%char.
(** The qi::blank skipper, applied before each literal and character. *)
Definition skip_blank (l : str) : str := dropWhile is_blank l.

(** 76-77 column, when it does not begin with a quote: up to a comma or the end
    of the line, without its blanks.  A quoted column is not modelled ([UB]). *)
Fixpoint column_chars (l : str) : str * str :=
  match l with
  | [] => ([], [])
  | c :: r =>
      if Ascii.eqb c "," || Ascii.eqb c newline then ([], l)
      else let '(v, rest) := column_chars r in (if is_blank c then v else c :: v, rest)
  end.
Definition column (l : str) : outcome (str * str) :=
  if starts quote l then UB else Ok (column_chars l).

(** 67-74 header_cell: the first literal that begins the text, else a column. *)
Definition header_cell (l : str) : outcome (item * str) :=
  let t := skip_blank l in
  match find (fun e => has_prefix (fst e) t) item_names with
  | Some (name, it) => Ok (it, skipn (length name) t)
  | None => do vr <- column l; Ok (UNUSED, snd vr)
  end.

(** A list separated by commas (header, line); each step reads a comma. *)
Fixpoint comma_list {A} (cell : str -> outcome (A * str)) (fuel : nat) (l : str) : outcome (list A * str) :=
  match fuel with
  | O => NoFuel
  | S fuel =>
      do x <- cell l;
      let '(v, r) := x in
      match skip_blank r with
      | c :: r' => if Ascii.eqb c "," then do y <- comma_list cell fuel r'; Ok (v :: fst y, snd y) else Ok ([v], r)
      | [] => Ok ([v], r)
      end
  end.

(** qi::eol. *)
Definition eol (l : str) : option str :=
  match l with
  | c :: r =>
      if Ascii.eqb c newline then Some r
      else if Ascii.eqb c cr then match r with c' :: r' => if Ascii.eqb c' newline then Some r' else Some r | [] => Some r end
      else None
  | [] => None
  end.

(** 78 comment, any number; the end of the line after "#" is required (">"
    throws expectation_failure). *)
Fixpoint comments (fuel : nat) (l : str) : outcome str :=
  match fuel with
  | O => NoFuel
  | S fuel =>
      if starts "#" l then
        match after_first newline l with
        | Some r => comments fuel r
        | None => Throw
        end
      else match eol l with
           | Some r => comments fuel r
           | None => Ok l
           end
  end.

Section Csv.
  (** std::atof, and the value 0. *)
  Context {V : Type} (atof : str -> V) (zero : V).
  (** NodalDisplacementAssertion: objective set (the result number), node,
      displacement, value, instant. *)
  Record assertion := mkAssertion { result : Z; node : Z; dof : nat; value : V; instant : V }.

  (** 84-124 convertFunc, first loop: result number, node, time; [None] when the
      row is dropped (108-111).  The step number is read and not used. *)
  Definition unavailable_node : Z := INT_MAX32.
  Fixpoint scan (cells : list (item * str)) (st : Z * Z * V) : outcome (option (Z * Z * V)) :=
    let '(res, nod, tim) := st in
    match cells with
    | [] => Ok (Some st)
    | (it, c) :: r =>
        match it with
        | RESULT => if has_prefix (txt "RESU") c then do n <- stoi (skipn 4 c); scan r (n, nod, tim) else Ok None
        | NODE => match c with [] => Throw | _ :: c' => do n <- stoi c'; scan r (res, n, tim) end
        | NUM_ORD => do n <- stoi c; scan r st
        | TIME => scan r (res, nod, atof c)
        | _ => scan r st
        end
    end.
  (** 125-147: one assertion for each displacement column. *)
  Fixpoint assertions (cells : list (item * str)) (st : Z * Z * V) : outcome (list assertion) :=
    let '(res, nod, tim) := st in
    match cells with
    | [] => Ok []
    | (D k, c) :: r =>
        if (nod =? unavailable_node)%Z then UB
        else do l <- assertions r st; Ok (mkAssertion res nod k (atof c) tim :: l)
    | _ :: r => assertions r st
    end.
  (** 84-147 convertFunc. *)
  Definition convert (header : list item) (columns : list str) : outcome (list assertion) :=
    if negb (length columns =? length header) then Ok []
    else
      do st <- scan (combine header columns) ((-1)%Z, unavailable_node, zero);
      match st with
      | None => Ok []
      | Some (res, nod, tim) =>
          if (res =? -1)%Z then UB else assertions (combine header columns) (res, nod, tim)
      end.

  (** 65, 75: the lines, each converted when it has been read. *)
  Fixpoint lines (fuel : nat) (header : list item) (l : str) : outcome (list assertion) :=
    match fuel with
    | O => NoFuel
    | S fuel =>
        do x <- comma_list column (S (length l)) l;
        do a <- convert header (fst x);
        match eol (skip_blank (snd x)) with
        | Some r => do b <- lines fuel header r; Ok (a ++ b)
        | None => Ok a
        end
    end.
  (** 65 start; 165-188 add_assertions: a failed parse only prints a message. *)
  Definition read_csv (l : str) : outcome (list assertion) :=
    do l <- comments (S (length l)) l;
    do h <- comma_list header_cell (S (length l)) l;
    match eol (skip_blank (snd h)) with
    | Some r => lines (S (length r)) (fst h) r
    | None => Ok []
    end.
End Csv.
Arguments assertion : clear implicits.
