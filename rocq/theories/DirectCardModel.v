(** Model of the matrices given term by term (executive commands K2GG, M2GG, B2GG and
    cards DMIG) and of the remaining cards of the Nastran reader that list values at nodes
    or sets: SPCD, SLOAD, TEMP, SET1, SET3, SPCADD, BSURF, BCGRID, BLSEG, BFRIC, BCONP,
    NLPARM.

    Reals are the exact decimals of the fields.  Warnings, which only print, and the place
    of the card in the file (setInputContext) are omitted. *)
From Coq Require Import Ascii String ZArith List Bool Arith.
From Verif Require Import Base TextModel TokenizerModel RealModel CardModel LoadCardModel DofModel CaseControlModel.
Import ListNotations.
Open Scope Z_scope.
Open Scope list_scope.

(** ** Matrices given term by term *)

(** Element.h StiffnessMatrix, MassMatrix, DampingMatrix. *)
Inductive mkind := Stiffness | Mass | Damping.
(** A call of MatrixElement::addComponent (Element.cpp:1052-1081): node number and component,
    twice, and the value. *)
Definition dentry := (Z * dof * Z * dof * decimal)%type.
(** A matrix: its kind and the calls of addComponent it received, oldest first (what they
    build is MatrixElementModel). *)
Record direct := mkDirect { d_kind : mkind; d_entries : list dentry }.
(** NastranParser.h directMatrixByName (std::map, the matrix named by its rank in the model)
    and the matrices of the model in the order of their creation. *)
Record dstate := mkDState { by_name : list (str * nat); matrices : list direct }.

Fixpoint find_name (n : str) (l : list (str * nat)) : option nat :=
  match l with
  | [] => None
  | (m, i) :: r => if str_eqb m n then Some i else find_name n r
  end.
(** std::map::insert: the first matrix of a name stays. *)
Definition insert_name (n : str) (i : nat) (l : list (str * nat)) : list (str * nat) :=
  match find_name n l with Some _ => l | None => l ++ [(n, i)] end.

(** NastranParser.cpp:355-359 (B2GG: a blank field is skipped), 391-395 and 424-430 (K2GG,
    M2GG: a blank field is an error): the fields after the keyword, put end to end. *)
Fixpoint joined (k : mkind) (fields : list str) : outcome str :=
  match fields with
  | [] => Ok []
  | f :: r =>
    let w := word f in
    if null w && match k with Damping => false | _ => true end then Throw else
    do l <- joined k r; Ok (w ++ l)
  end.
(** [istringstream iss(line); iss >> num] succeeds: a number in the range of int comes first. *)
Definition starts_int (l : str) : bool :=
  let '(neg, r) := take_sign (dropWhile is_space l) in
  let '(ds, _) := take_digits r in
  let v := if neg then - digits_val ds else digits_val ds in
  negb (null ds) && (INT_MIN32 <=? v) && (v <=? INT_MAX32).
(** NastranParser.cpp:355-388 (B2GG), 391-423 (K2GG), 424-457 (M2GG). *)
Definition select (k : mkind) (fields : list str) (st : dstate) : outcome dstate :=
  do l <- joined k fields;
  let line := trim l in
  if existsb (is_any_of [","; " "; "*"]%char) line then Throw else
  if starts_int line then Throw else
  Ok (mkDState (insert_name line (length (matrices st)) (by_name st)) (matrices st ++ [mkDirect k []])).
Definition select_all (cmds : list (mkind * list str)) (st : dstate) : outcome dstate :=
  foldM (fun st c => select (fst c) (snd c) st) cmds st.

(** Dof.h:127-158 [*(dofs.begin())]; at the end it is findByPosition(6), which is null. *)
Definition first_dof (s : dofs) : outcome dof :=
  do l <- dofs_iterate s; match l with d :: _ => Ok d | [] => UB end.
Definition code_dof (c : Z) : outcome dof := do s <- nastranCodeToDOFS c; first_dof s.

(** NastranParser.cpp:1459-1466. *)
Fixpoint dmig_loop (fuel : nat) (gj : Z) (dj : dof) (t : cursor) : outcome (list dentry) :=
  match fuel with
  | O => NoFuel
  | S fuel =>
    do isint <- isNextInt t;
    if isint then
      do r <- nextInt t; let '(g1, t) := r in
      do r <- nextInt t; let '(c1, t) := r in
      do d1 <- code_dof c1;
      do r <- nextDouble t; let '(a1, t) := r in
      do t <- skip 1 t;
      do l <- dmig_loop fuel gj dj t;
      Ok ((gj, dj, g1, d1, a1) :: l)
    else Ok []
  end.
Fixpoint upd {A} (l : list A) (i : nat) (f : A -> A) : list A :=
  match l, i with
  | [], _ => []
  | a :: r, O => f a :: r
  | a :: r, S i => a :: upd r i f
  end.
Definition push (es : list dentry) (m : direct) : direct := mkDirect (d_kind m) (d_entries m ++ es).

(** NastranParser.cpp:1396-1468 parseDMIG. *)
Definition parseDMIG (t : cursor) (st : dstate) : outcome dstate :=
  do r <- nextString t; let '(name, t) := r in
  if str_eqb name (txt "UACCEL") || str_eqb name (txt "CDSHUT") then Ok st else
  let it := find_name name (by_name st) in
  do r <- nextInt t; let '(headerIndicator, t) := r in
  if headerIndicator =? 0 then
    match it with
    | None => Ok st
    | Some _ =>
      do r <- nextInt t; let '(ifo, t) := r in
      if negb (ifo =? 6) then Throw else
      do r <- nextInt t; let '(tin, t) := r in
      if negb (tin =? 1) && negb (tin =? 2) then Throw else
      do r <- nextIntDefault 0 t; let '(tout, t) := r in
      if negb (tout =? 0) then Throw else
      do r <- nextIntDefault 0 t; let '(polar, t) := r in
      if negb (polar =? 0) then Throw else
      do t <- skip 1 t;
      do r <- nextIntDefault 0 t;
      Ok st
    end
  else
    match it with
    | None => Ok st
    | Some i =>
      do r <- nextInt t; let '(cj, t) := r in
      do dj <- code_dof cj;
      do t <- skip 1 t;
      do es <- dmig_loop (S (length (cvec t))) headerIndicator dj t;
      Ok (mkDState (by_name st) (upd (matrices st) i (push es)))
    end.
(** The DMIG cards of a deck, in order; field 0 is the keyword. *)
Definition read_dmigs (cards : list (list str)) (st : dstate) : outcome dstate :=
  foldM (fun st v => parseDMIG (mkCursor v 1 (if (length v <=? 1)%nat then KEYWORD else FIELD)) st) cards st.

(** ** Loads *)

(** NastranParser.cpp:3475-3486 parseSLOAD (magnitude along DX, no moment, no coordinate
    system). *)
Fixpoint sload_loop (fuel : nat) (set : Z) (t : cursor) : outcome (list nodal) :=
  match fuel with
  | O => NoFuel
  | S fuel =>
    do isint <- isNextInt t;
    if isint then
      do r <- nextInt t; let '(grid, t) := r in
      do r <- nextDouble t; let '(magnitude, t) := r in
      do l <- sload_loop fuel set t;
      Ok (mkNodal set grid 0 (magnitude, dzero, dzero) dvec0 :: l)
    else Ok []
  end.
Definition parseSLOAD (t : cursor) : outcome (list nodal) :=
  do r <- nextInt t; let '(set, t) := r in
  sload_loop (S (length (cvec t))) set t.

(** Loading.h ImposedDisplacement: set, node, components, value. *)
Record imposed := mkImposed { i_set : Z; i_node : Z; i_dofs : dofs; i_value : decimal }.
(** NastranParser.cpp:3562-3590 parseSPCD.  The decoding of the codes comes after the reading
    of every field. *)
Definition parseSPCD (t : cursor) : outcome (list imposed) :=
  do r <- nextInt t; let '(set, t) := r in
  do r <- nextInt t; let '(g1, t) := r in
  do r <- nextInt t; let '(c1, t) := r in
  do r <- nextDouble t; let '(d1, t) := r in
  do isint <- isNextInt t;
  do r <- (if isint then
             do r <- nextInt t; let '(g2, t) := r in
             do r <- nextInt t; let '(c2, t) := r in
             do r <- nextDouble t; let '(d2, t) := r in
             Ok (g2, c2, d2)
           else Ok (-1, -1, (-1, 0)));
  let '(g2, c2, d2) := r in
  do s1 <- nastranCodeToDOFS c1;
  if negb (g2 =? -1) && negb (c2 =? -1) then
    do s2 <- nastranCodeToDOFS c2;
    Ok [mkImposed set g1 s1 d1; mkImposed set g2 s2 d2]
  else Ok [mkImposed set g1 s1 d1].

(** NastranParser.cpp:3780-3809 parseTEMP: set, node, temperature of each InitialTemperature. *)
Definition temp_pair (set : Z) (t : cursor) : outcome (list (Z * Z * decimal) * cursor) :=
  do isint <- isNextInt t;
  if isint then
    do r <- nextInt t; let '(g, t) := r in
    do r <- nextDouble t; let '(v, t) := r in
    Ok ([(set, g, v)], t)
  else Ok ([], t).
Definition parseTEMP (t : cursor) : outcome (list (Z * Z * decimal)) :=
  do r <- nextInt t; let '(set, t) := r in
  do r <- nextInt t; let '(g1, t) := r in
  do r <- nextDouble t; let '(t1, t) := r in
  do r <- temp_pair set t; let '(l2, t) := r in
  do r <- temp_pair set t; let '(l3, _) := r in
  Ok ((set, g1, t1) :: l2 ++ l3).

(** ** Sets *)

(** A number and a list of numbers: NastranParser.cpp:3434-3441 parseSET1 (the list then goes
    into a std::set), 1030-1035 parseBCGRID, 1037-1042 parseBLSEG, 1052-1061 parseBSURF (the
    cells of the group BSURF_id). *)
Definition parse_list (t : cursor) : outcome (Z * list Z) :=
  do r <- nextInt t; let '(id, t) := r in
  do r <- nextInts t; let '(ids, _) := r in Ok (id, ids).

Inductive set3 := NodeSet (id : Z) (ids : list Z) | CellSet (id : Z) (ids : list Z).
(** NastranParser.cpp:3443-3470 parseSET3; the group is named "SET3_" followed by the number. *)
Definition parseSET3 (t : cursor) : outcome set3 :=
  do r <- nextInt t; let '(sid, t) := r in
  do r <- nextString t; let '(des, t) := r in
  if str_eqb des (txt "GRID") then do r <- nextInts t; Ok (NodeSet sid (fst r))
  else if str_eqb des (txt "ELEM") then do r <- nextInts t; Ok (CellSet sid (fst r))
  else Throw.

(** The SPC constraint sets of the model: number and references to other SPC sets, in the
    order of creation. *)
Definition spcsets := list (Z * list Z).
Fixpoint has_set (id : Z) (l : spcsets) : bool :=
  match l with [] => false | (i, _) :: r => (i =? id) || has_set id r end.
Fixpoint refer (id : Z) (j : Z) (l : spcsets) : spcsets :=
  match l with
  | [] => []
  | (i, js) :: r => if i =? id then (i, js ++ [j]) :: r else (i, js) :: refer id j r
  end.
(** NastranParser.cpp:3532-3560 parseSPCADD. *)
Fixpoint spcadd_loop (fuel : nat) (id : Z) (t : cursor) (l : spcsets) : outcome spcsets :=
  match fuel with
  | O => NoFuel
  | S fuel =>
    do isint <- isNextInt t;
    if isint then
      do r <- nextInt t; let '(j, t) := r in
      let l := if has_set j l then l else l ++ [(j, [])] in
      spcadd_loop fuel id t (refer id j l)
    else Ok l
  end.
Definition parseSPCADD (t : cursor) (l : spcsets) : outcome spcsets :=
  do r <- nextInt t; let '(id, t) := r in
  if has_set id l then spcadd_loop (S (length (cvec t))) id t l else Throw.

(** ** Contact lines, increments *)

(** NastranParser.cpp:1063-1073 parseBFRIC: number and value of a ScalarValue. *)
Definition parseBFRIC (t : cursor) : outcome (Z * decimal) :=
  do r <- nextInt t; let '(fid, t) := r in
  do t <- skip 2 t;
  do r <- nextDouble t; let '(fstif, t) := r in
  if isEmptyUntilNextKeyword t then Ok (fid, fstif) else Throw.
(** Constraint.h SlideContact: its number, the friction value and the node lines it names. *)
Record slide := mkSlide { s_id : Z; s_friction : Z; s_master : Z; s_slave : Z }.
(** NastranParser.cpp:1115-1136 parseBCONP. *)
Definition parseBCONP (t : cursor) : outcome slide :=
  do r <- nextInt t; let '(id, t) := r in
  do r <- nextInt t; let '(slaveId, t) := r in
  do r <- nextInt t; let '(masterId, t) := r in
  do t <- skip 1 t;
  do r <- nextDoubleDefault (1, 0) t; let '(sfact, t) := r in
  do r <- nextInt t; let '(fricid, t) := r in
  do r <- nextIntDefault 1 t; let '(ptype, t) := r in
  do r <- nextInt t; let '(cid, t) := r in
  if isEmptyUntilNextKeyword t then Ok (mkSlide id fricid masterId slaveId) else Throw.
(** NastranParser.cpp:2069-2083 parseNLPARM: objective set, number of increments. *)
Definition parseNLPARM (t : cursor) : outcome (Z * Z) :=
  do r <- nextInt t; let '(sid, t) := r in
  do r <- nextIntDefault 10 t;
  Ok (sid, fst r).
