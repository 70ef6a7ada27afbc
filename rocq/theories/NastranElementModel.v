(** Elements of the Nastran files: the cards of solids and shells as they are read
    (NastranParser_geometry.cpp), and the cards of all the elements as the Nastran
    writer prints them (NastranWriter.cpp, writeCells).  The node orders are those
    of ConnectModel, bars and beams are read as in OrientModel. *)
From Coq Require Import Ascii String QArith ZArith List Bool Arith.
From Verif Require Import Base TextModel TokenizerModel RealModel WriterLineModel CardModel LoadCardModel PropCardModel MeshNodeModel MeshCellModel ConnectModel OrientModel.
Import ListNotations.
Open Scope Z_scope.
Open Scope list_scope.

(** ** Reading *)
(** A cell given to the mesh: number, property, type, nodes in the internal order,
    offset of a shell (0 for a solid). *)
Record element := mkElement { e_id : Z; e_property : Z; e_type : ctype; e_nodes : list Z; e_offset : decimal }.

(** NastranParser_geometry.cpp:424-458, parseElem, from the fields of the card. *)
Definition read_solid (ts : list ctype) (t : cursor) : outcome (element * cursor) :=
  do r <- nextInt t; let '(id, t) := r in
  do r <- nextIntDefault id t; let '(pid, t) := r in
  do r <- nextInts t; let '(card, t) := r in
  do c <- parseElem ts card; let '(ty, med) := c in
  Ok (mkElement id pid ty med (0, 0), t).

(** [n] reals that may be missing: the thicknesses at the nodes, announced and
    ignored. *)
Fixpoint thicknesses (n : nat) (t : cursor) : outcome cursor :=
  match n with
  | O => Ok t
  | S n => do r <- optional_double t; let '(_, t) := r in thicknesses n t
  end.
(** NastranParser_geometry.cpp:562-653, parseShellElem.  Angle, flag and
    thicknesses are announced and ignored. *)
Definition read_shell (ty : ctype) (t : cursor) : outcome (element * cursor) :=
  do r <- nextInt t; let '(id, t) := r in
  do r <- nextIntDefault id t; let '(pid, t) := r in
  do r <- ints (numNodes ty) t; let '(nodes, t) := r in
  do r <-
    match ty with
    | TRI3 =>
      do r <- nextDoubleDefault (0, 0) t; let '(_, t) := r in
      do r <- nextDoubleDefault (0, 0) t; let '(zoffs, t) := r in
      do t <- skip 2 t;
      do r <- nextIntDefault 0 t; let '(_, t) := r in
      do t <- thicknesses 3 t; Ok (zoffs, t)
    | QUAD4 =>
      do r <- nextDoubleDefault (0, 0) t; let '(_, t) := r in
      do r <- nextDoubleDefault (0, 0) t; let '(zoffs, t) := r in
      do t <- skip 1 t;
      do r <- nextIntDefault 0 t; let '(_, t) := r in
      do t <- thicknesses 4 t; Ok (zoffs, t)
    | TRI6 =>
      do r <- nextDoubleDefault (0, 0) t; let '(_, t) := r in
      do r <- nextDoubleDefault (0, 0) t; let '(zoffs, t) := r in
      do t <- thicknesses 3 t;
      do r <- nextIntDefault 0 t; let '(_, t) := r in Ok (zoffs, t)
    | QUAD8 =>
      do t <- thicknesses 4 t;
      do r <- nextDoubleDefault (0, 0) t; let '(_, t) := r in
      do r <- nextDoubleDefault (0, 0) t; let '(zoffs, t) := r in
      do r <- nextIntDefault 0 t; let '(_, t) := r in Ok (zoffs, t)
    | _ => Throw
    end;
  let '(zoffs, t) := r in
  Ok (mkElement id pid ty nodes zoffs, t).

(** NastranParser.cpp:55-86: the handlers of the keywords of solids, shells, bars
    and beams. *)
Inductive handler := HSolid (ts : list ctype) | HShell (ty : ctype) | HBar | HBeam.
Definition handlers : list (string * handler) :=
  [("CBAR", HBar); ("CBEAM", HBeam);
   ("CIHEX1", HSolid [HEXA8; HEXA20]); ("CIHEX2", HSolid [HEXA8; HEXA20]); ("CHEXA", HSolid [HEXA8; HEXA20]);
   ("CPENTA", HSolid [PENTA6; PENTA15]); ("CPYRA", HSolid [PYRA5; PYRA13]); ("CPYRAM", HSolid [PYRA5; PYRA13]);
   ("CQUAD", HSolid [QUAD4; QUAD8; QUAD9]); ("CQUAD4", HShell QUAD4); ("CQUAD8", HShell QUAD8); ("CQUADR", HShell QUAD4);
   ("CTETRA", HSolid [TETRA4; TETRA10]); ("CTRIA3", HShell TRI3); ("CTRIA6", HShell TRI6); ("CTRIAR", HShell TRI3)]%string.
Fixpoint handler_of (hs : list (string * handler)) (kw : str) : option handler :=
  match hs with
  | [] => None
  | (k, h) :: r => if str_eqb kw (txt k) then Some h else handler_of r kw
  end.
(** What a card makes: an element, or a segment with its direction. *)
Inductive made := Cell (e : element) | Bar (s : segment).
Definition read_card (card : list str) : outcome (list made) :=
  match card with
  | [] => Ok []
  | kw :: _ =>
    let t := mkCursor card 1 (if (length card <=? 1)%nat then KEYWORD else FIELD) in
    match handler_of handlers kw with
    | Some (HSolid ts) => do r <- read_solid ts t; Ok [Cell (fst r)]
    | Some (HShell ty) => do r <- read_shell ty t; Ok [Cell (fst r)]
    | Some HBar => do r <- parseCBAR t; Ok [Bar (fst (fst r))]
    | Some HBeam => do r <- parseCBEAM t; Ok [Bar (fst (fst r))]
    | None => Ok []
    end
  end.
(** NastranParser.cpp:536-570, parseBULKSection: a card that throws is dismissed;
    the others are read.  (Fields left over are announced, the object stays.) *)
Definition read_elements (cards : list (list str)) : outcome (list made) :=
  do l <- mapM (fun c => match read_card c with Throw => Ok [] | x => x end) cards; Ok (concat l).

(** ** Writing *)
(** Sets of elements by what writeCells asks of them: isBeam, isTruss, isDiscrete,
    isShell, the type CONTINUUM, isMatrixElement; the others (masses, rigid
    bodies, skins...). *)
Inductive skind := SBeam | STruss | SDiscrete | SShell | SContinuum | SMatrix | SOther.
Definition is_beam (k : skind) : bool := match k with SBeam => true | _ => false end.
Definition is_shell (k : skind) : bool := match k with SShell => true | _ => false end.
(** A cell of the mesh: number, type, nodes in the internal order, offset, vector
    of its orientation if it has one. *)
Record wcell := mkWcell { wc_id : Z; wc_type : ctype; wc_nodes : list Z; wc_offset : wreal; wc_vector : option wvec }.
(** A set: what it is, bestId, bestId of its material, cells by position. *)
Record wset := mkWset { ws_kind : skind; ws_id : Z; ws_material : Z; ws_cells : list wcell }.

(** NastranWriter.cpp:252-325: the keyword.  None: a type that is not foreseen
    (an error when [strict], otherwise announced, the keyword stays empty). *)
Definition keyword_of (cosmic : bool) (k : skind) (ty : ctype) : option str :=
  match k with
  | SBeam => Some (txt (if cosmic then "CBAR" else "CBEAM"))
  | SDiscrete => match ty with SEG2 => Some (txt "CBUSH") | _ => Some [] end
  | SShell =>
    match ty with
    | TRI3 => Some (txt "CTRIA3") | TRI6 => Some (txt "CTRIA6") | QUAD4 => Some (txt "CQUAD4") | QUAD8 => Some (txt "CQUAD8")
    | _ => None
    end
  | SContinuum =>
    if cosmic then
      match ty with
      | HEXA8 => Some (txt "CIHEX1") | HEXA20 => Some (txt "CIHEX2")
      | TETRA4 | TETRA10 => Some (txt "CTETRA") | PENTA6 | PENTA15 => Some (txt "CPENTA") | PYRA5 | PYRA13 => Some (txt "CPYRA")
      | _ => None
      end
    else
      match ty with
      | TRI3 => Some (txt "CTRIA3") | TRI6 => Some (txt "CTRIA6") | QUAD4 => Some (txt "CQUAD4") | QUAD8 => Some (txt "CQUAD8")
      | HEXA8 | HEXA20 => Some (txt "CHEXA")
      | TETRA4 | TETRA10 => Some (txt "CTETRA") | PENTA6 | PENTA15 => Some (txt "CPENTA") | PYRA5 | PYRA13 => Some (txt "CPYRA")
      | _ => None
      end
  | STruss | SMatrix | SOther => Some []
  end.
Definition is_tetra (ty : ctype) : bool := match ty with TETRA4 | TETRA10 => true | _ => false end.

(** NastranWriter.cpp:251-362: the card of a cell, keyword and fields. *)
Definition write_cell (tie cosmic strict : bool) (s : wset) (c : wcell) : outcome (str * list str) :=
  do kw <- match keyword_of cosmic (ws_kind s) (wc_type c) with
           | Some kw => Ok kw
           | None => if strict then Throw else Ok []
           end;
  do nodes <- write_connect (wc_type c) (wc_nodes c);
  let property := if cosmic && is_tetra (wc_type c) then ws_material s else ws_id s in
  let fields := int_text (wc_id c) :: int_text property :: map int_text nodes in
  Ok (kw, fields ++
          match is_beam (ws_kind s), wc_vector c with
          | true, Some v => vec_fields tie v ++ [if cosmic then txt "1" else []]
          | _, _ => if is_shell (ws_kind s) then [[]; real_field tie (wc_offset c)] else []
          end).
(** NastranWriter.cpp:245-367: the cards of all the sets, in order. *)
Definition write_cells (tie cosmic strict : bool) (sets : list wset) : outcome (list (str * list str)) :=
  do l <- mapM (fun s => match ws_kind s with
                         | SMatrix => Ok []
                         | _ => mapM (write_cell tie cosmic strict s) (ws_cells s)
                         end) sets;
  Ok (concat l).
