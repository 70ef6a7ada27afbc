(** Model of constraint and mass cards: how the Nastran parser reads their
    fields and how the Nastran writer fills them. *)
From Coq Require Import Ascii String ZArith List Bool Arith.
From Verif Require Import Base DofModel TextModel TokenizerModel RealModel.
Import ListNotations.
Open Scope nat_scope.
Open Scope list_scope.

(** NastranTokenizer.cpp:250-257, isNextDouble. *)
Definition double_chars : str := txt "-+0123456789.eEdD".
Definition isNextDouble (t : cursor) : outcome bool :=
  peek_field t (fun f => let f := erase_char " " f in
                         negb (null f) && forallb (fun c => TextModel.contains c double_chars) f).
(** NastranTokenizer.cpp:272-284, isEmptyUntilNextKeyword. *)
Definition isEmptyUntilNextKeyword (t : cursor) : bool :=
  match csym t with
  | FIELD => forallb (fun f => null (trim f)) (skipn (ccur t) (cvec t))
  | _ => true
  end.

(** ** MPC *)

(** A call of addParticipation (Constraint.cpp:542-550): node, the DOFs that get
    the coefficient (the others get 0), coefficient. *)
Record participation := mkPart { pnode : Z; pdofs : dofs; pcoef : decimal }.

(** NastranParser.cpp:2046-2068, parseMPC: the set and the participations in
    order.  [fuel] exceeds the number of fields. *)
Fixpoint mpc_loop (fuel : nat) (i : nat) (t : cursor) : outcome (list participation * cursor) :=
  match fuel with
  | O => NoFuel
  | S fuel =>
    do isint <- isNextInt t;
    if isint then
      do r <- nextInt t; let '(g1, t) := r in
      do r <- nextInt t; let '(c1, t) := r in
      do r <- nextDouble t; let '(a1, t) := r in
      do ds <- nastranCodeToDOFS c1;
      let i := i + 3 in
      do it <- (if (i mod 8 =? 0) && negb (isEmptyUntilNextKeyword t)
                then do t <- skip 2 t; Ok (i + 2, t) else Ok (i, t));
      let '(i, t) := it in
      do r <- mpc_loop fuel i t; let '(l, t) := r in
      Ok (mkPart g1 ds a1 :: l, t)
    else Ok ([], t)
  end.
Definition parseMPC (t : cursor) : outcome (Z * list participation) :=
  do r <- nextInt t; let '(set_id, t) := r in
  do r <- mpc_loop (S (length (cvec t))) 2 t;
  Ok (set_id, fst r).

(** NastranWriter.cpp:499-515: the fields of the MPC card.  A term is a node, a
    DOF and the text of its (non-zero) coefficient; note that the two blank
    fields are not counted in [fieldNum]. *)
Definition term := (Z * dof * str)%type.
Fixpoint mpc_fields (fieldNum : nat) (ts : list term) : list str :=
  match ts with
  | [] => []
  | (g, d, a) :: r =>
    (if fieldNum mod 8 =? 0 then [[]; []] else []) ++
    [int_text g; int_text (nastran_digit d); a] ++ mpc_fields (fieldNum + 3) r
  end.
Definition write_mpc (set_id : Z) (ts : list term) : list str := int_text set_id :: mpc_fields 2 ts.

(** ** CONM1 *)

(** NastranParser.cpp:1178-1207: the loop filling the (symmetric) mass matrix;
    [break] leaves the inner loop only.  The coordinate system and the cell are
    not modelled. *)
Fixpoint conm1_cols (cols : list Z) (rowdof : dof) (m : dofmatrix decimal) (t : cursor)
  : outcome (dofmatrix decimal * cursor) :=
  match cols with
  | [] => Ok (m, t)
  | col :: r =>
    do coldof <- findByPosition col;
    do isd <- isNextDouble t;
    if isd then
      do vt <- nextDoubleDefault (0, 0)%Z t; let '(v, t) := vt in
      do m <- addComponent (fun d : decimal => fst d =? 0)%Z m rowdof coldof v;
      conm1_cols r rowdof m t
    else Ok (m, t)
  end.
Definition conm1_rows (m : dofmatrix decimal) (t : cursor) : outcome (dofmatrix decimal * cursor) :=
  foldM (fun mt row => let '(m, t) := mt in
           do rowdof <- findByPosition row; conm1_cols (upto (row + 1)) rowdof m t)
        (upto 5) (m, t).
Definition parseCONM1 (t : cursor) : outcome (Z * Z * dofmatrix decimal) :=
  do r <- nextInt t; let '(eid, t) := r in
  do r <- nextInt t; let '(g, t) := r in
  do r <- nextIntDefault 0 t; let '(ci, t) := r in
  do r <- conm1_rows (newMatrix SYMMETRIC) t;
  Ok (eid, g, fst r).

(** NastranWriter.cpp:845-856: the fields of a CONM1 card; [text] prints a real. *)
Definition write_conm1 {V} (vzero : V) (text : V -> str) (id node : Z) (m : dofmatrix V) : outcome (list str) :=
  do rows <- mapM (fun row =>
      do rowdof <- findByPosition row;
      mapM (fun col => do coldof <- findByPosition col; Ok (text (findComponent vzero m rowdof coldof))) (upto row))
    (upto 5);
  Ok (int_text id :: int_text node :: int_text 0 :: concat rows).

(** ** RBE2, RBE3, SPC1 *)

(** [while (tok.isNextInt()) ... tok.nextInt()]. *)
Fixpoint int_loop (fuel : nat) (t : cursor) : outcome (list Z * cursor) :=
  match fuel with
  | O => NoFuel
  | S fuel =>
    do isint <- isNextInt t;
    if isint then do r <- nextInt t; let '(n, t) := r in
                  do r <- int_loop fuel t; let '(l, t) := r in Ok (n :: l, t)
    else Ok ([], t)
  end.

(** NastranParser.cpp:3165-3185, parseRBE2: id, master, DOFs, slaves in order
    (the thermal expansion field is read and dropped). *)
Definition parseRBE2 (t : cursor) : outcome (Z * Z * dofs * list Z) :=
  do r <- nextInt t; let '(original_id, t) := r in
  do r <- nextInt t; let '(masterId, t) := r in
  do r <- nextInt t; let '(cm, t) := r in
  do ds <- nastranCodeToDOFS cm;
  do r <- int_loop (S (length (cvec t))) t; let '(slaves, t) := r in
  do r <- nextDoubleDefault (0, 0)%Z t;
  Ok (original_id, masterId, ds, slaves).
(** NastranWriter.cpp:456-467 (and 429-440 with all DOFs): the fields of RBE2. *)
Definition write_rbe2 (id master : Z) (ds : dofs) (slaves : list Z) : outcome (list str) :=
  do code <- nastranCode ds;
  Ok (int_text id :: int_text master :: int_text code :: map int_text slaves).

(** NastranParser.cpp:3187-3206, parseRBE3: id, reference node, its DOFs, and
    the calls of addRBE3Slave in order (node, DOFs, weight). *)
Fixpoint rbe3_loop (fuel : nat) (t : cursor) : outcome (list (Z * dofs * decimal)) :=
  match fuel with
  | O => NoFuel
  | S fuel =>
    do isd <- isNextDouble t;
    if isd then
      do r <- nextDouble t; let '(coef, t) := r in
      do r <- nextInt t; let '(code, t) := r in
      do sdofs <- nastranCodeToDOFS code;
      do r <- int_loop (S (length (cvec t))) t; let '(slaves, t) := r in
      do l <- rbe3_loop fuel t;
      Ok (map (fun s => (s, sdofs, coef)) slaves ++ l)
    else Ok []
  end.
Definition parseRBE3 (t : cursor) : outcome (Z * Z * dofs * list (Z * dofs * decimal)) :=
  do r <- nextInt t; let '(original_id, t) := r in
  do t <- skip 1 t;
  do r <- nextInt t; let '(masterId, t) := r in
  do r <- nextInt t; let '(code, t) := r in
  do ds <- nastranCodeToDOFS code;
  do l <- rbe3_loop (S (length (cvec t))) t;
  Ok (original_id, masterId, ds, l).
(** NastranWriter.cpp:473-489: the fields of RBE3; [master] is the number
    printed for the reference node and [masterDofs] the DOFs printed for it (see
    the property about the double translation of that number). *)
Definition write_rbe3 (id master : Z) (masterDofs : dofs) (slaves : list (Z * dofs * str)) : outcome (list str) :=
  do code <- nastranCode masterDofs;
  do l <- mapM (fun s => let '(n, ds, w) := s in do c <- nastranCode ds; Ok [w; int_text c; int_text n]) slaves;
  Ok (int_text id :: [] :: int_text master :: int_text code :: concat l).

(** NastranParser.cpp:3512-3531, parseSPC1: set, DOFs, nodes. *)
Definition parseSPC1 (t : cursor) : outcome (Z * dofs * list Z) :=
  do r <- nextInt t; let '(set_id, t) := r in
  do r <- nextInt t; let '(dofInt, t) := r in
  do ds <- nastranCodeToDOFS dofInt;
  do r <- nextInts t;
  Ok (set_id, ds, fst r).
(** NastranWriter.cpp:419-424: one card per node. *)
Definition write_spc1 (set_id : Z) (ds : dofs) (node : Z) : outcome (list str) :=
  do code <- nastranCode ds; Ok [int_text set_id; int_text code; int_text node].

(** Constraint.cpp:415-421 and 431-440: a single point constraint holds a value
    or nothing for each DOF (references to functions are not modelled);
    getDOFSForNode, lines 442-452, is the set of the DOFs with a value. *)
Definition spc := dof -> option decimal.
Definition spc_make (ds : dofs) (v : decimal) : spc := fun d => if DofModel.contains ds d then Some v else None.
Definition is_some {A} (o : option A) : bool := match o with Some _ => true | None => false end.
Definition spc_dofs (s : spc) : dofs :=
  combineCodes (is_some (s DX)) (is_some (s DY)) (is_some (s DZ)) (is_some (s RX)) (is_some (s RY)) (is_some (s RZ)).
(** NastranParser.cpp:3488-3510, parseSPC: the set and the calls (node, constraint)
    in order; [UNAVAILABLE_INT] (INT_MIN) is the value of a blank field. *)
Fixpoint spc_loop (fuel : nat) (t : cursor) : outcome (list (Z * spc)) :=
  match fuel with
  | O => NoFuel
  | S fuel =>
    match csym t with
    | FIELD =>
      do r <- nextIntDefault INT_MIN32 t; let '(nodeId, t) := r in
      if (nodeId =? INT_MIN32)%Z then spc_loop fuel t
      else
        do r <- nextIntDefault 123456 t; let '(gi, t) := r in
        do r <- nextDoubleDefault (0, 0)%Z t; let '(v, t) := r in
        do ds <- nastranCodeToDOFS gi;
        do l <- spc_loop fuel t;
        Ok ((nodeId, spc_make ds v) :: l)
    | _ => Ok []
    end
  end.
Definition parseSPC (t : cursor) : outcome (Z * list (Z * spc)) :=
  do r <- nextInt t; let '(set_id, t) := r in
  do l <- spc_loop (S (length (cvec t))) t;
  Ok (set_id, l).
(** NastranWriter.cpp:416-425: the SPC1 card of a node. *)
Definition write_spc (set_id : Z) (s : spc) (node : Z) : outcome (list str) := write_spc1 set_id (spc_dofs s) node.

(** NastranWriter.cpp:479-481: the number and the DOFs printed for the reference
    node of an RBE3 in position [p]; [ids] lists the node identifiers by
    position.  The identifier found is looked up again as a position (outside
    the list: undefined behaviour), and asked for as a position to
    RBE3::getDOFSForNode (Constraint.cpp:386-398; [slaveDofs] by position). *)
Definition rbe3_reference (ids : list Z) (p : nat) (masterDofs : dofs) (slaveDofs : list (Z * dofs)) : outcome (Z * dofs) :=
  do masterPosition <- of_option (nth_error ids p);
  do n <- (if (masterPosition <? 0)%Z then UB else of_option (nth_error ids (Z.to_nat masterPosition)));
  let ds := if (masterPosition =? Z.of_nat p)%Z then masterDofs
            else match find (fun s => fst s =? masterPosition)%Z slaveDofs with Some s => snd s | None => ALL_DOFS end in
  Ok (n, ds).
