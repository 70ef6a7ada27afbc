(** Model of surfaces in contact: the cards BSSEG, BSCONP, BCBODY and BCTABLE
    (Nastran/NastranParser.cpp), the cells made for them (Abstract/Constraint.cpp:812-856), the
    skin of element faces (Abstract/Target.cpp:96-120) and the bodies of a contact zone. *)
From Coq Require Import Ascii String ZArith List Bool Arith.
From Verif Require Import Base ZMap TextModel TokenizerModel CardModel LoadCardModel DofModel MeshNodeModel MeshCellModel MeshGroupModel FaceModel OptistructModel SegmentModel.
Import ListNotations.
Open Scope Z_scope.
Open Scope list_scope.

(** ** Cards *)

(** NastranParser.cpp:1046-1051 parseBSSEG: the number and the nodes of a BoundaryNodeSurface. *)
Definition parseBSSEG (t : cursor) : outcome (Z * list Z) :=
  do r <- nextInt t; let '(id, t) := r in
  do r <- nextInts t; let '(ids, _) := r in Ok (id, ids).

(** Constraint.h SurfaceContact: its number and the numbers of its two node surfaces. *)
Record bsconp := mkBsconp { b_id : Z; b_master : Z; b_slave : Z }.
(** NastranParser.cpp:1137-1152 parseBSCONP; the error is raised before anything is made. *)
Definition parseBSCONP (t : cursor) : outcome bsconp :=
  do r <- nextInt t; let '(id, t) := r in
  do r <- nextInt t; let '(slave, t) := r in
  do r <- nextInt t; let '(master, t) := r in
  if isEmptyUntilNextKeyword t then Ok (mkBsconp id master slave) else Throw.

(** NastranParser.cpp:1014-1029 parseBCBODY: the number of the ContactBody and that of its
    boundary, a BoundarySurface. *)
Definition parseBCBODY (t : cursor) : outcome (Z * Z) :=
  do r <- nextInt t; let '(bid, t) := r in
  do r <- nextStringDefault (txt "3D") t; let '(dim, t) := r in
  if negb (str_eqb dim (txt "3D")) then Throw else
  do r <- nextStringDefault (txt "DEFORM") t; let '(behav, t) := r in
  if negb (str_eqb behav (txt "DEFORM")) then Throw else
  do r <- nextInt t; let '(bsid, t) := r in
  if isEmptyUntilNextKeyword t then Ok (bid, bsid) else Throw.

(** Target.h:35-45 the kinds of target a reference may name. *)
Inductive tkind := BOUNDARY_SURFACE | CONTACT_BODY.
(** ZoneContact: the references to its master and to its slave. *)
Record zone := mkZone { z_master : tkind * Z; z_slave : tkind * Z }.

(** NastranParser.cpp:1090-1107, the groups of a BCTABLE.  [boost::to_upper_copy] of a word
    that nextString gives in capitals. *)
Fixpoint table_groups (n : nat) (t : cursor) : outcome (list zone * cursor) :=
  match n with
  | O => Ok ([], t)
  | S n =>
    do t <- skipToNotEmpty t;
    do r <- nextString t; let '(w, t) := r in
    if negb (str_eqb w (txt "SLAVE")) then Throw else
    do r <- nextIntDefault 0 t; let '(slave, t) := r in
    do t <- skipToNotEmpty t;
    do r <- nextString t; let '(w, t) := r in
    if negb (str_eqb w (txt "MASTERS")) then Throw else
    do r <- nextIntDefault 0 t; let '(master, t) := r in
    do e <- isNextEmpty 1 t;
    if negb (e || isEmptyUntilNextKeyword t) then Throw else
    do r <- table_groups n t; let '(l, t) := r in
    Ok (mkZone (BOUNDARY_SURFACE, master) (BOUNDARY_SURFACE, slave) :: l, t)
  end.
(** NastranParser.cpp:1075-1111 parseBCTABLE: the set and the zones of a card without error.
    What a card in error leaves behind is not modelled. *)
Definition parseBCTABLE (t : cursor) : outcome (Z * list zone) :=
  do r <- nextInt t; let '(sid, t) := r in
  do r <- nextIntDefault 0 t; let '(slave, t) := r in
  do r <- nextIntDefault 0 t; let '(master, t) := r in
  let first := if negb (slave =? 0) && negb (master =? 0) then [mkZone (BOUNDARY_SURFACE, master) (BOUNDARY_SURFACE, slave)] else [] in
  do r <- nextIntDefault 0 t; let '(n, t) := r in
  do r <- table_groups (Z.to_nat n) t; let '(l, t) := r in
  if isEmptyUntilNextKeyword t then Ok (sid, first ++ l) else Throw.

(** ** Contact zones *)

(** Target.h:58-147: a BoundarySurface with the nodes of its cells, or a ContactBody with the
    reference to its boundary (BCBODY makes it of kind BOUNDARY_SURFACE, NastranParser.cpp:1026). *)
Inductive target := Surface (id : Z) (nodes : list nat) | Body (id : Z) (boundary : tkind * Z).
Definition t_kind (x : target) : tkind := match x with Surface _ _ => BOUNDARY_SURFACE | Body _ _ => CONTACT_BODY end.
Definition t_id (x : target) : Z := match x with Surface i _ => i | Body i _ => i end.
Definition tkind_eqb (a b : tkind) : bool := match a, b with BOUNDARY_SURFACE, BOUNDARY_SURFACE | CONTACT_BODY, CONTACT_BODY => true | _, _ => false end.
(** Model.h find by reference: targets are registered by kind and number (ReferenceModel). *)
Definition find_target (l : list target) (r : tkind * Z) : option target :=
  find (fun x => tkind_eqb (t_kind x) (fst r) && (t_id x =? snd r)) l.
(** Constraint.cpp:865-873, 876-884: the nodes of one side ([dynamic_pointer_cast]). *)
Definition side_nodes (l : list target) (r : tkind * Z) : outcome (list nat) :=
  match find_target l r with
  | Some (Body _ b) => match find_target l b with Some (Surface _ ns) => Ok ns | _ => Throw end
  | _ => Throw
  end.
(** Constraint.cpp:863-887 ZoneContact::nodePositions. *)
Definition zone_nodes (l : list target) (z : zone) : outcome (list nat) :=
  do a <- side_nodes l (z_master z); do b <- side_nodes l (z_slave z); Ok (a ++ b).
(** Constraint.cpp:894-912 ZoneContact::ineffective (a boundary is empty when it has no cell,
    taken here as no node). *)
Definition zone_ineffective (l : list target) (z : zone) : outcome bool :=
  do a <- side_nodes l (z_master z); do b <- side_nodes l (z_slave z);
  Ok (match a, b with [], _ | _, [] => true | _, _ => false end).
(** Model.cpp:1032-1043: the zones that stay in the model. *)
Definition effective_zones (l : list target) (zs : list zone) : outcome (list zone) :=
  do r <- mapM (fun z => do i <- zone_ineffective l z; Ok (z, i)) zs;
  Ok (map fst (filter (fun p => negb (snd p)) r)).

(** ** Cells of the surfaces *)
Section Cells.
Context {D : Type} (RESERVED zero : D).

(** Constraint.cpp:832-833, 853-854 and Target.cpp:109-111: one cell after the other, put in the group. *)
Fixpoint add_cells (h : nat) (l : list (ctype * list Z)) (s : state D) : outcome (state D) :=
  match l with
  | [] => Ok s
  | (t, ids) :: r =>
      do c <- addCell RESERVED zero (fst s) AUTO_ID t ids true 0 NO_CELL zero;
      add_cells h r (fst c, groupAdd (snd s) h (snd c))
  end.

(** Constraint.cpp:820-831: four numbers at a time; the list is read past its end when it has
    not a multiple of four. *)
Fixpoint patches (l : list Z) : outcome (list (ctype * list Z)) :=
  match l with
  | [] => Ok []
  | a :: b :: c :: d :: r =>
      do p <- patches r; Ok ((if d =? 0 then (TRI3, [a; b; c]) else (QUAD4, [a; b; c; d])) :: p)
  | _ => UB
  end.

(** Constraint.cpp:812-856 makeBoundarySurfaces; [surfaces] gives the nodes of the node
    surface with a number.  Reading past the end of a list is UB whatever came before. *)
Definition bound_surface (surfaces : Z -> option (list Z)) (c : bsconp) (s : state D) : outcome (state D) :=
  do gm <- createGroup (snd s) CellG (numbered "SURFCONT_M_" (b_id c)) NO_ORIGINAL;
  do gs <- createGroup (fst gm) CellG (numbered "SURFCONT_S_" (b_id c)) NO_ORIGINAL;
  do sl <- match surfaces (b_slave c) with Some l => Ok l | None => Throw end;
  do sp <- patches sl;
  do s1 <- add_cells (snd gs) sp (fst s, fst gs);
  do ml <- match surfaces (b_master c) with Some l => Ok l | None => Throw end;
  do mp <- patches ml;
  add_cells (snd gm) mp s1.
(** Model.cpp:1997-2004. *)
Definition bound_surfaces (surfaces : Z -> option (list Z)) (l : list bsconp) (s : state D) : outcome (state D) :=
  foldM (fun s c => bound_surface surfaces c s) l s.

(** Constraint.cpp:778-795 SurfaceContact::nodePositions ([None]: Node::UNAVAILABLE_NODE). *)
Definition surface_nodes (surfaces : Z -> option (list Z)) (m : mesh D) (c : bsconp) : outcome (list (option nat)) :=
  match surfaces (b_master c), surfaces (b_slave c) with
  | Some a, Some b => Ok (map (findNodePosition (mnodes m)) (a ++ b))
  | _, _ => Throw
  end.

(** ** Skins *)

(** Mesh.cpp:557-571: the type of cells of dimension two with that number of nodes; there is
    one at most, so the order of the table does not matter. *)
Definition skin_type (n : nat) : outcome ctype :=
  match n with
  | 3 => Ok TRI3 | 4 => Ok QUAD4 | 6 => Ok TRI6 | 7 => Ok TRI7 | 8 => Ok QUAD8 | 9 => Ok QUAD9
  | _ => Throw
  end%nat.

(** Target.cpp:102-114, one face; [hs] and [he] are the groups of the skin and of the elements. *)
Definition skin_face (hs he : nat) (f : face) (s : state D) : outcome (state D) :=
  match findCellPosition (fst s) (f_cell f) with
  | None => Throw
  | Some p =>
      let gs := groupAdd (snd s) he p in
      do c <- findCell (fst s) p;
      do ids <- faceids_from_two_nodes (c_type c) (c_nodeIds c) (f_node1 f) (f_node2 f);
      match ids with
      | [] => Ok (fst s, gs)
      | _ =>
          do t <- skin_type (length ids);
          do a <- addCell RESERVED zero (fst s) AUTO_ID t ids true 0 NO_CELL zero;
          Ok (fst a, groupAdd gs hs (snd a))
      end
  end.
(** Target.cpp:96-120 createSkin; the Skin element set over the first group is left out. *)
Definition create_skin (id : Z) (fs : list face) (s : state D) : outcome (state D) :=
  do g1 <- createGroup (snd s) CellG (numbered "SURF" id) NO_ORIGINAL;
  do g2 <- createGroup (fst g1) CellG (numbered "SURFO" id) NO_ORIGINAL;
  foldM (fun s f => skin_face (snd g1) (snd g2) f s) fs (fst s, fst g2).
End Cells.
