(** Model of the passes of Model::finish that add segments to the mesh:
    convert0DDiscretsInto1D (Abstract/Model.cpp:2054-2089) and makeBoundarySegments
    (Abstract/Model.cpp:1965-1995). *)
From Coq Require Import Ascii String ZArith List Bool Arith.
From Verif Require Import Base ZMap TextModel DofModel MeshNodeModel MeshCellModel MeshGroupModel.
Import ListNotations.
Open Scope Z_scope.

Section Segments.
Context {D V : Type} (RESERVED zero : D) (vzero : V) (is_zero : V -> bool).

(** The mesh and its groups. *)
Definition state := (mesh D * groups)%type.
(** MeshComponents.h:349 UNAVAILABLE_CELL, the default element of addCell (Mesh.h:257-263). *)
Definition NO_CELL : Z := 2147483647.

(** Model.cpp:2074-2079, 1974-1979, 1985-1990: one segment for each pair of node
    numbers, put in the group. *)
Fixpoint add_segments (h : nat) (l : list (Z * Z)) (s : state) : outcome state :=
  match l with
  | [] => Ok s
  | (a, b) :: r =>
      do c <- addCell RESERVED zero (fst s) AUTO_ID SEG2 [a; b] true 0 NO_CELL zero;
      add_segments h r (fst c, groupAdd (snd s) h (snd c))
  end.

Definition numbered (prefix : string) (i : Z) : string := String.append prefix (string_of_list_ascii (int_text i)).

(** ** convert0DDiscretsInto1D *)

(** Element.h:422-446 DiscretePoint: its best number, its matrices (made with its type,
    Element.cpp:459-463), whether it is [empty()] and its node positions, ascending. *)
Record point := mkPoint { p_id : Z; p_type : matrix_type; p_stiffness : dofmatrix V; p_mass : dofmatrix V;
  p_damping : dofmatrix V; p_empty : bool; p_nodes : list nat }.
(** Element.h:483-509 StructuralSegment, with the cells it is given. *)
Record segment := mkSegment { s_type : matrix_type; s_stiffness : dofmatrix V; s_mass : dofmatrix V;
  s_damping : dofmatrix V; s_cells : list nat }.

Definition all_dofs : list dof := [DX; DY; DZ; RX; RY; RZ].
(** Model.cpp:2062-2071, one of the three matrices. *)
Definition copy_matrix (t : matrix_type) (m : dofmatrix V) : outcome (dofmatrix V) :=
  foldM (fun r k => addComponent is_zero r (fst k) (snd k) (findComponent vzero m (fst k) (snd k)))
        (list_prod all_dofs all_dofs) (newMatrix t).

(** Model.cpp:2056-2083, one element set; the new set is given no cell. *)
Definition convert_point (p : point) (s : state) : outcome (state * segment) :=
  do k <- copy_matrix (p_type p) (p_stiffness p);
  do m <- copy_matrix (p_type p) (p_mass p);
  do c <- copy_matrix (p_type p) (p_damping p);
  do g <- createGroup (snd s) CellG (numbered "DIS0D1D_" (p_id p)) NO_ORIGINAL;
  do ids <- mapM (findNodeId (mnodes (fst s))) (p_nodes p);
  do s' <- add_segments (snd g) (map (fun i => (i, i)) ids) (fst s, fst g);
  Ok (s', mkSegment (p_type p) k m c []).

(** Model.cpp:2054-2089: the mesh, the sets left and the sets added. *)
Fixpoint convert_points (l : list point) (s : state) : outcome (state * list point * list segment) :=
  match l with
  | [] => Ok (s, [], [])
  | p :: r =>
      if p_empty p then
        do x <- convert_points r s; Ok (fst (fst x), p :: snd (fst x), snd x)
      else
        do y <- convert_point p s;
        do x <- convert_points r (fst y); Ok (fst (fst x), snd (fst x), snd y :: snd x)
  end.

(** ** makeBoundarySegments *)

(** Constraint.h:282-297 SlideContact: its best number, and the node numbers of its lines
    (Target.h:96-101; [None] if there is none with that reference). *)
Record slide := mkSlide { l_id : Z; l_master : option (list Z); l_slave : option (list Z) }.

(** Model.cpp:1973-1977: consecutive nodes.  [size() - 1] is unsigned: an empty list
    is read past its end. *)
Fixpoint consecutive (l : list Z) : list (Z * Z) :=
  match l with a :: (b :: _) as r => (a, b) :: consecutive r | _ => [] end.
Definition pairs_of (l : list Z) : outcome (list (Z * Z)) := match l with [] => UB | _ => Ok (consecutive l) end.

(** Model.cpp:1968-1992, one contact: the groups are made first. *)
Definition bound_slide (c : slide) (s : state) : outcome state :=
  do gm <- createGroup (snd s) CellG (numbered "SLIDE_M_" (l_id c)) NO_ORIGINAL;
  do gs <- createGroup (fst gm) CellG (numbered "SLIDE_S_" (l_id c)) NO_ORIGINAL;
  do ml <- match l_master c with Some l => Ok l | None => UB end;
  do mp <- pairs_of ml;
  do s1 <- add_segments (snd gm) mp (fst s, fst gs);
  do sl <- match l_slave c with Some l => Ok l | None => UB end;
  do sp <- pairs_of sl;
  add_segments (snd gs) sp s1.
Definition bound_slides (l : list slide) (s : state) : outcome state := foldM (fun s c => bound_slide c s) l s.
End Segments.
Arguments point : clear implicits.
Arguments segment : clear implicits.
Arguments state : clear implicits.
