(** Model of the cells made from a sliding contact between two surfaces.  Definitions
    only.

    Simplifications: doubles are reals; a face is the list of the identifiers and
    points of the nodes returned by faceids_from_two_nodes (modelled in FaceModel); the
    R-tree is the list of what was inserted in it, and a query for the nearest entry may
    return any entry at the least distance (boost says nothing about ties), so the
    conversion is a relation; the cells are given by their type and nodes, their
    identifiers and their group are not modelled. *)
From Coq Require Import Reals ZArith List Bool Lra.
From Verif Require Import Base GeomModel MeshStatsModel.
Import ListNotations.
Open Scope R_scope.

Definition pnode := (Z * vec)%type.
Definition face := list pnode.

(** Constraint.cpp:1001 bg::return_envelope: the bounds of a face along an axis. *)
Definition low (ax : vec -> R) (f : face) : R :=
  match f with [] => 0 | n :: r => fold_left (fun m q => Rmin m (ax (snd q))) r (ax (snd n)) end.
Definition high (ax : vec -> R) (f : face) : R :=
  match f with [] => 0 | n :: r => fold_left (fun m q => Rmax m (ax (snd q))) r (ax (snd n)) end.
(** The distance of a point to an interval, and (squared) to the box of a face: what
    bgi::nearest compares. *)
Definition gap (lo hi x : R) : R := Rmax 0 (Rmax (lo - x) (x - hi)).
Definition box_d2 (f : face) (p : vec) : R :=
  let g ax := gap (low ax f) (high ax f) (ax p) in
  g vx * g vx + g vy * g vy + g vz * g vz.

(** Constraint.cpp:983-1005: the faces of the master surface and the indices put in the
    tree; a face not found (no node) is skipped; at each face every earlier one is
    inserted again. *)
Fixpoint fill (masters : list face) (faces : list face) (tree : list nat) : list face * list nat :=
  match masters with
  | [] => (faces, tree)
  | [] :: r => fill r faces tree
  | f :: r => let faces := faces ++ [f] in fill r faces (tree ++ seq 0 (length faces))
  end.

(** A result of rtree.query(bgi::nearest(p, 1)). *)
Definition nearest (faces : list face) (tree : list nat) (p : vec) (i : nat) : Prop :=
  In i tree /\ forall j, In j tree -> box_d2 (nth i faces []) p <= box_d2 (nth j faces []) p.

Inductive slidetype := TETRA4 | PYRA5.
Record slidecell := mkSlideCell { sc_type : slidetype; sc_nodes : list Z }.
(** Constraint.cpp:1016-1035: the cell of one slave node, given the face found. *)
Definition slide_cell (f : face) (n : pnode) : outcome slidecell :=
  let nodes := map fst f ++ [fst n] in
  match length f with
  | 3%nat => Ok (mkSlideCell TETRA4 nodes)
  | 4%nat => Ok (mkSlideCell PYRA5 nodes)
  | _ => Throw
  end.
(** Constraint.cpp:1008-1037: the loop over the nodes of the slave faces; result_n[0] of
    an empty result is undefined. *)
Inductive slides (faces : list face) (tree : list nat) : list pnode -> outcome (list slidecell) -> Prop :=
| slides_nil : slides faces tree [] (Ok [])
| slides_none n r : tree = [] -> slides faces tree (n :: r) UB
| slides_cons n r i rest : nearest faces tree (snd n) i -> slides faces tree r rest ->
    slides faces tree (n :: r) (do c <- slide_cell (nth i faces []) n; do cs <- rest; Ok (c :: cs)).

(** Constraint.cpp:969-1039 makeCellsFromSurfaceSlide. *)
Definition makeCells (masters slaves : list face) (r : outcome (list slidecell)) : Prop :=
  let '(faces, tree) := fill masters [] [] in slides faces tree (concat slaves) r.
