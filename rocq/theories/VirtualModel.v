(** Model of the virtual point elements that give nodes the degrees of freedom their
    boundary conditions act on (Abstract/Model.cpp:642-735 generateDiscrets). *)
From Coq Require Import Ascii String ZArith List Bool Arith.
From Verif Require Import Base ZMap DofModel AnalysisModel MeshNodeModel MeshCellModel MeshGroupModel SegmentModel.
Import ListNotations.
Open Scope Z_scope.

Section Virtual.
Context {D V : Type} (RESERVED zero : D) (vzero : V) (is_zero : V -> bool).

(** Model.cpp:651-659: the degrees of freedom that the boundary conditions of the
    analyses act on and that the node at position [p], with [nd], has not. *)
Definition missing (analyses : list boundary) (p : nat) (nd : dofs) : dofs :=
  fold_left (fun acc b => let r := find_boundary b (Z.of_nat p) in
                          if containsAll nd r then acc else dofs_add acc (dofs_sub r nd)) analyses NO_DOFS.

(** Model.cpp:667-670, 689-692: the matrix of a virtual element; [s] is ALL_DOFS or
    TRANSLATIONS.  Its mass and damping stay empty, and its material, assigned at
    677-679 and 699-701, is not modelled. *)
Definition virtual_matrix (s : dofs) : outcome (dofmatrix V) :=
  do ds <- dofs_iterate s;
  foldM (fun m d => addComponent is_zero m d d vzero) ds (newMatrix DIAGONAL).

(** The mesh, the two groups when they exist (Model.cpp:645-647), and the constraints
    added: the analysis, the position of the node and the degrees of freedom blocked.
    Each constraint is alone in a set of type SPC given to that analysis. *)
Record vstate := mkV { v_mesh : mesh D; v_groups : groups; v_tr : option nat; v_t : option nat; v_spc : list (nat * nat * dofs) }.

(** Model.cpp:666-681, 688-703: the group, created the first time. *)
Definition with_group (o : option nat) (name : string) (gs : groups) : outcome (groups * nat) :=
  match o with
  | Some h => Ok (gs, h)
  | None => createGroup gs CellG name NO_ORIGINAL
  end.

(** Mesh.cpp:331-334, on the mesh. *)
Definition allow (m : mesh D) (p : nat) (s : dofs) : outcome (mesh D) :=
  do ns <- allowDOFS (mnodes m) p s; Ok (with_nodes m ns).

(** Model.cpp:684-686, 704-706: a virtual point on the node, put in the group. *)
Definition add_point (m : mesh D) (gs : groups) (h : nat) (id : Z) : outcome (mesh D * groups) :=
  do c <- addCell RESERVED zero m AUTO_ID POINT1 [id] true 0 NO_CELL zero;
  Ok (fst c, groupAdd gs h (snd c)).

(** Model.cpp:711-733: the constraints of one node, analysis after analysis, [i] being
    the number of the first.  The test reads the degrees of freedom the node had. *)
Fixpoint block (analyses : list boundary) (i p : nat) (nd added : dofs) : list (nat * nat * dofs) :=
  match analyses with
  | [] => []
  | b :: l =>
      let r := find_boundary b (Z.of_nat p) in
      (if containsAll nd r then []
       else let extra := dofs_sub (dofs_sub added r) nd in
            if extra =? NO_DOFS then [] else [(i, p, extra)])
      ++ block l (S i) p nd added
  end.

(** Model.cpp:650-734, one node. *)
Definition visit (analyses : list boundary) (s : vstate) (ip : Z * nat) : outcome vstate :=
  let p := snd ip in
  match nth_error (ndatas (mnodes (v_mesh s))) p with
  | None => UB
  | Some d =>
      let nd := nd_dofs d in
      let miss := missing analyses p nd in
      if miss =? NO_DOFS then Ok (mkV (v_mesh s) (v_groups s) (v_tr s) (v_t s) (v_spc s ++ block analyses 0 p nd NO_DOFS))
      else if containsAnyOf miss ROTATIONS then
        let added := dofs_sub (dofs_sub ALL_DOFS nd) miss in
        do g <- with_group (v_tr s) "VDiscrTR" (v_groups s);
        do m <- allow (v_mesh s) p ALL_DOFS;
        do c <- add_point m (fst g) (snd g) (nd_id d);
        Ok (mkV (fst c) (snd c) (Some (snd g)) (v_t s) (v_spc s ++ block analyses 0 p nd added))
      else
        let added := dofs_sub (dofs_sub TRANSLATIONS nd) miss in
        do g <- with_group (v_t s) "VDiscrT" (v_groups s);
        do c <- add_point (v_mesh s) (fst g) (snd g) (nd_id d);
        do m <- allow (fst c) p TRANSLATIONS;
        Ok (mkV m (snd c) (v_tr s) (Some (snd g)) (v_spc s ++ block analyses 0 p nd added))
  end.

(** Model.cpp:642-735: the nodes in the order of their numbers (Mesh.cpp:60-110).  The
    map of the positions is read before the loop: the loop adds no node. *)
Definition generate (analyses : list boundary) (m : mesh D) (gs : groups) : outcome vstate :=
  foldM (visit analyses) (npos (mnodes m)) (mkV m gs None None []).

End Virtual.
Arguments vstate : clear implicits.
