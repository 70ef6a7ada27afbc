(** Model of Model::splitElementsByDOFS (Abstract/Model.cpp:1928-1963), the pass of
    Model::finish that gives Systus one set of springs for each pair of degrees of
    freedom. *)
From Coq Require Import Ascii String ZArith List Bool Arith.
From Verif Require Import Base ZMap TextModel DofModel MeshGroupModel.
Import ListNotations.
Open Scope Z_scope.

Section Springs.
Context {V : Type}.
(** The default of the mass, Element.h:668. *)
Variable vzero : V.

(** Element.h:661-701 ScalarSpring; [q_cells] is cellpositionByDOFS, whose order is
    that of the pairs, and [q_group] the cell group given to the set (its handle). *)
Record springs := mkSprings { q_id : Z; q_stiffness : V; q_damping : V; q_mass : V;
  q_cells : list ((dof * dof) * list nat); q_group : option nat }.

(** Model.cpp:1943: the name is the static ElementSet::name (Element.cpp:40). *)
Definition piece_name (i : Z) : string := String.append "ElementSet_" (string_of_list_ascii (int_text i)).

(** Element.cpp:1285-1287 addSpring on a set which has at most that pair. *)
Definition add_spring (k : dof * dof) (m : list ((dof * dof) * list nat)) (c : nat) :=
  match m with
  | [] => [(k, [c])]
  | (k', l) :: r => (k', l ++ [c]) :: r
  end.

(** Model.cpp:1940-1952; the new sets have no original number, so [q_id] is
    NO_ORIGINAL. *)
Fixpoint pieces (s : springs) (i : Z) (l : list ((dof * dof) * list nat)) (gs : groups)
  : outcome (groups * list springs) :=
  match l with
  | [] => Ok (gs, [])
  | (k, cells) :: r =>
      do g <- createGroup gs CellG (piece_name i) NO_ORIGINAL;
      let h := snd g in
      let gs1 := fold_left (fun g c => groupAdd g h c) cells (fst g) in
      do rest <- pieces s (i + 1) r gs1;
      Ok (fst rest, mkSprings NO_ORIGINAL (q_stiffness s) (q_damping s) vzero
                              (fold_left (add_spring k) cells []) (Some h) :: snd rest)
  end.

(** Model.cpp:1935 getNbDOFSSpring() > 1. *)
Definition to_split (s : springs) : bool := (1 <? length (q_cells s))%nat.

(** Model.cpp:1933-1956: groups, sets kept and sets added; removeGroup is given
    the name of the model ([this->name], Model.h). *)
Fixpoint split_loop (model_name : string) (l : list springs) (gs : groups)
  : outcome (groups * list springs * list springs) :=
  match l with
  | [] => Ok (gs, [], [])
  | s :: r =>
      if to_split s then
        do p <- pieces s 1 (q_cells s) gs;
        do gs1 <- removeGroup (fst p) model_name;
        do rest <- split_loop model_name r gs1;
        Ok (fst (fst rest), snd (fst rest), snd p ++ snd rest)
      else
        do rest <- split_loop model_name r gs;
        Ok (fst (fst rest), s :: snd (fst rest), snd rest)
  end.

(** Model.cpp:1928-1963: the sets of springs after the pass (the added ones get
    automatic numbers, hence come last). *)
Definition split_springs (model_name : string) (l : list springs) (gs : groups)
  : outcome (groups * list springs) :=
  do r <- split_loop model_name l gs; Ok (fst (fst r), snd (fst r) ++ snd r).
End Springs.
Arguments springs : clear implicits.
