(** Model of Model::splitElementsByCellOffsets (Abstract/Model.cpp:2126-2182),
    the pass of Model::finish that turns the offsets of the cells into offsets of
    their shells, run for Code_Aster and Systus (Model.cpp:2217-2360). *)
From Coq Require Import ZArith QArith Qround Qabs List Bool Arith.
From Verif Require Import Base ZMap ReferenceModel.
Import ListNotations.
Open Scope Z_scope.

(** Element.h:44-68: the rank of the two types in the enumeration. *)
Definition SHELL : Z := 9.
Definition COMPOSITE : Z := 20.

(** Utility.h:53,67: is_zero, with five times the epsilon of a double. *)
Definition tolerance : Q := (5 # 1) * (1 # 2 ^ 52).
Definition is_null (x : Q) : bool := Qle_bool (Qabs x) tolerance.

(** lround(pow(x, 6)), Model.cpp:2137, 2162: the nearest integer, halves up as
    the power is not negative.  The rounding of pow and the range of long (|x| above
    1448) are left out. *)
Definition rounded (x : Q) : Z := Qfloor (x * x * x * x * x * x + (1 # 2)).

(** Element.h:295-379 Shell and Composite: the offset of the set, its cells
    (positions, in the order of set<Cell>, MeshComponents.h:395-397, those of its
    groups included) and the rest: thickness, layers, materials, ... *)
Record plate (D : Type) := mkPlate { pl_data : D; pl_offset : Q; pl_cells : list nat }.
Arguments mkPlate {D}. Arguments pl_data {D}. Arguments pl_offset {D}. Arguments pl_cells {D}.

Section Split.
Context {D : Type}.
(** MeshComponents.h:361 Cell::offset, by position. *)
Variable off : nat -> Q.
Notation eset := (object (plate D)).

(** Element.cpp:363-368 containsNonzeroOffsetCell. *)
Definition has_offset (o : eset) : bool :=
  existsb (fun c => negb (is_null (off c))) (pl_cells (payload o)).

(** MeshComponents.cpp:732-734 CellContainer::add on a set of positions (its
    order plays no part here). *)
Definition put (c : nat) (l : list nat) : list nat :=
  if existsb (Nat.eqb c) l then l else l ++ [c].

(** clone() copies the identifiers; clear(), the offset and the first cell:
    Model.cpp:2140-2144. *)
Definition cloned (o : eset) (c : nat) : eset :=
  mkObj (otype o) (ooid o) (oid o)
        (mkPlate (pl_data (payload o)) (pl_offset (payload o) + off c)%Q [c]).
(** it->second->add(cell), Model.cpp:2148. *)
Definition join (c : nat) (o : eset) : eset :=
  mkObj (otype o) (ooid o) (oid o)
        (mkPlate (pl_data (payload o)) (pl_offset (payload o)) (put c (pl_cells (payload o)))).

Fixpoint update (i : nat) (f : eset -> eset) (l : list eset) : list eset :=
  match l, i with
  | [], _ => []
  | x :: r, O => f x :: r
  | x :: r, S i => x :: update i f r
  end.

(** elementSetsToAdd and cellPositionsByRoundedOffset (the shared pointers are
    ranks in the former). *)
Definition state : Type := (list eset * zmap nat)%type.

(** Model.cpp:2136-2150: one cell. *)
Definition visit (o : eset) (st : state) (c : nat) : state :=
  match zfind (snd st) (rounded (off c)) with
  | Some i => (update i (join c) (fst st), snd st)
  | None => (fst st ++ [cloned o c], zinsert (snd st) (rounded (off c)) (length (fst st)))
  end.

(** Model.cpp:2131-2152, 2156-2176: one loop, over the sets of a type; the table
    is kept from one set to the next. *)
Definition loop (os : list eset) (add : list eset) : list eset :=
  fst (fold_left (fun st o => fold_left (visit o) (pl_cells (payload o)) st) os (add, [])).

(** Model.cpp:2131-2135: the sets of the loop. *)
Definition concerned (c : container (plate D)) (t : Z) : list eset :=
  filter has_offset (cfilter c t).

(** Model.cpp:2126-2182. *)
Definition split_offsets (c : container (plate D)) : outcome (container (plate D)) :=
  let shells := concerned c SHELL in
  let composites := concerned c COMPOSITE in
  let add := loop composites (loop shells []) in
  let c := fold_left (fun c o => cerase c (getReference o)) (shells ++ composites) c in
  foldM cadd add c.
End Split.
