(** Model of the group registry of Abstract/Mesh.cpp and of the cell
    containers of Abstract/MeshComponents.cpp.

    Groups are shared objects: the model has a heap of groups and both
    indexes hold heap positions.  std::map<string, .> and std::set are
    modelled as lists whose order is not meaningful. *)
From Coq Require Import ZArith String List Bool.
From Verif Require Import Base ZMap.
Import ListNotations.
Open Scope Z_scope.

(** Object.h:143: Identifiable::NO_ORIGINAL_ID = INT_MIN. *)
Definition NO_ORIGINAL : Z := - 2 ^ 31.

(** std::map<string, nat> look-up, operator[] assignment, erase. *)
Fixpoint sfind (m : list (string * nat)) (k : string) : option nat :=
  match m with
  | [] => None
  | (k', a) :: r => if String.eqb k' k then Some a else sfind r k
  end.
Definition serase (m : list (string * nat)) (k : string) : list (string * nat) :=
  filter (fun x => negb (String.eqb (fst x) k)) m.
Definition sput (m : list (string * nat)) (k : string) (a : nat) : list (string * nat) :=
  (k, a) :: serase m k.

(** MeshComponents.h:246-251: only NODEGROUP and CELLGROUP objects exist. *)
Inductive gkind := NodeG | CellG.
Definition gkind_eqb (a b : gkind) : bool :=
  match a, b with NodeG, NodeG | CellG, CellG => true | _, _ => false end.

(** MeshComponents.h:244-272 (name, type, Identifiable ids) and the private
    container of CellGroup / NodeGroup (its positions: a group cannot hold
    other groups, MeshComponents.h:508-575). *)
Record group := mkG { g_name : string; g_kind : gkind; g_orig : Z; g_auto : Z; g_pos : list nat }.

(** Mesh.h:152-158; [gauto] is Identifiable<Group>::auto_id. *)
Record groups := mkGs { heap : list group; byName : list (string * nat); byId : zmap nat; gauto : Z }.
Definition empty_groups (auto : Z) : groups := mkGs [] [] [] auto.

(** Mesh.cpp:823-835. *)
Definition findGroup (s : groups) (n : string) : option nat := sfind (byName s) n.
Definition findGroupById (s : groups) (i : Z) : option nat := zfind (byId s) i.

(** Mesh.cpp:676-704 and 729-757 (the two functions differ by the kind only). *)
Definition createGroup (s : groups) (k : gkind) (n : string) (i : Z) : outcome (groups * nat) :=
  if String.eqb n "" then Throw
  else match findGroup s n with
  | Some _ => Throw
  | None =>
      if negb (i =? NO_ORIGINAL) && match findGroupById s i with Some _ => true | None => false end
      then Throw
      else
        let h := length (heap s) in
        let a := gauto s + 1 in
        Ok (mkGs (heap s ++ [mkG n k i a []]) (sput (byName s) n h)
              (if i =? NO_ORIGINAL then byId s else zinsert (byId s) i h) a, h)
  end.

(** Mesh.cpp:706-719: dynamic_pointer_cast of a cell group gives null. *)
Definition findOrCreateNodeGroup (s : groups) (n : string) (i : Z) : outcome (groups * nat) :=
  if String.eqb n "" then Throw
  else match findGroup s n with
  | Some h => match nth_error (heap s) h with
              | Some g => if gkind_eqb (g_kind g) NodeG then Ok (s, h) else createGroup s NodeG n i
              | None => UB
              end
  | None => createGroup s NodeG n i
  end.

Fixpoint upd (l : list group) (h : nat) (f : group -> group) : list group :=
  match l, h with
  | [], _ => []
  | g :: r, O => f g :: r
  | g :: r, S h' => g :: upd r h' f
  end.

(** Mesh.cpp:759-781 (the comment text is not modelled). *)
Definition renameGroup (s : groups) (o n : string) : outcome groups :=
  if String.eqb o "" then Throw else if String.eqb n "" then Throw
  else match findGroup s o with
  | None => Throw
  | Some h => Ok (mkGs (upd (heap s) h (fun g => mkG n (g_kind g) (g_orig g) (g_auto g) (g_pos g)))
                    (sput (serase (byName s) o) n h) (byId s) (gauto s))
  end.

(** Mesh.cpp:783-797: the by-number index is erased at getId(), the automatic
    number of the group. *)
Definition removeGroup (s : groups) (n : string) : outcome groups :=
  match findGroup s n with
  | None => Ok s
  | Some h => match nth_error (heap s) h with
      | None => UB
      | Some g => Ok (mkGs (heap s) (serase (byName s) n)
                   (if g_auto g =? NO_ORIGINAL then byId s else zerase (byId s) (g_auto g)) (gauto s))
      end
  end.

(** MeshComponents.cpp:676 / 896 through a group handle. *)
Definition insN (l : list nat) (p : nat) : list nat := if existsb (Nat.eqb p) l then l else p :: l.
Definition groupAdd (s : groups) (h p : nat) : groups :=
  mkGs (upd (heap s) h (fun g => mkG (g_name g) (g_kind g) (g_orig g) (g_auto g) (insN (g_pos g) p)))
    (byName s) (byId s) (gauto s).

(** Histories of the registry. *)
Inductive gop :=
| GCreate (k : gkind) (n : string) (i : Z)
| GFindOrCreate (n : string) (i : Z)
| GRename (o n : string)
| GRemove (n : string)
| GAdd (h p : nat).
Definition gstep (s : groups) (o : gop) : outcome groups :=
  match o with
  | GCreate k n i => do r <- createGroup s k n i; Ok (fst r)
  | GFindOrCreate n i => do r <- findOrCreateNodeGroup s n i; Ok (fst r)
  | GRename o n => renameGroup s o n
  | GRemove n => removeGroup s n
  | GAdd h p => Ok (groupAdd s h p)
  end.
Definition grun (s : groups) (l : list gop) : outcome groups := foldM gstep l s.

(** ** Cell containers *)

(** MeshComponents.h:440-444: positions (None is UNAVAILABLE_CELL) and group names. *)
Record container := mkC { c_pos : list (option nat); c_groups : list string }.
Definition empty_container : container := mkC [] [].

(** MeshComponents.cpp:676-763.  [addCellId] does not test the look-up result. *)
Inductive cop :=
| CPos (p : nat)                   (* addCellPosition, addCellPositions, add(Cell) *)
| CId (id : Z)                     (* addCellId, addCellIds *)
| CGroup (n : string)              (* addCellGroup *)
| CUnion (c : container)           (* add(CellContainer) *)
| CDrop (p : nat)                  (* removeCellPositionExcludingGroups *)
| CDropAll                         (* removeAllCellsExcludingGroups *)
| CClear.                          (* clear *)
Definition cstep (find : Z -> option nat) (s : groups) (c : container) (o : cop) : outcome container :=
  match o with
  | CPos p => Ok (mkC (Some p :: c_pos c) (c_groups c))
  | CId i => Ok (mkC (find i :: c_pos c) (c_groups c))
  | CGroup n => match findGroup s n with
                | None => Throw
                | Some _ => Ok (mkC (c_pos c) (n :: c_groups c))
                end
  | CUnion d => Ok (mkC (c_pos d ++ c_pos c) (c_groups d ++ c_groups c))
  | CDrop p => Ok (mkC (filter (fun x => match x with Some q => negb (Nat.eqb q p) | None => true end) (c_pos c)) (c_groups c))
  | CDropAll => Ok (mkC [] (c_groups c))
  | CClear => Ok empty_container
  end.
Definition crun find s (c : container) (l : list cop) : outcome container := foldM (cstep find s) l c.

(** MeshComponents.cpp:809-820: names that are not (or no longer) those of a
    cell group are skipped. *)
Definition group_positions (s : groups) (n : string) : list (option nat) :=
  match findGroup s n with
  | Some h => match nth_error (heap s) h with
              | Some g => if gkind_eqb (g_kind g) CellG then map Some (g_pos g) else []
              | None => []
              end
  | None => []
  end.
Definition getCellPositionsIncludingGroups (s : groups) (c : container) : list (option nat) :=
  c_pos c ++ flat_map (group_positions s) (c_groups c).

(** MeshComponents.cpp:765-774 through Mesh::findCell: reading the cell at an
    unavailable or out-of-range position is out of bounds; [ncells] is the
    number of stored cells. *)
Definition read_cell (ncells : nat) (p : option nat) : outcome nat :=
  match p with
  | Some q => if Nat.ltb q ncells then Ok q else UB
  | None => UB
  end.
Definition getCellsIncludingGroups (ncells : nat) (s : groups) (c : container) : outcome (list nat) :=
  mapM (read_cell ncells) (getCellPositionsIncludingGroups s c).

(** MeshComponents.cpp:857-866: static cast and dereference without test.
    Calling CellGroup::empty on a node group is UB as well. *)
Fixpoint any_group_nonempty (s : groups) (l : list string) : outcome bool :=
  match l with
  | [] => Ok false
  | n :: r => match findGroup s n with
      | None => UB
      | Some h => match nth_error (heap s) h with
          | None => UB
          | Some g => if gkind_eqb (g_kind g) CellG
                      then match g_pos g with [] => any_group_nonempty s r | _ => Ok true end
                      else UB
          end
      end
  end.
Definition hasCellsIncludingGroups (s : groups) (c : container) : outcome bool :=
  match c_pos c with [] => any_group_nonempty s (c_groups c) | _ => Ok true end.
