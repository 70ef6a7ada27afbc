(** Model of the cell storage of Abstract/Mesh.cpp and of the table of cell
    types of Abstract/MeshComponents.cpp. *)
From Coq Require Import ZArith List Bool Lia.
From Verif Require Import Base ZMap MeshNodeModel.
Import ListNotations.
Open Scope Z_scope.

(** MeshComponents.h:97-143 CellType::Code (the POLYn codes carry n, 3..20). *)
Inductive ctype :=
| POINT1 | SEG2 | SEG3 | SEG4 | SEG5
| TRI3 | QUAD4 | TRI6 | TRI7 | QUAD8 | QUAD9
| TETRA4 | PYRA5 | PENTA6 | HEXA8 | TETRA10 | HEXGP12 | PYRA13 | PENTA15 | HEXA20 | HEXA27
| POLY (n : nat).

Definition ctype_eq_dec (a b : ctype) : {a = b} + {a <> b}.
Proof. decide equality. apply Nat.eq_dec. Defined.

(** MeshComponents.cpp:87-138: number of nodes. *)
Definition numNodes (t : ctype) : nat :=
  match t with
  | POINT1 => 1 | SEG2 => 2 | SEG3 => 3 | SEG4 => 4 | SEG5 => 5
  | TRI3 => 3 | QUAD4 => 4 | TRI6 => 6 | TRI7 => 7 | QUAD8 => 8 | QUAD9 => 9
  | TETRA4 => 4 | PYRA5 => 5 | PENTA6 => 6 | HEXA8 => 8 | TETRA10 => 10 | HEXGP12 => 12
  | PYRA13 => 13 | PENTA15 => 15 | HEXA20 => 20 | HEXA27 => 27
  | POLY n => n
  end%nat.

(** MeshComponents.cpp:87-138: dimension. *)
Definition dimension (t : ctype) : nat :=
  match t with
  | POINT1 => 0
  | SEG2 | SEG3 | SEG4 | SEG5 => 1
  | TRI3 | QUAD4 | TRI6 | TRI7 | QUAD8 | QUAD9 => 2
  | _ => 3
  end%nat.

(** MeshComponents.cpp:145-235 polyType. *)
Definition polyType (n : nat) : outcome ctype :=
  match n with
  | 1 => Ok POINT1
  | 2 => Ok SEG2
  | _ => if (Nat.leb 3 n && Nat.leb n 20)%bool then Ok (POLY n) else Throw
  end%nat.

Section Cells.
Context {D : Type} (RESERVED zero : D).

(** Mesh.h:93-102 CellData. *)
Record cdata := mkCD { cd_id : Z; cd_type : ctype; cd_virtual : bool; cd_cs : Z; cd_elem : Z; cd_tpos : nat }.

Definition tmap A := ctype -> list A.
Definition tpush {A} (m : tmap A) (t : ctype) (l : list A) : tmap A :=
  fun t' => if ctype_eq_dec t t' then m t' ++ l else m t'.

(** Mesh.h:104-118 CellStorage and cellPositionsByType (164), with the node
    storage of the same mesh.  [caux] gathers the additional0D/1D/2D vectors:
    one entry per pushed datum, the offset for 2D, [zero] otherwise.
    [trace] is logLevel >= TRACE. *)
Record mesh := mkM {
  mnodes : nodes D;
  cdatas : list cdata;
  cposById : zmap nat;
  byType : tmap nat;
  conn : tmap nat;
  caux : tmap D;
  cauto : Z;
  trace : bool }.

(** Mesh.cpp:170-180. *)
Definition empty_mesh (nauto lastp cauto : Z) (tr : bool) : mesh :=
  mkM (empty_nodes nauto lastp) [] [] (fun _ => []) (fun _ => []) (fun _ => []) cauto tr.

(** Mesh.cpp:389-391: positions of the nodes, reserving unknown ones. *)
Fixpoint reserve_all (s : nodes D) (ids : list Z) (part : Z) : outcome (nodes D * list nat) :=
  match ids with
  | [] => Ok (s, [])
  | i :: r => do (s, p) <- findOrReserveNode RESERVED s i part;
              do (s, ps) <- reserve_all s r part; Ok (s, p :: ps)
  end.

(** Mesh.cpp:358-377: the connectivity checks, made at TRACE level only.
    specificSize is numNodes>0. *)
Definition conn_checks (m : mesh) (id : Z) (t : ctype) (ids : list Z) (new : bool) : bool :=
  (Nat.eqb (length (nodup Z.eq_dec ids)) (length ids)) &&
  (if new then match zfind (cposById m) id with Some _ => false | None => true end else true) &&
  (Nat.eqb (numNodes t) 0 || Nat.eqb (numNodes t) (length ids)).

(** Mesh.cpp:336-433 addCell.  The cell group attached to a coordinate system
    (426-429, cpos <> 0) only concerns groups and is left out. *)
Definition addCell (m : mesh) (id : Z) (t : ctype) (ids : list Z) (virt : bool)
    (cs elem : Z) (offset : D) : outcome (mesh * nat) :=
  do (cid, nauto) <- (if id =? AUTO_ID then auto_pick (S (length (cposById m))) (cposById m) (cauto m)
                      else Ok (id, cauto m));
  if Nat.eqb (numNodes t) 0 then Throw
  else if trace m && negb (conn_checks m cid t ids true) then Throw
  else
    let pos := length (cdatas m) in
    let tpos := length (byType m t) in
    do (ns, ps) <- reserve_all (mnodes m) ids elem;
    let aux := match dimension t with
               | 0%nat | 1%nat => [zero]
               | 2%nat => [offset]
               | _ => []
               end in
    Ok (mkM ns (cdatas m ++ [mkCD cid t virt cs elem tpos]) (zinsert (cposById m) cid pos)
            (tpush (byType m) t [pos]) (tpush (conn m) t ps) (tpush (caux m) t aux) nauto (trace m),
        pos).

(** Mesh.cpp:853-859. *)
Definition findCellPosition (m : mesh) (id : Z) : option nat := zfind (cposById m) id.

(** Mesh.cpp:435-503 updateCell, without the group part (see MeshGroupModel).
    Nodes are reserved without element set; findOrReserveNode is called twice
    in a row (484-485), the second call finds the node. *)
Definition updateCell (m : mesh) (id : Z) (t : ctype) (ids : list Z) (virt : bool) (cs elem : Z)
  : outcome (mesh * nat) :=
  if id =? AUTO_ID then Throw
  else match findCellPosition m id with
  | None => Throw
  | Some _ =>
      if trace m && negb (conn_checks m id t ids false) then Throw
      else
        let pos := length (cdatas m) in
        let tpos := length (byType m t) in
        do (ns, ps) <- reserve_all (mnodes m) ids UNAVAILABLE_INT;
        Ok (mkM ns (cdatas m ++ [mkCD id t virt cs elem tpos]) (zinsert (cposById m) id pos)
                (tpush (byType m) t [pos]) (tpush (conn m) t ps) (caux m) (cauto m) (trace m), pos)
  end.

(** MeshComponents.h:340-372 Cell: the value handed to users. [c_offset] is
    [None] when the C++ leaves it uninitialised (Mesh.cpp:528). *)
Record cell := mkCell { c_id : Z; c_type : ctype; c_nodeIds : list Z; c_pos : nat; c_nodePos : list nat;
  c_virtual : bool; c_cs : Z; c_elem : Z; c_tpos : nat; c_offset : option D }.

(** [n] elements of [l] from index [i]; None when out of range. *)
Definition slice {A} (l : list A) (i n : nat) : option (list A) :=
  if Nat.leb (i + n) (length l) then Some (firstn n (skipn i l)) else None.

(** Mesh.cpp:506-555 findCell (position unavailable: Throw is at the caller;
    out-of-range accesses are UB). *)
Definition findCell (m : mesh) (pos : nat) : outcome cell :=
  match nth_error (cdatas m) pos with
  | None => UB
  | Some d =>
      let t := cd_type d in
      match slice (conn m t) (cd_tpos d * numNodes t) (numNodes t) with
      | None => UB
      | Some ps =>
          do ids <- mapM (findNodeId (mnodes m)) ps;
          do off <- match dimension t with
                    | 3%nat => Ok None
                    | 2%nat => match nth_error (caux m t) (cd_tpos d) with
                               | Some o => Ok (Some o) | None => UB end
                    | _ => match nth_error (caux m t) (cd_tpos d) with
                           | Some _ => Ok None | None => UB end
                    end;
          Ok (mkCell (cd_id d) t ids pos ps false (cd_cs d) (cd_elem d) (cd_tpos d) off)
      end
  end.

(** Mesh.cpp:667-669 and 837-845. *)
Definition countCells (m : mesh) : nat := length (cposById m).
Definition countCellsOf (m : mesh) (t : ctype) : nat := length (byType m t).

(** MeshComponents.cpp:609-666 CellIterator: the cells of a type in order. *)
Definition iterateCells (m : mesh) (t : ctype) : outcome (list cell) := mapM (findCell m) (byType m t).

(** Calls on a mesh.  AddNode is addNode of MeshNodeModel; assignElementId is
    Mesh.h:290-292 (position in range). *)
Inductive mop :=
| MNode (o : nop D)
| MCell (id : Z) (t : ctype) (ids : list Z) (virt : bool) (cs elem : Z) (offset : D)
| MAssign (pos : nat) (elem : Z).

Definition with_nodes (m : mesh) (ns : nodes D) : mesh :=
  mkM ns (cdatas m) (cposById m) (byType m) (conn m) (caux m) (cauto m) (trace m).

Definition assignElementId (m : mesh) (pos : nat) (e : Z) : outcome mesh :=
  match nth_error (cdatas m) pos with
  | None => UB
  | Some d => Ok (mkM (mnodes m) (set_nth (cdatas m) pos (mkCD (cd_id d) (cd_type d) (cd_virtual d) (cd_cs d) e (cd_tpos d)))
                      (cposById m) (byType m) (conn m) (caux m) (cauto m) (trace m))
  end.

Definition mstep (m : mesh) (o : mop) : outcome mesh :=
  match o with
  | MNode o => do ns <- nstep RESERVED (mnodes m) o; Ok (with_nodes m ns)
  | MCell id t ids v cs e off => do (m, _) <- addCell m id t ids v cs e off; Ok m
  | MAssign p e => assignElementId m p e
  end.

Definition mrun (m : mesh) (h : list mop) : outcome mesh := foldM mstep h m.

End Cells.
Arguments mesh : clear implicits.
Arguments cell : clear implicits.
Arguments mop : clear implicits.
Arguments empty_mesh {D}.
