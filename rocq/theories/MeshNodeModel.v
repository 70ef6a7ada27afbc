(** Model of the node storage of Abstract/Mesh.cpp (NodeStorage and the node
    functions of Mesh).

    Positions (pos_t, unsigned int) are [nat]; "unavailable" (INT_MAX) is
    [None].  Identifiers are [Z]: the 32-bit wrap-around of a mesh with more
    than 2^31 nodes is not modelled.  Coordinates are of an arbitrary type
    [D] (double).  The static counters Node::auto_node_id and
    NodeStorage::lastNodePart are part of the state. *)
From Coq Require Import ZArith List Bool.
From Verif Require Import Base ZMap.
Import ListNotations.
Open Scope Z_scope.

(** MeshComponents.h:283, Utility.h:49: Node::AUTO_ID = UNAVAILABLE_INT = INT_MIN. *)
Definition INT_MIN : Z := - 2 ^ 31.
Definition AUTO_ID : Z := INT_MIN.
Definition UNAVAILABLE_INT : Z := INT_MIN.
(** MeshComponents.h:284, Utility.h:50: UNAVAILABLE_NODE = INT_MAX. *)
Definition INT_MAX : Z := 2 ^ 31 - 1.
Definition UNAVAILABLE_NODE : Z := INT_MAX.

(** std::set<int> as the sorted list of its members (the keys of a map). *)
Definition zset := list (Z * unit).
Definition sinsert (s : zset) (k : Z) : zset := zinsert s k tt.
Definition smem (s : zset) (k : Z) : bool :=
  match zfind s k with Some _ => true | None => false end.
Fixpoint zset_eqb (a b : zset) : bool :=
  match a, b with
  | [], [] => true
  | (x, _) :: r, (y, _) :: q => (x =? y) && zset_eqb r q
  | _, _ => false
  end.

(** Replacing element [n] of a vector. *)
Fixpoint set_nth {A} (l : list A) (n : nat) (a : A) : list A :=
  match l, n with
  | [], _ => []
  | _ :: r, O => a :: r
  | x :: r, S n => x :: set_nth r n a
  end.

Section Nodes.
Context {D : Type} (RESERVED : D).

(** Mesh.h:30-41 NodeData. *)
Record ndata := mkND {
  nd_id : Z; nd_dofs : Z; nd_x : D; nd_y : D; nd_z : D;
  nd_cp : Z; nd_cd : Z; nd_part : Z }.

(** Mesh.h:43-58 NodeStorage.  interfaceNodePartByCellParts is an association
    list searched by set equality. *)
Record nodes := mkN {
  ndatas : list ndata;
  npos : zmap nat;
  auto_next : Z;
  last_part : Z;
  main_part : zmap Z;
  parts_of : zmap zset;
  iface : list (zset * Z);
  unused : list nat }.

(** Mesh.cpp:170-180: the empty storage; the statics start at
    MeshComponents.cpp:299 (9999999) and Mesh.cpp:32 (0) and carry whatever
    earlier meshes left. *)
Definition empty_nodes (auto lastp : Z) : nodes := mkN [] [] auto lastp [] [] [] [].

(** Mesh.cpp:323-329. *)
Definition findNodePosition (s : nodes) (id : Z) : option nat := zfind (npos s) id.

(** Mesh.cpp:315-317 (nodeDatas[pos] without bounds check: UB outside). *)
Definition findNodeId (s : nodes) (p : nat) : outcome Z :=
  match nth_error (ndatas s) p with Some d => Ok (nd_id d) | None => UB end.

(** Mesh.cpp:319-321. *)
Definition findNodePartId (s : nodes) (p : nat) : outcome Z :=
  match nth_error (ndatas s) p with Some d => Ok (nd_part d) | None => UB end.

(** Mesh.cpp:188-191: first free identifier going down from the counter;
    returns it with the new counter. *)
Fixpoint auto_pick (fuel : nat) (m : zmap nat) (k : Z) : outcome (Z * Z) :=
  match fuel with
  | O => NoFuel
  | S f => match zfind m k with
           | Some _ => auto_pick f m (k - 1)
           | None => Ok (k, k - 1)
           end
  end.

(** Mesh.cpp:196-209, once the identifier is chosen. *)
Definition addNodeAs (s : nodes) (id : Z) (x y z : D) (cp cd part : Z) : outcome (nodes * nat) :=
  match findNodePosition s id with
  | None =>
      let p := length (ndatas s) in
      Ok (mkN (ndatas s ++ [mkND id 0 x y z cp cd part]) (zinsert (npos s) id p)
              (auto_next s) (last_part s) (main_part s) (parts_of s) (iface s) (unused s), p)
  | Some p =>
      match nth_error (ndatas s) p with
      | None => UB
      | Some d =>
          Ok (mkN (set_nth (ndatas s) p (mkND (nd_id d) (nd_dofs d) x y z cp cd (nd_part d)))
                  (npos s) (auto_next s) (last_part s) (main_part s) (parts_of s) (iface s)
                  (unused s), p)
      end
  end.

(** Mesh.cpp:182-212. *)
Definition addNode (s : nodes) (id : Z) (x y z : D) (cp cd part : Z) : outcome (nodes * nat) :=
  if id =? AUTO_ID then
    do (k, nx) <- auto_pick (S (length (npos s))) (npos s) (auto_next s);
    addNodeAs (mkN (ndatas s) (npos s) nx (last_part s) (main_part s) (parts_of s) (iface s) (unused s))
              k x y z cp cd part
  else addNodeAs s id x y z cp cd part.

(** Mesh.cpp:249-259: the main node part of an element set, registered at the
    first use. *)
Definition main_node_part (s : nodes) (cellPart : Z) : nodes * Z :=
  if cellPart =? UNAVAILABLE_INT then (s, 0)
  else match zfind (main_part s) cellPart with
       | Some p => (s, p)
       | None =>
           let p := last_part s + 1 in
           (mkN (ndatas s) (npos s) (auto_next s) p (zinsert (main_part s) cellPart p)
                (zinsert (parts_of s) p (sinsert [] cellPart)) (iface s) (unused s), p)
       end.

Fixpoint iface_find (l : list (zset * Z)) (k : zset) : option Z :=
  match l with
  | [] => None
  | (k', p) :: r => if zset_eqb k' k then Some p else iface_find r k
  end.

Definition with_part (d : ndata) (p : Z) : ndata :=
  mkND (nd_id d) (nd_dofs d) (nd_x d) (nd_y d) (nd_z d) (nd_cp d) (nd_cd d) p.

(** Mesh.cpp:277-300: a further use of an existing node by an element set.
    [parts_of s] at an unknown part is operator[]: an empty set. *)
Definition update_part (s : nodes) (pos : nat) (d : ndata) (cellPart mainP : Z) : nodes :=
  let put s p := mkN (set_nth (ndatas s) pos (with_part d p)) (npos s) (auto_next s) (last_part s)
                     (main_part s) (parts_of s) (iface s) (unused s) in
  if nd_part d =? 0 then put s mainP
  else if nd_part d =? mainP then s
  else
    let cur := match zfind (parts_of s) (nd_part d) with Some c => c | None => [] end in
    if smem cur cellPart then s
    else
      let new := sinsert cur cellPart in
      match iface_find (iface s) new with
      | Some p => put s p
      | None =>
          let p := last_part s + 1 in
          put (mkN (ndatas s) (npos s) (auto_next s) p (main_part s) (zinsert (parts_of s) p new)
                   ((new, p) :: iface s) (unused s)) p
      end.

(** Mesh.cpp:247-304. *)
Definition findOrReserveNode (s : nodes) (id cellPart : Z) : outcome (nodes * nat) :=
  let '(s, mainP) := main_node_part s cellPart in
  match findNodePosition s id with
  | None =>
      do (s, p) <- addNode s id RESERVED RESERVED RESERVED 0 0 mainP;
      Ok (mkN (ndatas s) (zinsert (npos s) id p) (auto_next s) (last_part s) (main_part s)
              (parts_of s) (iface s) (p :: unused s), p)
  | Some p =>
      if cellPart =? UNAVAILABLE_INT then Ok (s, p)
      else match nth_error (ndatas s) p with
           | None => UB
           | Some d =>
               let s := mkN (ndatas s) (npos s) (auto_next s) (last_part s) (main_part s)
                            (parts_of s) (iface s) (remove Nat.eq_dec p (unused s)) in
               Ok (update_part s p d cellPart mainP, p)
           end
  end.

(** Mesh.cpp:331-334. *)
Definition allowDOFS (s : nodes) (p : nat) (allowed : Z) : outcome nodes :=
  match nth_error (ndatas s) p with
  | None => UB
  | Some d => Ok (mkN (set_nth (ndatas s) p
                        (mkND (nd_id d) (Z.lor (nd_dofs d) allowed) (nd_x d) (nd_y d) (nd_z d)
                              (nd_cp d) (nd_cd d) (nd_part d)))
                      (npos s) (auto_next s) (last_part s) (main_part s) (parts_of s) (iface s)
                      (unused s))
  end.

(** Mesh.cpp:112-125 NodeStorage::validate (= Mesh::validate, 861). *)
Definition nvalidate (s : nodes) : bool :=
  forallb (fun d => negb (nd_id d =? UNAVAILABLE_NODE)) (ndatas s).

(** Mesh.cpp:214. *)
Definition countNodes (s : nodes) : nat := length (ndatas s).

(** Mesh.cpp:60-110: iteration visits nodepositionById in ascending id order. *)
Definition iterateNodes (s : nodes) : outcome (list ndata) :=
  mapM (fun kp => match nth_error (ndatas s) (snd kp) with Some d => Ok d | None => UB end) (npos s).

(** Calls a user of Mesh makes on nodes (GRID cards: addNode with the default
    part 0; uses in cells, groups, loads and constraints: findOrReserveNode). *)
Inductive nop :=
| Define (id : Z) (x y z : D) (cp cd : Z)
| Use (id cellPart : Z)
| Allow (id : Z) (allowed : Z).

(** One call; [Allow] is allowDOFS(findNodePosition(id), allowed) as at
    Model.cpp:682. *)
Definition nstep (s : nodes) (o : nop) : outcome nodes :=
  match o with
  | Define id x y z cp cd => do (s, _) <- addNode s id x y z cp cd 0; Ok s
  | Use id cpart => do (s, _) <- findOrReserveNode s id cpart; Ok s
  | Allow id a => match findNodePosition s id with
                  | Some p => allowDOFS s p a
                  | None => UB
                  end
  end.

Definition nrun (s : nodes) (h : list nop) : outcome nodes := foldM nstep h s.

End Nodes.
Arguments ndata : clear implicits.
Arguments nodes : clear implicits.
Arguments nop : clear implicits.
Arguments empty_nodes {D}.
