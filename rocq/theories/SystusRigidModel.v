(** Model of the preparation of the rigid elements of a Systus file
    (Systus/SystusWriter.cpp:643-883 generateRBEs): rigid bars (RBAR), averaging
    elements (RBE3) and linear relations (LMPC) are given the extra nodes that
    Systus wants, and their cells are replaced.

    Not modelled: the stiffness written in the rigid material (572-597, 656-670,
    847-859), the material checks (649-655, 751-757, 839-845), markAsWritten, and
    the groups of cells (an element set is the set of positions of its cells:
    updateCell moves the positions inside groups, Mesh.cpp:494-501, and 736-742
    moves those outside). *)
From Coq Require Import ZArith List Bool.
From Verif Require Import Base ZMap MeshNodeModel MeshCellModel.
Import ListNotations.
Open Scope Z_scope.

Inductive rkind := KRbar | KRbe3 | KLmpc.

(** ElementSet.h Rbar, Rbe3, Lmpc: the master (unused for relations) and the
    positions of the cells, a sorted std::set<pos_t>. *)
Record rset := mkRS { rs_master : Z; rs_cells : list nat }.

(** std::set<pos_t>::insert and erase. *)
Fixpoint padd (l : list nat) (p : nat) : list nat :=
  match l with
  | [] => [p]
  | q :: r => if Nat.eqb p q then l else if Nat.ltb p q then p :: l else q :: padd r p
  end.
Definition premove (l : list nat) (p : nat) : list nat := filter (fun q => negb (Nat.eqb p q)) l.

Section Rigid.
Context {D : Type} (RESERVED : D).
Notation mesh := (mesh D).

(** Mesh.cpp:218-245 findNode, as far as generateRBEs looks: the stored data.
    An unavailable position is an exception. *)
Definition nodeAt (m : mesh) (p : option nat) : outcome (ndata D) :=
  match p with
  | None => Throw
  | Some p => match nth_error (ndatas (mnodes m)) p with Some d => Ok d | None => UB end
  end.

(** SystusWriter.cpp:682-683, 707-708, 767-768, 776-777, 779-780, 868-869: a node
    with a new number at the place of [d], and its number. *)
Definition cloneNode (m : mesh) (d : ndata D) (cd : Z) : outcome (mesh * Z) :=
  do (s, p) <- addNode (mnodes m) AUTO_ID (nd_x d) (nd_y d) (nd_z d) (nd_cp d) cd 0;
  do i <- findNodeId s p;
  Ok (with_nodes m s, i).

(** SystusWriter.cpp:713-730 (RBAR), 799-812 (RBE3), 871 (LMPC): the new type of a
    cell of [n] nodes; None: the cell is left as it is.  handleWritingError throws
    in strict mode only. *)
Definition retype (strict : bool) (k : rkind) (n : nat) : outcome (option ctype) :=
  let other := if strict then Throw else Ok None in
  match k with
  | KRbar => match n with
             | 2 => Ok None | 3 => Ok (Some (POLY 3)) | 4 => Ok (Some (POLY 4)) | _ => other
             end
  | KRbe3 => match n with 3 => Ok (Some (POLY 3)) | 5 => Ok (Some (POLY 5)) | _ => other end
  | KLmpc => do t <- polyType n; Ok (Some t)
  end%nat.

(** SystusWriter.cpp:691-696, 787-792: two nodes, the first one the master. *)
Definition wellShaped (k : rkind) (master : Z) (ids : list Z) : bool :=
  match k with
  | KLmpc => true
  | _ => Nat.eqb (length ids) 2 && match ids with i :: _ => i =? master | [] => false end
  end.

(** One turn of the loops SystusWriter.cpp:688-732, 784-814, 864-873: [shared] are
    the nodes added to every cell of the set, [own] the index of the node of the
    cell that gets a Lagrange node of its own.  Returns the new position. *)
Definition cellStep (strict : bool) (k : rkind) (master : Z) (shared : list Z) (own : option nat)
    (m : mesh) (pos : nat) : outcome (mesh * option nat) :=
  do c <- findCell m pos;
  if strict && negb (wellShaped k master (c_nodeIds c)) then Throw
  else
    do (m, lagr) <- match own with
                    | None => Ok (m, [])
                    | Some i => match nth_error (c_nodePos c) i with
                                | None => UB
                                | Some p => do d <- nodeAt m (Some p);
                                            do (m, l) <- cloneNode m d 0; Ok (m, [l])
                                end
                    end;
    let ids := c_nodeIds c ++ shared ++ lagr in
    do t <- retype strict k (length ids);
    match t with
    | None => Ok (m, None)
    | Some t => do (m, q) <- updateCell RESERVED m (c_id c) t ids true 0 INT_MAX; Ok (m, Some q)
    end.

(** The loop over the cells of the set; the map updatedPositionByOldPosition is
    filled in the order of the old positions. *)
Fixpoint cellLoop strict k master shared own (m : mesh) (l : list nat)
  : outcome (mesh * list (nat * nat)) :=
  match l with
  | [] => Ok (m, [])
  | p :: l => do (m, q) <- cellStep strict k master shared own m p;
              do (m, u) <- cellLoop strict k master shared own m l;
              Ok (m, match q with Some q => (p, q) :: u | None => u end)
  end.

(** SystusWriter.cpp:736-742, 817-823, 875-881. *)
Definition swapCells (l : list nat) (u : list (nat * nat)) : list nat :=
  fold_left (fun l '(p, q) => padd (premove l p) q) u l.

(** SystusWriter.cpp:648-744: one RBAR set.  [d3] is the option CONTINUOUS,
    [lag] the "lagrangian" translation mode. *)
Definition rbarSet (strict d3 lag : bool) (m : mesh) (rots : zmap Z) (s : rset)
  : outcome (mesh * zmap Z * rset) :=
  do d <- nodeAt m (findNodePosition (mnodes m) (rs_master s));
  do (m, rots, shared) <- (if d3 then do (m, r) <- cloneNode m d (nd_cd d);
                                      Ok (m, zinsert rots (nd_id d) r, [r])
                           else Ok (m, rots, []));
  do (m, u) <- cellLoop strict KRbar (rs_master s) shared (if lag then Some 1%nat else None) m (rs_cells s);
  Ok (m, rots, mkRS (rs_master s) (swapCells (rs_cells s) u)).

(** SystusWriter.cpp:746-825: one RBE3 set. *)
Definition rbe3Set (strict d3 : bool) (m : mesh) (rots : zmap Z) (s : rset)
  : outcome (mesh * zmap Z * rset) :=
  do d <- nodeAt m (findNodePosition (mnodes m) (rs_master s));
  do (m, l) <- cloneNode m d 0;
  do (m, rots, shared) <- (if d3 then do (m, r) <- cloneNode m d (nd_cd d);
                                      do (m, lr) <- cloneNode m d 0;
                                      Ok (m, zinsert rots (nd_id d) r, [r; l; lr])
                           else Ok (m, rots, [l]));
  do (m, u) <- cellLoop strict KRbe3 (rs_master s) shared None m (rs_cells s);
  Ok (m, rots, mkRS (rs_master s) (swapCells (rs_cells s) u)).

(** SystusWriter.cpp:828-884: one LMPC set. *)
Definition lmpcSet (strict lag : bool) (m : mesh) (rots : zmap Z) (s : rset)
  : outcome (mesh * zmap Z * rset) :=
  if lag then
    do (m, u) <- cellLoop strict KLmpc (rs_master s) [] (Some 0%nat) m (rs_cells s);
    Ok (m, rots, mkRS (rs_master s) (swapCells (rs_cells s) u))
  else Ok (m, rots, s).

Definition oneSet (strict d3 lag : bool) (k : rkind) :=
  match k with
  | KRbar => rbarSet strict d3 lag
  | KRbe3 => rbe3Set strict d3
  | KLmpc => lmpcSet strict lag
  end.

Fixpoint setLoop strict d3 lag (m : mesh) (rots : zmap Z) (l : list (rkind * rset))
  : outcome (mesh * zmap Z * list (rkind * rset)) :=
  match l with
  | [] => Ok (m, rots, [])
  | (k, s) :: l => do (m, rots, s) <- oneSet strict d3 lag k m rots s;
                   do (m, rots, l) <- setLoop strict d3 lag m rots l;
                   Ok (m, rots, (k, s) :: l)
  end.

Definition isKind (k : rkind) (s : rkind * rset) : bool :=
  match k, fst s with
  | KRbar, KRbar | KRbe3, KRbe3 | KLmpc, KLmpc => true
  | _, _ => false
  end.

(** SystusWriter.cpp:643-885 generateRBEs: all bars, then all averaging elements,
    then all relations.  The result lists the sets in that order, with the map
    from the masters to their rotation nodes. *)
Definition generateRBEs (strict d3 lag : bool) (m : mesh) (l : list (rkind * rset))
  : outcome (mesh * zmap Z * list (rkind * rset)) :=
  setLoop strict d3 lag m [] (filter (isKind KRbar) l ++ filter (isKind KRbe3) l ++ filter (isKind KLmpc) l).
End Rigid.
