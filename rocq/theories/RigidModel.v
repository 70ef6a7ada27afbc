(* Rigid links and supports in local axes replaced by linear relations.
   Doubles are real numbers, as in GeomModel. *)
From Coq Require Import Reals ZArith List Bool.
Require Import Verif.Base Verif.DofModel Verif.GeomModel.
Import ListNotations.
Open Scope R_scope.

(* Abstract/Dof.h: DOFCoefs, six coefficients. *)
Definition coef6 (dx dy dz rx ry rz : R) (d : dof) : R :=
  match d with DX => dx | DY => dy | DZ => dz | RX => rx | RY => ry | RZ => rz end.

(* Abstract/Constraint.h:262-283: a LinearMultiplePointConstraint holds one
   coefficient sextuple per node position and the imposed value. *)
Record mpc := Mpc { terms : list (Z * (dof -> R)); imposed : R }.

(* Abstract/Constraint.cpp:542-550: addParticipation.  The node is looked up by
   id and found again at the position it came from, so the model works with
   positions. *)
Fixpoint add_term (l : list (Z * (dof -> R))) (p : Z) (c : dof -> R) : list (Z * (dof -> R)) :=
  match l with
  | [] => [(p, c)]
  | (q, c') :: r => if Z.eqb q p then (q, fun d => c' d + c d) :: r else (q, c') :: add_term r p c
  end.
Definition add_participation (m : mpc) (p : Z) (c : dof -> R) : mpc :=
  Mpc (add_term (terms m) p c) (imposed m).

(* The part of a node that matters here: its global position and the degrees
   of freedom it carries (Abstract/Mesh.h Node, Mesh.cpp:217-243 findNode). *)
Record rnode := RNode { at_ : vec; node_dofs : dofs }.

(* Abstract/Constraint.h:133-160, QuasiRigidConstraint: linked degrees of
   freedom, whether the master may receive rotations, master and slaves
   (position sets, Constraint.cpp:192-200 getSlaves: the nodes without the
   master). *)
Record link := Link { linked : dofs; add_rotations : bool; master : Z; link_nodes : list Z }.
Definition slaves (l : link) : list Z := filter (fun p => negb (Z.eqb p (master l))) (link_nodes l).

(* Abstract/Constraint.cpp:305-329: calcMasterDOFS. [tol] is the tolerance of is_zero. *)
Fixpoint master_dofs_loop (tol : R) (nodes : Z -> outcome rnode) (m : rnode) (ss : list Z) (acc : dofs) : outcome dofs :=
  match ss with
  | [] => Ok acc
  | s :: r =>
    do n <- nodes s;
    let acc1 := dofs_add acc (node_dofs n) in
    let d := vsub (at_ m) (at_ n) in
    let acc2 := if near_zero tol (vx d) then acc1 else dofs_add_dof (dofs_add_dof acc1 RY) RZ in
    let acc3 := if near_zero tol (vy d) then acc2 else dofs_add_dof (dofs_add_dof acc2 RX) RZ in
    let acc4 := if near_zero tol (vz d) then acc3 else dofs_add_dof (dofs_add_dof acc3 RX) RY in
    if Z.eqb acc4 ALL_DOFS then Ok ALL_DOFS else master_dofs_loop tol nodes m r acc4
  end.
Definition calc_master_dofs (tol : R) (nodes : Z -> outcome rnode) (l : link) : outcome dofs :=
  do m <- nodes (master l);
  if Z.eqb (node_dofs m) ALL_DOFS then Ok ALL_DOFS
  else if add_rotations l
       then master_dofs_loop tol nodes m (slaves l) (dofs_add (node_dofs m) TRANSLATIONS)
       else Ok (node_dofs m).

(* One relation with the master's then the slave's participation, imposed value 0. *)
Definition relation (mp sp : Z) (cm cs : dof -> R) : mpc :=
  add_participation (add_participation (Mpc [] 0) mp cm) sp cs.

(* Abstract/Constraint.cpp:219-284: the relations of one slave. *)
Definition slave_mpcs (l : link) (md : dofs) (m : rnode) (s : Z) (n : rnode) : list mpc :=
  let d := vsub (at_ m) (at_ n) in
  let has x := contains (linked l) x in
  let rot x := contains md x in
  (if has DX then [relation (master l) s
     (if rot RY || rot RZ then coef6 (-1) 0 0 0 (vz d) (- vy d) else coef6 (-1) 0 0 0 0 0)
     (coef6 1 0 0 0 0 0)] else []) ++
  (if has DY then [relation (master l) s
     (if rot RX || rot RZ then coef6 0 (-1) 0 (- vz d) 0 (vx d) else coef6 0 (-1) 0 0 0 0)
     (coef6 0 1 0 0 0 0)] else []) ++
  (if has DZ then [relation (master l) s
     (if rot RX || rot RY then coef6 0 0 (-1) (vy d) (- vx d) 0 else coef6 0 0 (-1) 0 0 0)
     (coef6 0 0 1 0 0 0)] else []) ++
  (if has RX && rot RX then [relation (master l) s (coef6 0 0 0 1 0 0) (coef6 0 0 0 (-1) 0 0)] else []) ++
  (if has RY && rot RY then [relation (master l) s (coef6 0 0 0 0 1 0) (coef6 0 0 0 0 (-1) 0)] else []) ++
  (if has RZ && rot RZ then [relation (master l) s (coef6 0 0 0 0 0 1) (coef6 0 0 0 0 0 (-1))] else []).

(* Abstract/Constraint.cpp:212-286: the relations of the whole link.  Putting
   them into the constraint sets of the link (287-303) is not modelled. *)
Definition emulate_link (tol : R) (nodes : Z -> outcome rnode) (l : link) : outcome (list mpc) :=
  do m <- nodes (master l);
  do md <- calc_master_dofs tol nodes l;
  do ms <- mapM (fun s => do n <- nodes s; Ok (slave_mpcs l md m s n)) (slaves l);
  Ok (concat ms).

(* Abstract/Constraint.h:163-200: a support gives a value to some of the six
   degrees of freedom ([None]: free; references to functions are not modelled),
   for nodes of its own and for nodes of groups. *)
Record support := Support { spc_value : dof -> option R; own_nodes : list Z; group_nodes : list Z }.

(* Abstract/Value.cpp VectorialValue::XYZ: the three unit vectors. *)
Definition unit_vec (i : nat) : vec :=
  match i with O => V3 1 0 0 | S O => V3 0 1 0 | _ => V3 0 0 1 end.
(* Position modulo three of a degree of freedom. *)
Definition axis_of (d : dof) : nat :=
  match d with DX | RX => 0 | DY | RY => 1 | DZ | RZ => 2 end.

(* Abstract/Constraint.cpp:505-519: one relation for one degree of freedom. *)
Definition local_mpc (n : nat) (env : systems) (f : frame) (p : Z) (d : dof) (v : R) : outcome mpc :=
  do e <- vector_to_global n env f (unit_vec (axis_of d));
  Ok (add_participation (Mpc [] v) p
        (if isRotation d then coef6 0 0 0 (vx e) (vy e) (vz e) else coef6 (vx e) (vy e) (vz e) 0 0 0)).

(* Abstract/Constraint.cpp:491-524: the loop over the nodes.  [local p] is the
   displacement system of node p with its position, [None] for the global one.
   Each treated node is removed from the own nodes of the support; erasing the
   end iterator when the node came from a group (MeshComponents.cpp:958-960) is
   undefined behaviour.  The local base of a shared cylindrical system is reset
   at each node (line 499), so its previous state does not matter. *)
Fixpoint emulate_support (n : nat) (tol : R) (env : systems) (local : Z -> option (frame * vec))
  (s : support) (ps : list Z) (own : list Z) : outcome (list mpc * list Z) :=
  match ps with
  | [] => Ok ([], own)
  | p :: r =>
    match local p with
    | None => emulate_support n tol env local s r own
    | Some (f, x) =>
      let g := update_local_base tol f x in
      do ms <- mapM (fun d => match spc_value s d with
                              | None => Ok []
                              | Some v => do m <- local_mpc n env g p d v; Ok [m]
                              end) [DX; DY; DZ; RX; RY; RZ];
      if existsb (Z.eqb p) own
      then do rest <- emulate_support n tol env local s r (filter (fun q => negb (Z.eqb q p)) own);
           Ok (concat ms ++ fst rest, snd rest)
      else UB
    end
  end.
Definition emulate_local (n : nat) (tol : R) (env : systems) (local : Z -> option (frame * vec)) (s : support)
  : outcome (list mpc * list Z) :=
  emulate_support n tol env local s (nodup Z.eq_dec (own_nodes s ++ group_nodes s)) (own_nodes s).
