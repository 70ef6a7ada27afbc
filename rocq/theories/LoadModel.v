(* Loads: their effect at nodes, their scaling and the test that discards them.
   Doubles are real numbers, as in GeomModel. *)
From Coq Require Import Reals ZArith List Bool.
Require Import Verif.Base Verif.DofModel Verif.GeomModel Verif.RigidModel.
Import ListNotations.
Open Scope R_scope.

(* Abstract/Value.h:217-230 ScalarValue and 340-358 FunctionTable: the values a
   load refers to.  Several loads may share one value, so values are kept in a
   store and loads hold the key. *)
Inductive value := Scalar (x : R) | Table (xy : list (R * R)).
Definition values := Z -> value.

(* Abstract/Loading.h:89-560: the classes of loads.  Node and cell positions of
   groups are listed with the others.  A coordinate system is given directly,
   [None] for the global one.  The three-dimensional vectors of
   ForceSurfaceTwoNodes and NormalPressionFaceTwoNodes behave as in their base
   classes; the choice of the face is in FaceModel. *)
Inductive load :=
| Gravity (factor : R) (g : vec)
| RotationCenter (speed : R) (axis center : vec)
| RotationNode (speed : R) (axis : vec) (node : Z)
| ImposedDisplacement (coefs : dof -> option R) (on : list Z)
| NodalForce (cs : option frame) (force moment : vec) (on : list Z)
| ForceTwoNodes (n1 n2 : Z) (magnitude : R) (on : list Z)
| ForceFourNodes (n1 n2 n3 n4 : Z) (magnitude : R) (on : list Z)
| StaticPressure (n1 n2 n3 : Z) (n4 : option Z) (magnitude : R)
| ForceSurface (force moment : vec) (cells : list Z)
| ForceLine (value : Z) (d : dof) (cells : list Z)
| NormalFace (intensity : R) (cells : list Z)
| NormalShell (intensity : R) (cells : list Z)
| Excitation (tableB : Z)
| InitialTemperature (t : R) (on : list Z).

(* The node positions of a load on nodes (Loading.cpp:413-428 for pressures). *)
Definition load_nodes (l : load) : list Z :=
  match l with
  | ImposedDisplacement _ on | NodalForce _ _ _ on | ForceTwoNodes _ _ _ on
  | ForceFourNodes _ _ _ _ _ on | InitialTemperature _ on => on
  | StaticPressure n1 n2 n3 n4 _ => n1 :: n2 :: n3 :: match n4 with Some n => [n] | None => [] end
  | _ => []
  end.
Definition on_node (l : load) (p : Z) : bool := existsb (Z.eqb p) (load_nodes l).

(* Where the nodes are (Mesh.cpp:217-243 findNode). *)
Definition places := Z -> outcome vec.

(* Abstract/Loading.cpp:291-304: localToGlobal. *)
Definition local_to_global (n : nat) (tol : R) (env : systems) (at_node : places) (cs : option frame) (p : Z) (v : vec)
  : outcome vec :=
  match cs with
  | None => Ok v
  | Some f => do x <- at_node p; vector_to_global n env (update_local_base tol f x) v
  end.

(* Abstract/Value.cpp:203-207: the division by a zero norm gives values that
   are not numbers; the model stops there. *)
Definition direction (v : vec) : outcome vec :=
  if Req_EM_T (norm v) 0 then UB else Ok (normalized v).

(* Abstract/Loading.cpp:430-497: the force of a pressure at one of its nodes. *)
Definition pressure_force (at_node : places) (n1 n2 n3 : Z) (n4 : option Z) (magnitude : R) (p : Z) : outcome vec :=
  do x1 <- at_node n1; do x2 <- at_node n2; do x3 <- at_node n3;
  let v12 := vsub x2 x1 in
  let v13 := vsub x3 x1 in
  match n4 with
  | Some n4 =>
    do x4 <- at_node n4;
    let v14 := vsub x4 x1 in
    let v24 := vsub x4 x2 in
    if Rlt_dec (norm v13) (norm v24) then
      let c1 := cross v12 v13 in
      do d1 <- direction c1;
      let c2 := cross v13 v14 in
      do d2 <- direction c2;
      let f1 := vscale (magnitude / 4 * (norm c1 / 2)) d1 in
      let f2 := vscale (magnitude / 4 * (norm c2 / 2)) d2 in
      if Z.eqb p n1 || Z.eqb p n3 then Ok (vadd f1 f2)
      else if Z.eqb p n2 then Ok (vscale 2 f1)
      else if Z.eqb p n4 then Ok (vscale 2 f2)
      else UB
    else
      let c1 := cross v12 v14 in
      let v23 := vsub x3 x2 in
      do d1 <- direction c1;
      let c2 := cross v23 v24 in
      do d2 <- direction c2;
      let f1 := vscale (magnitude / 4 * (norm c1 / 2)) d1 in
      let f2 := vscale (magnitude / 4 * (norm c2 / 2)) d2 in
      if Z.eqb p n2 || Z.eqb p n4 then Ok (vadd f1 f2)
      else if Z.eqb p n1 then Ok (vscale 2 f1)
      else if Z.eqb p n3 then Ok (vscale 2 f2)
      else UB
  | None =>
    let c := cross v12 v13 in
    do d <- direction c;
    Ok (vscale (magnitude / 3 * (norm c / 2)) d)
  end.

(* Abstract/Loading.cpp:306-318, 360-367, 389-400, 430-497: getForceInGlobalCS
   of the loads that are nodal forces.  Outside its nodes a nodal force throws;
   a pressure returns a vector that was never initialised. *)
Definition force_at (n : nat) (tol : R) (env : systems) (at_node : places) (l : load) (p : Z) : outcome vec :=
  match l with
  | NodalForce cs f _ _ => if on_node l p then local_to_global n tol env at_node cs p f else Throw
  | ForceTwoNodes n1 n2 m _ =>
      do x1 <- at_node n1; do x2 <- at_node n2;
      do d <- direction (vsub x2 x1); Ok (vscale m d)
  | ForceFourNodes n1 n2 n3 n4 m _ =>
      do x1 <- at_node n1; do x2 <- at_node n2; do x3 <- at_node n3; do x4 <- at_node n4;
      do d <- direction (cross (vsub x2 x1) (vsub x4 x3)); Ok (vscale m d)
  | StaticPressure n1 n2 n3 n4 m =>
      if on_node l p then pressure_force at_node n1 n2 n3 n4 m p else UB
  | _ => Throw
  end.

(* Abstract/Loading.cpp:313-318: getMomentInGlobalCS.  The moment member of the
   derived classes is zero (constructors 354-359, 381-388, 413-421: the
   arguments of the pressure's base class are shifted, its moment is still
   zero). *)
Definition moment_at (n : nat) (tol : R) (env : systems) (at_node : places) (l : load) (p : Z) : outcome vec :=
  match l with
  | NodalForce cs _ m _ => if on_node l p then local_to_global n tol env at_node cs p m else Throw
  | ForceTwoNodes _ _ _ _ | ForceFourNodes _ _ _ _ _ _ | StaticPressure _ _ _ _ _ =>
      if on_node l p then Ok vzero else Throw
  | _ => Throw
  end.

(* Abstract/Loading.cpp:157-164: getAccelerationVector. *)
Definition acceleration (factor : R) (g : vec) : vec := vscale factor g.

(* Abstract/Value.h:224-226, Value.cpp:154-158. *)
Definition scale_value (k : R) (v : value) : value :=
  match v with
  | Scalar x => Scalar (x * k)
  | Table xy => Table (map (fun p => (fst p, snd p * k)) xy)
  end.
Definition set_value (s : values) (i : Z) (v : value) : values := fun j => if Z.eqb j i then v else s j.

(* Abstract/Dof.cpp:530-537: DOFCoefs::operator*=.  A coefficient that is not
   available (equal to the reserved double) is [None]. *)
Definition scale_coefs (k : R) (c : dof -> option R) : dof -> option R :=
  fun d => match c d with Some x => Some (x * k) | None => None end.

(* Abstract/Loading.cpp:273-278: ImposedDisplacement::scale, one multiplication
   of all coefficients for each available one. *)
Definition scale_displacements (k : R) (c : dof -> option R) : dof -> option R :=
  fold_left (fun c d => match c d with Some _ => scale_coefs k c | None => c end) [DX; DY; DZ; RX; RY; RZ] c.

(* Abstract/Loading.cpp: scale of each class (175, 222, 246, 273, 342, 373, 406,
   503, 632, 697, 730, 759, 847, 877). *)
Definition scale_load (k : R) (s : values) (l : load) : values * load :=
  match l with
  | Gravity a g => (s, Gravity (a * k) g)
  | RotationCenter w ax c => (s, RotationCenter (w * k) ax c)
  | RotationNode w ax n => (s, RotationNode (w * k) ax n)
  | ImposedDisplacement c on => (s, ImposedDisplacement (scale_displacements k c) on)
  | NodalForce cs f m on => (s, NodalForce cs (vscale k f) (vscale k m) on)
  | ForceTwoNodes n1 n2 m on => (s, ForceTwoNodes n1 n2 (m * k) on)
  | ForceFourNodes n1 n2 n3 n4 m on => (s, ForceFourNodes n1 n2 n3 n4 (m * k) on)
  | StaticPressure n1 n2 n3 n4 m => (s, StaticPressure n1 n2 n3 n4 (m * k))
  | ForceSurface f m cells => (s, ForceSurface (vscale k f) (vscale k m) cells)
  | ForceLine v d cells => (set_value s v (scale_value k (s v)), l)
  | NormalFace p cells => (s, NormalFace (p * k) cells)
  | NormalShell p cells => (s, NormalShell (p * k) cells)
  | Excitation b => (set_value s b (scale_value k (s b)), l)
  | InitialTemperature t on => (s, InitialTemperature (t * k) on)
  end.

(* Abstract/Value.h:227-229, Value.cpp:150-152. *)
Definition value_iszero (tol : R) (v : value) : bool :=
  match v with
  | Scalar x => near_zero tol x
  | Table xy => forallb (fun p => near_zero tol (snd p)) xy
  end.

(* Abstract/Loading.cpp: ineffective of each class (179, 195, 261, 347, 377,
   410, 507, 637, 701, 734, 763, 861, 881).  The nodes of a group count as
   non-empty by its name; here by its nodes. *)
Definition ineffective (tol : R) (s : values) (l : load) : bool :=
  match l with
  | Gravity a g => near_zero tol a || vec_iszero tol g
  | RotationCenter w ax _ | RotationNode w ax _ => near_zero tol w || vec_iszero tol ax
  | ImposedDisplacement c on =>
      match on with [] => true | _ => forallb (fun d => match c d with None => true | Some _ => false end) [DX; DY; DZ; RX; RY; RZ] end
  | NodalForce _ f m _ => vec_iszero tol f && vec_iszero tol m
  | ForceTwoNodes _ _ m _ => near_zero tol m || vec_iszero tol vzero
  | ForceFourNodes _ _ _ _ m _ | StaticPressure _ _ _ _ m => near_zero tol m
  | ForceSurface f m _ => vec_iszero tol f && vec_iszero tol m
  | ForceLine v _ _ => value_iszero tol (s v)
  | NormalFace p _ | NormalShell p _ => near_zero tol p
  | Excitation _ => false
  | InitialTemperature t _ => near_zero tol t
  end.

(* Abstract/Model.cpp:1006-1017: the loads kept by removeIneffectives.  Loads
   are kept with their identity; load sets, constraints and element sets of the
   same pass are treated elsewhere. *)
Definition keep_effective (tol : R) (s : values) (ls : list (Z * load)) : list (Z * load) :=
  filter (fun e => negb (ineffective tol s (snd e))) ls.

(* Nastran/NastranWriter.cpp:600, 621-622: the PLOAD4 card of a force on a face
   (in the global system): the norm of the force and its direction. *)
Definition surface_force (f : vec) : outcome (R * vec) := do d <- direction f; Ok (norm f, d).
