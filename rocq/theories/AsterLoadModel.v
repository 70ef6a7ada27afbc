(** Load sets written for Code_Aster: AFFE_CHAR_MECA or AFFE_CHAR_MECA_F with
    DDL_IMPO, PRES_REP, FORCE_COQUE, FORCE_NODALE, FORCE_FACE, FORCE_POUTRE,
    PESANTEUR and ROTATION.  As in AsterConstraintModel the file is a structure
    of keywords, numbers are exact, nodes and cells are positions and names of
    groups are numbers. *)
From Coq Require Import Ascii String Reals ZArith List Bool.
Require Import Verif.Base Verif.TextModel Verif.DofModel Verif.GeomModel Verif.AsterConstraintModel.
Import ListNotations.
Open Scope Z_scope.
Open Scope list_scope.

(** Abstract/MeshComponents.h:467-533 CellContainer: the flag of all the cells,
    own cells, cell groups. *)
Record ccont := CCont { cc_all : bool; cc_groups : list Z; cc_cells : list Z }.
(** TOUT, GROUP_MA, MAILLE. *)
Record ctarget := CTarget { ct_tout : bool; ct_group : list Z; ct_maille : list Z }.
(** AsterWriter.cpp:2177-2212 writeCellContainer. *)
Definition write_cells (m : cmesh) (c : ccont) : outcome ctarget :=
  if cc_all c then Ok (CTarget true [] [])
  else
    do gs <- groups_of (cell_group m) (cc_groups c);
    Ok (CTarget false (map fst (filter (fun g => negb (is_nil (snd g))) gs)) (cc_cells c)).

(** The loadings (Abstract/Loading.h).  A nodal force carries nodePositions() (a
    std::set) and its force and moment in the global system at each of them
    (Loading.cpp:290-330; frames are in GeomModel).  A line load carries its
    component, the number of its value, whether the value is a function
    (Value.h:316) and appliedToGeometry (Loading.cpp:533-566). *)
Inductive loading :=
| Nodal (on : list Z) (force moment : Z -> vec)
| Imposed (on : ncont) (e : dof -> option R)
| PresFace (on : ccont) (p : R)
| PresShell (on : ccont) (p : R)
| Surface (on : ccont) (force moment : vec)
| Line (on : ccont) (geometry : bool) (d : dof) (value : Z) (isfunction : bool)
| Grav (scale : R) (direction : vec)
| Rot (speed : R) (axis centre : vec)
| InitialTemperature
| OtherLoading.

(** 1998-2010: sum of forces and of moments by node, a std::map. *)
Fixpoint add_at (p : Z) (f : vec * vec) (l : list (Z * (vec * vec))) : list (Z * (vec * vec)) :=
  match l with
  | [] => [(p, f)]
  | (q, g) :: r =>
    if p <? q then (p, f) :: l
    else if p =? q then (q, (vadd (fst f) (fst g), vadd (snd f) (snd g))) :: r
    else (q, g) :: add_at p f r
  end.
Definition nodal_sums (l : list loading) : list (Z * (vec * vec)) :=
  fold_left (fun acc k => match k with
                          | Nodal on f g => fold_left (fun acc p => add_at p (f p, g p) acc) on acc
                          | _ => acc end) l [].
Definition vcomp (f m : vec) (d : dof) : R :=
  match d with DX => vx f | DY => vy f | DZ => vz f | RX => vx m | RY => vy m | RZ => vz m end.
Definition force_name (d : dof) : str :=
  txt (match d with DX => "FX" | DY => "FY" | DZ => "FZ" | RX => "MX" | RY => "MY" | RZ => "MZ" end)%string.
(** 2018-2031: components that are not zero. *)
Definition nodal_entry (tol : R) (e : Z * (vec * vec)) : Z * list (str * R) :=
  (fst e, map (fun d => (force_name d, vcomp (fst (snd e)) (snd (snd e)) d))
              (filter (fun d => negb (near_zero tol (vcomp (fst (snd e)) (snd (snd e)) d))) all_dofs)).

(** Abstract/Utility.h:71-73 is_equal(x, 0). *)
Definition equals_zero (tol x : R) : bool :=
  if Rle_dec (Rabs x) (tol * Rmax 1 (Rmax (Rabs x) 0)) then true else false.
(** 2129-2148 FORCE_FACE. *)
Definition face_entry (tol : R) (m : cmesh) (on : ccont) (f g : vec) : outcome (ctarget * list (str * R)) :=
  do t <- write_cells m on;
  Ok (t, map (fun d => (force_name d, vcomp f g d)) (filter (fun d => negb (equals_zero tol (vcomp f g d))) all_dofs)).

(** 1732-1763 writeSPCD, one occurrence. *)
Definition imposed_entry (m : cmesh) (on : ncont) (e : dof -> option R) : outcome (target * list (str * R)) :=
  do t <- write_target m on;
  Ok (t, flat_map (fun d => match e d with Some v => [(ddl_name d, v)] | None => [] end) all_dofs).

(** Abstract/Value.cpp:188-211 norm and normalized (in GeomModel); a vector of norm zero gives
    no numbers, [None]. *)
Definition direction_of (v : vec) : option vec := if Req_EM_T (norm v) 0 then None else Some (normalized v).
(** 1951-1967 PESANTEUR. *)
Definition gravity_entry (k : R) (v : vec) : R * option vec := (norm (vscale k v), direction_of (vscale k v)).

Record char_meca := CharMeca {
  of_functions : bool;
  x_ddl : list (target * list (str * R));
  x_pres : list (R * ctarget);
  x_coque : list (R * ctarget);
  x_nodale : list (Z * list (str * R));
  x_face : list (ctarget * list (str * R));
  x_poutre : list (str * str * ctarget);
  x_pesanteur : list (R * option vec);
  x_rotation : list (R * vec * vec) }.

(** 2094-2117 FORCE_POUTRE: the name of the value is looked up in a map and is
    empty when the value was not written (905-935).  Forces on geometry are
    left out with a warning. *)
Definition line_entry (m : cmesh) (name : Z -> str) (on : ccont) (d : dof) (v : Z) : outcome (str * str * ctarget) :=
  do t <- write_cells m on; Ok (force_name d, name v, t).

(** Loading.cpp:117-124 hasFunctions. *)
Definition has_functions (l : list loading) : bool :=
  existsb (fun k => match k with Line _ _ _ _ f => f | _ => false end) l.
Definition is_temperature (k : loading) : bool := match k with InitialTemperature => true | _ => false end.
Definition collect {A} (f : loading -> list (outcome A)) (l : list loading) : outcome (list A) := mapM (fun x => x) (flat_map f l).

(** 1487-1529, one set: [dload] tells whether its type is DLOAD.  [None]: no
    command. *)
Definition write_loads (tol : R) (m : cmesh) (name : Z -> str) (dload : bool) (l : list loading) : outcome (option char_meca) :=
  if dload then Ok None
  else if is_nil l then Ok None
  else if forallb is_temperature l then Ok None
  else
    do ddl <- collect (fun k => match k with Imposed on e => [imposed_entry m on e] | _ => [] end) l;
    do pres <- collect (fun k => match k with PresFace on p => [do t <- write_cells m on; Ok ((- p)%R, t)] | _ => [] end) l;
    do coque <- collect (fun k => match k with PresShell on p => [do t <- write_cells m on; Ok ((- p)%R, t)] | _ => [] end) l;
    do face <- collect (fun k => match k with Surface on f g => [face_entry tol m on f g] | _ => [] end) l;
    do poutre <- collect (fun k => match k with Line on false d v _ => [line_entry m name on d v] | _ => [] end) l;
    Ok (Some (CharMeca (has_functions l) ddl pres coque (map (nodal_entry tol) (nodal_sums l)) face poutre
      (flat_map (fun k => match k with Grav s v => [gravity_entry s v] | _ => [] end) l)
      (flat_map (fun k => match k with Rot s a c => [(s, a, c)] | _ => [] end) l))).
