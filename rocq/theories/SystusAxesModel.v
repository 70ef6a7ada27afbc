(** Local axes of the elements of the Systus file: the axes Systus gives to an
    element by default, and the angles written for an element with its own.
    Geometry as in GeomModel, orientations as in OrientModel. *)
From Coq Require Import Reals ZArith List Bool.
Require Import Verif.Base Verif.GeomModel Verif.OrientModel.
Import ListNotations.
Open Scope R_scope.

(** The messages printed by handleWritingWarning (the element is written all the
    same). *)
Inductive remark := RUnknown | RRefused | RNoX | RFew | RQuad | RFlat | RNotShell | RPoint | RPhiOnly | RPsiOnly.

Definition AX := V3 1 0 0.
Definition AY := V3 0 1 0.
Definition AZ := V3 0 0 1.

(** Systus/SystusWriter.cpp:158-168: centre of the nodes. *)
Definition centre (pts : list vec) : vec := vscale (/ INR (length pts)) (fold_left vadd pts vzero).
(** SystusWriter.cpp:225-227: the frame made of an origin and two vectors. *)
Definition local_frame (o x y : vec) : frame := build (new_cartesian o x y 0).

(** SystusWriter.cpp:119-231, buildElementDefaultReferentiel.  [nodes]: global
    coordinates by number, an unknown one throws; [ids] in the order of Systus.
    The dimensions are 0 to 3: the error of another one (line 216) is not
    modelled and gives the same axes as in line 217. *)
Definition default_axes (tol : R) (nodes : Z -> outcome vec) (dim ctype : Z) (ids : list Z) : outcome (frame * list remark) :=
  if (dim =? 1)%Z then
    if (ctype =? 6)%Z then Ok (local_frame vzero AX AY, [])
    else match ids with
         | i :: j :: _ =>
           do a <- nodes i; do b <- nodes j;
           let x := vsub b a in
           if near_zero tol (vx x) && near_zero tol (vy x) then
             if near_zero tol (vz x) then Ok (local_frame a AX AY, [RNoX])
             else Ok (local_frame a x AY, [])
           else Ok (local_frame a x (cross AZ x), [])
         | _ => UB
         end
  else if (dim =? 2)%Z then
    do pts <- mapM nodes ids;
    let o := centre pts in
    if (length pts <? 3)%nat then Ok (local_frame o AX AY, [RFew])
    else if (ctype =? 4)%Z then
      match pts with
      | [a0; a1; a2] =>
        let z := cross (vsub a1 a0) (vsub a2 a0) in
        let x := cross AZ z in
        let y := cross z x in
        if vec_iszero tol x || vec_iszero tol y then Ok (local_frame o AX AY, [RFlat])
        else Ok (local_frame o x y, [])
      | _ => Ok (local_frame o AX AY, [RQuad])
      end
    else Ok (local_frame o AX AY, [RNotShell])
  else Ok (local_frame vzero AX AY, []).

(** CoordinateSystem.cpp:92-105, 184-189, 242-246, 289-301: the two marks of a
    system. *)
Definition absolute (s : system) : bool := match s with User _ => true | Orient _ => false end.
Definition by_vectors (s : system) : bool := match s with User _ => false | Orient _ => true end.
Definition cartesian (s : system) : bool :=
  match s with User f => match fkind f with Cartesian => true | _ => false end | Orient _ => false end.
(** SystusWriter.cpp:2654-2655. *)
Definition refused (s : system) : bool :=
  (absolute s && negb (by_vectors s)) && (negb (absolute s) && negb (cartesian s)).
Definition frame_of (nodes : Z -> outcome vec) (s : system) : outcome frame :=
  match s with User f => Ok f | Orient o => built_axes nodes o end.

(** SystusWriter.cpp:2643-2713, writeElementLocalReferentiel: a count and the
    angles that follow it, as numbers (in radians, as computed).  [s]: the system
    at the position of the cell, if there is one.  [n]: nesting of systems. *)
Definition written := (Z * list R)%type.
Definition element_axes (n : nat) (tol tiny : R) (env : systems) (nodes : Z -> outcome vec)
  (dim ctype : Z) (ids : list Z) (s : option system) : outcome (written * list remark) :=
  match s with
  | None => Ok ((0%Z, []), [RUnknown])
  | Some s =>
    if refused s then Ok ((0%Z, []), [RRefused])
    else
      do d <- default_axes tol nodes dim ctype ids; let '(g, r) := d in
      do f <- frame_of nodes s;
      do e <- euler_angles n tiny env f (Some g);
      let full := (3%Z, [vx e; vy e; vz e]) in
      if (dim =? 0)%Z then
        if absolute s then Ok (full, r) else Ok ((0%Z, []), r ++ [RPoint])
      else if (dim =? 1)%Z then
        if (ctype =? 6)%Z then Ok (full, r)
        else Ok ((3%Z, [0; 0; vz e]),
                 r ++ (if negb (near_zero tol (vx e)) || negb (near_zero tol (vy e)) then [RPhiOnly] else []))
      else if (dim =? 2)%Z then
        Ok ((1%Z, [vx e]),
            r ++ (if negb (near_zero tol (vy e)) || negb (near_zero tol (vz e)) then [RPsiOnly] else []))
      else Ok (full, r)
  end.
