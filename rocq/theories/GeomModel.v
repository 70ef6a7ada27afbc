(* Vectors of space and coordinate systems.  Doubles are modelled by the real
   numbers of the standard library: rounding, overflow and not-a-number values
   are outside of the model.  In particular a division by zero, which gives
   infinities or NaN in the program, gives an unspecified real here; every
   theorem about quotients carries the hypothesis that excludes it. *)
From Coq Require Import Reals ZArith List Bool.
Require Import Verif.Base.
Import ListNotations.
Open Scope R_scope.

(* Abstract/Value.h:385-436: VectorialValue holds three doubles. *)
Record vec := V3 { vx : R; vy : R; vz : R }.

(* Abstract/Value.cpp:238-250 and 224-228: +, -, scalar product with a
   number, scaled and scale are the same function of the components. *)
Definition vadd (a b : vec) : vec := V3 (vx a + vx b) (vy a + vy b) (vz a + vz b).
Definition vsub (a b : vec) : vec := V3 (vx a - vx b) (vy a - vy b) (vz a - vz b).
Definition vscale (k : R) (a : vec) : vec := V3 (k * vx a) (k * vy a) (k * vz a).
Definition vzero : vec := V3 0 0 0.

(* Abstract/Value.cpp:220-222: dot. *)
Definition dot (a b : vec) : R := vx a * vx b + vy a * vy b + vz a * vz b.

(* Abstract/Value.cpp:224-227: cross. *)
Definition cross (a b : vec) : vec :=
  V3 (vy a * vz b - vz a * vy b) (vz a * vx b - vx a * vz b) (vx a * vy b - vy a * vx b).

(* Abstract/Value.cpp:188-190: ublas::norm_2. *)
Definition norm (a : vec) : R := sqrt (dot a a).

(* Abstract/Value.cpp:203-207: normalized. *)
Definition normalized (a : vec) : vec := V3 (vx a / norm a) (vy a / norm a) (vz a / norm a).

(* Abstract/Value.cpp:196-201: orthonormalized (Gram-Schmidt). *)
Definition orthonormalized (v u : vec) : vec :=
  normalized (vsub v (vscale (dot u v / dot u u) u)).

(* Abstract/Utility.cpp:28-49: InvertMatrix.  The LU factorisation of ublas is
   not part of the project; it is modelled by the exact inverse (cofactors over
   the determinant), and by a failure when the determinant is zero.  A matrix
   is given by its three columns, its inverse by its three rows. *)
Record rows := Rows { row0 : vec; row1 : vec; row2 : vec }.
Definition det3 (a b c : vec) : R := dot a (cross b c).
Definition invert_matrix (a b c : vec) : option rows :=
  let d := det3 a b c in
  if Req_EM_T d 0 then None
  else Some (Rows (vscale (/ d) (cross b c)) (vscale (/ d) (cross c a)) (vscale (/ d) (cross a b))).

(* Abstract/CoordinateSystem.h:47-52 and the three subclasses that can be the
   reference of another system.  [Cylindrical ur utheta] carries the two extra
   vectors of CylindricalCoordinateSystem (CoordinateSystem.h:180-182). *)
Inductive kind : Type :=
| Cartesian
| Cylindrical (ur utheta : vec)
| Spherical.

(* Abstract/CoordinateSystem.h:55-69: the fields of CoordinateSystem.  [inverse]
   is [None] while build() has not run (the matrix is then uninitialised).
   [rcs] is the user id of the reference system, 0 for the global system; the
   Type part of the reference is dropped (all named systems are ABSOLUTE). *)
Record frame := Frame {
  fkind : kind; origin : vec; ex : vec; ey : vec; ez : vec;
  rcs : Z; inverse : option rows }.

(* Abstract/CoordinateSystem.cpp:33-39: the constructor of CoordinateSystem
   normalises ex, orthonormalises ey and completes the basis. *)
Definition base_axes (ex0 ey0 : vec) : vec * vec * vec :=
  let e1 := normalized ex0 in
  let e2 := orthonormalized ey0 e1 in
  (e1, e2, cross e1 e2).

(* Abstract/CoordinateSystem.cpp:94-98, 184-189, 242-246: the constructors. *)
Definition new_cartesian (o ex0 ey0 : vec) (r : Z) : frame :=
  let '(e1, e2, e3) := base_axes ex0 ey0 in Frame Cartesian o e1 e2 e3 r None.
Definition new_cylindrical (o ex0 ey0 : vec) (r : Z) : frame :=
  let '(e1, e2, e3) := base_axes ex0 ey0 in Frame (Cylindrical e1 e2) o e1 e2 e3 r None.
Definition new_spherical (o ex0 ey0 : vec) (r : Z) : frame :=
  let '(e1, e2, e3) := base_axes ex0 ey0 in Frame Spherical o e1 e2 e3 r None.

(* Nastran/NastranParser.cpp:1274-1276, 1291-1293, 1313-1315: the axes computed
   from the three points of a CORD2C, CORD2R or CORD2S card. *)
Definition card_axes (a b c : vec) : vec * vec :=
  let ez0 := vsub b a in
  let ex0 := orthonormalized (vsub c a) ez0 in
  (ex0, cross ez0 ex0).

(* Nastran/NastranParser.cpp:1280-1297, 1259-1278, 1299-1319. *)
Definition cord2r (a b c : vec) (rid : Z) : frame :=
  let '(e1, e2) := card_axes a b c in new_cartesian a e1 e2 rid.
Definition cord2c (a b c : vec) (rid : Z) : frame :=
  let '(e1, e2) := card_axes a b c in new_cylindrical a e1 e2 rid.
Definition cord2s (a b c : vec) (rid : Z) : frame :=
  let '(e1, e2) := card_axes a b c in new_spherical a e1 e2 rid.

(* Abstract/CoordinateSystem.cpp:152-179: build of a Cartesian system, the
   non-virtual part.  When the matrix cannot be inverted the result of
   InvertMatrix is ignored and the matrix stays uninitialised.  The other kinds
   inherit the empty build (CoordinateSystem.h:84-85). *)
Definition build (f : frame) : frame :=
  match fkind f with
  | Cartesian => Frame Cartesian (origin f) (ex f) (ey f) (ez f) (rcs f)
                   (invert_matrix (ex f) (ey f) (ez f))
  | _ => f
  end.

(* Abstract/CoordinateSystem.cpp:152-170: the virtual part of build, for a
   system given by three nodes (CORD1R, NastranParser.cpp:1247-1257).  The
   nodes are given by their global positions. *)
Definition build_from_nodes (o z xz : vec) (r : Z) : frame :=
  let e3 := normalized (vsub z o) in
  let v := normalized (vsub xz o) in
  let e1 := orthonormalized v e3 in
  let e2 := cross e3 e1 in
  build (Frame Cartesian o e1 e2 e3 r None).

(* Abstract/CoordinateSystem.cpp:309-333: build of an OrientationCoordinateSystem
   given by two nodes and a vector (lines 286-297 normalise it) or a third node
   (line 320). Its vector conversions (374-410) are those of a Cartesian system. *)
Definition build_orientation (o x v : vec) (r : Z) : frame :=
  let e1 := normalized (vsub x o) in
  let e2 := orthonormalized (normalized v) e1 in
  build (Frame Cartesian o e1 e2 (cross e1 e2) r None).

(* The combination of the three axes, written out in lines 118-120, 195-197,
   208-210 and 257-259 of Abstract/CoordinateSystem.cpp. *)
Definition along (e1 e2 e3 : vec) (l : vec) : vec :=
  V3 (vx l * vx e1 + vy l * vx e2 + vz l * vx e3)
     (vx l * vy e1 + vy l * vy e2 + vz l * vy e3)
     (vx l * vz e1 + vy l * vz e2 + vz l * vz e3).

(* Abstract/Mesh.cpp:621-623 and CoordinateSystemStorage::find 487-498: the
   systems known to the mesh by user id; a missing one is a null pointer that
   the conversions dereference (UB). *)
Definition systems := Z -> option frame.

(* Abstract/CoordinateSystem.cpp:117-130 (Cartesian), 205-219 (cylindrical),
   263-267 (spherical, not implemented).  [n] bounds the depth of nesting. *)
Fixpoint vector_to_global (n : nat) (env : systems) (f : frame) (l : vec) : outcome vec :=
  match n with
  | O => NoFuel
  | S n' =>
    let up v := if Z.eqb (rcs f) 0 then Ok v
                else do g <- of_option (env (rcs f)); vector_to_global n' env g v in
    match fkind f with
    | Cartesian => up (along (ex f) (ey f) (ez f) l)
    | Cylindrical ur ut => up (along ur ut (ez f) l)
    | Spherical => Throw
    end
  end.

(* Abstract/CoordinateSystem.cpp:132-146 (Cartesian); 221-224 and 269-272 throw. *)
Fixpoint vector_to_local (n : nat) (env : systems) (f : frame) (g : vec) : outcome vec :=
  match n with
  | O => NoFuel
  | S n' =>
    match fkind f with
    | Cartesian =>
        do v <- (if Z.eqb (rcs f) 0 then Ok g
                 else do r <- of_option (env (rcs f)); vector_to_local n' env r g);
        do m <- of_option (inverse f);
        Ok (V3 (dot v (row0 m)) (dot v (row1 m)) (dot v (row2 m)))
    | _ => Throw
    end
  end.

(* Abstract/CoordinateSystem.cpp:190-203, 252-261: local Cartesian coordinates
   of a point given by radius, angle(s) in degrees and height. *)
Definition cyl_xyz (l : vec) : vec :=
  V3 (vx l * cos (PI * vy l / 180)) (vx l * sin (PI * vy l / 180)) (vz l).
Definition sph_xyz (l : vec) : vec :=
  V3 (vx l * sin (PI * vy l / 180) * cos (PI * vz l / 180))
     (vx l * sin (PI * vy l / 180) * sin (PI * vz l / 180))
     (vx l * cos (PI * vy l / 180)).

(* Abstract/CoordinateSystem.cpp:107-115 (Cartesian: the origin is converted as
   a position of the reference system and the rest as a vector), 190-203
   (cylindrical) and 248-261 (spherical: the sum is converted as a position). *)
Fixpoint position_to_global (n : nat) (env : systems) (f : frame) (l : vec) : outcome vec :=
  match n with
  | O => NoFuel
  | S n' =>
    let up p := if Z.eqb (rcs f) 0 then Ok p
                else do g <- of_option (env (rcs f)); position_to_global n' env g p in
    match fkind f with
    | Cartesian =>
        do v <- vector_to_global n env f l;
        do o <- up (origin f);
        Ok (vadd o v)
    | Cylindrical _ _ => up (vadd (origin f) (along (ex f) (ey f) (ez f) (cyl_xyz l)))
    | Spherical => up (vadd (origin f) (along (ex f) (ey f) (ez f) (sph_xyz l)))
    end
  end.

(* Abstract/Value.cpp:192-194 and Abstract/Utility.h is_zero (epsilon * 5).
   Used by updateLocalBase only; the tolerance is a parameter of the model. *)
Definition near_zero (tol : R) (x : R) : bool := if Rle_dec (Rabs x) tol then true else false.
Definition vec_iszero (tol : R) (v : vec) : bool :=
  near_zero tol (vx v) && near_zero tol (vy v) && near_zero tol (vz v).

(* Abstract/CoordinateSystem.cpp:181-188: updateLocalBase of a cylindrical
   system; the point is given in the reference system. *)
Definition update_local_base (tol : R) (f : frame) (p : vec) : frame :=
  match fkind f with
  | Cylindrical _ _ =>
      let d := vsub p (origin f) in
      if vec_iszero tol d then f
      else let ut := normalized (cross (ez f) d) in
           Frame (Cylindrical (cross ut (ez f)) ut) (origin f) (ex f) (ey f) (ez f) (rcs f) (inverse f)
  | _ => f
  end.

(* The two-argument arctangent of the C library, for arguments not both zero
   (the value at the origin is 0 there too). *)
Definition atan2 (y x : R) : R :=
  if Rlt_dec 0 x then atan (y / x)
  else if Rlt_dec x 0 then (if Rle_dec 0 y then atan (y / x) + PI else atan (y / x) - PI)
  else if Rlt_dec 0 y then PI / 2
  else if Rlt_dec y 0 then - (PI / 2)
  else 0.

(* Abstract/CoordinateSystem.cpp:61-90: getEulerAnglesIntrinsicZYX.  [cs] is the
   optional system the angles are relative to. *)
Definition euler_angles_of (tiny : R) (EX EY EZ : vec) : vec :=
  let cy := sqrt (vz EZ * vz EZ + vz EY * vz EY) in
  if Rlt_dec tiny cy
  then V3 (atan2 (vy EX) (vx EX)) (atan2 (- vz EX) cy) (atan2 (vz EY) (vz EZ))
  else V3 (atan2 (- vx EY) (vy EY)) (atan2 (- vz EX) cy) 0.
Definition euler_angles (n : nat) (tiny : R) (env : systems) (f : frame) (cs : option frame) : outcome vec :=
  let up v := if Z.eqb (rcs f) 0 then Ok v else vector_to_global n env f v in
  let down v := match cs with None => Ok v | Some g => vector_to_local n env g v end in
  do a <- up (ex f); do b <- up (ey f); do c <- up (ez f);
  do a' <- down a; do b' <- down b; do c' <- down c;
  Ok (euler_angles_of tiny a' b' c').
