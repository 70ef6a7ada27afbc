(** Model of the nodes and coordinate systems of the Nastran reader (cards GRID,
    GRDSET, CORDxx) and writer: the register of coordinate systems of the mesh,
    the defaults of GRDSET, the permanent supports of nodes. *)
From Coq Require Import Ascii String ZArith List Bool Arith.
From Verif Require Import Base DofModel TextModel TokenizerModel RealModel WriterLineModel.
Import ListNotations.
Open Scope Z_scope.
Open Scope list_scope.

(** Reference<CoordinateSystem>: a system named by the user (type ABSOLUTE) or an
    orientation that has only an internal number (type RELATIVE); Reference.h:107-116
    compares them in this way. *)
Inductive csref := Named (cid : Z) | Automatic (n : Z).
Definition csref_eqb (a b : csref) : bool :=
  match a, b with
  | Named x, Named y | Automatic x, Automatic y => x =? y
  | _, _ => false
  end.

Section Storage.
(** A coordinate system, a point; [place env f x]: positionToGlobal of [x] by the
    system [f], whose own reference systems are looked up with [env]
    (CoordinateSystem.cpp:107-130, 190-219, 248-267: GeomModel). *)
Context {F X : Type} (place : (Z -> option F) -> F -> X -> outcome X).

(** CoordinateSystem.h:236-275 CoordinateSystemStorage: the next position (a
    static counter, first 1), refByPosition by ascending position,
    coordinateSystemByRef. *)
Record storage := mkStorage { next_pos : Z; refs : list (Z * csref); defs : csref -> option F }.

(** CoordinateSystem.cpp:429-443 findPosition; None: UNAVAILABLE_POSITION. *)
Definition find_position (s : storage) (r : csref) : option Z :=
  if csref_eqb r (Named 0) then Some 0
  else option_map fst (find (fun e => csref_eqb (snd e) r) (refs s)).
(** 500-515 reserve. *)
Definition reserve (s : storage) (r : csref) : outcome (storage * Z) :=
  if csref_eqb r (Named 0) then Throw
  else Ok (mkStorage (next_pos s + 1) (refs s ++ [(next_pos s, r)]) (defs s), next_pos s).
(** Mesh.cpp:625-632 findOrReserveCoordinateSystem. *)
Definition find_or_reserve (s : storage) (r : csref) : outcome (storage * Z) :=
  if csref_eqb r (Named 0) then Ok (s, 0)
  else match find_position s r with
       | Some p => Ok (s, p)
       | None => reserve s r
       end.
(** CoordinateSystem.cpp:445-470 add: always a new position, which is in no
    other entry, so that the check of line 455 passes. *)
Definition cs_add (s : storage) (r : csref) (f : F) : storage :=
  mkStorage (next_pos s + 1) (refs s ++ [(next_pos s, r)])
    (fun q => if csref_eqb q r then Some f else defs s q).
(** CoordinateSystem.cpp:472-486 findByPosition. *)
Definition find_by_position (s : storage) (p : Z) : outcome (option F) :=
  if p =? 0 then Throw
  else match find (fun e => fst e =? p) (refs s) with
       | None => Throw
       | Some e => Ok (defs s (snd e))
       end.

(** NastranParser.h:59-71 GrdSet. *)
Record grdset := mkGrd { gcp : Z; gcd : Z; gps : Z }.
(** Mesh.h:30-45 NodeData: coordinates, positions of the two systems. *)
Record gnode := mkNode { coords : X; ncp : Z; ncd : Z }.
(** The part of the reader and of the model involved.  Nodes by user number (a
    later definition replaces an earlier one, C11); [held]: the supports added to
    the common constraint set, in order. *)
Record reader := mkReader { cs : storage; grd : grdset; nds : Z -> option gnode; held : list (Z * dofs) }.

(** A bulk data card, its fields already decoded (None: blank field). *)
Inductive card :=
| CORD (cid : Z) (f : F)
| GRDSET (cp cd ps : option Z)
| GRID (id : Z) (cp : option Z) (x : X) (cd ps : option Z).
Definition default (o : option Z) (d : Z) : Z := match o with Some v => v | None => d end.

(** NastranParser_geometry.cpp:58-73 parseGRDSET: the fields of grdSet receive
    positions. *)
Definition parse_grdset (r : reader) (cp cd ps : option Z) : outcome reader :=
  do a <- (let c := default cp 0 in
           if c =? 0 then Ok (cs r, gcp (grd r)) else find_or_reserve (cs r) (Named c));
  do b <- (let c := default cd 0 in
           if c =? 0 then Ok (fst a, gcd (grd r)) else find_or_reserve (fst a) (Named c));
  Ok (mkReader (fst b) (mkGrd (snd a) (snd b) (default ps 0)) (nds r) (held r)).

(** NastranParser_geometry.cpp:75-110 parseGRID. *)
Definition parse_grid (r : reader) (id : Z) (cp : option Z) (x : X) (cd ps : option Z) : outcome reader :=
  let cp := default cp (gcp (grd r)) in
  do a <- (if cp =? 0 then Ok (cs r, 0) else find_or_reserve (cs r) (Named cp));
  let cd := default cd (gcd (grd r)) in
  do b <- (if cd =? 0 then Ok (fst a, 0) else find_or_reserve (fst a) (Named cd));
  let ps := default ps (gps (grd r)) in
  do h <- (if ps =? 0 then Ok (held r) else do s <- nastranCodeToDOFS ps; Ok (held r ++ [(id, s)]));
  Ok (mkReader (fst b) (grd r)
        (fun i => if i =? id then Some (mkNode x (snd a) (snd b)) else nds r i) h).

Definition read_card (r : reader) (c : card) : outcome reader :=
  match c with
  | CORD cid f => Ok (mkReader (cs_add (cs r) (Named cid) f) (grd r) (nds r) (held r))
  | GRDSET cp cd ps => parse_grdset r cp cd ps
  | GRID id cp x cd ps => parse_grid r id cp x cd ps
  end.
(** [n]: the first position (the counter is shared by all the meshes of the
    program). *)
Definition new_reader (n : Z) : reader :=
  mkReader (mkStorage n [] (fun _ => None)) (mkGrd 0 0 0) (fun _ => None) [].
Definition read_cards (n : Z) (l : list card) : outcome reader := foldM read_card l (new_reader n).

(** The systems as their own references see them (Mesh.cpp:621-623). *)
Definition named_systems (r : reader) : Z -> option F := fun c => defs (cs r) (Named c).
(** Mesh.cpp:217-243 findNode: the global coordinates.  A missing system is
    reported on the error stream and ignored. *)
Definition global_position (r : reader) (g : gnode) : outcome X :=
  if ncp g =? 0 then Ok (coords g)
  else do f <- find_by_position (cs r) (ncp g);
       match f with
       | None => Ok (coords g)
       | Some f => place (named_systems r) f (coords g)
       end.
(** The system of the displacements of a node (Constraint.cpp:494-498 and
    others: getCoordinateSystemByPosition); None: the global one. *)
Definition displacement_system (r : reader) (g : gnode) : outcome (option F) :=
  if ncd g =? 0 then Ok None else find_by_position (cs r) (ncd g).

(** NastranWriter.cpp:369-378 writeNodes: the coordinates of the node in its own
    system, no system. *)
Definition write_grid (id : Z) (g : gnode) : card := GRID id None (coords g) None None.
End Storage.
Arguments storage F : clear implicits.
Arguments reader F X : clear implicits.
Arguments card F X : clear implicits.
Arguments gnode X : clear implicits.

(** ** Texts *)
(** The fields of a GRID card (NastranParser_geometry.cpp:76-98): the system and
    support fields are optional, blank coordinates are 0. *)
Definition optional_int (t : cursor) : outcome (option Z * cursor) :=
  let '(s, t') := nextSymbolString t in
  let v := trim s in
  if null v then Ok (None, t') else do n <- lexical_int v; Ok (Some n, t').
Definition grid_fields (t : cursor) : outcome (Z * option Z * (decimal * decimal * decimal) * option Z * option Z) :=
  do r <- nextInt t; let '(id, t) := r in
  do r <- optional_int t; let '(cp, t) := r in
  do r <- nextDoubleDefault (0, 0) t; let '(x, t) := r in
  do r <- nextDoubleDefault (0, 0) t; let '(y, t) := r in
  do r <- nextDoubleDefault (0, 0) t; let '(z, t) := r in
  do r <- optional_int t; let '(cd, t) := r in
  do r <- optional_int t; let '(ps, t) := r in
  Ok (id, cp, (x, y, z), cd, ps).
(** The fields of CORD2R, CORD2C and CORD2S (NastranParser.cpp:1259-1319): number,
    reference system, nine coordinates. *)
Fixpoint reals (n : nat) (t : cursor) : outcome (list decimal * cursor) :=
  match n with
  | O => Ok ([], t)
  | S n => do r <- nextDoubleDefault (0, 0) t; let '(x, t) := r in
           do r <- reals n t; let '(l, t) := r in Ok (x :: l, t)
  end.
Definition cord2_fields (t : cursor) : outcome (Z * Z * list decimal) :=
  do r <- nextInt t; let '(cid, t) := r in
  do r <- nextIntDefault 0 t; let '(rid, t) := r in
  do r <- reals 9 t; Ok (cid, rid, fst r).
(** NastranWriter.cpp:376 the fields of GRID, 1045-1055 those of CORD2x: the
    number and the origin.  A real is [n / 10^k] (WriterLineModel). *)
Definition grid_text (tie : bool) (id : Z) (x y z : Z * Z) : list str :=
  [int_text id; []; real_text tie (fst x) (snd x); real_text tie (fst y) (snd y); real_text tie (fst z) (snd z)].
Definition cord2_text (tie : bool) (cid : Z) (x y z : Z * Z) : list str :=
  [int_text cid; real_text tie (fst x) (snd x); real_text tie (fst y) (snd y); real_text tie (fst z) (snd z)].
