(** Model of gap elements: the cards CGAP (Nastran/NastranParser_geometry.cpp:460-485) and
    PGAP (Nastran/NastranParser.cpp:2731-2767), GapTwoNodes (Abstract/Constraint.cpp:605-660)
    and the part of DEFI_CONTACT that says them (Aster/AsterWriter.cpp:1532-1630). *)
From Coq Require Import Ascii String Reals ZArith List Bool Arith.
From Verif Require Import Base ZMap TextModel DofModel TokenizerModel RealModel CardModel LoadCardModel PropCardModel OrientModel GeomModel.
Import ListNotations.
Open Scope Z_scope.
Open Scope list_scope.

(** ** Cards *)

(** A CGAP card: the property and the two nodes.  A PGAP card: the property and the
    opening. *)
Inductive gcard := Cgap (pid ga gb : Z) | Pgap (pid : Z) (u0 : decimal).

(** NastranParser_geometry.cpp:460-469; the keyword is read.  The coordinate system is
    dismissed with a message; the system that parseOrientation makes is left out. *)
Definition parseCGAP (t : cursor) : outcome gcard :=
  do r <- nextInt t; let '(eid, t) := r in
  do r <- nextIntDefault eid t; let '(pid, t) := r in
  do r <- nextInt t; let '(ga, t) := r in
  do r <- nextInt t; let '(gb, t) := r in
  do r <- parse_orientation t; let '(_, t) := r in
  do r <- nextIntDefault 0 t; let '(_, _) := r in
  Ok (Cgap pid ga gb).

(** NastranParser.cpp:2731-2753.  The values of the fields after KA are not used, nor are
    their defaults (zero here). *)
Definition parsePGAP (t : cursor) : outcome gcard :=
  do r <- nextInt t; let '(pid, t) := r in
  do r <- nextDoubleDefault (0, 0) t; let '(u0, t) := r in
  do r <- nextDoubleDefault (0, 0) t; let '(_, t) := r in
  do r <- nextDouble t; let '(_, t) := r in
  do r <- nextDoubleDefault (0, 0) t; let '(_, t) := r in
  do r <- optional_double t; let '(_, t) := r in
  do r <- nextDoubleDefault (0, 0) t; let '(_, t) := r in
  do r <- nextDoubleDefault (0, 0) t; let '(_, t) := r in
  do t <- skip 1 t;
  do r <- nextDoubleDefault (0, 0) t; let '(_, t) := r in
  do r <- nextDoubleDefault (0, 0) t; let '(_, t) := r in
  do r <- nextDoubleDefault (0, 0) t; let '(_, _) := r in
  Ok (Pgap pid u0).

(** ** The constraints *)

(** Constraint.h:246-263 GapTwoNodes: the opening and the second node of each first node,
    both as positions, in the order of the first. *)
Record gap := mkGap { g_open : decimal; g_nodes : zmap Z }.
(** The gaps of the model by the number of their property (registry: claim C09). *)
Definition gaps := zmap gap.
(** NastranParser_geometry.cpp:472-484 with Constraint.cpp:609-613, and
    NastranParser.cpp:2755-2766.  Nodes are named by their positions (claim C10). *)
Definition gap_of (gs : gaps) (pid : Z) : gap := match zfind gs pid with Some g => g | None => mkGap (0, 0) [] end.
Definition gadd (gs : gaps) (c : gcard) : gaps :=
  match c with
  | Cgap pid a b => let g := gap_of gs pid in zinsert gs pid (mkGap (g_open g) (zinsert (g_nodes g) a b))
  | Pgap pid u => zinsert gs pid (mkGap u (g_nodes (gap_of gs pid)))
  end.
Definition gadds (l : list gcard) : gaps := fold_left gadd l [].

Open Scope R_scope.
(** Constraint.cpp:615-627 getGaps. *)
Definition getGaps (at_ : Z -> vec) (g : gap) : list (Z * vec) :=
  map (fun ab => (fst ab, normalized (vsub (at_ (snd ab)) (at_ (fst ab))))) (g_nodes g).

(** ** DEFI_CONTACT *)

(** The constants of one set: C<id>I<k>, C<id>MX<k>, C<id>MY<k>, C<id>MZ<k> (that their
    texts are distinct is claim C90). *)
Inductive gkey := KI | KX | KY | KZ.
Definition key := (gkey * nat)%type.
Definition is_zero (x : R) : bool := if Rle_dec (Rabs x) (5 * / 2 ^ 52) then true else false.
Definition unless {A} (b : bool) (l : list A) : list A := if b then [] else l.
(** AsterWriter.cpp:1548-1571, one participation; the last test is on y as it stands. *)
Definition constants (k : nat) (o : R) (d : vec) : list (key * R) :=
  (KI, k, o) :: unless (is_zero (vx d)) [(KX, k, vx d)] ++ unless (is_zero (vy d)) [(KY, k, vy d)] ++ unless (is_zero (vy d)) [(KZ, k, vz d)].
(** AsterWriter.cpp:1590-1625: one line of ZONE. *)
Record zone := mkZone { z_node : Z; z_impo : key; z_mult : list key; z_cmp : list dof }.
Definition zone_of (k : nat) (n : Z) (d : vec) : zone :=
  mkZone n (KI, k)
    (unless (is_zero (vx d)) [(KX, k)] ++ unless (is_zero (vy d)) [(KY, k)] ++ unless (is_zero (vz d)) [(KZ, k)])
    (unless (is_zero (vx d)) [DX] ++ unless (is_zero (vy d)) [DY] ++ unless (is_zero (vz d)) [DZ]).
(** The count starts again with each gap (1550, 1592). *)
Fixpoint counted {A B} (f : nat -> A -> B) (k : nat) (l : list A) : list B :=
  match l with [] => [] | a :: r => f k a :: counted f (S k) r end.
Definition gap_constants (at_ : Z -> vec) (g : gap) : list (key * R) :=
  concat (counted (fun k p => constants k (dec_R (g_open g)) (snd p)) 1 (getGaps at_ g)).
Definition gap_zones (at_ : Z -> vec) (g : gap) : list zone := counted (fun k p => zone_of k (fst p) (snd p)) 1 (getGaps at_ g).
(** The set of the gaps, in its order: what is defined, then the lines. *)
Definition writeGaps (at_ : Z -> vec) (l : list gap) : list (key * R) * list zone :=
  (flat_map (gap_constants at_) l, flat_map (gap_zones at_) l).
