(** Rigid bars: the cards RBAR, RBAR1 and CRIGD1, the links made of them, and
    what becomes of these links.  Texts and fields as in TokenizerModel; the
    geometry is that of RigidModel. *)
From Coq Require Import Ascii String Reals ZArith List Bool Arith.
Require Import Verif.Base Verif.TextModel Verif.TokenizerModel Verif.DofModel Verif.CardModel Verif.PropCardModel Verif.ReferenceModel Verif.GeomModel Verif.RigidModel.
Import ListNotations.
Open Scope Z_scope.
Open Scope list_scope.

(** What a card says: number, linked components, master ([None]: the value
    UNAVAILABLE_MASTER), slaves in the order read, whether the master may
    receive rotations (Constraint.h:133-160, addRotations, false at creation),
    and whether the link is a RigidConstraint (true, all components) or a
    QuasiRigidConstraint. *)
Record bar := mkBar { bid : Z; bdofs : dofs; bmaster : option Z; bslaves : list Z; brot : bool; bfull : bool }.

(** Nastran/NastranParser.cpp:3106-3142, parseRBAR.  handleParsingError throws
    in every mode (Abstract/SolverInterfaces.cpp:163-182).  The warnings about CMA, CMB and ALPHA do
    not change the link. *)
Definition parseRBAR (t : cursor) : outcome (bar * cursor) :=
  do r <- nextInt t; let '(id, t) := r in
  do r <- nextInt t; let '(ga, t) := r in
  do r <- nextInt t; let '(gb, t) := r in
  do r <- nextIntDefault 0 t; let '(cna, t) := r in
  do r <- nextIntDefault 0 t; let '(cnb, t) := r in
  do r <- nextIntDefault 0 t; let '(cma, t) := r in
  do r <- nextIntDefault 0 t; let '(cmb, t) := r in
  if negb (cna =? 0) && negb (cnb =? 0) then Throw
  else
    let cna := if (cna =? 0) && (cnb =? 0) then 123456 else cna in
    do ds <- nastranCodeToDOFS (if negb (cna =? 0) then cna else cnb);
    do r <- optional_double t; let '(alpha, t) := r in
    Ok (mkBar id ds (Some ga) [gb] false false, t).

(** NastranParser.cpp:3144-3163, parseRBAR1: the link is added before the
    thermal expansion is looked at (line 3155), so the error of line 3160 comes
    too late to drop it: the flag tells whether it is raised. *)
Definition parseRBAR1 (t : cursor) : outcome (bar * bool * cursor) :=
  do r <- nextInt t; let '(id, t) := r in
  do r <- nextInt t; let '(ga, t) := r in
  do r <- nextInt t; let '(gb, t) := r in
  do r <- nextIntDefault 0 t; let '(cna, t) := r in
  do ds <- nastranCodeToDOFS cna;
  do r <- optional_double t; let '(alpha, t) := r in
  Ok (mkBar id ds None [ga; gb] false false, match alpha with Some _ => true | None => false end, t).

(** NastranParser.cpp:1320-1336, parseCRIGD1. *)
Definition parseCRIGD1 (t : cursor) : outcome (bar * cursor) :=
  do r <- nextInt t; let '(id, t) := r in
  do blank <- isNextEmpty 1 t;
  do t <- (if blank then skip 1 t else Ok t);
  do r <- nextInt t; let '(master, t) := r in
  do r <- int_loop (S (length (cvec t))) t; let '(slaves, t) := r in
  Ok (mkBar id ALL_DOFS (Some master) slaves false true, t).

(** NastranParser.cpp:3165-3185 with the flag of line 3171: the same link as in CardModel. *)
Definition bar_of_rbe2 (r : Z * Z * dofs * list Z) : bar :=
  let '(id, master, ds, slaves) := r in mkBar id ds (Some master) slaves true false.

(** NastranParser.cpp:557-560: fields left over raise an error; the link is
    already in the model. *)
Definition left_over (t : cursor) : bool := negb (isEmptyUntilNextKeyword t).

(** Constraint.cpp:208-210, isCompletelyRigid. *)
Definition completely_rigid (b : bar) : bool := Z.eqb (bdofs b) ALL_DOFS && brot b.

(** What finish (Model.cpp:2261-2265) makes of a link: a RigidConstraint and,
    unless [convert] is set, a completely rigid one stay as they are; any other
    one is replaced by relations (Constraint.cpp:212-303), which throws when
    there is no master.  Node numbers stand for positions, as in RigidModel. *)
Inductive finished := Kept | Relations (l : list mpc).
Definition finish_bar (tol : R) (nodes : Z -> outcome rnode) (convert : bool) (b : bar) : outcome finished :=
  if bfull b then Ok Kept
  else if convert || negb (completely_rigid b) then
    match bmaster b with
    | None => Throw
    | Some m => do l <- emulate_link tol nodes (Link (bdofs b) (brot b) m (m :: bslaves b)); Ok (Relations l)
    end
  else Ok Kept.

(** Nastran/NastranWriter.cpp:426-469: the card written for a link that was
    kept, in the constraint set of number [set].  [number] is findNodeId.  A
    RigidConstraint gives an RBE2 of its own number; a QuasiRigidConstraint an
    RBE2 with the number of the set (line 457); the branch without master
    (444-454) is not reached since finish throws before.  The slaves come in
    position order, without repetition and without the master; the caller gives
    them so. *)
Definition write_bar (set : Z) (b : bar) : outcome (list str) :=
  match bmaster b with
  | None => Throw
  | Some m => if bfull b then write_rbe2 (bid b) m ALL_DOFS (bslaves b) else write_rbe2 set m (bdofs b) (bslaves b)
  end.

(** Adding to the model what an RBE2 card gives (NastranParser.cpp:3177 model.add;
    Model.h:583-600, Container::add, in ReferenceModel): [ty] is the type
    QUASI_RIGID, [next] the automatic number. *)
Definition add_bar (ty next : Z) (c : container bar) (b : bar) : outcome (container bar) :=
  cadd c (mkObj ty (bid b) next b).
