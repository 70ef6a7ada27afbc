(** Model of the single point constraints ("supports"), of the constraint sets
    holding them, of the analyses using these sets, and of the passes that take
    supports away: Abstract/Analysis.cpp removeSPCNodeDofs, Abstract/Model.cpp
    removeRedundantSpcs and removeConstrainedImposed. *)
From Coq Require Import ZArith List Bool.
From Verif Require Import Base.
Import ListNotations.
Open Scope Z_scope.

(** std::set<int>::insert: ascending, no duplicates. *)
Fixpoint ins (x : Z) (l : list Z) : list Z :=
  match l with
  | [] => [x]
  | y :: r => if x <? y then x :: l else if x =? y then l else y :: ins x r
  end.
Definition union (l r : list Z) : list Z := fold_left (fun acc x => ins x acc) r l.
Definition mem (x : Z) (l : list Z) : bool := existsb (Z.eqb x) l.
Definition memd (d : nat) (l : list nat) : bool := existsb (Nat.eqb d) l.

(** DOF.h: the six degrees of freedom by position, in the iteration order of
    DOFS; a DOFS value is the list of its members. *)
Definition six : list nat := [0; 1; 2; 3; 4; 5]%nat.

Section Support.
Context {V : Type}.

(** Constraint.h SinglePointConstraint: for each degree of freedom no support
    (NO_SPC), an imposed value, or a reference to a table. *)
Inductive sval := Free | Val (v : V) | Table.

(** Constraint.cpp:400-430, NodeContainer: the six values, the nodes listed in
    the constraint itself and those that come from its node groups or cells. *)
Record spc := mkSpc { sval_of : nat -> sval; own : list Z; grouped : list Z }.

(** The part of Model and Analysis involved.  Supports are identified by their
    internal number: no reader gives them an original number
    (NastranParser.cpp:3501, 3516, NastranParser_geometry.cpp:101).
    [members]: Model::constraintReferences_by_constraintSet_ids and ..._original_ids
    (None: no such constraint set in the model); [includes]:
    ConstraintSet::constraintSetReferences; [analyses]: Model::analyses in order;
    [sets_of]: the sets Analysis::getConstraintSets (Analysis.cpp:263-273) gives
    for an analysis, in order.  Constraints of other kinds are left out of
    [members]. *)
Record model := mkModel {
  spc_of : Z -> option spc;
  members : Z -> option (list Z);
  includes : Z -> list Z;
  analyses : list Z;
  sets_of : Z -> list Z;
  next_c : Z;
  next_s : Z
}.

(** Constraint.cpp:431-441 getDOFSForNode. *)
Definition is_free (x : sval) : bool := match x with Free => true | _ => false end.
Definition dofs_of (p : spc) : list nat := filter (fun d => negb (is_free (sval_of p d))) six.

(** Constraint.cpp:455-468 getDoubleForDOF. *)
Definition get_double (p : spc) (d : nat) : outcome V :=
  match sval_of p d with Val v => Ok v | _ => Throw end.

(** Constraint.cpp:147-149, MeshComponents.cpp getNodePositionsIncludingGroups. *)
Definition node_positions (p : spc) : list Z := union (own p) (grouped p).

(** Model.cpp:479-499 getConstraintsByConstraintSet. *)
Definition by_set (m : model) (x : Z) : list Z :=
  match members m x with Some l => l | None => [] end.
(** Constraint.cpp:77-85 ConstraintSet::getConstraints. *)
Definition constraints_of (m : model) (x : Z) : list Z :=
  fold_left (fun acc y => union acc (by_set m y)) (includes m x) (by_set m x).

(** Model.cpp:500-520 getConstraintSetsByConstraint, as a predicate on the sets
    of the model. *)
Definition affected (m : model) (c x : Z) : bool :=
  match members m x with Some l => mem c l | None => false end.

(** std::map assignment. *)
Definition upd {A} (f : Z -> A) (k : Z) (a : A) : Z -> A := fun x => if x =? k then a else f x.

(** A new support of one node with the values [p] has for the degrees of freedom
    [l] (Analysis.cpp:436-440, 454-458); getDoubleForDOF throws for free ones and
    tables. *)
Definition copy_spc (p : spc) (n : Z) (l : list nat) : outcome spc :=
  do vs <- mapM (fun d => do v <- get_double p d; Ok (d, v)) l;
  Ok (mkSpc (fun d => match find (fun dv => Nat.eqb (fst dv) d) vs with
                      | Some (_, v) => Val v
                      | None => Free
                      end) [n] []).

(** Analysis.cpp:430-480 removeSPCNodeDofs on the analysis [a], for the support
    numbered [c].  The two internal numbers are reserved even when the support
    for the remaining degrees of freedom is not created.  A set added to an
    analysis comes after its other sets (its number is the highest). *)
Definition remove_node_dofs (m : model) (a c n : Z) (removed : list nat) : outcome model :=
  do p <- of_option (spc_of m c);
  let remaining := filter (fun d => negb (memd d removed)) (dofs_of p) in
  let rem_id := next_c m in
  let oth_id := next_c m + 1 in
  do m1 <- match remaining with
           | [] => Ok m
           | _ =>
               do q <- copy_spc p n remaining;
               Ok (mkModel (upd (spc_of m) rem_id (Some q))
                     (fun x => match members m x with
                               | Some l => Some (if mem c l then ins rem_id l else l)
                               | None => None
                               end)
                     (includes m) (analyses m) (sets_of m) (next_c m) (next_s m))
           end;
  do m2 <- (if (2 <=? length (analyses m))%nat then
              do q <- copy_spc p n removed;
              if forallb (fun o => (o =? a) ||
                           forallb (fun x => match members m1 x with Some _ => true | None => false end)
                             (sets_of m1 o)) (analyses m1)
              then
                Ok (mkModel (upd (spc_of m1) oth_id (Some q))
                      (upd (members m1) (next_s m) (Some [oth_id]))
                      (includes m1) (analyses m1)
                      (fun o => if mem o (analyses m1) && negb (o =? a)
                                   && existsb (affected m c) (sets_of m1 o)
                                then sets_of m1 o ++ [next_s m] else sets_of m1 o)
                      (next_c m1) (next_s m1))
              else UB
            else Ok m1);
  if mem n (own p) then
    Ok (mkModel (upd (spc_of m2) c
                  (Some (mkSpc (sval_of p) (filter (fun y => negb (y =? n)) (own p)) (grouped p))))
          (members m2) (includes m2) (analyses m2) (sets_of m2)
          (next_c m2 + 2) (next_s m2 + 1))
  else UB.

(** The table spcvalueByNodeAndDof of Model.cpp:1420. *)
Definition table := Z -> nat -> option V.
Definition tset (t : table) (n : Z) (d : nat) (v : V) : table :=
  fun m e => if (m =? n) && Nat.eqb e d then Some v else t m e.

(** Model.cpp:1431-1450, the loop on the blocked degrees of freedom of a node.
    [same] is is_equal of two values. *)
Definition claim (same : V -> V -> bool) (p : spc) (n : Z) (st : table * list nat) (d : nat)
  : outcome (table * list nat) :=
  do v <- get_double p d;
  match fst st n d with
  | None => Ok (tset (fst st) n d v, snd st)
  | Some w => if same v w then Ok (fst st, snd st ++ [d]) else Throw
  end.

(** Model.cpp:1428-1456, one node of a support. *)
Definition visit_node (same : V -> V -> bool) (a c : Z) (st : model * table) (n : Z)
  : outcome (model * table) :=
  do p <- of_option (spc_of (fst st) c);
  do r <- foldM (claim same p n) (dofs_of p) (snd st, []);
  match snd r with
  | [] => Ok (fst st, fst r)
  | dl => do m' <- remove_node_dofs (fst st) a c n dl; Ok (m', fst r)
  end.

(** Model.cpp:1426-1457, one support. *)
Definition visit_spc (same : V -> V -> bool) (a : Z) (st : model * table) (c : Z)
  : outcome (model * table) :=
  do p <- of_option (spc_of (fst st) c);
  foldM (visit_node same a c) (node_positions p) st.

(** Model.cpp:1421-1458, one constraint set. *)
Definition visit_set (same : V -> V -> bool) (a : Z) (st : model * table) (x : Z)
  : outcome (model * table) :=
  match members (fst st) x with
  | None => UB
  | Some _ => foldM (visit_spc same a) (constraints_of (fst st) x) st
  end.

(** Model.cpp:1419-1459, one analysis. *)
Definition visit_analysis (same : V -> V -> bool) (m : model) (a : Z) : outcome model :=
  do r <- foldM (visit_set same a) (sets_of m a) (m, fun _ _ => None);
  Ok (fst r).

(** Model.cpp:1418-1460 removeRedundantSpcs. *)
Definition remove_redundant (same : V -> V -> bool) (m : model) : outcome model :=
  foldM (visit_analysis same) (analyses m) m.

(** Model.cpp:1462-1499 removeConstrainedImposed.  [imposed a] lists, in the
    order of the load sets of [a] and of their loads, the nodes and degrees of
    freedom of the imposed displacements; the table keeps the last one of each
    node (Model.cpp:1473). *)
Definition imposed_at (l : list (Z * list nat)) (n : Z) : list nat :=
  fold_left (fun cur nd => if fst nd =? n then snd nd else cur) l [].
Definition lift_node (l : list (Z * list nat)) (a c : Z) (m : model) (n : Z) : outcome model :=
  do p <- of_option (spc_of m c);
  match filter (fun d => memd d (imposed_at l n)) (dofs_of p) with
  | [] => Ok m
  | dl => remove_node_dofs m a c n dl
  end.
Definition lift_spc l a (m : model) (c : Z) : outcome model :=
  do p <- of_option (spc_of m c); foldM (lift_node l a c) (node_positions p) m.
Definition lift_set l a (m : model) (x : Z) : outcome model :=
  match members m x with
  | None => UB
  | Some _ => foldM (lift_spc l a) (constraints_of m x) m
  end.
Definition remove_imposed (imposed : Z -> list (Z * list nat)) (m : model) : outcome model :=
  foldM (fun m a => foldM (lift_set (imposed a) a) (sets_of m a) m) (analyses m) m.
End Support.
Arguments spc V : clear implicits.
Arguments model V : clear implicits.
Arguments sval V : clear implicits.
Arguments table V : clear implicits.
