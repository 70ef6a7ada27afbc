(** Model of what analyses refer to: boundary degrees of freedom, parameters,
    sets of constraints and loads (Abstract/Analysis.cpp, Abstract/Model.cpp). *)
From Coq Require Import ZArith List Bool.
From Verif Require Import Base ZMap DofModel SupportModel.
Import ListNotations.
Open Scope Z_scope.

(** ** Boundary degrees of freedom *)
(** Analysis.h:53 boundaryDOFSByNodePosition, a map to characters; codes are
    below 64, so the conversions to char and back keep them. *)
Definition boundary := @zmap dofs.

(** Analysis.cpp:486-493 findBoundaryDOFS. *)
Definition find_boundary (b : boundary) (n : Z) : dofs :=
  match zfind b n with Some c => c | None => NO_DOFS end.
(** Analysis.cpp:482-484 addBoundaryDOFS: operator[] first creates the entry
    with code 0. *)
Definition add_boundary (b : boundary) (n : Z) (s : dofs) : boundary :=
  zinsert b n (dofs_add (find_boundary b n) s).
(** Analysis.cpp:495-501 boundaryNodePositions. *)
Definition boundary_nodes (b : boundary) : list Z := map fst b.

(** ** Parameters *)
(** Analysis.h:71 and Model.h: maps from the enumeration ModelParameter. *)
Section Parameters.
Context {T : Type}.
(** Analysis.cpp:66-68, Model.cpp:811-813 setParameter. *)
Definition set_parameter (t : @zmap T) (p : Z) (v : T) : @zmap T := zinsert t p v.
(** Model.cpp:815-824 contains, getParameter; [none] is the empty text. *)
Definition model_contains (t : @zmap T) (p : Z) : bool := match zfind t p with Some _ => true | None => false end.
Definition model_parameter (none : T) (t : @zmap T) (p : Z) : T := match zfind t p with Some v => v | None => none end.
(** Analysis.cpp:70-80 contains, getParameter. *)
Definition analysis_contains (mine model : @zmap T) (p : Z) : bool :=
  match zfind mine p with Some _ => true | None => model_contains model p end.
Definition analysis_parameter (none : T) (mine model : @zmap T) (p : Z) : T :=
  match zfind mine p with Some v => v | None => model_parameter none model p end.
End Parameters.

(** ** Sets of an analysis *)
(** The references of an analysis, already looked up in the model (None: no such
    set), in the order of std::set<Reference>; sets are internal numbers.
    [common] is the common set when it is not empty. *)
Definition refs := list (option Z).

(** Analysis.cpp:263-273 getConstraintSets: null pointers are kept. *)
Definition constraint_sets (common : option Z) (r : refs) : list (option Z) :=
  match common with Some c => Some c :: r | None => r end.
(** Analysis.cpp:94-105 getLoadSets: null pointers are skipped. *)
Definition load_sets (common : option Z) (r : refs) : list Z :=
  (match common with Some c => [c] | None => [] end)
  ++ flat_map (fun o => match o with Some x => [x] | None => [] end) r.

(** The dereferenced list: the first use of a null pointer is undefined (the
    comparison ptrLess, Object.h:198-203, reads through both).  Simplification:
    a null pointer alone in an otherwise empty set is not compared. *)
Definition deref (l : list (option Z)) : outcome (list Z) := mapM (fun o => of_option o) l.

(** Model.cpp:545-571 getActiveConstraintSets and getActiveLoadSets, on the
    lists of the analyses in order. *)
Definition active (l : list (list Z)) : list Z :=
  fold_left (fun acc x => if mem x acc then acc else acc ++ [x]) (concat l) [].
(** Model.cpp:575-580, 591-596, 611-616, 627-632: how many times a set is met. *)
Definition count (x : Z) (l : list (list Z)) : nat := length (filter (Z.eqb x) (concat l)).

(** Model.cpp:581-586 getCommonConstraintSets and 617-621
    getUncommonConstraintSets; [registered] are the sets of the model. *)
Definition common_constraint_sets (registered : list Z) (l : list (list Z)) : list Z :=
  filter (fun x => Nat.ltb 0 (count x l) && Nat.eqb (count x l) (length l)) registered.
Definition uncommon_constraint_sets (registered : list Z) (l : list (list Z)) : list Z :=
  filter (fun x => Nat.ltb 0 (count x l) && Nat.ltb (count x l) (length l)) registered.

(** Model.cpp:597-606 getCommonLoadSets and 633-637 getUncommonLoadSets;
    [dload x]: the type of the set is DLOAD. *)
Definition common_load_sets (dload : Z -> bool) (registered : list Z) (l : list (list Z)) : list Z :=
  filter (fun x => Nat.ltb 0 (count x l) && Nat.eqb (count x l) (length l) && dload x) registered.
Definition uncommon_load_sets (dload : Z -> bool) (registered : list Z) (l : list (list Z)) : list Z :=
  filter (fun x => Nat.ltb 0 (count x l) && Nat.ltb (count x l) (length l) && negb (dload x)) registered.

(** ** Reuse of modal results *)
(** What LinearDynaModalFreq::canReuse looks at; [dynamic]: the analysis is a
    LinearDynaModalFreq (the others inherit the answer false, Analysis.h:106);
    [search]: the number of the frequency search (None: not found, whose
    dereference is undefined). *)
Record analysis := mkAnalysis {
  number : Z;
  dynamic : bool;
  modal : bool;
  buckling : bool;
  power : bool;
  search : option Z;
  csets : list (option Z)
}.

(** std::equal on two lists of set pointers (Analysis.cpp:723-726): stops at the
    first difference. *)
Fixpoint same_sets (l r : list (option Z)) : outcome bool :=
  match l, r with
  | [], [] => Ok true
  | x :: l', y :: r' =>
      do a <- of_option x; do b <- of_option y;
      if a =? b then same_sets l' r' else Ok false
  | _, _ => Ok false
  end.

(** Analysis.cpp:707-732 and Analysis.h:106: [a] can reuse [b]. *)
Definition can_reuse (a b : analysis) : outcome bool :=
  if negb (dynamic a) then Ok false
  else if negb (modal b) then Ok false
  else if buckling b then Ok false
  else if negb (Bool.eqb (power a) (power b)) then Ok false
  else
    do s <- of_option (search a); do t <- of_option (search b);
    if negb (s =? t) then Ok false
    else if negb (Nat.eqb (length (csets a)) (length (csets b))) then Ok false
    else same_sets (csets b) (csets a).

(** Model.cpp:835-844 reusableAnalysisFor, on the analyses of the model. *)
Fixpoint reusable_for (l : list analysis) (a : analysis) : outcome (option analysis) :=
  match l with
  | [] => Ok None
  | b :: r =>
      if number b =? number a then Ok None
      else do ok <- can_reuse a b; if ok then Ok (Some b) else reusable_for r a
  end.

(** Model.cpp:846-867 canBeReused: the loop over the analyses, with the flag
    isAfter. *)
Fixpoint reused_loop (all l : list analysis) (a : analysis) (after : bool) : outcome bool :=
  match l with
  | [] => Ok false
  | o :: r =>
      if number o =? number a then reused_loop all r a true
      else if negb after then reused_loop all r a after
      else
        do x <- reusable_for all o;
        match x with
        | None => reused_loop all r a after
        | Some b => if number b =? number a then Ok true else reused_loop all r a after
        end
  end.
Definition can_be_reused (l : list analysis) (a : analysis) : outcome bool := reused_loop l l a false.
