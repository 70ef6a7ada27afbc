(** Model of the validation of a model and of the check that it was written.
    Definitions only.

    Simplifications: an object is its key (the reference that finds it), the answer of
    its own validate and whether it is marked as written; the sets hold the keys of
    their members (the two maps of references of Model are one list); constraints,
    constraint sets, targets, objectives and objective sets are always valid (no class
    overrides Identifiable::validate); an exception leaving a noexcept function, which
    ends the process, is [Throw] as the others are.  The messages are not modelled. *)
From Coq Require Import ZArith List Bool.
From Verif Require Import Base OptionsModel.
Import ListNotations.
Open Scope Z_scope.

(** Object.h:45-130 Identifiable: a key, validity, mark. *)
Record obj := mkObj { b_key : Z; b_valid : bool; b_written : bool }.
(** Loading.h LoadSet, Constraint.h ConstraintSet, Objective.h ObjectiveSet with the
    references of their members. *)
Record oset := mkSet { t_key : Z; t_refs : list Z; t_written : bool }.
(** Analysis.h: the references of an analysis; [n_search] is the set of a frequency
    search or excitation, for the analyses that need one. *)
Record analysis := mkAnalysis { n_key : Z; n_loadSets : list Z; n_constraintSets : list Z; n_objectiveSets : list Z;
  n_search : option Z; n_written : bool }.
(** Model.h:265-277. *)
Record vmodel := mkVModel {
  v_materials : list obj;  v_elements : list obj;  v_loadings : list obj;  v_loadSets : list oset;
  v_constraints : list obj;  v_constraintSets : list oset;
  v_objectives : list obj;  v_objectiveSets : list oset;
  v_analyses : list analysis;
  v_commonLoadSet : option oset;  v_commonConstraintSet : option oset;
  v_commonObjectiveSet : option oset }.

(** Model.h Container::find. *)
Definition find_obj (l : list obj) (k : Z) : option obj := find (fun o => b_key o =? k) l.
Definition find_set (l : list oset) (k : Z) : option oset := find (fun s => t_key s =? k) l.
Definition found {A} (o : option A) : bool := match o with Some _ => true | None => false end.

(** Model.cpp:436-463 getLoadingsByLoadSet: a missing loading is an exception. *)
Definition set_loadings (loadings : list obj) (s : oset) : outcome (list obj) :=
  mapM (fun k => match find_obj loadings k with Some o => Ok o | None => Throw end) (t_refs s).
(** Model.cpp:479-500 getConstraintsByConstraintSet: a missing constraint is a null
    pointer, dereferenced by those who read the set. *)
Definition set_members (objects : list obj) (s : oset) : outcome (list obj) :=
  mapM (fun k => match find_obj objects k with Some o => Ok o | None => UB end) (t_refs s).

(** Loading.h:101 empty, Loading.cpp:107-115 LoadSet::validate. *)
Definition loadSet_valid (loadings : list obj) (s : oset) : outcome bool :=
  do l <- set_loadings loadings s; Ok (match l with [] => false | _ => true end).
(** Analysis.cpp:629-645, 690-706, 740-756: the search of an analysis is read before it
    is tested: a missing set is a null pointer, an empty one an end iterator. *)
Definition search_valid (objectiveSets : list oset) (n : analysis) : outcome bool :=
  match n_search n with
  | None => Ok true
  | Some k => match find_set objectiveSets k with
              | None => UB
              | Some s => match t_refs s with [] => UB | _ => Ok true end
              end
  end.
(** Analysis.cpp:400-427 Analysis::validate, then the search. *)
Definition analysis_valid (m : vmodel) (n : analysis) : outcome bool :=
  let refs := forallb (fun k => found (find_set (v_constraintSets m) k)) (n_constraintSets n)
    && forallb (fun k => found (find_set (v_loadSets m) k)) (n_loadSets n)
    && forallb (fun k => found (find_set (v_objectiveSets m) k)) (n_objectiveSets n) in
  do s <- search_valid (v_objectiveSets m) n; Ok (refs && s).

(** Model.h:503-530 Container::validate: whether all are valid, and what is kept; the
    objects are all asked before any is removed. *)
Definition validate_all {A} (mode : tmode) (ok : A -> outcome bool) (l : list A) : outcome (bool * list A) :=
  do bs <- mapM ok l;
  Ok (forallb (fun b => b) bs,
      match mode with
      | Strict => l
      | _ => map fst (filter snd (combine l bs))
      end).

(** Model.cpp:2362-2401 validate. *)
Definition validate (mode : tmode) (meshValid : bool) (m : vmodel) : outcome (bool * vmodel) :=
  do rm <- validate_all mode (fun o => Ok (b_valid o)) (v_materials m);
  do re <- validate_all mode (fun o => Ok (b_valid o)) (v_elements m);
  do rl <- validate_all mode (fun o => Ok (b_valid o)) (v_loadings m);
  do rs <- validate_all mode (loadSet_valid (snd rl)) (v_loadSets m);
  let m1 := mkVModel (snd rm) (snd re) (snd rl) (snd rs) (v_constraints m) (v_constraintSets m)
    (v_objectives m) (v_objectiveSets m) (v_analyses m) (v_commonLoadSet m) (v_commonConstraintSet m) (v_commonObjectiveSet m) in
  do ra <- validate_all mode (analysis_valid m1) (v_analyses m1);
  Ok (meshValid && fst rm && fst re && fst rl && fst rs && fst ra,
      mkVModel (snd rm) (snd re) (snd rl) (snd rs) (v_constraints m) (v_constraintSets m)
        (v_objectives m) (v_objectiveSets m) (snd ra) (v_commonLoadSet m) (v_commonConstraintSet m) (v_commonObjectiveSet m)).

(** Analysis.cpp:94-105 getLoadSets: the common set if it is not empty, then the sets
    found. *)
Definition some_sets (sets : list oset) (refs : list Z) : list oset :=
  flat_map (fun k => match find_set sets k with Some s => [s] | None => [] end) refs.
Definition common (c : option oset) : list oset :=
  match c with Some s => (match t_refs s with [] => [] | _ => [s] end) | None => [] end.
Definition analysis_loadSets (m : vmodel) (n : analysis) : list oset :=
  common (v_commonLoadSet m) ++ some_sets (v_loadSets m) (n_loadSets n).
(** Analysis.cpp:263-273 getConstraintSets: the sets not found are null pointers, which
    checkWritten dereferences. *)
Definition analysis_constraintSets (m : vmodel) (n : analysis) : outcome (list oset) :=
  do l <- mapM (fun k => match find_set (v_constraintSets m) k with Some s => Ok s | None => UB end) (n_constraintSets n);
  Ok (common (v_commonConstraintSet m) ++ l).
(** Analysis.cpp:275-285 getObjectiveSets, 302-315 getObjectives: null pointers are skipped. *)
Definition analysis_objectives (m : vmodel) (n : analysis) : list obj :=
  flat_map (fun s => flat_map (fun k => match find_obj (v_objectives m) k with Some o => [o] | None => [] end) (t_refs s))
    (common (v_commonObjectiveSet m) ++ some_sets (v_objectiveSets m) (n_objectiveSets n)).

(** Model.cpp:2426-2463: one analysis. *)
Definition analysis_written (m : vmodel) (n : analysis) : outcome bool :=
  if negb (n_written n) then Ok true else
  do ls <- mapM (set_loadings (v_loadings m)) (analysis_loadSets m n);
  do sets <- analysis_constraintSets m n;
  do cs <- mapM (set_members (v_constraints m)) sets;
  Ok (forallb t_written (analysis_loadSets m n) && forallb b_written (concat ls)
    && forallb t_written sets && forallb b_written (concat cs)
    && forallb b_written (analysis_objectives m n)).
(** Model.cpp:2403-2503 checkWritten. *)
Definition checkWritten (m : vmodel) : outcome bool :=
  do bs <- mapM (analysis_written m) (v_analyses m);
  Ok (forallb b_written (v_materials m) && forallb b_written (v_elements m) && forallb n_written (v_analyses m)
    && forallb (fun b => b) bs).
