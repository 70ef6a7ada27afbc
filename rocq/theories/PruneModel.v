(** Model of the removal of what has no effect.  Definitions only.

    Simplifications: those of ValidateModel; whether a loading or a constraint is
    ineffective, and whether an element set is effective, are inputs; the members of a set
    are distinct (std::set); removing the unused nodes from the node groups
    (Model.cpp:1068-1074) and the messages are not modelled. *)
From Coq Require Import ZArith List Bool.
From Verif Require Import Base OptionsModel ValidateModel.
Import ListNotations.
Open Scope Z_scope.

(** The parts of the model that change. *)
Definition set_loads (m : vmodel) loadings loadSets common analyses : vmodel :=
  mkVModel (v_materials m) (v_elements m) loadings loadSets (v_constraints m) (v_constraintSets m)
    (v_objectives m) (v_objectiveSets m) analyses common (v_commonConstraintSet m) (v_commonObjectiveSet m).
Definition set_cons (m : vmodel) constraints constraintSets common analyses : vmodel :=
  mkVModel (v_materials m) (v_elements m) (v_loadings m) (v_loadSets m) constraints constraintSets
    (v_objectives m) (v_objectiveSets m) analyses (v_commonLoadSet m) common (v_commonObjectiveSet m).
Definition set_elements (m : vmodel) elements : vmodel :=
  mkVModel (v_materials m) elements (v_loadings m) (v_loadSets m) (v_constraints m) (v_constraintSets m)
    (v_objectives m) (v_objectiveSets m) (v_analyses m) (v_commonLoadSet m) (v_commonConstraintSet m) (v_commonObjectiveSet m).

(** One reference removed from a list. *)
Definition without (k : Z) (l : list Z) : list Z := filter (fun j => negb (j =? k)) l.
Definition drop (k : Z) (s : oset) : oset := mkSet (t_key s) (without k (t_refs s)) (t_written s).

(** Model.cpp:224-243 remove of a loading: from all the sets, then from the model. *)
Definition remove_loading (m : vmodel) (k : Z) : vmodel :=
  set_loads m (filter (fun o => negb (b_key o =? k)) (v_loadings m)) (map (drop k) (v_loadSets m))
    (option_map (drop k) (v_commonLoadSet m)) (v_analyses m).
(** Model.cpp:178-201 remove of a constraint. *)
Definition remove_constraint (m : vmodel) (k : Z) : vmodel :=
  set_cons m (filter (fun o => negb (b_key o =? k)) (v_constraints m)) (map (drop k) (v_constraintSets m))
    (option_map (drop k) (v_commonConstraintSet m)) (v_analyses m).

(** Analysis.cpp:199-206 contains, 166-175 remove. *)
Definition analysis_drop_loadSet (m : vmodel) (k : Z) (n : analysis) : analysis :=
  if existsb (fun s => t_key s =? k) (analysis_loadSets m n)
  then mkAnalysis (n_key n) (without k (n_loadSets n)) (n_constraintSets n) (n_objectiveSets n) (n_search n) (n_written n)
  else n.
(** Model.cpp:245-257 remove of a load set. *)
Definition remove_loadSet (m : vmodel) (k : Z) : vmodel :=
  set_loads m (v_loadings m) (filter (fun s => negb (t_key s =? k)) (v_loadSets m)) (v_commonLoadSet m)
    (map (analysis_drop_loadSet m k) (v_analyses m)).

(** Analysis.cpp:208-215 contains: the sets in order, the missing ones being null
    pointers that are dereferenced. *)
Fixpoint scan_sets (sets : list oset) (k : Z) (refs : list Z) : outcome bool :=
  match refs with
  | [] => Ok false
  | r :: rs => match find_set sets r with
               | None => UB
               | Some s => if t_key s =? k then Ok true else scan_sets sets k rs
               end
  end.
Definition contains_constraintSet (m : vmodel) (n : analysis) (k : Z) : outcome bool :=
  if existsb (fun s => t_key s =? k) (common (v_commonConstraintSet m)) then Ok true
  else scan_sets (v_constraintSets m) k (n_constraintSets n).
(** Analysis.cpp:177-186 remove. *)
Definition analysis_drop_constraintSet (m : vmodel) (k : Z) (n : analysis) : outcome analysis :=
  do b <- contains_constraintSet m n k;
  Ok (if b then mkAnalysis (n_key n) (n_loadSets n) (without k (n_constraintSets n)) (n_objectiveSets n) (n_search n) (n_written n)
      else n).
(** Model.cpp:259-271 remove of a constraint set. *)
Definition remove_constraintSet (m : vmodel) (k : Z) : outcome vmodel :=
  do l <- mapM (analysis_drop_constraintSet m k) (v_analyses m);
  Ok (set_cons m (v_constraints m) (filter (fun s => negb (t_key s =? k)) (v_constraintSets m)) (v_commonConstraintSet m) l).

(** Loading.h:101 empty: a missing loading is an exception. *)
Definition loadSet_empty (loadings : list obj) (s : oset) : outcome bool :=
  do l <- set_loadings loadings s; Ok (match l with [] => true | _ => false end).
(** Constraint.h:93 empty: a missing constraint is a null pointer, dereferenced when it is
    compared with another one. *)
Definition constraintSet_empty (constraints : list obj) (s : oset) : outcome bool :=
  match t_refs s with
  | [] => Ok true
  | [_] => Ok false
  | _ => do _ <- set_members constraints s; Ok false
  end.
Definition marked {A} (l : list A) (bs : list bool) : list A := map fst (filter snd (combine l bs)).

(** Model.cpp:1006-1030: the ineffective loadings, then the empty load sets. *)
Definition remove_loads (bad : obj -> bool) (m : vmodel) : outcome vmodel :=
  let m1 := fold_left remove_loading (map b_key (filter bad (v_loadings m))) m in
  do es <- mapM (loadSet_empty (v_loadings m1)) (v_loadSets m1);
  Ok (fold_left remove_loadSet (map t_key (marked (v_loadSets m1) es)) m1).
(** Model.cpp:1032-1054: the ineffective constraints, then the empty constraint sets. *)
Definition remove_cons (bad : obj -> bool) (m : vmodel) : outcome vmodel :=
  let m1 := fold_left remove_constraint (map b_key (filter bad (v_constraints m))) m in
  do es <- mapM (constraintSet_empty (v_constraints m1)) (v_constraintSets m1);
  foldM remove_constraintSet (map t_key (marked (v_constraintSets m1) es)) m1.
(** Model.cpp:1006-1066 removeIneffectives, with 1056-1066 the element sets. *)
Definition removeIneffectives (badLoading badConstraint effective : obj -> bool) (m : vmodel) : outcome vmodel :=
  do m1 <- remove_loads badLoading m;
  do m2 <- remove_cons badConstraint m1;
  Ok (set_elements m2 (filter effective (v_elements m2))).
