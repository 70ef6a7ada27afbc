(** Model of the combination of load sets (the LOAD card): Abstract/Model.cpp
    replaceCombinedLoadSets and Nastran/NastranParser.cpp parseLOAD. *)
From Coq Require Import Reals ZArith List Bool.
From Verif Require Import Base GeomModel LoadModel SupportModel.
Import ListNotations.
Open Scope Z_scope.

(** The part of Model involved: the shared values, the loads by internal number
    (the Nastran loads but the dynamic ones have no original number:
    NastranParser.cpp:1353, 1686-1718, 2036, 2776...), the load sets in the order
    of the container (ascending internal number) with what they embed
    (LoadSet::embedded_loadsets), and the loads of each set
    (Model::loadingReferences_by_loadSet_ids and ..._original_ids). *)
Record lmodel := mkLModel {
  store : values;
  loads : Z -> option load;
  lsets : list (Z * list (Z * R));
  lmembers : Z -> list Z;
  next_l : Z
}.

(** Utility.h is_equal(coefficient, 1.0). *)
Definition near_one (tol k : R) : bool :=
  if Rle_dec (Rabs (k - 1)) (tol * Rmax (Rmax 1 (Rabs k)) 1) then true else false.

(** Model.cpp:1105-1123, one load of an embedded set, into the set [x]. *)
Definition combine_load (tol k : R) (x : Z) (m : lmodel) (i : Z) : outcome lmodel :=
  if near_one tol k then
    Ok (mkLModel (store m) (loads m) (lsets m)
          (upd (lmembers m) x (ins i (lmembers m x))) (next_l m))
  else
    do l <- of_option (loads m i);
    let sl := scale_load k (store m) l in
    let j := next_l m in
    Ok (mkLModel (fst sl) (upd (loads m) j (Some (snd sl))) (lsets m)
          (upd (lmembers m) x (ins j (lmembers m x))) (next_l m + 1)).

(** Model.cpp:1098-1125, one embedded set; the loads of a set that the model
    does not hold are an error (getLoadingsByLoadSet, Model.cpp:436-464). *)
Definition combine_set (tol : R) (x : Z) (m : lmodel) (yk : Z * R) : outcome lmodel :=
  if existsb (fun s => fst s =? fst yk) (lsets m) then
    if forallb (fun i => match loads m i with Some _ => true | None => false end) (lmembers m (fst yk))
    then foldM (combine_load tol (snd yk) x) (lmembers m (fst yk)) m
    else Throw
  else Throw.

(** Model.cpp:1097-1127, one load set. *)
Definition clear_set (x : Z) (l : list (Z * list (Z * R))) : list (Z * list (Z * R)) :=
  map (fun s => if fst s =? x then (x, []) else s) l.
Definition embedded (m : lmodel) (x : Z) : list (Z * R) :=
  match find (fun s => fst s =? x) (lsets m) with Some s => snd s | None => [] end.
Definition combine_one (tol : R) (m : lmodel) (x : Z) : outcome lmodel :=
  do m1 <- foldM (combine_set tol x) (embedded m x) m;
  Ok (mkLModel (store m1) (loads m1) (clear_set x (lsets m1)) (lmembers m1) (next_l m1)).

(** Model.cpp:1096-1128 replaceCombinedLoadSets. *)
Definition combine_all (tol : R) (m : lmodel) : outcome lmodel :=
  foldM (combine_one tol) (map fst (lsets m)) m.

(** NastranParser.cpp:1851-1861 parseLOAD: the overall factor multiplies the
    factor of each set; the fields are already decoded. *)
Definition load_card (overall : R) (pairs : list (R * Z)) : list (Z * R) :=
  map (fun p => (snd p, Rmult overall (fst p))) pairs.
