(** Model of Abstract/Reference.h (typed references), Abstract/Object.h
    (identity of objects) and of Model::Container in Abstract/Model.h. *)
From Coq Require Import ZArith List Bool.
From Verif Require Import Base ZMap.
Import ListNotations.
Open Scope Z_scope.

(** Reference.h:57, Object.h:141: NO_ID = NO_ORIGINAL_ID = INT_MIN. *)
Definition NO_ID : Z := - 2 ^ 31.

(** Reference.h:50-80.  The enum value of the type is an integer; the input
    context (used for messages only) is left out. *)
Record ref := mkRef { rtype : Z; roid : Z; rid : Z }.

(** Reference.h:66-71. *)
Definition has_original_id (r : ref) : bool := negb (roid r =? NO_ID).
Definition has_id (r : ref) : bool := negb (rid r =? NO_ID).

(** Reference.h:100-109 operator==. *)
Definition ref_eqb (l r : ref) : bool :=
  if negb (rtype l =? rtype r) then false
  else if (roid l =? NO_ID) && (roid r =? NO_ID) then rid l =? rid r
  else roid l =? roid r.

(** Reference.h:116-127 operator<. *)
Definition ref_ltb (l r : ref) : bool :=
  if negb (rtype l =? rtype r) then rtype l <? rtype r
  else if negb (roid l =? NO_ID) && negb (roid r =? NO_ID) then roid l <? roid r
  else if negb (roid l =? NO_ID) || negb (roid r =? NO_ID) then negb (roid l =? NO_ID)
  else rid l <? rid r.

(** Reference.h:163-174 std::hash: boost::hash_combine of the hash of the type
    name, of original_id and of id.  [combine] and [hashType] are arbitrary;
    std::hash<int> is the identity (libstdc++). *)
Definition ref_hash (combine : Z -> Z -> Z) (hashType : Z -> Z) (r : ref) : Z :=
  combine (combine (combine 0 (hashType (rtype r))) (roid r)) (rid r).

(** boost/functional/hash hash_combine on 64-bit size_t (the library function
    used at Reference.h:169-171). *)
Definition boost_combine (seed h : Z) : Z :=
  Z.lxor seed ((h + 2654435769 + Z.shiftl seed 6 + Z.shiftr seed 2) mod 2 ^ 64).

(** Object.h:38-140 Identifiable: what identity is made of; [payload] is the
    rest of the object. *)
Record object (P : Type) := mkObj { otype : Z; ooid : Z; oid : Z; payload : P }.
Arguments mkObj {P} otype ooid oid payload.
Arguments otype {P} o : rename.
Arguments ooid {P} o : rename.
Arguments oid {P} o : rename.
Arguments payload {P} o : rename.

(** Object.h:117-121 getReference. *)
Definition getReference {P} (o : object P) : ref := mkRef (otype o) (ooid o) (oid o).
(** Object.h:51-53. *)
Definition isOriginal {P} (o : object P) : bool := negb (ooid o =? NO_ID).

(** Model.h:211-216: by_id and by_original_ids_by_type (the outer unordered_map
    is an association list in its iteration order). *)
Record container (P : Type) := mkCont {
  by_id : zmap (object P);
  by_orig : list (Z * zmap (object P))
}.
Arguments mkCont {P} by_id by_orig.
Arguments by_id {P} c : rename.
Arguments by_orig {P} c : rename.

Definition empty_container {P} : container P := mkCont [] [].

(** unordered_map::find on the outer map. *)
Fixpoint ty_find {B} (m : list (Z * B)) (t : Z) : option B :=
  match m with
  | [] => None
  | (t', b) :: r => if t' =? t then Some b else ty_find r t
  end.
(** operator[] on the outer map followed by an update of the entry. *)
Fixpoint ty_update {B} (m : list (Z * B)) (t : Z) (dflt : B) (f : B -> B) : list (Z * B) :=
  match m with
  | [] => [(t, f dflt)]
  | (t', b) :: r => if t' =? t then (t', f b) :: r else (t', b) :: ty_update r t dflt f
  end.

Section Container.
Context {P : Type}.

(** Model.h:594-615 find(Reference). *)
Definition cfind (c : container P) (r : ref) : outcome (option (object P)) :=
  if has_original_id r then
    Ok (match ty_find (by_orig c) (rtype r) with
        | Some m => zfind m (roid r)
        | None => None
        end)
  else if has_id r then Ok (zfind (by_id c) (rid r))
  else Throw.

(** Model.h:617-627 find(int): the last match in the iteration order of the
    outer unordered_map. *)
Definition cfind_number (c : container P) (n : Z) : option (object P) :=
  fold_left (fun cur tm => match zfind (snd tm) n with Some o => Some o | None => cur end)
            (by_orig c) None.

(** Model.h:629-637 get. *)
Definition cget (c : container P) (id : Z) : option (object P) := zfind (by_id c) id.

(** Model.h:582-592 add (generic version). *)
Definition cadd (c : container P) (o : object P) : outcome (container P) :=
  do found <- cfind c (getReference o);
  match found with
  | Some _ => Throw
  | None =>
      let b := zinsert (by_id c) (oid o) o in
      Ok (mkCont b (if isOriginal o
                    then ty_update (by_orig c) (otype o) [] (fun m => zinsert m (ooid o) o)
                    else by_orig c))
  end.

(** Model.h:464-469 erase. *)
Definition cerase (c : container P) (r : ref) : container P :=
  mkCont (zerase (by_id c) (rid r))
         (if has_original_id r
          then ty_update (by_orig c) (rtype r) [] (fun m => zerase m (roid r))
          else by_orig c).

(** Model.h:246-251: iteration in ascending internal number, size. *)
Definition celements (c : container P) : list (object P) := map snd (by_id c).

(** Model.h:471-480 filter, 493-501 contains. *)
Definition cfilter (c : container P) (t : Z) : list (object P) :=
  filter (fun o => otype o =? t) (celements c).
Definition ccontains (c : container P) (t : Z) : bool :=
  existsb (fun o => otype o =? t) (celements c).

(** Model.h:503-530 validate in best effort mode: every element for which
    [valid] fails is erased through its own reference; returns whether all were
    valid.  [strict] = MODE_STRICT: nothing is erased. *)
Definition cvalidate (strict : bool) (valid : object P -> bool) (c : container P)
  : container P * bool :=
  let bad := filter (fun o => negb (valid o)) (celements c) in
  ((if strict then c else fold_left (fun c o => cerase c (getReference o)) bad c),
   match bad with [] => true | _ => false end).

(** Histories of operations; an add that throws leaves the container as it was
    (the check precedes the insertions). *)
Inductive cop := CAdd (o : object P) | CErase (o : object P).
Definition cstep (c : container P) (op : cop) : container P :=
  match op with
  | CAdd o => match cadd c o with Ok c' => c' | _ => c end
  | CErase o => cerase c (getReference o)
  end.
Definition crun (h : list cop) : container P := fold_left cstep h empty_container.
End Container.
