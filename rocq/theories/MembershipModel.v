(** Model of the contents of the sets of loadings, constraints and objectives in
    Abstract/Model.cpp: what is put into a set, taken out of it, and found in it
    again.  Objects and references are those of ReferenceModel.v. *)
From Coq Require Import ZArith List Bool.
From Verif Require Import Base ZMap ReferenceModel.
Import ListNotations.
Open Scope Z_scope.

(** Model.h:192-209, the two maps of each kind of set: by internal number of the set, and
    by its type and user number.  A number absent from a map and a number with an
    empty set of references are the same to every reader, so the maps are
    functions. *)
Record membership := mkMembership { in_id : Z -> list ref; in_orig : Z -> Z -> list ref }.
Definition no_members : membership := mkMembership (fun _ => []) (fun _ _ => []).

(** std::set<Reference>::insert: an equivalent reference already there is kept.
    Equivalence for operator< is operator== (C07); the order of the set is left
    out. *)
Definition set_insert (r : ref) (l : list ref) : list ref :=
  if existsb (fun x => ref_eqb x r) l then l else l ++ [r].
(** The loops "find one equal to it, erase it, break". *)
Fixpoint set_remove (r : ref) (l : list ref) : list ref :=
  match l with
  | [] => []
  | x :: l => if ref_eqb x r then l else x :: set_remove r l
  end.

(** operator[] followed by an update. *)
Definition at_id (k : Z) (f : list ref -> list ref) (m : membership) : membership :=
  mkMembership (fun k' => if k' =? k then f (in_id m k') else in_id m k') (in_orig m).
Definition at_orig (t n : Z) (f : list ref -> list ref) (m : membership) : membership :=
  mkMembership (in_id m) (fun t' n' => if (t' =? t) && (n' =? n) then f (in_orig m t' n') else in_orig m t' n').

(** Model.cpp:382-388 and 466-473: a loading or a constraint into a set. *)
Definition put (r set : ref) (m : membership) : membership :=
  let m := if has_id set then at_id (rid set) (set_insert r) m else m in
  if has_original_id set then at_orig (rtype set) (roid set) (set_insert r) m else m.

(** Model.cpp:397-403: an objective into a set; the tests are on the objective. *)
Definition put_objective (r set : ref) (m : membership) : membership :=
  let m := if has_id r then at_id (rid set) (set_insert r) m else m in
  if has_original_id r then at_orig (rtype set) (roid set) (set_insert r) m else m.

(** Model.cpp:178-199, 223-243, 291-311: out of every set. *)
Definition take_out (r : ref) (m : membership) : membership :=
  mkMembership (fun k => set_remove r (in_id m k)) (fun t n => set_remove r (in_orig m t n)).

(** Model.cpp:202-219: out of one set. *)
Definition take_from (r set : ref) (m : membership) : membership :=
  let m := at_id (rid set) (set_remove r) m in
  if has_original_id set then at_orig (rtype set) (roid set) (set_remove r) m else m.

(** The references met by Model.cpp:438-464, 480-498, 523-541. *)
Definition members (m : membership) (set : ref) : list ref :=
  in_id m (rid set) ++ in_orig m (rtype set) (roid set).

(** A model: the members of the sets, and the registry of the objects. *)
Section Objects.
Context {P : Type}.
Record model := mkModel { sets : membership; objects : container P }.

(** Model.cpp:178-200 and the two others. *)
Definition remove (r : ref) (m : model) : model := mkModel (take_out r (sets m)) (cerase (objects m) r).
(** Model.cpp:202-221. *)
Definition remove_from (r set : ref) (m : model) : model := mkModel (take_from r set (sets m)) (cerase (objects m) r).

(** Model.cpp:438-464: the loadings of a set; std::set of pointers without
    duplicates, given here in the order they are met, possibly twice.  A missing
    loading is an exception. *)
Definition loadings_of (m : model) (set : ref) : outcome (list (object P)) :=
  mapM (fun r => do o <- cfind (objects m) r; match o with Some o => Ok o | None => Throw end) (members (sets m) set).

(** Model.cpp:480-498, 523-541: constraints and objectives; a missing object is a
    null pointer.  The result is ordered by ptrLess (Object.h:197-203), which
    dereferences both pointers: a null pointer may only be the first and last to
    be inserted. *)
Definition constraints_of (m : model) (set : ref) : outcome (list (option (object P))) :=
  do l <- mapM (fun r => cfind (objects m) r) (members (sets m) set);
  if existsb (fun o => match o with None => true | Some _ => false end) l && (1 <? Z.of_nat (length l)) then UB else Ok l.

(** Model.cpp:500-521: the sets of a constraint, among those registered. *)
Fixpoint scan (r : ref) (l : list (option (object P))) : outcome bool :=
  match l with
  | [] => Ok false
  | None :: _ => Throw
  | Some o :: l => if ref_eqb (getReference o) r then Ok true else scan r l
  end.
Definition sets_of (registered : list ref) (m : model) (r : ref) : outcome (list ref) :=
  foldM (fun acc s =>
           do l <- constraints_of m s;
           do found <- scan r l;
           Ok (if found then acc ++ [s] else acc)) registered [].

(** Histories of a model: objects created and added (an add refused leaves the
    model as it was), put into a set, removed. *)
Inductive action :=
| Create (o : object P)
| Into (r set : ref)
| Remove (o : object P)
| RemoveFrom (o : object P) (set : ref).
Definition act (m : model) (a : action) : model :=
  match a with
  | Create o => mkModel (sets m) (cstep (objects m) (CAdd o))
  | Into r s => mkModel (put r s (sets m)) (objects m)
  | Remove o => remove (getReference o) m
  | RemoveFrom o s => remove_from (getReference o) s m
  end.
Definition acts (h : list action) : model := fold_left act h (mkModel no_members empty_container).
End Objects.
Arguments model : clear implicits.
Arguments mkModel {P} sets objects.
Arguments action : clear implicits.

(** Model.cpp:388-394, 404-410: the set itself is registered when it is not known
    yet: first the common set (Model.cpp:37-39), else a new set of the type and
    user number of the reference.  [fresh] is the next internal number. *)
Definition register_set (common : object unit) (fresh : Z) (set : ref) (c : container unit) : outcome (container unit) :=
  do c <- (if ref_eqb set (getReference common) then
             do f <- cfind c (getReference common);
             match f with None => cadd c common | Some _ => Ok c end
           else Ok c);
  do f <- cfind c set;
  match f with
  | None => cadd c (mkObj (rtype set) (roid set) fresh tt)
  | Some _ => Ok c
  end.

(** Histories of the contents. *)
Inductive event :=
| Put (r set : ref)
| TakeOut (r : ref)
| TakeFrom (r set : ref).
Definition step (m : membership) (e : event) : membership :=
  match e with
  | Put r s => put r s m
  | TakeOut r => take_out r m
  | TakeFrom r s => take_from r s m
  end.
Definition run (h : list event) : membership := fold_left step h no_members.
