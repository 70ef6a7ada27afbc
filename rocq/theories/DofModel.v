(** Model of Abstract/Dof.cpp and Abstract/Dof.h: degrees of freedom, sets of
    degrees of freedom, nodal matrices and coefficient sextuples. *)
From Coq Require Import ZArith List Bool.
From Verif Require Import Base.
Import ListNotations.
Open Scope Z_scope.

(** Dof.h:25-63, Dof.cpp:43-48: the six DOF constants. *)
Inductive dof := DX | DY | DZ | RX | RY | RZ.

Definition dof_eq_dec (a b : dof) : {a = b} + {a <> b}.
Proof. decide equality. Defined.

(** Dof.h:29-36, the one-bit codes. *)
Definition dof_code (d : dof) : Z :=
  match d with DX => 1 | DY => 2 | DZ => 4 | RX => 8 | RY => 16 | RZ => 32 end.

(** Dof.cpp:43-48, last constructor argument. *)
Definition dof_position (d : dof) : Z :=
  match d with DX => 0 | DY => 1 | DZ => 2 | RX => 3 | RY => 4 | RZ => 5 end.

(** Dof.cpp:43-48: isRotation / isTranslation flags. *)
Definition isRotation (d : dof) : bool :=
  match d with RX | RY | RZ => true | _ => false end.
Definition isTranslation (d : dof) : bool := negb (isRotation d).

(** Dof.cpp:35-37 (operator==) and 31-33 (operator<): comparison of codes.
    [dof1 != dof2] and [dof1 > dof2] go through the conversion to dof_int
    (Dof.cpp:61-63), i.e. also compare codes. *)
Definition dof_eqb (a b : dof) : bool := dof_code a =? dof_code b.
Definition dof_ltb (a b : dof) : bool := dof_code a <? dof_code b.

(** Dof.cpp:50-59: findByPosition; positions above 5 throw. *)
Definition findByPosition (p : Z) : outcome dof :=
  if p >? 5 then Throw
  else if p =? 0 then Ok DX else if p =? 1 then Ok DY else if p =? 2 then Ok DZ
  else if p =? 3 then Ok RX else if p =? 4 then Ok RY else if p =? 5 then Ok RZ
  else Throw.

(** Dof.h:83 [char dofsCode].  A DOFS is its code. *)
Definition dofs := Z.

(** Dof.cpp:81-84. *)
Definition NO_DOFS : dofs := 0.
Definition TRANSLATIONS : dofs := Z.lor (Z.lor (dof_code DX) (dof_code DY)) (dof_code DZ).
Definition ROTATIONS : dofs := Z.lor (Z.lor (dof_code RX) (dof_code RY)) (dof_code RZ).
Definition ALL_DOFS : dofs := Z.lor TRANSLATIONS ROTATIONS.

(** Dof.cpp:112-126. *)
Definition containsAll (s t : dofs) : bool := Z.lor t s =? s.
Definition containsAnyOf (s t : dofs) : bool := negb (Z.land s t =? 0).
Definition contains (s : dofs) (d : dof) : bool := negb (Z.land s (dof_code d) =? 0).
Definition intersection (s t : dofs) : dofs := Z.land s t.

(** Dof.cpp:144-147 / 201-203: DOFS + DOF.  Dof.cpp:154-157 / 209-211: union.
    Dof.cpp:205-207, 212-214: difference.  Dof.cpp:216-218: intersection. *)
Definition dofs_add_dof (s : dofs) (d : dof) : dofs := Z.lor s (dof_code d).
Definition dofs_add (s t : dofs) : dofs := Z.lor s t.
Definition dofs_sub_dof (s : dofs) (d : dof) : dofs := Z.land s (Z.lnot (dof_code d)).
Definition dofs_sub (s t : dofs) : dofs := Z.land s (Z.lnot t).
Definition dofs_and (s t : dofs) : dofs := Z.land s t.

(** Dof.cpp:159-167. *)
Definition dofs_size (s : dofs) : Z :=
  (if contains s DX then 1 else 0) + (if contains s DY then 1 else 0)
  + (if contains s DZ then 1 else 0) + (if contains s RX then 1 else 0)
  + (if contains s RY then 1 else 0) + (if contains s RZ then 1 else 0).

(** Dof.cpp:253-259: next_available_dof, first position >= p holding a member;
    6 if none.  [fuel] bounds the for loop (at most 6 steps are needed). *)
Fixpoint next_available (fuel : nat) (s : dofs) (p : Z) : outcome Z :=
  match fuel with
  | O => NoFuel
  | S f =>
      if p <? 6 then
        do d <- findByPosition p;
        if contains s d then Ok p else next_available f s (p + 1)
      else Ok p
  end.

(** Dof.cpp:248-267 and Dof.h:127-158: the range-for loop over a DOFS; the
    iterator starts at position 0 and stops when it compares equal to end()
    (position 6). *)
Fixpoint iterate_from (fuel : nat) (s : dofs) (p : Z) : outcome (list dof) :=
  match fuel with
  | O => NoFuel
  | S f =>
      do q <- next_available 7 s p;
      if q =? 6 then Ok []
      else
        do d <- findByPosition q;
        do r <- iterate_from f s (q + 1);
        Ok (d :: r)
  end.
Definition dofs_iterate (s : dofs) : outcome (list dof) := iterate_from 7 s 0.

(** Dof.cpp:72-79: the bimap between Nastran digits and DOF codes. *)
Definition nastran_digit (d : dof) : Z :=
  match d with DX => 1 | DY => 2 | DZ => 3 | RX => 4 | RY => 5 | RZ => 6 end.
Definition dof_of_digit (n : Z) : option dof :=
  if n =? 1 then Some DX else if n =? 2 then Some DY else if n =? 3 then Some DZ
  else if n =? 4 then Some RX else if n =? 5 then Some RY else if n =? 6 then Some RZ
  else None.

(** Dof.cpp:169-176: concatenation of the digits in iteration order, read back
    as a decimal number by lexical_cast; "" gives 0.  Simplification: the
    digit string is represented by its list of digits and its decimal value is
    computed from that list. *)
Definition decimal_value (ds : list Z) : Z := fold_left (fun acc d => acc * 10 + d) ds 0.
Definition nastranCode (s : dofs) : outcome Z :=
  do l <- dofs_iterate s; Ok (decimal_value (map nastran_digit l)).

(** Dof.cpp:192-194: the error message is built by adding an int to a string
    literal of 22 characters, i.e. by pointer arithmetic: it is a valid pointer
    into the literal only for 0 <= nastranCode <= 22. *)
Definition invalid_code_error {A} (nastranCode : Z) : outcome A :=
  if (0 <=? nastranCode) && (nastranCode <=? 22) then Throw else UB.

(** Dof.cpp:188-197: the while loop; C++ [%] and [/] truncate towards zero. *)
Fixpoint decode_loop (fuel : nat) (orig number : Z) (acc : dofs) : outcome dofs :=
  match fuel with
  | O => NoFuel
  | S f =>
      if number =? 0 then Ok acc
      else
        let digit := Z.rem number 10 in
        let number' := Z.quot number 10 in
        match dof_of_digit digit with
        | None => invalid_code_error orig
        | Some d => decode_loop f orig number' (dofs_add acc (dof_code d))
        end
  end.

(** Dof.cpp:180-199. *)
Definition nastranCodeToDOFS (code : Z) : outcome dofs :=
  let number := if code =? 0 then 1 else code in
  decode_loop (S (S (Z.to_nat (Z.log2 (Z.abs number))))) code number NO_DOFS.

(** Dof.cpp:220-241. *)
Definition combineCodes (dx dy dz rx ry rz : bool) : dofs :=
  let s := NO_DOFS in
  let s := if dx then dofs_add_dof s DX else s in
  let s := if dy then dofs_add_dof s DY else s in
  let s := if dz then dofs_add_dof s DZ else s in
  let s := if rx then dofs_add_dof s RX else s in
  let s := if ry then dofs_add_dof s RY else s in
  if rz then dofs_add_dof s RZ else s.

(** ------------------------------------------------------------------ *)
(** DOFMatrix (Dof.h:171-199, Dof.cpp:286-465).  Values are of an arbitrary
    type [V] with a zero and the tolerance test [is_zero]; the unordered_map
    is an association list with unique keys whose order is immaterial. *)
Inductive matrix_type := FULL | SYMMETRIC | DIAGONAL.

Record dofmatrix (V : Type) := mkMatrix {
  mtype : matrix_type;
  comps : list ((dof * dof) * V)
}.
Arguments mkMatrix {V} mtype comps.
Arguments mtype {V} m : rename.
Arguments comps {V} m : rename.

Definition key_eqb (k l : dof * dof) : bool :=
  dof_eqb (fst k) (fst l) && dof_eqb (snd k) (snd l).

(** operator[] assignment of unordered_map. *)
Fixpoint comp_set {V} (l : list ((dof * dof) * V)) (k : dof * dof) (v : V) :=
  match l with
  | [] => [(k, v)]
  | (k', v') :: r => if key_eqb k' k then (k', v) :: r else (k', v') :: comp_set r k v
  end.

(** unordered_map::find. *)
Fixpoint comp_find {V} (l : list ((dof * dof) * V)) (k : dof * dof) : option V :=
  match l with
  | [] => None
  | (k', v') :: r => if key_eqb k' k then Some v' else comp_find r k
  end.

Definition matrix_type_eqb (a b : matrix_type) : bool :=
  match a, b with
  | FULL, FULL | SYMMETRIC, SYMMETRIC | DIAGONAL, DIAGONAL => true
  | _, _ => false
  end.

Section Matrix.
Context {V : Type} (vzero : V) (is_zero : V -> bool).

(** Dof.cpp:286. *)
Definition newMatrix (t : matrix_type) : dofmatrix V := mkMatrix t [].

(** Dof.cpp:290-299. *)
Definition addComponent (m : dofmatrix V) (d1 d2 : dof) (v : V) : outcome (dofmatrix V) :=
  if matrix_type_eqb (mtype m) DIAGONAL && negb (dof_eqb d1 d2) && negb (is_zero v) then Throw
  else if matrix_type_eqb (mtype m) SYMMETRIC && dof_ltb d2 d1
       then Ok (mkMatrix (mtype m) (comp_set (comps m) (d2, d1) v))
       else Ok (mkMatrix (mtype m) (comp_set (comps m) (d1, d2) v)).

(** Dof.cpp:301-316. *)
Definition findComponent (m : dofmatrix V) (d1 d2 : dof) : V :=
  if matrix_type_eqb (mtype m) DIAGONAL && negb (dof_eqb d1 d2) then vzero
  else
    let k := if matrix_type_eqb (mtype m) SYMMETRIC && dof_ltb d2 d1 then (d2, d1) else (d1, d2) in
    match comp_find (comps m) k with Some v => v | None => vzero end.

(** Dof.cpp:351-362. *)
Definition hasRotations (m : dofmatrix V) : bool :=
  existsb (fun kv => isRotation (fst (fst kv)) || isRotation (snd (fst kv))) (comps m).

(** Dof.cpp:320, 331, 344: the DOFs covered by an export. *)
Definition export_dofs (addRot : bool) (m : dofmatrix V) : dofs :=
  if addRot || hasRotations m then ALL_DOFS else TRANSLATIONS.

(** Dof.cpp:318-327. *)
Definition asColumnsVector (addRot : bool) (m : dofmatrix V) : outcome (list V) :=
  do ds <- dofs_iterate (export_dofs addRot m);
  Ok (flat_map (fun col => map (fun row => findComponent m row col) ds) ds).

(** integers 0 .. n-1 of a C for loop *)
Definition upto (n : Z) : list Z := map Z.of_nat (seq 0 (Z.to_nat n)).

(** Dof.cpp:329-340. *)
Definition asUpperTriangularColumnsVector (addRot : bool) (m : dofmatrix V) : outcome (list V) :=
  let n := dofs_size (export_dofs addRot m) in
  do cols <- mapM (fun c =>
      do cd <- findByPosition c;
      mapM (fun r => do rd <- findByPosition r; Ok (findComponent m rd cd)) (upto (c + 1)))
    (upto n);
  Ok (concat cols).

(** Dof.cpp:342-349. *)
Definition diagonal (addRot : bool) (m : dofmatrix V) : outcome (list V) :=
  do ds <- dofs_iterate (export_dofs addRot m);
  Ok (map (fun d => findComponent m d d) ds).

(** Dof.cpp:427-436. *)
Definition isZero (m : dofmatrix V) : bool := forallb (fun kv => is_zero (snd kv)) (comps m).

(** Dof.cpp:438-442. *)
Definition setAllZero (m : dofmatrix V) : dofmatrix V :=
  mkMatrix (mtype m) (map (fun kv => (fst kv, vzero)) (comps m)).

(** Dof.cpp:444-450.  [order] is the iteration order of the unordered_map, a
    permutation of [comps m].  The function is noexcept; a throw would
    terminate the program. *)
Definition transposed_in (order : list ((dof * dof) * V)) (m : dofmatrix V)
  : outcome (dofmatrix V) :=
  foldM (fun t kv => addComponent t (snd (fst kv)) (fst (fst kv)) (snd kv)) order
        (newMatrix (mtype m)).

(** Dof.cpp:377-388. *)
Definition isDiagonal (m : dofmatrix V) : bool :=
  matrix_type_eqb (mtype m) DIAGONAL
  || forallb (fun kv => dof_eqb (fst (fst kv)) (snd (fst kv)) || is_zero (snd kv)) (comps m).

(** Dof.cpp:390-411. *)
Definition isSymmetric (is_equal : V -> V -> bool) (m : dofmatrix V) : bool :=
  match mtype m with
  | SYMMETRIC | DIAGONAL => true
  | FULL => forallb (fun kv => match comp_find (comps m) (snd (fst kv), fst (fst kv)) with
                               | None => is_zero (snd kv)
                               | Some w => is_equal (snd kv) w
                               end) (comps m)
  end.

(** Dof.cpp:413-422; [is_max v] is [is_equal(v, DBL_MAX)]. *)
Definition isMaxDiagonal (is_max : V -> bool) (m : dofmatrix V) : bool :=
  forallb (fun kv => negb ((negb (dof_eqb (fst (fst kv)) (snd (fst kv))) && negb (is_zero (snd kv)))
                           || negb (is_max (snd kv)))) (comps m).

(** Dof.cpp:452-465.  [is_equal] is the tolerance comparison. When the other
    matrix lacks the component and the value is zero the code dereferences the
    end iterator. *)
Fixpoint isEqual_loop (is_equal : V -> V -> bool) (l : list ((dof * dof) * V)) (o : list ((dof * dof) * V))
  : outcome bool :=
  match l with
  | [] => Ok true
  | (k, v) :: r =>
      match comp_find o k with
      | None => if is_zero v then UB else Ok false
      | Some w => if is_equal v w then isEqual_loop is_equal r o else Ok false
      end
  end.
Definition isEqual (is_equal : V -> V -> bool) (m o : dofmatrix V) : outcome bool :=
  if Nat.eqb (length (comps m)) (length (comps o))
  then isEqual_loop is_equal (comps m) (comps o) else Ok false.
End Matrix.

(** ------------------------------------------------------------------ *)
(** DOFCoefs (Dof.h:206-228, Dof.cpp:467-560): six values, one of which,
    [unavail] (Globals::UNAVAILABLE_DOUBLE), stands for "absent"; [is_unavail]
    is the comparison [is_equal(x, UNAVAILABLE_DOUBLE)]. *)
Section Coefs.
Context {V : Type} (vplus vmult : V -> V -> V) (unavail : V) (is_unavail : V -> bool).

Definition coefs := dof -> V.

(** Dof.cpp:476-483 *)
Definition coefs_of_dofs (s : dofs) (v : V) : coefs :=
  fun d => if contains s d then v else unavail.
(** Dof.cpp:485-492 *)
Definition coefs_of_dof (d0 : dof) (v : V) : coefs :=
  fun d => if dof_eqb d d0 then v else unavail.
(** Dof.cpp:494-501; iteration over ALL_DOFS in order. *)
Definition getDOFS (c : coefs) : dofs :=
  fold_left (fun s d => if is_unavail (c d) then s else dofs_add_dof s d)
            [DX; DY; DZ; RX; RY; RZ] NO_DOFS.
(** Dof.cpp:503-509 *)
Definition coefs_isEmpty (c : coefs) : bool :=
  forallb (fun d => is_unavail (c d)) [DX; DY; DZ; RX; RY; RZ].
(** Dof.cpp:515-517 *)
Definition coefs_setValue (c : coefs) (d0 : dof) (v : V) : coefs :=
  fun d => if dof_eqb d d0 then v else c d.
(** Dof.cpp:519-528 *)
Definition coefs_add (c r : coefs) : coefs :=
  fun d => if is_unavail (c d) then r d else vplus (c d) (r d).
(** Dof.cpp:530-537 *)
Definition coefs_scale (c : coefs) (f : V) : coefs :=
  fun d => if is_unavail (c d) then c d else vmult (c d) f.
(** Dof.cpp:545-552 *)
Fixpoint lt_loop (is_equal ltb : V -> V -> bool) (c r : coefs) (l : list dof) : bool :=
  match l with
  | [] => false
  | d :: q => if is_equal (c d) (r d) then lt_loop is_equal ltb c r q else ltb (c d) (r d)
  end.
Definition coefs_lt (is_equal ltb : V -> V -> bool) (c r : coefs) : bool :=
  lt_loop is_equal ltb c r [DX; DY; DZ; RX; RY; RZ].
(** Dof.cpp:554-560 *)
Definition coefs_eq (is_equal : V -> V -> bool) (c r : coefs) : bool :=
  forallb (fun d => is_equal (c d) (r d)) [DX; DY; DZ; RX; RY; RZ].
End Coefs.
