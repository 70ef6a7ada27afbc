(** Model of the discrete elements written for Code_Aster: the vectors of
    DiscretePoint, DiscreteSegment, StructuralSegment and ScalarSpring
    (Element.cpp:459-926, 1236-1440) and the DISCRET part of
    AsterWriter::writeAffeCaraElem (AsterWriter.cpp:1085-1200).

    Values are of any type with a zero and the tolerance tests; the text of the
    numbers and of the groups of cells is not modelled; an element set without
    cells is not written and is left out. *)
From Coq Require Import ZArith List Bool.
From Verif Require Import Base DofModel SpringModel.
Import ListNotations.
Open Scope Z_scope.

(** One _F(...) of DISCRET: CARA = kind, T or TR, D_ or not, N or L; SYME; VALE. *)
Inductive kind := Stiff | Damp | Mass.
Record acard (V : Type) := mkACard { ac_kind : kind; ac_rot : bool; ac_diag : bool; ac_line : bool; ac_sym : bool; ac_values : list V }.
Arguments mkACard {V}.
Arguments ac_kind {V}. Arguments ac_rot {V}. Arguments ac_diag {V}. Arguments ac_line {V}. Arguments ac_sym {V}. Arguments ac_values {V}.

Section Export.
Context {V : Type} (vzero : V) (is_zero : V -> bool) (is_equal : V -> V -> bool) (unavail : V).

(** not isEmpty() and not isZero(): Element.cpp:515-525, 606-646. *)
Definition filled (m : dofmatrix V) : bool := negb (match comps m with [] => true | _ => false end) && negb (isZero is_zero m).
Definition when (b : bool) (r : outcome (acard V)) : outcome (list (acard V)) := if b then do c <- r; Ok [c] else Ok [].

(** ** DiscretePoint: type of matrices, stiffness, damping, mass. *)
Record point := mkPoint { pt_type : matrix_type; pt_k : dofmatrix V; pt_a : dofmatrix V; pt_m : dofmatrix V }.
(** Element.cpp:511-513. *)
Definition point_rotations (p : point) : bool := hasRotations (pt_k p) || hasRotations (pt_m p) || hasRotations (pt_a p).
(** Element.cpp:534-542. *)
Definition three_symmetric (t : matrix_type) (k a m : dofmatrix V) : bool :=
  match t with
  | SYMMETRIC | DIAGONAL => true
  | FULL => isSymmetric is_zero is_equal k && isSymmetric is_zero is_equal a && isSymmetric is_zero is_equal m
  end.
Definition point_symmetric (p : point) : bool := three_symmetric (pt_type p) (pt_k p) (pt_a p) (pt_m p).
(** Element.cpp:469-506: one of the three vectors. *)
Definition point_vector (p : point) (x : dofmatrix V) : outcome (list V) :=
  if point_symmetric p then asUpperTriangularColumnsVector vzero (point_rotations p) x
  else asColumnsVector vzero (point_rotations p) x.
Definition point_card (p : point) (k : kind) (x : dofmatrix V) : outcome (acard V) :=
  do v <- point_vector p x; Ok (mkACard k (point_rotations p) false false (point_symmetric p) v).
(** AsterWriter.cpp:1105-1150. *)
Definition write_point (p : point) : outcome (list (acard V)) :=
  do k <- when true (point_card p Stiff (pt_k p));
  do a <- when (filled (pt_a p)) (point_card p Damp (pt_a p));
  do m <- when (filled (pt_m p)) (point_card p Mass (pt_m p));
  Ok (k ++ a ++ m).

(** ** Elements with two nodes *)
(** Blocks 00, 01, 10, 11 of a matrix. *)
Record blocks := mkBlocks { b00 : dofmatrix V; b01 : dofmatrix V; b10 : dofmatrix V; b11 : dofmatrix V }.
Definition block (b : blocks) (row col : Z) : dofmatrix V :=
  if row =? 0 then (if col =? 0 then b00 b else b01 b) else (if col =? 0 then b10 b else b11 b).
Inductive discrete1d :=
  | Segment1 (t : matrix_type) (k a m : blocks)
  | Structural (t : matrix_type) (k a m : dofmatrix V)
  | Scalar (k a m : V) (dofs : springs_by_dofs).

(** The triangle loops, Element.cpp:733-755, 765-787, 797-819, 869-888, 903-921.
    [row_loop] is one run of the loop on rowdof with its break. *)
Fixpoint row_loop (f : dof -> V) (l : list Z) (index maxi : Z) : outcome (list V * Z) :=
  match l with
  | [] => Ok ([], index)
  | rowdof :: r =>
      let index := index + 1 in
      if index >? maxi then Ok ([], index) else
      do rowcode <- findByPosition rowdof;
      do q <- row_loop f r index maxi;
      Ok (f rowcode :: fst q, snd q)
  end.
Definition triangle (find : Z -> Z -> dof -> dof -> V) (ncomp : Z) : outcome (list V) :=
  do r <- foldM (fun acc (col : Z * Z) =>
      let '(result, maxi) := acc in
      do colcode <- findByPosition (snd col);
      let maxi := maxi + 1 in
      do r0 <- row_loop (fun rowcode => find 0 (fst col) rowcode colcode) (upto ncomp) 0 maxi;
      do r1 <- row_loop (fun rowcode => find 1 (fst col) rowcode colcode) (upto ncomp) (snd r0) maxi;
      Ok (result ++ fst r0 ++ fst r1, maxi))
    (map (pair 0) (upto ncomp) ++ map (pair 1) (upto ncomp)) ([], 0);
  Ok (fst r).

Definition any_block (f : dofmatrix V -> bool) (b : blocks) : bool := f (b00 b) || f (b01 b) || f (b10 b) || f (b11 b).
(** Element.cpp:592-604, 813-815 (structural), 1325-1335 (spring). *)
Definition has_pair (dofs : springs_by_dofs) (k : dof * dof) : bool := existsb (fun x => key_eqb (fst x) k) dofs.
Definition rotations1 (d : discrete1d) : bool :=
  match d with
  | Segment1 _ k a m => any_block hasRotations k || any_block hasRotations m || any_block hasRotations a
  | Structural _ k a m => hasRotations k || hasRotations m || hasRotations a
  | Scalar _ _ _ dofs => existsb (fun r => existsb (fun c => has_pair dofs (r, c)) [RX; RY; RZ]) [RX; RY; RZ]
  end.
(** Element.cpp:648-666, 837-842, Element.h:686 (spring: always). *)
Definition diagonal1 (d : discrete1d) : bool :=
  match d with
  | Segment1 t k a m =>
      matrix_type_eqb t DIAGONAL ||
      (forallb (isDiagonal is_zero) [b00 k; b00 a; b00 m; b11 k; b11 a; b11 m]
       && forallb (isZero is_zero) [b01 k; b01 a; b01 m; b10 k; b10 a; b10 m])
  | Structural t k a m => matrix_type_eqb t DIAGONAL || (negb (isDiagonal is_zero k) && isDiagonal is_zero a && isDiagonal is_zero m)
  | Scalar _ _ _ _ => true
  end.
(** Element.cpp:668-691, 848-856, Element.h:687.  The order of the unordered map
    that is transposed is that of the list. *)
Definition same_transposed (b : blocks) : outcome bool :=
  do t <- transposed_in is_zero (comps (b10 b)) (b10 b); isEqual is_zero is_equal (b01 b) t.
Definition symmetric1 (d : discrete1d) : outcome bool :=
  match d with
  | Segment1 FULL k a m =>
      if negb (forallb (isSymmetric is_zero is_equal) [b00 k; b00 a; b00 m; b11 k; b11 a; b11 m]) then Ok false else
      do sk <- same_transposed k;
      if negb sk then Ok false else
      do sa <- same_transposed a;
      if negb sa then Ok false else
      same_transposed m
  | Segment1 _ _ _ _ => Ok true
  | Structural t k a m => Ok (three_symmetric t k a m)
  | Scalar _ _ _ _ => Ok true
  end.
Definition ncomp1 (d : discrete1d) : Z := if rotations1 d then 6 else 3.
(** Element.cpp:733-819 (segments), 862-926 (structural), 1337-1440 (springs, only
    the branch that is taken). *)
Definition structural_vector (d : discrete1d) (x : dofmatrix V) (otherwise : outcome (list V)) : outcome (list V) :=
  if diagonal1 d then diagonal vzero (rotations1 d) x else
  do s <- symmetric1 d;
  if s then triangle (fun _ _ r c => findComponent vzero x r c) (ncomp1 d) else otherwise.
Definition vector1 (d : discrete1d) (kd : kind) : outcome (list V) :=
  match d with
  | Segment1 _ k a m =>
      triangle (fun i j r c => findComponent vzero (block (match kd with Stiff => k | Damp => a | Mass => m end) i j) r c) (ncomp1 d)
  | Structural _ k a m =>
      match kd with Stiff => structural_vector d k Throw | Damp => structural_vector d a (Ok []) | Mass => Throw end
  | Scalar k a m _ => Ok (repeat (match kd with Stiff => k | Damp => a | Mass => m end) (Z.to_nat (ncomp1 d)))
  end.
(** Element.cpp:616-646, 857-863, 1270-1280. *)
Definition has1 (d : discrete1d) (kd : kind) : bool :=
  match d with
  | Segment1 _ k a m => any_block filled (match kd with Stiff => k | Damp => a | Mass => m end)
  | Structural _ k a m => filled (match kd with Stiff => k | Damp => a | Mass => m end)
  | Scalar k a m _ => let v := match kd with Stiff => k | Damp => a | Mass => m end in negb (is_zero v || is_equal v unavail)
  end.
Definition card1 (d : discrete1d) (kd : kind) : outcome (acard V) :=
  do s <- symmetric1 d;
  do v <- vector1 d kd;
  Ok (mkACard kd (rotations1 d) (diagonal1 d) true s v).
(** AsterWriter.cpp:1157-1200. *)
Definition write1 (d : discrete1d) : outcome (list (acard V)) :=
  do k <- when true (card1 d Stiff);
  do a <- when (has1 d Damp) (card1 d Damp);
  do m <- when (has1 d Mass) (card1 d Mass);
  Ok (k ++ a ++ m).
End Export.
