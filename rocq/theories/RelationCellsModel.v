(** Model of the translation of linear relations, rigid bodies and averages into
    elements (Abstract/Model.cpp), used by the writer of Systus, and of the tables
    of relations it writes (Systus/SystusWriter.cpp). *)
From Coq Require Import ZArith List Bool Arith.
From Verif Require Import Base.
Import ListNotations.

(** ** Linear relations *)
Section Relations.
(** Coefficients; [same] is is_equal (Utility.h), the comparison behind
    DOFCoefs::operator< (Dof.cpp:545-552). *)
Variable A : Type.
Variable zero : A.
Variable same : A -> A -> bool.

(** Dof.h:196-215: six coefficients. *)
Definition coefs := list A.
(** Constraint.h LinearMultiplePointConstraint: the imposed value and
    dofCoefsByNodePosition, a std::map: positions in ascending order. *)
Record lmpc := mkLmpc { impo : A; parts : list (Z * coefs) }.
(** Constraint.cpp:554-560. *)
Definition nodes (l : lmpc) : list Z := map fst (parts l).
(** Constraint.cpp:591-597. *)
Definition coefs_for (l : lmpc) (p : Z) : coefs :=
  match find (fun x => (fst x =? p)%Z) (parts l) with Some x => snd x | None => repeat zero 6 end.

Fixpoint all2 {B} (f : B -> B -> bool) (a b : list B) : bool :=
  match a, b with
  | [], [] => true
  | x :: a, y :: b => f x y && all2 f a b
  | _, _ => false
  end.
Definition pos_eqb : list Z -> list Z -> bool := all2 Z.eqb.
(** Rows of coefficients: one per relation, one sextuple per node. *)
Definition row := list coefs.
Definition key_eqb : list row -> list row -> bool := all2 (all2 (all2 same)).

(** Model.cpp:1675-1686: relations by set of nodes.  The map is a list in order
    of first occurrence: the order only decides the numbers of cells and sets. *)
Fixpoint insert_group (k : list Z) (l : lmpc) (g : list (list Z * list lmpc)) : list (list Z * list lmpc) :=
  match g with
  | [] => [(k, [l])]
  | (k', ls) :: g => if pos_eqb k' k then (k', ls ++ [l]) :: g else (k', ls) :: insert_group k l g
  end.
Definition group (ls : list lmpc) : list (list Z * list lmpc) :=
  fold_left (fun g l => insert_group (nodes l) l g) ls [].

(** Element.h:632-645 Lmpc: its rows and its cells (the nodes of each).  The cell
    is given by the positions of its nodes: Model.cpp:1707-1709 converts them into
    identifiers, which is one to one (C10). *)
Record elements := mkElements { rows : list row; cells : list (list Z) }.

(** Element.h:637. *)
Definition LMPCCELL_DOFNUM : nat := 6.
(** Element.cpp:1208-1213, repeated over the rows. *)
Definition append_all (rs : list row) : outcome elements :=
  if length rs <=? LMPCCELL_DOFNUM then Ok (mkElements rs []) else Throw.
(** MeshComponents.cpp:145-233 polyType. *)
Definition poly_type (n : nat) : outcome nat := if (1 <=? n) && (n <=? 20) then Ok n else Throw.

(** Model.cpp:1704: slices of at most six rows. *)
Fixpoint slices (fuel : nat) (rs : list row) : list (list row) :=
  match fuel, rs with
  | S fuel, _ :: _ => firstn LMPCCELL_DOFNUM rs :: slices fuel (skipn LMPCCELL_DOFNUM rs)
  | _, _ => []
  end.

(** The map elmpcByDOFCoefs, as a list: the first entry with an equal key.
    (DOFCoefs::operator< compares up to a tolerance.) *)
Definition by_coefs := list (list row * elements).
Fixpoint add_to (k : list row) (cell : list Z) (m : by_coefs) : option by_coefs :=
  match m with
  | [] => None
  | (k', e) :: m =>
      if key_eqb k' k then Some ((k', mkElements (rows e) (cells e ++ [cell])) :: m)
      else match add_to k cell m with Some m => Some ((k', e) :: m) | None => None end
  end.

(** Model.cpp:1704-1738, one slice: the new set receives all the rows of the
    nodes ([all], line 1724), not those of the slice. *)
Definition add_slice (ns : list Z) (all : list row) (m : by_coefs) (slice : list row) : outcome by_coefs :=
  do _ <- poly_type (length ns);
  match add_to slice ns m with
  | Some m => Ok m
  | None => do e <- append_all all; Ok (m ++ [(slice, mkElements (rows e) [ns])])
  end.

(** Model.cpp:1690-1739, one set of nodes. *)
Definition rows_of (ns : list Z) (ls : list lmpc) : list row := map (fun l => map (coefs_for l) ns) ls.
Definition add_nodes (m : by_coefs) (g : list Z * list lmpc) : outcome by_coefs :=
  let all := rows_of (fst g) (snd g) in
  foldM (add_slice (fst g) all) (slices (length all) all) m.

(** Model.cpp:1673-1740, the constraints of one set in one analysis: the element
    sets made for them. *)
Definition makeCellsFromLMPC (ls : list lmpc) : outcome (list elements) :=
  do m <- foldM add_nodes (group ls) [];
  Ok (map snd m).

(** SystusWriter.cpp:1876-1886: the table of an element set; [nb] is the number
    of degrees of freedom per node (3 or 6). *)
Definition table (nb : nat) (e : elements) : list A :=
  flat_map (fun r => flat_map (firstn nb) r) (rows e).
End Relations.
Arguments mkLmpc {A} impo parts.
Arguments impo {A} l : rename.
Arguments parts {A} l : rename.
Arguments nodes {A} l : rename.
Arguments mkElements {A} rows cells.
Arguments rows {A} e : rename.
Arguments cells {A} e : rename.

(** ** Rigid bodies and averages (Model.cpp:1759-1906) *)
Section Rigid.
(** DOF sets are codes (C01); weights are any type with the equality of
    std::map<double, ...>. *)
Variable W : Type.
Variable weight_eqb : W -> W -> bool.

Inductive link :=
| Rigid (id master : Z) (slaves : list Z)                                (* RIGID *)
| QuasiRigid (id : Z) (master : option Z) (dofs : Z) (slaves : list Z)   (* QUASI_RIGID *)
| Average (id master mdofs : Z) (slaves : list (Z * (Z * W))).           (* RBE3: DOFs and weight of each slave *)

(** Element sets made: segments from the master, with what they carry.  An
    average also has a cell group with a name: (part, id). *)
Inductive element_set :=
| Rbar (master : Z) (segments : list (Z * Z))
| Rbe3 (name : nat * Z) (master mdofs sdofs : Z) (weight : W) (segments : list (Z * Z)).

(** 1854-1887: groups by DOFs, then weight; one more part when there is none. *)
Definition group_key := (Z * W)%type.
Fixpoint add_segment (k : group_key) (s : Z * Z) (g : list (group_key * list (Z * Z))) : option (list (group_key * list (Z * Z))) :=
  match g with
  | [] => None
  | (k', l) :: g =>
      if (fst k' =? fst k)%Z && weight_eqb (snd k') (snd k) then Some ((k', l ++ [s]) :: g)
      else match add_segment k s g with Some g => Some ((k', l) :: g) | None => None end
  end.
Definition parts_of (master : Z) (slaves : list (Z * (Z * W))) : list (group_key * list (Z * Z)) :=
  fold_left (fun g x =>
      let k := snd x in let s := (master, fst x) in
      match add_segment k s g with Some g => g | None => g ++ [(k, [s])] end) slaves [].

Fixpoint numbered (i : nat) (id master mdofs : Z) (g : list (group_key * list (Z * Z))) : list element_set :=
  match g with
  | [] => []
  | (k, l) :: g => Rbe3 (i, id) master mdofs (fst k) (snd k) l :: numbered (S i) id master mdofs g
  end.

Definition cells_of (l : link) : outcome (list element_set) :=
  match l with
  (* 1765-1788 *)
  | Rigid _ m ss => Ok [Rbar m (map (fun s => (m, s)) ss)]
  (* 1794-1832: the DOFs are not looked at; without master the first slave is one *)
  | QuasiRigid _ (Some m) _ ss => Ok [Rbar m (map (fun s => (m, s)) ss)]
  | QuasiRigid _ None _ ss =>
      match ss with
      | [] => UB
      | m :: _ => Ok [Rbar m (map (fun s => (m, s)) (filter (fun s => negb (s =? m)%Z) ss))]
      end
  (* 1839-1895 *)
  | Average id m md ss => Ok (numbered 1 id m md (parts_of m ss))
  end.

Definition name_of (e : element_set) : list (nat * Z) := match e with Rbar _ _ => [] | Rbe3 n _ _ _ _ _ => [n] end.
Definition name_eqb (a b : nat * Z) : bool := Nat.eqb (fst a) (fst b) && (snd a =? snd b)%Z.
(** Mesh.cpp:729-735: a group name already used is an exception. *)
Fixpoint names_free (used : list (nat * Z)) (new : list (nat * Z)) : bool :=
  match new with
  | [] => true
  | n :: new => negb (existsb (name_eqb n) used) && names_free (used ++ [n]) new
  end.

(** One set of constraints; the types are visited in the order RIGID,
    QUASI_RIGID, RBE3: [ls] is in that order. *)
Definition makeCellsFromRBE (ls : list link) : outcome (list element_set) :=
  foldM (fun acc l =>
           do es <- cells_of l;
           if names_free (flat_map name_of acc) (flat_map name_of es) then Ok (acc ++ es) else Throw) ls [].
End Rigid.
Arguments Rigid {W} id master slaves.
Arguments QuasiRigid {W} id master dofs slaves.
Arguments Average {W} id master mdofs slaves.
Arguments Rbar {W} master segments.
Arguments Rbe3 {W} name master mdofs sdofs weight segments.
