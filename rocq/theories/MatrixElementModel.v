(** Model of the direct matrices (stiffness, mass and damping matrices given
    term by term between nodes), of their splitting and of their export to
    Systus.  Definitions only.

    Simplifications: every matrix element of the program is created with
    MatrixType::SYMMETRIC (NastranParser.cpp:384, 420, 453,
    NastranParser_geometry.cpp:496), so the element carries no type; the node
    arguments are node positions (the translation between node numbers and
    positions is the subject of C10); integers are unbounded. *)
From Coq Require Import ZArith List Bool Lia.
From Verif Require Import Base DofModel.
Import ListNotations.
Open Scope Z_scope.

(** std::pair<pos_t, pos_t> and its operator<. *)
Definition npair := (Z * Z)%type.
Definition npair_eqb (p q : npair) : bool := (fst p =? fst q) && (snd p =? snd q).
Definition npair_ltb (p q : npair) : bool :=
  (fst p <? fst q) || ((fst p =? fst q) && (snd p <? snd q)).

(** std::map<pair, A>: association list sorted by key. *)
Fixpoint pfind {A} (m : list (npair * A)) (k : npair) : option A :=
  match m with
  | [] => None
  | (k', a) :: r => if npair_eqb k' k then Some a else pfind r k
  end.
Fixpoint pset {A} (m : list (npair * A)) (k : npair) (a : A) : list (npair * A) :=
  match m with
  | [] => [(k, a)]
  | (k', a') :: r =>
      if npair_ltb k k' then (k, a) :: (k', a') :: r
      else if npair_eqb k' k then (k', a) :: r
      else (k', a') :: pset r k a
  end.

(** std::set<pos_t>::insert: sorted list without repetition. *)
Fixpoint zput (s : list Z) (k : Z) : list Z :=
  match s with
  | [] => [k]
  | k' :: r => if k <? k' then k :: k' :: r else if k =? k' then k' :: r else k' :: zput r k
  end.

Section MatrixElement.
Context {V : Type} (is_zero : V -> bool).

(** submatrixByNodes, Element.h:552. *)
Definition melement := list (npair * dofmatrix V).

(** Element.cpp:1052-1081. *)
Definition me_add (m : melement) (n1 : Z) (dof1 : dof) (n2 : Z) (dof2 : dof) (value : V)
  : outcome melement :=
  let '(p1, p2, d1, d2) := if n2 <? n1 then (n2, n1, dof2, dof1) else (n1, n2, dof1, dof2) in
  let sub := match pfind m (p1, p2) with
             | Some s => s
             | None => newMatrix (if p1 =? p2 then SYMMETRIC else FULL)
             end in
  do s <- addComponent is_zero sub d1 d2 value;
  Ok (pset m (p1, p2) s).

(** Element.cpp:1089-1097: a matrix of the type of the element (symmetric)
    into which the components of the block are copied as they are. *)
Definition findSubmatrix (m : melement) (p1 p2 : Z) : dofmatrix V :=
  mkMatrix SYMMETRIC (match pfind m (p1, p2) with Some s => comps s | None => [] end).

(** Element.cpp:1099-1106. *)
Definition nodePositions (m : melement) : list Z :=
  fold_left (fun s kv => zput (zput s (fst (fst kv))) (snd (fst kv))) m [].

(** Element.cpp:1123-1129; the std::set of the keys is the list of the keys of
    the sorted map. *)
Definition nodePairs (m : melement) : list npair := map fst m.

(** Element.cpp:1131-1145. *)
Definition findInPairs (m : melement) (p : Z) : list npair :=
  filter (fun k => ((fst k =? p) || (snd k =? p)) && negb (fst k =? snd k)) (nodePairs m).

(** Dof.cpp:364-375. *)
Definition hasTranslations (m : dofmatrix V) : bool :=
  existsb (fun kv => isTranslation (fst (fst kv)) || isTranslation (snd (fst kv))) (comps m).

(** Element.cpp:1108-1121; the condition is
    [kv.first.first == nodePosition or kv.first.second], whose second operand
    is an integer used as a truth value. *)
Definition me_getDOFSForNode (m : melement) (p : Z) : dofs :=
  fold_left (fun s kv =>
      if (fst (fst kv) =? p) || negb (snd (fst kv) =? 0) then
        let s1 := if hasRotations (snd kv) then dofs_add s ROTATIONS else s in
        if hasTranslations (snd kv) then dofs_add s1 TRANSLATIONS else s1
      else s) m NO_DOFS.

(** ------------------------------------------------------------------ *)
(** Model::splitDirectMatrices (Model.cpp:1502-1612). *)

(** [stackOfNodesByNodes]: the nodes in the order in which they are first met;
    the stack of a node is its rank divided by [sizeStack] (1547-1561).
    [esToAddByStackNumber] and [esToAdd] (1563-1590): the index of the piece
    of every pair of stacks, and the pieces. *)
Record split_state := mkSplit {
  seen : list Z;
  index : list ((nat * nat) * nat);
  pieces : list melement
}.

Fixpoint rank_of (l : list Z) (n : Z) : option nat :=
  match l with
  | [] => None
  | a :: r => if a =? n then Some O else option_map S (rank_of r n)
  end.

(** Model.cpp:1548-1554 and 1555-1561. *)
Definition stack_of (sizeStack : nat) (l : list Z) (n : Z) : nat * list Z :=
  match rank_of l n with
  | Some r => (Nat.div r sizeStack, l)
  | None => (Nat.div (length l) sizeStack, l ++ [n])
  end.

Definition spair_eqb (p q : nat * nat) : bool :=
  Nat.eqb (fst p) (fst q) && Nat.eqb (snd p) (snd q).
Fixpoint sfind (l : list ((nat * nat) * nat)) (k : nat * nat) : option nat :=
  match l with
  | [] => None
  | (k', i) :: r => if spair_eqb k' k then Some i else sfind r k
  end.

(** Model.cpp:1564-1590: the piece of a pair of stacks, created if needed.
    Assignments to the map are pushed in front of the association list. *)
Definition piece_for (st : split_state) (ps : nat * nat) : nat * split_state :=
  match sfind (index st) ps with
  | Some i => (i, st)
  | None =>
      let i := length (pieces st) in
      let stF := Nat.sub (fst ps) (Nat.modulo (fst ps) 2) in
      let stS := Nat.sub (snd ps) (Nat.modulo (snd ps) 2) in
      let ix := (ps, i) :: index st in
      let ix' := if Nat.eqb stF stS
                 then ((S stF, S stF), i) :: ((stF, S stF), i) :: ((stF, stF), i) :: ix
                 else ix in
      (i, mkSplit (seen st) ix' (pieces st ++ [[]]))
  end.

Fixpoint update {A} (l : list A) (i : nat) (a : A) : list A :=
  match l, i with
  | [], _ => []
  | _ :: r, O => a :: r
  | x :: r, S j => x :: update r j a
  end.

(** Model.cpp:1593-1597. *)
Definition copy_block (np : npair) (c : list ((dof * dof) * V)) (piece : melement) : outcome melement :=
  foldM (fun pc kv => me_add pc (fst np) (fst (fst kv)) (snd np) (snd (fst kv)) (snd kv)) c piece.

(** Model.cpp:1544-1598, one pair of nodes. *)
Definition split_pair (sizeStack : nat) (m : melement) (st : split_state) (np : npair)
  : outcome split_state :=
  let '(sI, l1) := stack_of sizeStack (seen st) (fst np) in
  let '(sJ, l2) := stack_of sizeStack l1 (snd np) in
  let ps := if Nat.ltb sI sJ then (sI, sJ) else (sJ, sI) in
  let '(i, st1) := piece_for (mkSplit l2 (index st) (pieces st)) ps in
  do pc <- of_option (nth_error (pieces st1) i);
  do pc' <- copy_block np (comps (findSubmatrix m (fst np) (snd np))) pc;
  Ok (mkSplit (seen st1) (index st1) (update (pieces st1) i pc')).

(** Model.cpp:1529-1598, one matrix. *)
Definition split_matrix (sizeMax : nat) (m : melement) : outcome (list melement) :=
  if Nat.leb (length (nodePositions m)) sizeMax then Ok [m]
  else do st <- foldM (split_pair (Nat.div sizeMax 2) m) (nodePairs m) (mkSplit [] [] []);
       Ok (pieces st).

(** An element set: a matrix of some kind (stiffness, mass, damping) or
    something else. *)
Inductive element (T : Type) :=
| Matrix (kind : Z) (m : melement)
| OtherElement (t : T).
Arguments Matrix {T} kind m.
Arguments OtherElement {T} t.

(** Model.cpp:1502-1619: the big matrices are erased, the pieces added at the end. *)
Definition kept_of {T} (sizeMax : nat) (e : element T) : list (element T) :=
  match e with
  | Matrix k m => if Nat.leb (length (nodePositions m)) sizeMax then [e] else []
  | OtherElement _ => [e]
  end.
Definition added_of {T} (sizeMax : nat) (e : element T) : outcome (list (element T)) :=
  match e with
  | Matrix k m =>
      if Nat.leb (length (nodePositions m)) sizeMax then Ok []
      else do ps <- split_matrix sizeMax m; Ok (map (Matrix k) ps)
  | OtherElement _ => Ok []
  end.
Definition splitDirectMatrices {T} (sizeMax : nat) (es : list (element T)) : outcome (list (element T)) :=
  if Nat.ltb sizeMax 2 then Throw
  else do added <- mapM (added_of sizeMax) es;
       Ok (flat_map (kept_of sizeMax) es ++ concat added).

(** ------------------------------------------------------------------ *)
(** Export to Systus. *)

(** DOFToInt, SystusAsc.cpp:221-235. *)
Definition DOFToInt (d : dof) : Z :=
  match d with DX => 1 | DY => 2 | DZ => 3 | RX => 4 | RY => 5 | RZ => 6 end.

(** positionToSytusNumber (SystusAsc.cpp:72-79, SystusWriter.cpp:2318-2324):
    1 + rank among the node positions; operator[] on a missing key would give 0. *)
Definition systus_number (m : melement) (p : Z) : Z :=
  match rank_of (nodePositions m) p with Some r => Z.of_nat r + 1 | None => 0 end.

(** SystusTable::fill (SystusAsc.cpp:70-97): the (code, value) pairs. *)
Definition table_pair (m : melement) (nbDOFS : Z) (np : npair) : outcome (list (Z * V)) :=
  let pairCode := systus_number m (fst np) * 1000 + systus_number m (snd np) * 100 in
  mapM (fun kv =>
      let dofi := DOFToInt (fst (fst kv)) in
      let dofj := DOFToInt (snd (fst kv)) in
      if nbDOFS <? dofi then Throw
      else if nbDOFS <? dofj then Throw
      else Ok (pairCode + (10 * dofi + dofj), snd kv))
    (comps (findSubmatrix m (fst np) (snd np))).
Definition table_fill (m : melement) (nbDOFS : Z) : outcome (list (Z * V)) :=
  do ls <- mapM (table_pair m nbDOFS) (nodePairs m); Ok (concat ls).

(** SystusMatrix (SystusAsc.cpp:104-122). *)
Record smatrix := mkSMatrix { nbDOFS : Z; nbNodes : Z; svalues : list V }.

Context (vzero : V).

Definition ssize (s : smatrix) : Z := nbNodes s * nbNodes s * nbDOFS s * nbDOFS s.
Definition new_smatrix (dofs nodes : Z) : smatrix :=
  mkSMatrix dofs nodes (repeat vzero (Z.to_nat (nodes * nodes * dofs * dofs))).

Definition spos (s : smatrix) (i j dofi dofj : Z) : Z :=
  (dofi - 1) + nbDOFS s * (dofj - 1) + nbDOFS s * nbDOFS s * (i - 1)
  + nbDOFS s * nbDOFS s * nbNodes s * (j - 1).

(** The access values[pos] with pos outside the vector is undefined behaviour;
    the guard compares with > and lets pos = size through. *)
Definition setValue (s : smatrix) (i j dofi dofj : Z) (v : V) : outcome smatrix :=
  if nbDOFS s <? dofi then Throw
  else if nbDOFS s <? dofj then Throw
  else let pos := spos s i j dofi dofj in
       if ssize s <? pos then Throw
       else if (pos <? 0) || (Z.of_nat (length (svalues s)) <=? pos) then UB
       else Ok (mkSMatrix (nbDOFS s) (nbNodes s) (update (svalues s) (Z.to_nat pos) v)).

(** SystusWriter.cpp:2326-2340 (damping; 2358-2372 mass, 2390-2404 stiffness
    are the same). *)
Definition smatrix_pair (m : melement) (s : smatrix) (np : npair) : outcome smatrix :=
  let nI := systus_number m (fst np) in
  let nJ := systus_number m (snd np) in
  foldM (fun s kv =>
      let dofI := DOFToInt (fst (fst kv)) in
      let dofJ := DOFToInt (snd (fst kv)) in
      do s1 <- setValue s nI nJ dofI dofJ (snd kv);
      setValue s1 nJ nI dofJ dofI (snd kv))
    (comps (findSubmatrix m (fst np) (snd np))) s.
Definition smatrix_of (m : melement) (dofs : Z) : outcome smatrix :=
  foldM (smatrix_pair m) (nodePairs m) (new_smatrix dofs (Z.of_nat (length (nodePositions m)))).

(** operator<< (SystusAsc.cpp:124-155): the k-th number of the line of block
    (i, j), lines being printed i outermost. *)
Definition printed (s : smatrix) (i j k : Z) : option V :=
  nth_error (svalues s) (Z.to_nat (nbDOFS s * nbDOFS s * (nbNodes s * (i - 1) + (j - 1)) + k)).
End MatrixElement.
Arguments melement V : clear implicits.
Arguments Matrix {V T} kind m.
Arguments OtherElement {V T} t.

(** ------------------------------------------------------------------ *)
(** Model::replaceDirectMatrices (Model.cpp:1167-1394), the part that builds
    discrete elements (1204-1341).  The cells, the added blocking conditions,
    the kind switch (stiffness, mass, damping: same text) are left out.
    [is_nul] is [is_equal(value, 0)]; [divide v n] the division by an int. *)
Section Replace.
Context {V : Type} (is_nul : V -> bool) (divide : V -> nat -> V).

(** DiscretePoint with one matrix (Element.h:333-365); DiscreteSegment with four
    blocks 00, 01, 10, 11 (Element.cpp:566-571). *)
Inductive discrete :=
| Point (p : Z) (k : dofmatrix V)
| Segment (p q : Z) (k00 k01 k10 k11 : dofmatrix V).

(** The inner loops 1214-1236 and 1309-1333: non-zero components are added. *)
Definition fill_block (n : nat) (src : dofmatrix V) (dst : dofmatrix V) : outcome (dofmatrix V) :=
  foldM (fun d kv =>
      let value := match n with O => snd kv | _ => divide (snd kv) n end in
      if is_nul value then Ok d
      else addComponent is_nul d (fst (fst kv)) (snd (fst kv)) value)
    (comps src) dst.

(** Model.cpp:1204-1341, one pair of nodes; the first argument 0 of
    [fill_block] means that the value is not divided (1215). *)
Definition replace_pair (m : melement V) (np : npair) : outcome (list discrete) :=
  let p := fst np in
  let q := snd np in
  if p =? q then
    match findInPairs m p with
    | _ :: _ => Ok []
    | [] => do k <- fill_block O (findSubmatrix m p p) (newMatrix SYMMETRIC); Ok [Point p k]
    end
  else
    let n := length (findInPairs m p) in
    do k00 <- fill_block n (findSubmatrix m p p) (newMatrix SYMMETRIC);
    do k01 <- fill_block n (findSubmatrix m p q) (newMatrix FULL);
    do k10 <- fill_block n (findSubmatrix m q p) (newMatrix SYMMETRIC);
    do k11 <- fill_block n (findSubmatrix m q q) (newMatrix SYMMETRIC);
    Ok [Segment p q k00 k01 k10 k11].

Definition replace_matrix (m : melement V) : outcome (list discrete) :=
  do ls <- mapM (replace_pair m) (nodePairs m); Ok (concat ls).
End Replace.
Arguments discrete V : clear implicits.
