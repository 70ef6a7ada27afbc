(** Model of scalar springs and dampers: the cards CELAS1, CDAMP1, CELAS2, CELAS4,
    PELAS, PDAMP, CMASS2 and PVISC of the Nastran reader, and the splitting of the
    springs by directions.

    Reals are the exact decimals of the fields.  A reader gives each grounded spring
    a node of its own at the origin (AUTO_ID, fresh by C12): it is [Ground i].  The
    constraints that belong to no set and those of the common set are kept as the
    list of the nodes they block.  The names of groups are not modelled. *)
From Coq Require Import Ascii String ZArith QArith Qabs List Bool Arith.
From Verif Require Import Base DofModel TextModel TokenizerModel RealModel WriterLineModel CardModel GridModel LoadCardModel PropCardModel MatrixElementModel.
Import ListNotations.
Open Scope Z_scope.
Open Scope list_scope.

(** NastranParser.cpp:3810-3825.  The number is then an unsigned char. *)
Definition dof_position_of (n : Z) : Z := if n =? 0 then 0 else (n - 1) mod 256.
Definition parseDOF (t : cursor) : outcome (Z * cursor) :=
  do r <- nextInt t; let '(n, t) := r in Ok (dof_position_of n, t).
(** The default is UCHAR_MAX. *)
Definition parseDOFDefault (t : cursor) : outcome (Z * cursor) :=
  do r <- nextIntDefault 255 t; let '(n, t) := r in Ok (dof_position_of n, t).

(** ** Cards *)
Record element := mkElement { el_id : Z; el_n1 : Z; el_c1 : dof; el_n2 : option Z; el_c2 : dof }.
(** What is read of a card.  [Uses pid e]: CELAS1 or CDAMP1; [Owns k ge e]: CELAS2 or
    CELAS4; [Elastic]: PELAS; [Damping]: PDAMP. *)
Inductive card :=
  | Uses (pid : Z) (e : element)
  | Owns (k ge : decimal) (e : element)
  | Elastic (l : list (Z * decimal * decimal))
  | Damping (l : list (Z * decimal)).

(** NastranParser_geometry.cpp:335-372: the directions are checked by
    DOF::findByPosition once the cell is there; the card is refused either way.  A
    blank or null second node is the ground. *)
Definition grounded (g2 : option Z) : bool := match g2 with None => true | Some n => n =? 0 end.
Definition uses_card (eid pid g1 c1 : Z) (g2 : option Z) (c2 : Z) : outcome card :=
  let '(g2, c2) := if grounded g2 then (None, c1) else (g2, c2) in
  do d1 <- findByPosition c1;
  do d2 <- findByPosition c2;
  Ok (Uses pid (mkElement eid g1 d1 g2 d2)).
Definition parseCELAS1 (t : cursor) : outcome card :=
  do r <- nextInt t; let '(eid, t) := r in
  do r <- nextInt t; let '(pid, t) := r in
  do r <- nextInt t; let '(g1, t) := r in
  do r <- parseDOF t; let '(c1, t) := r in
  do r <- optional_int t; let '(g2, t) := r in
  do r <- parseDOFDefault t; let '(c2, t) := r in
  uses_card eid pid g1 c1 g2 c2.
(** NastranParser_geometry.cpp:290-333: the second node is required. *)
Definition parseCDAMP1 (t : cursor) : outcome card :=
  do r <- nextInt t; let '(eid, t) := r in
  do r <- nextInt t; let '(pid, t) := r in
  do r <- nextInt t; let '(g1, t) := r in
  do r <- parseDOF t; let '(c1, t) := r in
  do r <- nextInt t; let '(g2, t) := r in
  do r <- parseDOFDefault t; let '(c2, t) := r in
  uses_card eid pid g1 c1 (Some g2) c2.
(** NastranParser_geometry.cpp:374-402.  A null second node is a node. *)
Definition parseCELAS2 (t : cursor) : outcome card :=
  do r <- nextInt t; let '(eid, t) := r in
  do r <- nextDouble t; let '(k, t) := r in
  do r <- nextInt t; let '(g1, t) := r in
  do r <- parseDOF t; let '(c1, t) := r in
  do r <- nextInt t; let '(g2, t) := r in
  do r <- parseDOF t; let '(c2, t) := r in
  do r <- nextDoubleDefault dzero t; let '(ge, t) := r in
  do r <- optional_double t; let '(s, t) := r in
  do d1 <- findByPosition c1;
  do d2 <- findByPosition c2;
  Ok (Owns k ge (mkElement eid g1 d1 (Some g2) d2)).
(** NastranParser_geometry.cpp:404-422. *)
Definition parseCELAS4 (t : cursor) : outcome card :=
  do r <- nextInt t; let '(eid, t) := r in
  do r <- nextDouble t; let '(k, t) := r in
  do r <- nextInt t; let '(s1, t) := r in
  do r <- nextInt t; let '(s2, t) := r in
  Ok (Owns k dzero (mkElement eid s1 DX (Some s2) DX)).
(** NastranParser.cpp:2692-2729, the fields; at most two properties. *)
Fixpoint elastic_fields (n : nat) (t : cursor) : outcome (list (Z * decimal * decimal)) :=
  match n with
  | O => Ok []
  | S n =>
    do isint <- isNextInt t;
    if negb isint then Ok [] else
    do r <- nextInt t; let '(pid, t) := r in
    do r <- nextDoubleDefault dzero t; let '(k, t) := r in
    do r <- nextDoubleDefault dzero t; let '(ge, t) := r in
    do r <- optional_double t; let '(s, t) := r in
    do l <- elastic_fields n t;
    Ok ((pid, k, ge) :: l)
  end.
Definition parsePELAS (t : cursor) : outcome card := do l <- elastic_fields 2 t; Ok (Elastic l).
(** NastranParser.cpp:2621-2648, the fields; at most four properties. *)
Fixpoint damping_fields (n : nat) (t : cursor) : outcome (list (Z * decimal)) :=
  match n with
  | O => Ok []
  | S n =>
    do isint <- isNextInt t;
    if negb isint then Ok [] else
    do r <- nextInt t; let '(pid, t) := r in
    do r <- nextDoubleDefault dzero t; let '(b, t) := r in
    do l <- damping_fields n t;
    Ok ((pid, b) :: l)
  end.
Definition parsePDAMP (t : cursor) : outcome card := do l <- damping_fields 4 t; Ok (Damping l).

(** ** The model they build *)
Inductive enode := Grid (n : Z) | Ground (i : nat).
(** Groups: of a property, of an element, of a part of a split spring. *)
Inductive gkey := GProp (pid : Z) | GOwn (eid : Z) | GSplit (i : nat).
Definition gkey_eqb (a b : gkey) : bool :=
  match a, b with GProp p, GProp q => p =? q | GOwn p, GOwn q => p =? q | GSplit i, GSplit j => Nat.eqb i j | _, _ => false end.
(** Element.h:661-702 ScalarSpring: number, stiffness (None: UNAVAILABLE_DOUBLE),
    damping, positions of the cells by pair of directions, groups. *)
Definition springs_by_dofs := list ((dof * dof) * list nat).
Record spring := mkSpring { sp_id : option Z; sp_k : option decimal; sp_b : decimal; sp_dofs : springs_by_dofs; sp_groups : list gkey }.
(** Cells (number and ends) in the order of their positions, members of groups,
    scalar springs, numbers of the element sets of the types listed before and
    after SCALAR_SPRING in Element.h:44-68, blocked nodes. *)
Record smodel := mkSModel {
  cells : list (Z * enode * enode); members : list (gkey * nat); springs : list spring;
  before : list Z; after : list Z; grounds : nat; orphans : list enode; supported : list enode }.

Definition pair_ltb (p q : dof * dof) : bool :=
  dof_ltb (fst p) (fst q) || (dof_eqb (fst p) (fst q) && dof_ltb (snd p) (snd q)).
(** Element.cpp:1286-1288 addSpring: std::map ordered by the pair. *)
Fixpoint addSpring (m : springs_by_dofs) (pos : nat) (k : dof * dof) : springs_by_dofs :=
  match m with
  | [] => [(k, [pos])]
  | (k', l) :: r =>
      if pair_ltb k k' then (k, [pos]) :: (k', l) :: r
      else if key_eqb k' k then (k', l ++ [pos]) :: r
      else (k', l) :: addSpring r pos k
  end.

(** Model.h:618-628 Container::find(original_id): the last type that has it. *)
Definition has_id (p : Z) (s : spring) : bool := match sp_id s with Some q => q =? p | None => false end.
Inductive found := NotFound | Other | Spring (s : spring).
Definition find_set (m : smodel) (p : Z) : found :=
  if existsb (Z.eqb p) (after m) then Other else
  match List.find (has_id p) (springs m) with
  | Some s => Spring s
  | None => if existsb (Z.eqb p) (before m) then Other else NotFound
  end.
Definition change (p : Z) (f : spring -> spring) (l : list spring) : list spring :=
  map (fun s => if has_id p s then f s else s) l.
Definition set_springs (m : smodel) (l : list spring) : smodel :=
  mkSModel (cells m) (members m) l (before m) (after m) (grounds m) (orphans m) (supported m).
(** Model.h:584-593: refused when the type already has the number. *)
Definition add_set (m : smodel) (s : spring) : outcome smodel :=
  match sp_id s with
  | Some p => if existsb (has_id p) (springs m) then Throw else Ok (set_springs m (springs m ++ [s]))
  | None => Ok (set_springs m (springs m ++ [s]))
  end.
Definition with_spring (pos : nat) (k : dof * dof) (s : spring) : spring :=
  mkSpring (sp_id s) (sp_k s) (sp_b s) (addSpring (sp_dofs s) pos k) (sp_groups s).
Definition with_group (g : gkey) (s : spring) : spring :=
  mkSpring (sp_id s) (sp_k s) (sp_b s) (sp_dofs s) (sp_groups s ++ [g]).
Definition with_elastic (k ge : decimal) (s : spring) : spring := mkSpring (sp_id s) (Some k) ge (sp_dofs s) (sp_groups s).
Definition with_damping (b : decimal) (s : spring) : spring := mkSpring (sp_id s) (sp_k s) b (sp_dofs s) (sp_groups s).

(** The cell of an element, in group [g]; NastranParser_geometry.cpp:346-358: the
    node of the ground and its constraint, which is added to the model only. *)
Definition add_element (m : smodel) (g : gkey) (e : element) : smodel :=
  let pos := length (cells m) in
  match el_n2 e with
  | Some n => mkSModel (cells m ++ [(el_id e, Grid (el_n1 e), Grid n)]) (members m ++ [(g, pos)]) (springs m)
                (before m) (after m) (grounds m) (orphans m) (supported m)
  | None => mkSModel (cells m ++ [(el_id e, Grid (el_n1 e), Ground (grounds m))]) (members m ++ [(g, pos)]) (springs m)
              (before m) (after m) (S (grounds m)) (orphans m ++ [Ground (grounds m)]) (supported m)
  end.
(** NastranParser_geometry.cpp:360-371, 316-328. *)
Definition use_property (m : smodel) (p : Z) (pos : nat) (k : dof * dof) : outcome smodel :=
  match find_set m p with
  | NotFound => add_set m (mkSpring (Some p) (Some dzero) dzero (addSpring [] pos k) [GProp p])
  | Spring _ => Ok (set_springs m (change p (with_spring pos k) (springs m)))
  | Other => Throw
  end.
(** NastranParser.cpp:2709-2726. *)
Definition set_elastic (m : smodel) (x : Z * decimal * decimal) : outcome smodel :=
  let '(p, k, ge) := x in
  match find_set m p with
  | NotFound => add_set m (mkSpring (Some p) (Some k) ge [] [GProp p])
  | Spring _ => Ok (set_springs m (change p (fun s => with_group (GProp p) (with_elastic k ge s)) (springs m)))
  | Other => Throw
  end.
(** NastranParser.cpp:2630-2645. *)
Definition set_damping (m : smodel) (x : Z * decimal) : outcome smodel :=
  let '(p, b) := x in
  match find_set m p with
  | NotFound => add_set m (mkSpring (Some p) None b [] [GProp p])
  | Spring _ => Ok (set_springs m (change p (fun s => with_group (GProp p) (with_damping b s)) (springs m)))
  | Other => Throw
  end.
Definition read_card (m : smodel) (c : card) : outcome smodel :=
  match c with
  | Uses p e => use_property (add_element m (GProp p) e) p (length (cells m)) (el_c1 e, el_c2 e)
  | Owns k ge e =>
      add_set (add_element m (GOwn (el_id e)) e)
        (mkSpring (Some (el_id e)) (Some k) ge (addSpring [] (length (cells m)) (el_c1 e, el_c2 e)) [GOwn (el_id e)])
  | Elastic l => foldM set_elastic l m
  | Damping l => foldM set_damping l m
  end.
Definition read_cards (l : list card) (m : smodel) : outcome smodel := foldM read_card l m.
Definition empty_model (before after : list Z) : smodel := mkSModel [] [] [] before after 0 [] [].

(** Element.cpp:1270-1276. *)
Definition hasStiffness (s : spring) : bool := match sp_k s with Some k => negb (dec_is_zero k) | None => false end.
Definition hasDamping (s : spring) : bool := negb (dec_is_zero (sp_b s)).
(** The cells an element set is made of: those of its groups. *)
Definition cells_of (m : smodel) (s : spring) : list nat :=
  flat_map (fun g => map snd (filter (fun x => gkey_eqb (fst x) g) (members m))) (sp_groups s).

(** ** Model.cpp:1928-1963 splitElementsByDOFS *)
(** One part of a spring, its group and the cells of the group.  The group is named
    "ElementSet_i" for the i-th pair of directions (Element.cpp:40: the name of an
    element set is the same for all). *)
Definition part (s : spring) (i : nat) (x : (dof * dof) * list nat) : spring * list (gkey * nat) :=
  (mkSpring None (sp_k s) (sp_b s) (fold_left (fun acc pos => addSpring acc pos (fst x)) (snd x) []) [GSplit i],
   map (pair (GSplit i)) (snd x)).
(** Mesh.cpp:729-735: a name that exists is refused. *)
Definition split_parts (s : spring) (used : list nat) : outcome (list (spring * list (gkey * nat)) * list nat) :=
  foldM (fun (acc : list (spring * list (gkey * nat)) * list nat) (ix : nat * ((dof * dof) * list nat)) =>
           if existsb (Nat.eqb (fst ix)) (snd acc) then Throw
           else Ok (fst acc ++ [part s (fst ix) (snd ix)], snd acc ++ [fst ix]))
        (combine (seq 1 (length (sp_dofs s))) (sp_dofs s)) ([], used).
Definition must_split (s : spring) : bool := Nat.ltb 1 (length (sp_dofs s)).
Fixpoint split_all (l : list spring) (used : list nat) : outcome (list (spring * list (gkey * nat))) :=
  match l with
  | [] => Ok []
  | s :: r =>
      if must_split s then
        do pu <- split_parts s used;
        do q <- split_all r (snd pu);
        Ok (fst pu ++ q)
      else split_all r used
  end.
(** removeGroup(name) removes a group named as the model: none here. *)
Definition splitElementsByDOFS (m : smodel) : outcome smodel :=
  do parts <- split_all (springs m) [];
  Ok (mkSModel (cells m) (members m ++ flat_map snd parts)
        (filter (fun s => negb (must_split s)) (springs m) ++ map fst parts)
        (before m) (after m) (grounds m) (orphans m) (supported m)).

(** ** Scalar masses and viscous dampers *)
(** NastranParser_geometry.cpp:488-499. *)
Definition parseCMASS2 (t : cursor) : outcome (Z * melement decimal) :=
  do r <- nextInt t; let '(eid, t) := r in
  do r <- nextDouble t; let '(m, t) := r in
  do r <- nextInt t; let '(g1, t) := r in
  do r <- parseDOF t; let '(c1, t) := r in
  do r <- nextInt t; let '(g2, t) := r in
  do r <- parseDOF t; let '(c2, t) := r in
  do d1 <- findByPosition c1;
  do d2 <- findByPosition c2;
  do x <- me_add dec_is_zero [] g1 d1 g2 d2 m;
  Ok (eid, x).
(** NastranParser.cpp:2650-2690: number and diagonal damping of each property. *)
Definition visc_damping (ce cr : decimal) : list (dof * decimal) :=
  (if dec_is_zero ce then [] else [(DX, ce); (DY, ce); (DZ, ce)]) ++
  (if dec_is_zero cr then [] else [(RX, cr); (RY, cr); (RZ, cr)]).
Definition visc_fields (t : cursor) : outcome ((Z * list (dof * decimal)) * cursor) :=
  do r <- nextInt t; let '(pid, t) := r in
  do r <- nextDoubleDefault dzero t; let '(ce, t) := r in
  do r <- nextDoubleDefault dzero t; let '(cr, t) := r in
  Ok ((pid, visc_damping ce cr), t).
Definition parsePVISC (t : cursor) : outcome (list (Z * list (dof * decimal))) :=
  do r <- visc_fields t; let '(x, t) := r in
  if isEmptyUntilNextKeyword t then Ok [x] else
  do t <- skip 1 t;
  do r <- visc_fields t; let '(y, t) := r in
  Ok [x; y].
