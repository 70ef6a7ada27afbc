(** Load cases, vectors and lists of the Systus file: what a subcase applies to
    each node and cell.  Doubles are reals; nodes are their positions and cells
    their numbers; the texts of the file are kept as its numbers. *)
From Coq Require Import Reals ZArith List Bool.
Require Import Verif.Base Verif.DofModel Verif.GeomModel Verif.AsterConstraintModel.
Import ListNotations.
Open Scope Z_scope.
Open Scope list_scope.

(** std::map<int, A>: ascending keys; [upd k d f] is operator[] followed by a change,
    [d] being the value made for a new key. *)
Fixpoint upd {A} (k : Z) (d : A) (f : A -> A) (l : list (Z * A)) : list (Z * A) :=
  match l with
  | [] => [(k, f d)]
  | (q, a) :: r =>
    if k <? q then (k, f d) :: (q, a) :: r
    else if k =? q then (q, f a) :: r
    else (q, a) :: upd k d f r
  end.
Fixpoint get {A} (k : Z) (l : list (Z * A)) : option A :=
  match l with
  | [] => None
  | (q, a) :: r => if k =? q then Some a else get k r
  end.

(** SystusWriter.h:110-112: numbers of vectors by load case by node or cell. *)
Definition pushes := list (Z * list (Z * list Z)).
Definition push (p c v : Z) (m : pushes) : pushes := upd p [] (upd c [] (fun l => l ++ [v])) m.

(** The loadings of a set.  A nodal force carries nodePositions() and its force
    and moment in the global system at each; a load on cells carries
    getCellIdsIncludingGroups(); a gravity its acceleration; a line load its
    component and the values of its table, the first and the others.  A dynamic
    excitation carries whether its set is of type EXCITEID, the first value of its
    table of amplitudes and the nodal forces of its set (the other loads of that set are
    dismissed, SystusWriter.cpp:1349-1352). *)
Record nforce := NForce { nf_on : list Z; nf_force : Z -> vec; nf_moment : Z -> vec }.
Inductive sload :=
| SNodal (n : nforce)
| SPressure (cells : list Z) (p : R)
| SGravity (a : vec)
| SSurface (cells : list Z) (force moment : vec)
| SLine (cells : list Z) (d : dof) (first : R) (others : list R)
| SDynamic (excited : bool) (amplitude : R) (forces : list nforce)
| SImposed (on : list Z) (e : dof -> option R)
| SOther.

(** A support with nodePositions() ([sp_where] of AsterConstraintModel is not used). *)
Record sspc := SSpc { ss_on : list Z; ss_spc : spc }.
(** An analysis: its number, its load sets with their numbers, the supports of its
    constraint sets. *)
Record analysis := Analysis { an_id : Z; an_loads : list (Z * list sload); an_spcs : list sspc }.

(** What does not change: the tolerance, the option (SHELL, six components, or
    CONTINUOUS, three), and the rotation node of a master node of rigid bars
    (rotationNodeIdByTranslationNodeId, 684 and 778; here from position to position). *)
Record setting := Setting { tol : R; shell : bool; rot : Z -> option Z }.

Record sys := Sys { vectors : list (Z * list R); next : Z; on_node : pushes; on_cell : pushes; on_case : list (Z * Z); fixed : pushes }.
Definition no_sys := Sys [] 1 [] [] [] [].

(** fillLoads 1014-1050, without the titles. *)
Definition cases := list (Z * list (Z * Z)).
Definition fill_one (st : Z * cases) (a : analysis) : Z * cases :=
  let t0 := upd (an_id a) [] (fun _ => []) (snd st) in
  let st1 := fold_left (fun s ls => (fst s + 1, upd (an_id a) [] (upd (fst ls) 0 (fun _ => fst s)) (snd s))) (an_loads a) (fst st, t0) in
  match an_loads a with
  | [] => (fst st1 + 1, upd (an_id a) [] (upd 0 0 (fun _ => fst st1)) (snd st1))
  | _ => st1
  end.
Definition fill_loads (l : list analysis) : Z * cases := fold_left fill_one l (1, []).
(** localLoadingIdByLoadsetIdByAnalysisId[analysis][loadset] and the numbers of
    one analysis. *)
Definition case_of (t : cases) (a s : Z) : Z :=
  match get a t with Some m => match get s m with Some c => c | None => 0 end | None => 0 end.
Definition cases_of (t : cases) (a : Z) : list Z := match get a t with Some m => map snd m | None => [] end.

(** max of the absolute values, from 0. *)
Definition maxabs (l : list R) : R := fold_left (fun n x => Rmax n (Rabs x)) l 0%R.
Definition zeros : list R := [0; 0; 0; 0; 0; 0]%R.
Definition comps3 (v : vec) : list R := [vx v; vy v; vz v].

(** vectors[vectorId]=vec; vectorId++. *)
Definition put (v : list R) (s : sys) : sys :=
  Sys (upd (next s) [] (fun _ => v) (vectors s)) (next s + 1) (on_node s) (on_cell s) (on_case s) (fixed s).
Definition push_node (p c v : Z) (s : sys) : sys := Sys (vectors s) (next s) (push p c v (on_node s)) (on_cell s) (on_case s) (fixed s).
Definition push_cell (p c v : Z) (s : sys) : sys := Sys (vectors s) (next s) (on_node s) (push p c v (on_cell s)) (on_case s) (fixed s).
Definition push_fixed (p c v : Z) (s : sys) : sys := Sys (vectors s) (next s) (on_node s) (on_cell s) (on_case s) (push p c v (fixed s)).
Definition set_case (c v : Z) (s : sys) : sys := Sys (vectors s) (next s) (on_node s) (on_cell s) (upd c 0 (fun _ => v) (on_case s)) (fixed s).

(** 1052-1105 writeNodalForceVector. *)
Definition node_vector (g : setting) (c p : Z) (body : list R) (s : sys) : sys :=
  if near_zero (tol g) (maxabs body) then s else put (zeros ++ body) (push_node p c (next s) s).
Definition nodal_vectors (g : setting) (c : Z) (n : nforce) (s : sys) : sys :=
  fold_left (fun s p =>
    let f := nf_force n p in
    let m := nf_moment n p in
    let s1 := node_vector g c p (comps3 f ++ (if shell g then comps3 m else [])) s in
    if shell g then s1
    else match rot g p with Some r => node_vector g c r (comps3 m) s1 | None => s1 end)
  (nf_on n) s.

(** Vector of a load on cells. *)
Definition cell_vector (c : Z) (cells : list Z) (v : list R) (s : sys) : sys :=
  put v (fold_left (fun s' k => push_cell k c (next s) s') cells s).
(** 1246-1269: unit of the component. *)
Definition unit_of (d e : dof) : R := if dof_eqb d e then 1%R else 0%R.

(** 1132-1376, one loading.  The units that are handed to max are those of the
    component and not the values of the table. *)
Definition load_vectors (g : setting) (c : Z) (s : sys) (k : sload) : sys :=
  match k with
  | SNodal n => nodal_vectors g c n s
  | SPressure cells p =>
    if near_zero (tol g) p then s else cell_vector c cells [1; 0; 1; 0; 0; 0; 0; 0; p]%R s
  | SGravity a =>
    if near_zero (tol g) (maxabs (comps3 a)) then s
    else if negb (match get c (on_case s) with Some v => v | None => 0 end =? 0) then s
    else set_case c (next s) (put [6; 0; 0; 0; 0; 0; vx a; 0; vy a; 0; vz a]%R s)
  | SSurface cells f m =>
    let body := comps3 f ++ (if shell g then comps3 m else []) in
    if near_zero (tol g) (maxabs body) then s else cell_vector c cells ([1; 0; 0; 0; 0; 0]%R ++ body) s
  | SLine cells d p _ =>
    let l := if shell g then all_dofs else [DX; DY; DZ] in
    if near_zero (tol g) (maxabs (map (unit_of d) l)) then s
    else cell_vector c cells ([1; 0; 0; 0; 0; 0]%R ++ map (fun e => unit_of d e * p)%R l) s
  | SDynamic true _ forces => fold_left (fun s n => nodal_vectors g c n s) forces s
  | SDynamic false _ _ | SImposed _ _ | SOther => s
  end.

(** vectorId = vectors.size()+1. *)
Definition restart (s : sys) : sys := Sys (vectors s) (Z.of_nat (length (vectors s)) + 1) (on_node s) (on_cell s) (on_case s) (fixed s).

(** 1107-1379 fillLoadingsVectors. *)
Definition set_vectors (g : setting) (t : cases) (a : analysis) (s : sys) (ls : Z * list sload) : sys :=
  let c := case_of t (an_id a) (fst ls) in
  fold_left (load_vectors g c) (snd ls) (set_case c 0 s).
Definition loading_vectors (g : setting) (t : cases) (l : list analysis) (s : sys) : sys :=
  fold_left (fun s a => fold_left (set_vectors g t a) (an_loads a) s) l (restart s).

(** One vector of constraint, for all the cases of the analysis: 1419-1427 and
    1492-1500. *)
Definition four : list R := [4; 0; 0; 0; 0; 0]%R.
Definition fixed_vector (g : setting) (cs : list Z) (on : list Z) (body : list R) (s : sys) : sys :=
  if near_zero (tol g) (maxabs body) then s
  else put (four ++ body) (fold_left (fun s1 c => fold_left (fun s2 p => push_fixed p c (next s) s2) on s1) cs s).
(** 1440-1460 and 1516-1534: the rotation nodes; [first] is firstTime. *)
Definition rotation_vector (g : setting) (cs : list Z) (on : list Z) (body : list R) (s : sys) : sys :=
  if near_zero (tol g) (maxabs body) then s
  else fst (fold_left (fun (st : sys * bool) p =>
    match rot g p with
    | None => st
    | Some r =>
      let s1 := fold_left (fun s1 c => push_fixed r c (next (fst st)) s1) cs (fst st) in
      if snd st then (put (four ++ body) s1, false) else (s1, false)
    end) on (s, true)).
Definition available (g : setting) : list dof := if shell g then all_dofs else [DX; DY; DZ].
(** 1412-1417. *)
Definition spc_value (x : spc) (d : dof) : R :=
  if contains (spc_dofs x) d then match sp_entry x d with Fixed v => v | _ => 0%R end else 0%R.
(** 1483-1490. *)
Definition imposed_value (e : dof -> option R) (d : dof) : R := match e d with Some v => v | None => 0%R end.
Definition fix_vectors (g : setting) (cs : list Z) (on : list Z) (val : dof -> R) (s : sys) : sys :=
  let s1 := fixed_vector g cs on (map val (available g)) s in
  if shell g then s1 else rotation_vector g cs on (map val [RX; RY; RZ]) s1.
(** 1381-1535 fillConstraintsVectors: the supports of all the analyses, then the
    imposed displacements of all the load sets. *)
Definition spc_vectors (g : setting) (cs : list Z) (s : sys) (x : sspc) : sys :=
  if spc_has_references (ss_spc x) then s else fix_vectors g cs (ss_on x) (spc_value (ss_spc x)) s.
Definition imposed_vectors (g : setting) (cs : list Z) (s : sys) (k : sload) : sys :=
  match k with SImposed on e => fix_vectors g cs on (imposed_value e) s | _ => s end.
Definition constraint_vectors (g : setting) (t : cases) (l : list analysis) (s : sys) : sys :=
  let s1 := fold_left (fun s a => fold_left (spc_vectors g (cases_of t (an_id a))) (an_spcs a) s) l (restart s) in
  fold_left (fun s a => fold_left (fun s ls => fold_left (imposed_vectors g (cases_of t (an_id a))) (snd ls) s) (an_loads a) s) l s1.

(** 1538-1640 fillCoordinatesVectors: the angles of the local system of the
    displacements of a node, once by Cartesian system, by node for a cylindrical
    one, zeros for the others.  [None] is the global system. *)
Inductive csys := Cart (angles : vec) | Cyl (angles : Z -> vec) | OtherCs.
Record snode := SNode { sn_pos : Z; sn_id : Z; sn_cs : option Z }.
Definition angles_of (cs : csys) (p : Z) : vec :=
  match cs with Cart a => a | Cyl f => f p | OtherCs => vzero end.
(** The state, the vectors of Cartesian systems, localVectorIdByNodePosition. *)
Definition coordinate_vector (find : Z -> csys) (st : sys * list (Z * Z) * list (Z * Z)) (n : snode) : sys * list (Z * Z) * list (Z * Z) :=
  let '(s, known, local) := st in
  match sn_cs n with
  | None => st
  | Some k =>
    match get k known with
    | Some v => (s, known, upd (sn_pos n) 0 (fun _ => v) local)
    | None =>
      (put (zeros ++ comps3 (angles_of (find k) (sn_pos n))) s,
       match find k with Cart _ => upd k 0 (fun _ => next s) known | _ => known end,
       upd (sn_pos n) 0 (fun _ => next s) local)
    end
  end.
Definition coordinate_vectors (find : Z -> csys) (nodes : list snode) (s : sys) : sys * list (Z * Z) :=
  let '(s1, _, local) := fold_left (coordinate_vector find) nodes (restart s, [], []) in (s1, local).

(** 1655-1708 fillConstraintsNodes, on the supports of the first analysis; char
    holds the six bits.  1693: DOFS(bool, bool, bool) is combineCodes. *)
Definition dof_code_of (g : setting) : Z := if shell g then ALL_DOFS else TRANSLATIONS.
Definition mark (g : setting) (p : Z) (s : dofs) (m : list (Z * Z)) : list (Z * Z) :=
  upd p 0 (fun old => Z.lor (Z.land s (dof_code_of g)) old) m.
Definition mark_spc (g : setting) (m : list (Z * Z)) (x : sspc) : list (Z * Z) :=
  let s := spc_dofs (ss_spc x) in
  fold_left (fun m p =>
    let m1 := mark g p s m in
    if shell g then m1
    else match rot g p with
         | Some r => mark g r (combineCodes (contains s RX) (contains s RY) (contains s RZ) false false false) m1
         | None => m1
         end) (ss_on x) m.
Definition constrained (g : setting) (l : list analysis) : list (Z * Z) :=
  match l with [] => [] | a :: _ => fold_left (mark_spc g) (an_spcs a) [] end.

(** 1711-1763 fillLists.  The number grows with each list, so that assigning
    lists[id] appends. *)
Record listing := Listing { lists : list (Z * list Z); node_list : list (Z * Z); cell_list : list (Z * Z); fixed_list : list (Z * Z) }.
Fixpoint fill_from (i : Z) (m : pushes) : list (Z * list Z) * list (Z * Z) :=
  match m with
  | [] => ([], [])
  | (p, cs) :: r =>
    let t := fill_from (i + 1) r in
    ((i, flat_map (fun e => flat_map (fun v => [fst e; v]) (snd e)) cs) :: fst t, (p, i) :: snd t)
  end.
Definition fill_lists (s : sys) : listing :=
  let a := fill_from 1 (on_node s) in
  let i1 := 1 + Z.of_nat (length (on_node s)) in
  let b := fill_from i1 (on_cell s) in
  let i2 := i1 + Z.of_nat (length (on_cell s)) in
  let d := fill_from i2 (fixed s) in
  Listing (fst a ++ fst b ++ fst d) (snd a) (snd b) (snd d).

(** The file: writeLoads 2981-2993 (numbers of the vector of each load case),
    writeLists, writeVectors, writeNodes 2603-2640 (constraint code, vector of
    angles, list of loads, list of displacements), writeElements 2873-2878 (list of
    loads), and LCODES 2582-2589 (numbers of loads, lists and vectors). *)
Record node_line := NodeLine { l_id : Z; l_iconst : Z; l_iangl : Z; l_isol : Z; l_idisp : Z }.
Record file := File { f_cases : list (Z * Z); f_lists : list (Z * list Z); f_vectors : list (Z * list R);
                      f_nodes : list node_line; f_isol : Z -> Z; f_counts : Z * Z * Z }.
Definition or0 (o : option Z) : Z := match o with Some v => v | None => 0 end.
Definition node_of (cm local nl fl : list (Z * Z)) (n : snode) : node_line :=
  NodeLine (sn_id n) (or0 (get (sn_pos n) cm)) (match sn_cs n with None => 0 | Some _ => or0 (get (sn_pos n) local) end)
    (or0 (get (sn_pos n) nl)) (or0 (get (sn_pos n) fl)).
(** 2454-2510 translate and writeAsc.  A list that is not complete, at the first wrong number
    of analysis, is cut there by all the loops. *)
Definition write_subcase (g : setting) (find : Z -> csys) (nodes : list snode) (l : list analysis) : file :=
  let '(n, t) := fill_loads l in
  let s1 := constraint_vectors g t l (loading_vectors g t l no_sys) in
  let '(s2, local) := coordinate_vectors find nodes s1 in
  let ls := fill_lists s2 in
  File (map (fun c => (c, or0 (get c (on_case s2)))) (map Z.of_nat (seq 1 (Z.to_nat (n - 1)))))
    (lists ls) (vectors s2)
    (map (node_of (constrained g l) local (node_list ls) (fixed_list ls)) nodes)
    (fun k => or0 (get k (cell_list ls)))
    (n - 1, Z.of_nat (length (lists ls)), Z.of_nat (length (vectors s2))).
