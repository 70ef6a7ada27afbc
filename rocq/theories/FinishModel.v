(** Model of some passes of Model::finish (Abstract/Model.cpp:2225-2356): assertions that
    cannot be checked, analyses added, rigid segments, cells of direct matrices and node
    groups of load and constraint sets.  Definitions only. *)
From Coq Require Import Ascii String ZArith List Bool Arith.
From Verif Require Import Base ZMap TextModel DofModel AnalysisModel MeshNodeModel MeshCellModel MeshGroupModel SegmentModel ContactSurfModel.
Import ListNotations.
Open Scope Z_scope.
Open Scope list_scope.

(** ** Assertions *)

(** Objective.h Assertion: its reference, and the degrees of freedom it needs at each of
    its nodes (Objective.cpp:127-137, 166-176, 188-195: a nodal one has one node, a
    frequency none, a stress asks no degree of freedom). *)
Record assertion := mkAssert { a_ref : nat; a_needs : list (nat * dofs) }.
(** An analysis: the references of its assertions (Analysis.cpp:287-300) and the degrees of
    freedom of its boundary conditions. *)
Record analysis := mkAnalysis { n_asserts : list nat; n_boundary : boundary }.

Section Assertions.
(** The degrees of freedom of the nodes, by position; nodeDatas is read without a bound
    (Mesh.cpp:223). *)
Context (nodes : list dofs).
(** Model.cpp:1135-1143, one node of one assertion: is it to be removed? *)
Definition lacks (b : boundary) (x : nat * dofs) : outcome bool :=
  if snd x =? NO_DOFS then Ok false
  else match nth_error nodes (fst x) with
       | None => UB
       | Some d => Ok (negb (containsAll (dofs_add d (find_boundary b (Z.of_nat (fst x)))) (snd x)))
       end.
(** Model.cpp:1131-1147: the references to remove, with repetitions. *)
Definition doomed (analyses : list analysis) (all : list assertion) : outcome (list nat) :=
  do ll <- mapM (fun n =>
      do l <- mapM (fun a =>
          do bs <- mapM (lacks (n_boundary n)) (a_needs a);
          Ok (map (fun _ => a_ref a) (filter (fun b => b) bs)))
        (filter (fun a => existsb (Nat.eqb (a_ref a)) (n_asserts n)) all);
      Ok (concat l)) analyses;
  Ok (concat ll).
(** Model.cpp:1148-1152: erasing an absent reference does nothing (Model.h Container::erase). *)
Definition remove_assertions (analyses : list analysis) (all : list assertion) : outcome (list assertion) :=
  do gone <- doomed analyses all;
  Ok (fold_left (fun l r => filter (fun a => negb (Nat.eqb (a_ref a) r)) l) gone all).
End Assertions.

(** ** Analyses *)
(** The kinds of the analyses that can be added. *)
Inductive akind := KStatic | KNonLinear | KModal | KOther.
(** Model.cpp:2006-2018: [nonlinear] and [search] say that the objectives contain parameters
    of non-linear calculation and a search of frequencies. *)
Definition auto_kind (nonlinear search : bool) : akind :=
  if nonlinear then KNonLinear else if search then KModal else KStatic.
(** Model.cpp:2233-2235 and 1155-1165, 2356: the analyses of the finished model.  Passes in
    between neither add nor remove analyses, and may remove loadings and constraints:
    [loaded] and [constrained] say what is left at the end. *)
Definition finish_analyses (auto nonlinear search loaded constrained : bool) (l : list akind) : list akind :=
  let l1 := match l with [] => if auto then [auto_kind nonlinear search] else [] | _ => l end in
  match l1 with
  | [] => if negb loaded || negb constrained then [KStatic] else []
  | _ => l1
  end.

(** ** Rigid segments *)
Section Rigid.
Context {V : Type} (vzero : V) (is_zero is_max : V -> bool).
(** Element.h:483-509 StructuralSegment, with the node numbers of its cells. *)
Record stiff := mkStiff { f_stiffness : dofmatrix V; f_mass : dofmatrix V; f_damping : dofmatrix V; f_cells : list (list Z) }.
(** Constraint.cpp:346-349: the master and the slaves, a set; it holds every degree of freedom. *)
Record link := mkLink { l_master : Z; l_slaves : list Z }.
(** Model.cpp:1404-1406; front() of an empty vector is undefined. *)
Definition link_of (ids : list Z) : outcome link :=
  match ids with
  | [] => UB
  | m :: r => Ok (mkLink m (nodup Z.eq_dec r))
  end.
(** Element.cpp:842-846. *)
Definition zeroed (f : stiff) : stiff :=
  mkStiff (setAllZero vzero (f_stiffness f)) (setAllZero vzero (f_mass f)) (setAllZero vzero (f_damping f)) (f_cells f).
(** Model.cpp:1399-1414 and Element.cpp:810-812, one set. *)
Definition replace_one (f : stiff) : outcome (stiff * list link) :=
  if isMaxDiagonal is_zero is_max (f_stiffness f)
  then do ls <- mapM link_of (f_cells f); Ok (zeroed f, ls)
  else Ok (f, []).
(** Model.cpp:1396-1416: the sets and the constraints added, in order. *)
Definition replace_rigid (l : list stiff) : outcome (list stiff * list link) :=
  do r <- mapM replace_one l; Ok (map fst r, concat (map snd r)).
End Rigid.
Arguments stiff : clear implicits.

(** ** Cells of direct matrices *)
Section Direct.
Context {D : Type} (RESERVED zero : D).
(** A MatrixElement: whether it has cells, and the positions of its nodes, ascending. *)
Record dmatrix := mkDM { x_cells : bool; x_nodes : list nat }.
(** Model.cpp:1643-1657. *)
Definition make_cell (k : Z) (x : dmatrix) (s : state D) : outcome (state D) :=
  do g <- createGroup (snd s) CellG (numbered "DM" k) NO_ORIGINAL;
  do t <- polyType (length (x_nodes x));
  do ids <- mapM (findNodeId (mnodes (fst s))) (x_nodes x);
  add_cells RESERVED zero (snd g) [(t, ids)] (fst s, fst g).
(** Model.cpp:1624-1659: the mesh, and the name of the group given to each matrix.  The
    element sets that are not matrices are passed over; [k] is idM. *)
Fixpoint make_cells (k : Z) (l : list dmatrix) (s : state D) : outcome (state D * list (option string)) :=
  match l with
  | [] => Ok (s, [])
  | x :: r =>
      if x_cells x || match x_nodes x with [] => true | _ => false end
      then do e <- make_cells k r s; Ok (fst e, None :: snd e)
      else do s <- make_cell (k + 1) x s;
           do e <- make_cells (k + 1) r s; Ok (fst e, Some (numbered "DM" (k + 1)) :: snd e)
  end.
End Direct.

(** ** Node groups of the sets *)
(** Loading.h LoadSet::Type with Loading.cpp:72-73, Constraint.h:79-81 with Constraint.cpp:104-109. *)
Inductive skind := LLoad | LDload | LExciteid | LLoadset | LAll | KSpc | KMpc | KContact | KAll.
Definition kind_word (k : skind) : string :=
  match k with
  | LLoad => "LOAD" | LDload => "DLOAD" | LExciteid => "EXCITEID" | LLoadset => "LOADSET" | LAll => "ALL"
  | KSpc => "SPC" | KMpc => "MPC" | KContact => "CONTACT" | KAll => "ALL"
  end.
Definition is_load (k : skind) : bool :=
  match k with LLoad | LDload | LExciteid | LLoadset | LAll => true | _ => false end.
(** A set: whether it is original, its type and number, and the node positions of each of
    its loadings or constraints. *)
Record bset := mkSet { b_original : bool; b_kind : skind; b_num : Z; b_nodes : list (list nat) }.
(** Loading.cpp:75-82 and Constraint.cpp:129-136; no type has a name of 15 characters. *)
Definition set_name (b : bset) : string :=
  numbered (String.append (if is_load (b_kind b) then "LS_" else "CS_") (String.append (kind_word (b_kind b)) "_")) (b_num b).
(** Model.cpp:2092-2099 and 2100-2107, one set. *)
Definition set_group (gs : groups) (b : bset) : outcome groups :=
  if b_original b then
    do g <- createGroup gs NodeG (set_name b) NO_ORIGINAL;
    Ok (fold_left (fun a p => groupAdd a (snd g) p) (concat (b_nodes b)) (fst g))
  else Ok gs.
(** Model.cpp:2091-2107; the groups of displacement outputs (2108-2115) are not modelled. *)
Definition set_groups (loads constraints : list bset) (gs : groups) : outcome groups :=
  foldM set_group (loads ++ constraints) gs.
