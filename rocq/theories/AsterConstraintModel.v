(** Constraint sets written for Code_Aster: AFFE_CHAR_MECA with DDL_IMPO,
    LIAISON_SOLIDE, LIAISON_RBE3 and LIAISON_DDL.  The file is kept as a
    structure of keywords; numbers are printed with fifteen digits
    (AsterWriter.cpp:79) and taken as exact; nodes and cells are their positions,
    which give their names (MeshComponents.h:306-311 and 391-393); names of groups are numbers,
    of which only identity matters. *)
From Coq Require Import Ascii String Reals ZArith List Bool.
Require Import Verif.Base Verif.TextModel Verif.DofModel Verif.GeomModel.
Import ListNotations.
Open Scope Z_scope.
Open Scope list_scope.

(** The mesh, as far as targets go: nodes of a node group, cells of a cell
    group, nodes of a cell. *)
Record cmesh := CMesh { node_group : Z -> option (list Z); cell_group : Z -> option (list Z); cell_nodes : Z -> list Z }.
(** Abstract/MeshComponents.h:535-578 NodeContainer: own nodes, node groups, and
    as a CellContainer own cells and cell groups. *)
Record ncont := NCont { nc_groups : list Z; nc_nodes : list Z; nc_cell_groups : list Z; nc_cells : list Z }.
(** The four keywords of a target. *)
Record target := Target { k_group_no : list Z; k_noeud : list Z; k_group_ma : list Z; k_maille : list Z }.

Definition is_nil {A} (l : list A) : bool := match l with [] => true | _ => false end.
(** MeshComponents.cpp:1058-1068 getNodeGroups, 862-873 getCellGroups: a missing group throws. *)
Definition groups_of (find : Z -> option (list Z)) (l : list Z) : outcome (list (Z * list Z)) :=
  mapM (fun g => match find g with Some m => Ok (g, m) | None => Throw end) l.
(** AsterWriter.cpp:2152-2175 writeNodeContainer and 2177-2212 writeCellContainer
    (without TOUT): empty groups are left out; NOEUD holds the own nodes and, when there are
    any, those of the cells too (MeshComponents.cpp:977-986; the test is
    hasNodesExcludingGroups, 1038-1040).  When the cell groups are all empty and
    there is no cell, adding the nodes of no cell changes nothing, so the test of line 978 is
    not kept. *)
Definition write_target (m : cmesh) (c : ncont) : outcome target :=
  do gs <- groups_of (node_group m) (nc_groups c);
  do cs <- groups_of (cell_group m) (nc_cell_groups c);
  Ok (Target (map fst (filter (fun g => negb (is_nil (snd g))) gs))
             (if is_nil (nc_nodes c) then [] else nc_nodes c ++ flat_map (cell_nodes m) (nc_cells c))
             (map fst (filter (fun g => negb (is_nil (snd g))) cs))
             (nc_cells c)).

(** AsterWriter.cpp:1710-1721 and the like: name of a component. *)
Definition ddl_name (d : dof) : str :=
  txt (match d with DX => "DX" | DY => "DY" | DZ => "DZ" | RX => "DRX" | RY => "DRY" | RZ => "DRZ" end)%string.

(** Constraint.h:163-200 SinglePointConstraint: each component free, given a
    value, or given a reference to a function. *)
Inductive spc_entry := Free | Fixed (v : R) | Function (f : Z).
Record spc := Spc { sp_where : ncont; sp_entry : dof -> spc_entry }.
Definition all_dofs : list dof := [DX; DY; DZ; RX; RY; RZ].
(** Constraint.cpp:442-452 getDOFSForNode. *)
Definition spc_dofs (s : spc) : dofs :=
  fold_left (fun acc d => match sp_entry s d with Free => acc | _ => dofs_add_dof acc d end) all_dofs NO_DOFS.
(** Constraint.cpp:454-460 hasReferences. *)
Definition spc_has_references (s : spc) : bool :=
  existsb (fun d => match sp_entry s d with Function _ => true | _ => false end) all_dofs.
(** Constraint.cpp:466-480 getDoubleForDOF. *)
Definition double_for (s : spc) (d : dof) : outcome R :=
  match sp_entry s d with Fixed v => Ok v | _ => Throw end.
(** AsterWriter.cpp:1694-1730 writeSPC, one occurrence: [Unreadable] is the line of
    stars written for a support with references. *)
Inductive ddl_impo := Impo (t : target) (l : list (str * R)) | Unreadable.
Definition write_spc (m : cmesh) (s : spc) : outcome ddl_impo :=
  if spc_has_references s then Ok Unreadable
  else
    do t <- write_target m (sp_where s);
    do ds <- dofs_iterate (spc_dofs s);
    do l <- mapM (fun d => do v <- double_for s d; Ok (ddl_name d, v)) ds;
    Ok (Impo t l).

(** Constraint.h:262-283: coefficients by node position (a std::map: ascending
    positions, each once) and the imposed value. *)
Record lmpc := Lmpc { lm_coefs : list (Z * (dof -> R)); lm_impo : R }.
(** Constraint.cpp:561-580 getDOFSForNode on the coefficients of the node. *)
Definition coef_dofs (tol : R) (c : dof -> R) : dofs :=
  fold_left (fun acc d => if near_zero tol (c d) then acc else dofs_add_dof acc d) all_dofs NO_DOFS.
(** AsterWriter.cpp:1900-1950 writeLMPC, one occurrence. *)
Record liaison_ddl := LiaisonDDL { l_noeud : list Z; l_ddl : list str; l_coef : list R; l_impo : R }.
Definition write_lmpc (tol : R) (l : lmpc) : liaison_ddl :=
  LiaisonDDL
    (flat_map (fun t => repeat (fst t) (Z.to_nat (dofs_size (coef_dofs tol (snd t))))) (lm_coefs l))
    (flat_map (fun t => map ddl_name (filter (contains (coef_dofs tol (snd t))) all_dofs)) (lm_coefs l))
    (flat_map (fun t => map (snd t) (filter (fun d => negb (near_zero tol (snd t d))) all_dofs)) (lm_coefs l))
    (lm_impo l).

(** Constraint.cpp:360-398, RBE3: master and its components, slaves with
    components and weight (std::map by position). *)
Record rbe3 := Rbe3 { r3_master : Z; r3_dofs : dofs; r3_slaves : list (Z * dofs * R) }.
Record liaison_rbe3 := LiaisonRBE3 { k_mait : Z; k_ddl_mait : list str; k_escl : list Z; k_ddl_escl : list str; k_coef_escl : list R }.
(** AsterWriter.cpp:1848-1882: the components of a slave in one text, a dash after each but the
    last; after the sixth there is none in any case. *)
Fixpoint escl_text (s : dofs) (ds : list dof) (written : Z) : str :=
  match ds with
  | [] => []
  | d :: r =>
    if contains s d then
      ddl_name d ++ (if negb (dof_eqb d RZ) && (written + 1 <? dofs_size s) then ["-"%char] else []) ++ escl_text s r (written + 1)
    else escl_text s r written
  end.
Definition write_rbe3 (r : rbe3) : liaison_rbe3 :=
  LiaisonRBE3 (r3_master r) (map ddl_name (filter (contains (r3_dofs r)) all_dofs))
    (map (fun s => fst (fst s)) (r3_slaves r))
    (map (fun s => escl_text (snd (fst s)) all_dofs 0) (r3_slaves r))
    (map snd (r3_slaves r)).

(** The members of a constraint set.  [CQuasi] carries the result of
    isCompletelyRigid; rigid bodies carry nodePositions(), master and slaves. *)
Inductive member_of_set :=
| CSpc (s : spc) | CRigid (nodes : list Z) | CQuasi (complete : bool) (nodes : list Z) | CMpc (l : lmpc) | CRbe3 (r : rbe3) | CContact.
Record charge := Charge { ch_ddl : list ddl_impo; ch_solide : list (list Z); ch_rbe3 : list liaison_rbe3; ch_liaison : list liaison_ddl }.
(** AsterWriter.cpp:1441-1484: nothing for an empty set or one of contacts only,
    else one command with the four keywords (LIAISON_MAIL of sliding surfaces is
    not modelled; AFFE_CHAR_MECA or AFFE_CHAR_MECA_F, the keywords are the
    same).  1765-1793: LIAISON_SOLIDE for the rigid bodies, then for the
    completely rigid links. *)
Definition write_set (tol : R) (m : cmesh) (l : list member_of_set) : outcome (option charge) :=
  if forallb (fun c => match c with CContact => true | _ => false end) l then Ok None
  else
    do d <- mapM (write_spc m) (flat_map (fun c => match c with CSpc s => [s] | _ => [] end) l);
    Ok (Some (Charge d
      (flat_map (fun c => match c with CRigid n => [n] | _ => [] end) l ++ flat_map (fun c => match c with CQuasi true n => [n] | _ => [] end) l)
      (map write_rbe3 (flat_map (fun c => match c with CRbe3 r => [r] | _ => [] end) l))
      (map (write_lmpc tol) (flat_map (fun c => match c with CMpc r => [r] | _ => [] end) l)))).
