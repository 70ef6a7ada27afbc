(** Elements and groups of the Systus file (Systus/SystusWriter.cpp).  A line is
    its numbers; local axes as in SystusAxesModel. *)
From Coq Require Import Ascii String Reals ZArith List Bool Arith.
Require Import Verif.Base Verif.TextModel Verif.CaseControlModel Verif.MeshCellModel Verif.GeomModel Verif.OrientModel Verif.SystusAxesModel.
Import ListNotations.
Open Scope Z_scope.
Open Scope list_scope.

(** ** Elements *)
(** SystusWriter.cpp:59-95, systus2medNodeConnectByCellType: the places of the
    nodes of a cell in the order of Systus. *)
Definition systus_order (t : ctype) : option (list nat) :=
  match t with
  | POINT1 => Some [0]
  | SEG2 => Some [0; 1]
  | SEG3 => Some [0; 2; 1]
  | TRI3 => Some [0; 1; 2]
  | TRI6 => Some [0; 3; 1; 4; 2; 5]
  | QUAD4 => Some [0; 1; 2; 3]
  | QUAD8 => Some [0; 4; 1; 5; 2; 6; 3; 7]
  | TETRA4 => Some [0; 2; 1; 3]
  | TETRA10 => Some [0; 6; 2; 5; 1; 4; 7; 9; 8; 3]
  | PENTA6 => Some [0; 2; 1; 3; 5; 4]
  | PENTA15 => Some [0; 8; 2; 7; 1; 6; 12; 14; 13; 3; 11; 5; 10; 4; 9]
  | PYRA5 => Some [0; 3; 2; 1; 4; 4; 4; 4]
  | HEXA8 => Some [0; 3; 2; 1; 4; 7; 6; 5]
  | HEXA20 => Some [0; 11; 3; 10; 2; 9; 1; 8; 16; 19; 18; 17; 4; 15; 7; 14; 6; 13; 5; 12]
  | POLY n => if (3 <=? n) && (n <=? 20) then Some (seq 0 n) else None
  | _ => None
  end%nat.
(** SystusWriter.cpp:2852-2856; a cell with fewer nodes than its type: [UB]. *)
Definition systus_nodes (p : list nat) (nodes : list Z) : outcome (list Z) :=
  mapM (fun k => of_option (nth_error nodes k)) p.

(** Abstract/Element.h:44-68, ElementSet::Type, with what the writer looks at: the
    pairs of components of scalar springs, the analysis of a relation. *)
Inductive estype :=
| Discrete0D | Discrete1D | NodalMass | CircularBeam | TubeBeam | RectangularBeam | IBeam | GenericBeam
| StructuralSegment | ShellSet | Continuum | Skin | StiffnessMatrix | MassMatrix | DampingMatrix | RigidSet
| Rbar | Rbe3 | Lmpc (analysis : Z) | ScalarSpring (pairs : list (nat * nat)) | Composite | SlideContact | UnknownSet.
(** A cell: number, type, nodes; [axes]: none for the global system, else what is
    found at the position of its system. *)
Record scell := mkSCell { c_id : Z; c_type : ctype; c_nodes : list Z; c_axes : option (option system) }.
(** An element set: number, type, cells by ascending position (cellPositions),
    names of its groups of cells. *)
Record eset := mkSet { s_id : Z; s_type : estype; s_cells : list scell; s_groups : list str }.
Record sline := mkSLine { l_id : Z; l_dim : Z; l_type : Z; l_count : Z; l_mat : Z; l_list : Z; l_axes : written; l_nodes : list Z }.

(** SystusWriter.cpp:2739-2831: dimension and type of the elements of a set, none
    for the sets that are skipped; [active]: the analyses of the subcase.  A
    spring without a pair of components is read past its end: [UB]. *)
Definition set_code (active : list Z) (t : estype) : outcome (option (Z * Z)) :=
  match t with
  | CircularBeam | GenericBeam | IBeam | RectangularBeam => Ok (Some (1, 0))
  | StructuralSegment => Ok (Some (0, 6))
  | ScalarSpring ((a, b) :: _) => Ok (Some (1, if (a =? b)%nat then 6 else 9))
  | ScalarSpring [] => UB
  | Skin => Ok (Some (2, 0))
  | ShellSet => Ok (Some (2, 4))
  | SlideContact | Continuum => Ok (Some (3, 0))
  | NodalMass | Discrete0D | Discrete1D => Ok None
  | StiffnessMatrix | MassMatrix | DampingMatrix => Ok (Some (3, 9))
  | Rbar | Rbe3 => Ok (Some (1, 9))
  | Lmpc a => Ok (if existsb (Z.eqb a) active then Some (1, 9) else None)
  | TubeBeam | RigidSet | Composite | UnknownSet => Ok (Some (3, 0))
  end.

(** SystusWriter.cpp:2839-2893: the line of a cell, none for a cell whose type has
    no order.  [mat]: materialIdByElementSetId (0 when absent); [lists]:
    loadingListIdByCellId (0 when absent). *)
Section Writing.
Context (n : nat) (tol tiny : R) (env : systems) (coords : Z -> outcome vec) (active : list Z) (mat lists : Z -> Z).
Definition cell_line (s : eset) (dim type : Z) (c : scell) : outcome (option sline) :=
  match systus_order (c_type c) with
  | None => Ok None
  | Some p =>
    do nodes <- systus_nodes p (c_nodes c);
    let dim := match s_type s with
               | StructuralSegment => if (length (c_nodes c) =? 2)%nat then 1 else 0
               | _ => dim
               end in
    do axes <- match c_axes c with
               | None => Ok (0, [])
               | Some f => do r <- element_axes n tol tiny env coords dim type nodes f; Ok (fst r)
               end;
    Ok (Some (mkSLine (c_id c) dim type (Z.of_nat (length (c_nodes c))) (mat (s_id s)) (lists (c_id c)) axes nodes))
  end.
Definition catSome {A} (l : list (option A)) : list A := flat_map (fun o => match o with Some a => [a] | None => [] end) l.
Definition set_lines (s : eset) : outcome (list sline) :=
  do k <- set_code active (s_type s);
  match k with
  | None => Ok []
  | Some (dim, type) => do l <- mapM (cell_line s dim type) (s_cells s); Ok (catSome l)
  end.
(** SystusWriter.cpp:2718-2896, writeElements: the count of the header (the cells
    of the mesh) and the lines. *)
Definition write_elements (mesh : list scell) (sets : list eset) : outcome (Z * list sline) :=
  do l <- mapM set_lines sets; Ok (Z.of_nat (length mesh), concat l).
End Writing.

(** ** Groups *)
(** SystusWriter.cpp:2728-2735 and 2833-2837: isUseful of the groups of cells, one
    set after another; [skipped]: the set is left by the switch (continue). *)
Definition skipped (active : list Z) (t : estype) : bool :=
  match t with
  | NodalMass | Discrete0D | Discrete1D => true
  | Lmpc a => negb (existsb (Z.eqb a) active)
  | _ => false
  end.
Definition is_group (x : str) (g : str) : bool := str_eqb x g.
Definition useful (active : list Z) (sets : list eset) (g : str) : bool :=
  fold_left (fun u s => if existsb (is_group g) (s_groups s) then negb (skipped active (s_type s)) else u) sets false.

(** The part of a text after its last underscore, rfind. *)
Fixpoint after_last (l : str) : option str :=
  match l with
  | [] => None
  | c :: r => match after_last r with
              | Some x => Some x
              | None => if Ascii.eqb c "_"%char then Some r else None
              end
  end.
(** SystusWriter.cpp:239-262, getPartId: [auto] is the static auto_part_id (its
    overflow is not modelled). *)
Fixpoint free_part (fuel : nat) (used : list Z) (p auto : Z) : outcome (Z * Z) :=
  match fuel with
  | O => NoFuel
  | S k => if existsb (Z.eqb p) used then free_part k used auto (auto - 1) else Ok (p, auto)
  end.
Definition part_id (name : str) (used : list Z) (auto : Z) : outcome (Z * Z) :=
  let '(p, auto) := match after_last name with
                    | Some x => match stoi x with Ok p => (p, auto) | _ => (auto, auto - 1) end
                    | None => (auto, auto - 1)
                    end in
  free_part (S (S (length used))) used p auto.

(** SystusWriter.cpp:2899-2943, writeGroups.  Groups by ascending name; the
    comments are not modelled. *)
Record group := mkGroup { g_name : str; g_ids : list Z }.
Inductive gline := Part (number : Z) (name : str) (pid : Z) (cells : list Z) | Points (number : Z) (name : str) (nodes : list Z).
Definition dash (l : str) : str := map (fun c => if Ascii.eqb c " "%char then "_"%char else c) l.
Definition cell_part (active : list Z) (sets : list eset) (st : list gline * list Z * Z) (g : group) : outcome (list gline * list Z * Z) :=
  let '(out, pids, auto) := st in
  if negb (useful active sets (g_name g)) || null (g_ids g) then Ok st
  else do r <- part_id (g_name g) pids auto; let '(p, auto) := r in
       Ok (out ++ [Part (Z.of_nat (length out) + 1) (dash (g_name g)) p (g_ids g)], p :: pids, auto).
Definition node_part (out : list gline) (g : group) : list gline :=
  if null (g_ids g) then out else out ++ [Points (Z.of_nat (length out) + 1) (dash (g_name g)) (g_ids g)].
Definition write_groups (active : list Z) (sets : list eset) (auto : Z) (cells nodes : list group) : outcome (Z * list gline * Z) :=
  do r <- foldM (cell_part active sets) cells ([], [], auto); let '(out, _, auto) := r in
  let out := fold_left node_part nodes out in
  Ok (Z.of_nat (length out), out, auto).
