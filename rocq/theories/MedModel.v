(** Model of the MED file written beside the Aster command file
    (Aster/MedWriter.cpp).

    The MED library itself is not modelled: a file is the list of what is
    handed to it.  Coordinates are of an arbitrary type [D] (double) and
    [place] is CoordinateSystem::positionToGlobal of the system stored at a
    position ([None]: no such system), modelled in GeomModel and CylModel.
    med_int is [Z].  Names are texts without a zero byte. *)
From Coq Require Import Ascii String ZArith List Bool Arith.
From Verif Require Import Base ZMap TextModel MeshNodeModel MeshCellModel.
Import ListNotations.
Open Scope Z_scope.

(** med.h: MED_LNAME_SIZE, the size of the name of a group. *)
Definition LNAME : nat := 80.

(** MedWriter.h:37-42 Family; a group is known by its name (unique in the mesh,
    Mesh.cpp:676-760). *)
Record family := mkFam { fam_groups : list str; fam_name : str; fam_num : Z }.
Definition blank_family : family := mkFam [] [] UNAVAILABLE_INT.

(** currentFamilyId and familyByFamilyId. *)
Record tables := mkT { current : Z; known : zmap family }.

(** MedWriter.cpp:50-70 and 118-138: the family made for the members of group
    [g] that were in family [old]; node families are numbered upwards
    ([sign] 1), cell families downwards ([sign] -1). *)
Definition make_family (sign : Z) (label : str) (t : tables) (old : Z) (g : str) : tables :=
  let c := current t + sign in
  let f := match zfind (known t) old with
           | Some o =>
               let n := fam_name o ++ txt "_" ++ g in
               mkFam (fam_groups o ++ [g])
                     (if Nat.leb LNAME (length n) then label ++ int_text (sign * c) else n) c
           | None => mkFam [g] g c
           end in
  mkT c (zinsert (known t) c f).

Section Loop.
(** The families of the nodes or of the cells, by position. *)
Context {S : Type} (get : S -> nat -> outcome Z) (put : S -> nat -> Z -> outcome S).
Variables (sign : Z) (label : str).

(** MedWriter.cpp:46-75 and 109-143, for one member; [snd (fst st)] is
    newFamilyByOldfamily. *)
Definition visit (g : str) (st : tables * zmap Z * S) (p : nat)
  : outcome (tables * zmap Z * S) :=
  let '(t, new, s) := st in
  do old <- get s p;
  match zfind new old with
  | Some n => do s <- put s p n; Ok (t, new, s)
  | None =>
      let t := make_family sign label t old g in
      do s <- put s p (current t);
      Ok (t, zinsert new old (current t), s)
  end.

(** MedWriter.cpp:44-76 and 107-144: one group. *)
Definition visit_group (st : tables * S) (g : str * list nat) : outcome (tables * S) :=
  do r <- foldM (visit (fst g)) (snd g) (fst st, [], snd st);
  let '(t, _, s) := r in Ok (t, s).

Definition visit_groups (gs : list (str * list nat)) (s : S) : outcome (tables * S) :=
  foldM visit_group gs (mkT 0 [], s).
End Loop.

(** MedWriter.cpp:78-83 and 146-155: the families in use, by number. *)
Definition in_use (t : tables) (slots : list Z) : list family :=
  map (fun n => match zfind (known t) n with Some f => f | None => blank_family end)
      (filter (fun n => negb (n =? 0)) (map fst (fold_right (fun n s => sinsert s n) [] slots))).

(** nodes[nodePosition] (MedWriter.cpp:47 and 74): operator[] of a vector. *)
Definition get_slot (s : list Z) (p : nat) : outcome Z :=
  match nth_error s p with Some v => Ok v | None => UB end.
Definition put_slot (s : list Z) (p : nat) (v : Z) : outcome (list Z) :=
  if Nat.ltb p (length s) then Ok (set_nth s p v) else UB.

(** MedWriter.cpp:38-93 NodeGroup2Families: the families and the family of
    each node.  The members of a group come from a std::set. *)
Definition node_families (nnodes : nat) (gs : list (str * list nat)) : outcome (list family * list Z) :=
  if Nat.ltb 0 nnodes && Nat.ltb 0 (length gs) then
    do (t, s) <- visit_groups get_slot put_slot 1 (txt "Family") gs (repeat 0 nnodes);
    Ok (in_use t s, s)
  else Ok ([], []).

(** CellType::typeByCode (MeshComponents.cpp:87-138). *)
Definition all_types : list ctype :=
  [POINT1; SEG2; SEG3; SEG4; SEG5; TRI3; QUAD4; TRI6; TRI7; QUAD8; QUAD9;
   TETRA4; PYRA5; PENTA6; HEXA8; TETRA10; HEXGP12; PYRA13; PENTA15; HEXA20; HEXA27] ++
  map POLY (seq 3 18).

Section Med.
Context {D : Type} (place : Z -> option (D * D * D -> D * D * D)).

(** MedWriter.cpp:113-115 and 142: the slot of a cell is found by its type and
    its rank in the type; a type without cell has no vector (null pointer),
    and at() throws out of the vector. *)
Definition get_cell (m : mesh D) (s : tmap Z) (p : nat) : outcome Z :=
  do c <- findCell m p;
  match s (c_type c) with
  | [] => UB
  | v => match nth_error v (c_tpos c) with Some n => Ok n | None => Throw end
  end.
Definition put_cell (m : mesh D) (s : tmap Z) (p : nat) (n : Z) : outcome (tmap Z) :=
  do c <- findCell m p;
  Ok (fun t => if ctype_eq_dec (c_type c) t then set_nth (s t) (c_tpos c) n else s t).

(** MedWriter.cpp:95-156 CellGroup2Families; the position UNAVAILABLE_CELL is
    [None] and is passed over (110-112). *)
Definition members (l : list (option nat)) : list nat :=
  flat_map (fun p => match p with Some p => [p] | None => [] end) l.
Definition cell_families (m : mesh D) (gs : list (str * list (option nat)))
  : outcome (list family * tmap Z) :=
  do (t, s) <- visit_groups (get_cell m) (put_cell m) (-1) (txt "CELLFamily")
                 (map (fun g => (fst g, members (snd g))) gs)
                 (fun t => repeat 0 (countCellsOf m t));
  Ok (in_use t (flat_map s all_types), s).

(** What is handed to the MED library: coordinates and numbers of the nodes,
    for each type the connectivity and the numbers of its cells, the families
    (name, number, groups), the families of the nodes ([None]: not written)
    and of the cells of each type. *)
Record med := mkMed {
  med_coords : list (D * D * D);
  med_numbers : list Z;
  med_cells : list (ctype * (list Z * list Z));
  med_families : list (str * (Z * list str));
  med_node_families : option (list Z);
  med_cell_families : list (ctype * list Z) }.

(** MedWriter.cpp:214-226: coordinates in the global axes. *)
Definition node_coords (d : ndata D) : outcome (D * D * D) :=
  let x := (nd_x d, nd_y d, nd_z d) in
  if nd_cp d =? 0 then Ok x
  else match place (nd_cp d) with Some f => Ok (f x) | None => UB end.

(** MedWriter.cpp:250-305: the cells of one type. *)
Definition write_cells (m : mesh D) (t : ctype) : outcome (list (ctype * (list Z * list Z))) :=
  if Nat.eqb (numNodes t) 0 || Nat.eqb (length (byType m t)) 0 then Ok []
  else
    do cs <- mapM (findCell m) (byType m t);
    Ok [(t, (map (fun p => Z.of_nat p + 1) (flat_map (fun c => c_nodePos c) cs),
             map (fun p => Z.of_nat p + 1) (byType m t)))].

(** MedWriter.cpp:166-181 createFamilies: strncpy keeps 80 characters. *)
Definition create_family (f : family) : str * (Z * list str) :=
  (fam_name f, (fam_num f, map (firstn LNAME) (fam_groups f))).

(** MedWriter.cpp:183-359 writeMED.  The order of the types is that of
    cellPositionsByType and typeByCode; any order gives the same sections. *)
Definition writeMED (m : mesh D) (ngs : list (str * list nat)) (cgs : list (str * list (option nat)))
  : outcome med :=
  let n := countNodes (mnodes m) in
  do xs <- mapM node_coords (ndatas (mnodes m));
  do cells <- mapM (write_cells m) all_types;
  do (nf, ns) <- (match ngs with
                  | [] => Ok ([], None)
                  | _ => do (f, s) <- node_families n ngs; Ok (f, Some s)
                  end);
  do (cf, cs) <- (match cgs with
                  | [] => Ok ([], [])
                  | _ => do (f, s) <- cell_families m cgs;
                         Ok (f, map (fun t => (t, s t))
                                    (filter (fun t => Nat.ltb 0 (countCellsOf m t)) all_types))
                  end);
  Ok (mkMed xs (map (fun i => Z.of_nat i + 1) (seq 0 n)) (concat cells)
            (([], (0, [])) :: map create_family nf ++ map create_family cf) ns cs).
End Med.
