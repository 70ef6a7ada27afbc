(** Bars, beams and bushes: the cards CBAR, CBEAM and CBUSH, the orientations
    stored for them, the groups of cells that share one, and what the two writers
    make of them.  Texts and fields as in TokenizerModel; the register of
    coordinate systems is that of GridModel, the geometry that of GeomModel. *)
From Coq Require Import Ascii String Reals Qreals QArith Qabs ZArith List Bool Arith.
Require Import Verif.Base Verif.TextModel Verif.TokenizerModel Verif.RealModel Verif.WriterLineModel Verif.CardModel Verif.LoadCardModel Verif.PropCardModel Verif.GridModel Verif.GeomModel.
Import ListNotations.
Open Scope Z_scope.
Open Scope list_scope.

(** ** Texts *)
(** What a card says of the plane of an element: a third node, a vector, or (for
    a bush) the axes of a numbered system. *)
Inductive direction := ByNode (g0 : Z) | ByVector (x1 x2 x3 : decimal).
Inductive axes := NoAxes | Towards (d : direction) | InSystem (cid : Z).
(** The messages printed when a field is dismissed (handleParsingWarning: the
    card is read all the same). *)
Inductive warning := WOfft | WPins | WOffsets | WScalars | WSingleNode | WLocation | WOcid.
(** Number, property, nodes, axes. *)
Record segment := mkSegment { sid : Z; spid : Z; sga : Z; sgb : option Z; saxes : axes }.

Definition one : decimal := (1, 0).
(** Nastran/NastranParser_geometry.cpp:134-154, parseOrientation; the line
    (currentDataLine) counts the keyword. *)
Definition parse_orientation (t : cursor) : outcome (direction * cursor) :=
  let line := cvec t in
  if (length line <? 8)%nat || null (nth 6 line []) || null (nth 7 line []) then
    do r <- nextInt t; let '(g0, t) := r in
    do r <- optional_double t; let '(_, t) := r in
    do r <- optional_double t; let '(_, t) := r in
    Ok (ByNode g0, t)
  else
    do r <- nextDouble t; let '(x1, t) := r in
    do r <- nextDouble t; let '(x2, t) := r in
    do r <- nextDouble t; let '(x3, t) := r in
    let x2 := if dec_is_zero x1 && dec_is_zero x2 && dec_is_zero x3 then one else x2 in
    Ok (ByVector x1 x2 x3, t).

Definition is_some {A} (o : option A) : bool := match o with Some _ => true | None => false end.
Definition when (b : bool) (w : warning) : list warning := if b then [w] else [].
(** NastranParser_geometry.cpp:167-186 and 199-219: end of the offset system,
    pin flags, six offsets, of a bar or a beam; all dismissed. *)
Definition parse_ends (t : cursor) : outcome (list warning * cursor) :=
  do r <- nextStringDefault [] t; let '(offt, t) := r in
  do r <- optional_int t; let '(pa, t) := r in
  do r <- optional_int t; let '(pb, t) := r in
  do r <- nextDoubleDefault (0, 0) t; let '(w1a, t) := r in
  do r <- nextDoubleDefault (0, 0) t; let '(w2a, t) := r in
  do r <- nextDoubleDefault (0, 0) t; let '(w3a, t) := r in
  do r <- nextDoubleDefault (0, 0) t; let '(w1b, t) := r in
  do r <- nextDoubleDefault (0, 0) t; let '(w2b, t) := r in
  do r <- nextDoubleDefault (0, 0) t; let '(w3b, t) := r in
  Ok (when (negb (null offt) && negb (str_eqb offt (txt "GGG"))) WOfft
      ++ when (is_some pa || is_some pb) WPins
      ++ when (negb (forallb dec_is_zero [w1a; w2a; w3a; w1b; w2b; w3b])) WOffsets, t).

(** NastranParser_geometry.cpp:159-189, parseCBAR. *)
Definition parseCBAR (t : cursor) : outcome (segment * list warning * cursor) :=
  do r <- nextInt t; let '(id, t) := r in
  do r <- nextInt t; let '(pid, t) := r in
  do r <- nextInt t; let '(ga, t) := r in
  do r <- nextInt t; let '(gb, t) := r in
  do r <- parse_orientation t; let '(d, t) := r in
  do r <- parse_ends t; let '(w, t) := r in
  Ok (mkSegment id pid ga (Some gb) (Towards d), w, t).

(** NastranParser_geometry.cpp:191-230, parseCBEAM. *)
Definition parseCBEAM (t : cursor) : outcome (segment * list warning * cursor) :=
  do r <- parseCBAR t; let '(s, w, t) := r in
  do r <- optional_int t; let '(sa, t) := r in
  do r <- optional_int t; let '(sb, t) := r in
  Ok (s, w ++ when (is_some sa || is_some sb) WScalars, t).

(** NastranParser_geometry.cpp:233-290, parseCBUSH. *)
Definition half : decimal := (5, -1).
Definition is_half (d : decimal) : bool := Qle_bool (Qabs (dec_q d - (1 # 2))) (5 # 4503599627370496).
Definition parseCBUSH (t : cursor) : outcome (segment * list warning * cursor) :=
  do r <- nextInt t; let '(id, t) := r in
  do r <- nextInt t; let '(pid, t) := r in
  do r <- nextInt t; let '(ga, t) := r in
  do r <- optional_int t; let '(gb, t) := r in
  if isEmptyUntilNextKeyword t then Ok (mkSegment id pid ga gb NoAxes, [], t)
  else
    let line := cvec t in
    do r <- (if (8 <? length line)%nat && negb (null (nth 8 line [])) then
               do t <- skip 3 t;
               do r <- nextInt t; let '(cid, t) := r in Ok (InSystem cid, [], t)
             else match gb with
                  | None => do t <- skip 4 t; Ok (NoAxes, [WSingleNode], t)
                  | Some _ =>
                    do r <- parse_orientation t; let '(d, t) := r in
                    do r <- optional_int t; let '(_, t) := r in Ok (Towards d, [], t)
                  end);
    let '(a, w, t) := r in
    do r <- nextDoubleDefault half t; let '(s, t) := r in
    do r <- nextIntDefault (-1) t; let '(ocid, t) := r in
    do r <- optional_double t; let '(s1, t) := r in
    do r <- optional_double t; let '(s2, t) := r in
    do r <- optional_double t; let '(s3, t) := r in
    Ok (mkSegment id pid ga gb a, w ++ when (negb (is_half s)) WLocation ++ when (negb (ocid =? -1)) WOcid, t).

(** ** The mesh *)
(** CoordinateSystem.cpp:289-307, OrientationCoordinateSystem: first node, second
    node, third node or vector (made of length one). *)
Inductive pointing := Toward (g : Z) | Along (v : vec).
Record orientation := mkOrient { oO : Z; oX : Z; oV : pointing }.
Inductive system := User (f : frame) | Orient (o : orientation).
Definition dec_R (d : decimal) : R := Q2R (dec_q d).
Definition dir_vec (x1 x2 x3 : decimal) : vec := V3 (dec_R x1) (dec_R x2) (dec_R x3).
Definition make_orientation (ga gb : Z) (d : direction) : orientation :=
  mkOrient ga gb match d with
                 | ByNode g => Toward g
                 | ByVector x1 x2 x3 => Along (normalized (dir_vec x1 x2 x3))
                 end.

(** CoordinateSystem.cpp:359-369, operator==, called on the new orientation.
    That of a third node has no vector before build (309): when a vector is
    compared with it, memory never written is read (line 364), [UB]. *)
Definition same_orientation (tol : R) (new old : orientation) : outcome bool :=
  if negb (oO new =? oO old) || negb (oX new =? oX old) then Ok false
  else match oV new, oV old with
       | Along v, Along v' => Ok (near_zero tol (norm (vsub v v')))
       | Along _, Toward _ => UB
       | Toward g, Toward g' => Ok (g =? g')
       | Toward _, Along _ => Ok false
       end.
(** Mesh.cpp:644-657, findOrientation: the systems are visited by ascending
    reference, that is for orientations in the order of their creation, which is
    that of their positions. *)
Fixpoint find_orientation (tol : R) (ds : csref -> option system) (new : orientation) (l : list (Z * csref)) : outcome (option Z) :=
  match l with
  | [] => Ok None
  | (p, Automatic n) :: r =>
    match ds (Automatic n) with
    | Some (Orient old) => do b <- same_orientation tol new old;
                           if b then Ok (Some p) else find_orientation tol ds new r
    | _ => find_orientation tol ds new r
    end
  | (_, Named _) :: r => find_orientation tol ds new r
  end.
(** Mesh.cpp:634-642, addOrFindOrientation.  The number given to a new
    orientation is any unused one; here, its position. *)
Definition add_orientation (tol : R) (s : storage system) (new : orientation) : outcome (storage system * Z) :=
  do f <- find_orientation tol (defs s) new (refs s);
  match f with
  | Some p => Ok (s, p)
  | None => Ok (cs_add s (Automatic (next_pos s)) (Orient new), next_pos s)
  end.

(** A cell: number, nodes, property, position of its system (0: none).  A group
    of cells: position of the system, name, cells (Mesh.h cellGroupNameByCspos is
    a map, by ascending position). *)
Record ocell := mkCell { cno : Z; cnodes : list Z; cprop : Z; cpos : Z }.
Record ogroup := mkGroup { gpos : Z; gname : str; gcells : list Z }.
Record omesh := mkMesh { mcs : storage system; mgroups : list ogroup; mcells : list ocell }.

(** Mesh.cpp:594-612: the name of the group number [n]. *)
Definition group_name (n : nat) : str :=
  let id := nat_text (Z.of_nat n) in
  "C"%char :: (if (7 <? length id)%nat then skipn (length id - 7) id else id).
(** A new entry of the map. *)
Fixpoint insert_group (g : ogroup) (l : list ogroup) : list ogroup :=
  match l with
  | [] => [g]
  | h :: r => if gpos g <? gpos h then g :: l else h :: insert_group g r
  end.
(** Mesh.cpp:594-612 and 729-737: the cell joins the group of its system, made if
    needed; a name already taken ([taken]: the groups of other kinds) is refused. *)
Definition join_group (taken : list str) (p id : Z) (l : list ogroup) : outcome (list ogroup) :=
  if existsb (fun g => gpos g =? p) l then
    Ok (map (fun g => if gpos g =? p then mkGroup (gpos g) (gname g) (gcells g ++ [id]) else g) l)
  else
    let name := group_name (S (length l)) in
    if existsb (str_eqb name) (taken ++ map gname l) then Throw
    else Ok (insert_group (mkGroup p name [id]) l).

(** A card of the deck: an element, or the definition of a numbered system. *)
Inductive ocard := Element (s : segment) | SystemCard (cid : Z) (f : frame).
(** The position of the system of an element (NastranParser_geometry.cpp:155,
    244, 252). *)
Definition place_axes (tol : R) (st : storage system) (s : segment) : outcome (storage system * Z) :=
  match saxes s, sgb s with
  | NoAxes, _ => Ok (st, 0)
  | InSystem cid, _ => find_or_reserve st (Named cid)
  | Towards d, Some gb => add_orientation tol st (make_orientation (sga s) gb d)
  | Towards d, None => Ok (st, 0)
  end.
(** NastranParser_geometry.cpp:187, 228, 283-287 and Mesh.cpp:336-432, addCell
    (its part that deals with numbers, nodes and systems). *)
Definition read_element (tol : R) (taken : list str) (m : omesh) (s : segment) : outcome omesh :=
  do r <- place_axes tol (mcs m) s; let '(st, p) := r in
  do gs <- (if p =? 0 then Ok (mgroups m) else join_group taken p (sid s) (mgroups m));
  Ok (mkMesh st gs (mcells m ++ [mkCell (sid s) (sga s :: match sgb s with Some g => [g] | None => [] end) (spid s) p])).
Definition read_ocard (tol : R) (taken : list str) (m : omesh) (c : ocard) : outcome omesh :=
  match c with
  | Element s => read_element tol taken m s
  | SystemCard cid f => Ok (mkMesh (cs_add (mcs m) (Named cid) (User f)) (mgroups m) (mcells m))
  end.
(** [n]: the first position (at least 1). *)
Definition new_mesh (n : Z) : omesh := mkMesh (mkStorage n [] (fun _ => None)) [] [].
Definition read_deck (tol : R) (taken : list str) (n : Z) (l : list ocard) : outcome omesh :=
  foldM (read_ocard tol taken) l (new_mesh n).

(** ** After reading *)
(** CoordinateSystem.cpp:309-332, build: the vector, and the frame.  [nodes]: the
    global coordinates; an unknown node throws. *)
Definition built_vector (nodes : Z -> outcome vec) (o : orientation) : outcome vec :=
  do a <- nodes (oO o);
  do b <- nodes (oX o);
  match oV o with
  | Along v => Ok v
  | Toward g => do c <- nodes g; Ok (normalized (vsub c a))
  end.
Definition oriented (a b v : vec) : frame :=
  let e1 := normalized (vsub b a) in
  let e2 := orthonormalized v e1 in
  build (Frame Cartesian a e1 e2 (cross e1 e2) 0 None).
Definition built_axes (nodes : Z -> outcome vec) (o : orientation) : outcome frame :=
  do a <- nodes (oO o);
  do b <- nodes (oX o);
  do v <- built_vector nodes o;
  Ok (oriented a b v).
(** Mesh.cpp:505-530, findCell: the orientation of a cell; a numbered system is
    cast to one without a check: [UB] when it is used as such. *)
Definition cell_orientation (m : omesh) (c : ocell) : outcome (option orientation) :=
  if cpos c =? 0 then Ok None
  else do f <- find_by_position (mcs m) (cpos c);
       match f with
       | Some (Orient o) => Ok (Some o)
       | _ => UB
       end.

(** Aster/AsterWriter.cpp:1348-1373: the entries of ORIENTATION, in order: vector
    VECT_Y, name and cells of the group.  [solids]: every element set is one of
    solids.  A system reserved but never defined is a null pointer (1357). *)
Definition vect_y (m : omesh) (nodes : Z -> outcome vec) (g : ogroup) : outcome (list (vec * str * list Z)) :=
  do f <- find_by_position (mcs m) (gpos g);
  match f with
  | None => UB
  | Some (User _) => Ok []
  | Some (Orient o) => do v <- built_vector nodes o; Ok [(v, gname g, gcells g)]
  end.
Definition aster_orientations (solids : bool) (m : omesh) (nodes : Z -> outcome vec) : outcome (list (vec * str * list Z)) :=
  if solids then Ok [] else do l <- mapM (vect_y m nodes) (mgroups m); Ok (concat l).

(** Nastran/NastranWriter.cpp:262-264 and 340-357: the card of a beam with an
    orientation, whose vector is printed as [x y z]; the same card without it
    for a bush. *)
Definition written_beam (cosmic : bool) (id pid ga gb : Z) (x y z : str) : list str :=
  txt (if cosmic then "CBAR" else "CBEAM") :: map int_text [id; pid; ga; gb] ++ [x; y; z; if cosmic then txt "1" else []].
Definition written_bush (id pid ga gb : Z) : list str :=
  txt "CBUSH" :: map int_text [id; pid; ga; gb].
