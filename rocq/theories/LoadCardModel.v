(** Model of the cards of loads of the Nastran reader (FORCE, MOMENT, FORCE1,
    FORCE2, GRAV, RFORCE, LOAD, PLOAD, PLOAD1, PLOAD2, PLOAD4) and of the cards of
    loads the Nastran writer prints.

    Reals are the exact decimals of the fields (RealModel); products are exact.
    The registration of the loading in its set, the reservation of nodes and
    cells are in other modules (CombineModel, MeshNodeModel); warnings, which only
    print, are omitted. *)
From Coq Require Import Ascii String ZArith QArith Qpower Qabs Qminmax List Bool Arith.
From Verif Require Import Base DofModel TextModel TokenizerModel RealModel WriterLineModel CardModel.
Import ListNotations.
Open Scope Z_scope.
Open Scope list_scope.

Definition dzero : decimal := (0, 0).
Definition dmul (a b : decimal) : decimal := (fst a * fst b, snd a + snd b).
Definition dneg (a : decimal) : decimal := (- fst a, snd a).
(** VectorialValue (Value.cpp:164-169). *)
Definition dvec := (decimal * decimal * decimal)%type.
Definition dvec_scale (s : decimal) (v : dvec) : dvec :=
  let '(x, y, z) := v in (dmul x s, dmul y s, dmul z s).
Definition dvec0 : dvec := (dzero, dzero, dzero).
(** Utility.h:48 UNAVAILABLE_DOUBLE = -DBL_MAX, the default of the default
    argument of nextDouble (NastranTokenizer.h:164-165). *)
Definition UNAVAILABLE_DOUBLE : decimal := (- (2 ^ 1024 - 2 ^ 971), 0).

(** NastranTokenizer.cpp:402-414 nextString. *)
Definition nextStringDefault (d : str) (t : cursor) : outcome (str * cursor) :=
  let '(s, t') := nextSymbolString t in
  let v := to_upper (trim s) in Ok (if null v then d else v, t').
Definition nextString (t : cursor) : outcome (str * cursor) :=
  let '(s, t') := nextSymbolString t in
  let v := to_upper (trim s) in if null v then Throw else Ok (v, t').

(** Three reals in a row, each with the default [d]. *)
Definition next3 (d : decimal) (t : cursor) : outcome (dvec * cursor) :=
  do r <- nextDoubleDefault d t; let '(x, t) := r in
  do r <- nextDoubleDefault d t; let '(y, t) := r in
  do r <- nextDoubleDefault d t; let '(z, t) := r in
  Ok ((x, y, z), t).

(** ** Nodal forces *)
(** Loading.h NodalForce: set, node (as the user numbers it), coordinate system,
    force and moment. *)
Record nodal := mkNodal { nl_set : Z; nl_node : Z; nl_cs : Z; nl_force : dvec; nl_moment : dvec }.
(** NastranParser.cpp:1675-1691. *)
Definition parseFORCE (t : cursor) : outcome nodal :=
  do r <- nextInt t; let '(loadset_id, t) := r in
  do r <- nextInt t; let '(node_id, t) := r in
  do r <- nextIntDefault 0 t; let '(csid, t) := r in
  do r <- nextDoubleDefault dzero t; let '(force, t) := r in
  do r <- next3 dzero t;
  Ok (mkNodal loadset_id node_id csid (dvec_scale force (fst r)) dvec0).
(** NastranParser.cpp:2026-2044: no default is given to nextDouble(true). *)
Definition parseMOMENT (t : cursor) : outcome nodal :=
  do r <- nextInt t; let '(loadset_id, t) := r in
  do r <- nextInt t; let '(node_id, t) := r in
  do r <- nextIntDefault 0 t; let '(csid, t) := r in
  do r <- nextDoubleDefault UNAVAILABLE_DOUBLE t; let '(scale, t) := r in
  do r <- next3 UNAVAILABLE_DOUBLE t;
  Ok (mkNodal loadset_id node_id csid dvec0 (dvec_scale scale (fst r))).
(** NastranParser.cpp:1693-1722: set, node, magnitude, the nodes that give the
    direction (two for FORCE1, four for FORCE2). *)
Fixpoint ints (n : nat) (t : cursor) : outcome (list Z * cursor) :=
  match n with
  | O => Ok ([], t)
  | S n => do r <- nextInt t; let '(i, t) := r in
           do r <- ints n t; let '(l, t) := r in Ok (i :: l, t)
  end.
Definition parseFORCEn (n : nat) (t : cursor) : outcome (Z * Z * decimal * list Z) :=
  do r <- nextInt t; let '(loadset_id, t) := r in
  do r <- nextInt t; let '(node_id, t) := r in
  do r <- nextDouble t; let '(force, t) := r in
  do r <- ints n t;
  Ok (loadset_id, node_id, force, fst r).
Definition parseFORCE1 := parseFORCEn 2.
Definition parseFORCE2 := parseFORCEn 4.

(** ** Gravity, rotation *)
(** NastranParser.cpp:1793-1813: set, acceleration, direction; the coordinate
    system and MB are read and only warned about. *)
Definition parseGRAV (t : cursor) : outcome (Z * decimal * dvec) :=
  do r <- nextInt t; let '(sid, t) := r in
  do r <- nextIntDefault 0 t; let '(csid, t) := r in
  do r <- nextDoubleDefault dzero t; let '(acceleration, t) := r in
  do r <- next3 dzero t; let '(v, t) := r in
  do r <- nextIntDefault 0 t;
  Ok (sid, acceleration, v).
(** NastranParser.cpp:3208-3241: set, node, speed, axis. *)
Definition parseRFORCE (t : cursor) : outcome (Z * Z * decimal * dvec) :=
  do r <- nextInt t; let '(sid, t) := r in
  do r <- nextInt t; let '(g, t) := r in
  do r <- nextIntDefault 0 t; let '(csid, t) := r in
  do r <- nextDouble t; let '(a, t) := r in
  do r <- nextDouble t; let '(r1, t) := r in
  do r <- nextDouble t; let '(r2, t) := r in
  do r <- nextDouble t; let '(r3, t) := r in
  do r <- nextIntDefault 1 t; let '(method, t) := r in
  do r <- nextDoubleDefault dzero t; let '(racc, t) := r in
  do r <- nextIntDefault 0 t;
  Ok (sid, g, a, (r1, r2, r3)).

(** ** Combinations *)
(** NastranParser.cpp:1851-1861: set, factor of each embedded set. *)
Fixpoint load_loop (fuel : nat) (S0 : decimal) (t : cursor) : outcome (list (Z * decimal)) :=
  match fuel with
  | O => NoFuel
  | S fuel =>
    do isd <- isNextDouble t;
    if isd then
      do r <- nextDoubleDefault (1, 0) t; let '(scale, t) := r in
      do r <- nextInt t; let '(id, t) := r in
      do l <- load_loop fuel S0 t;
      Ok ((id, dmul S0 scale) :: l)
    else Ok []
  end.
Definition parseLOAD (t : cursor) : outcome (Z * list (Z * decimal)) :=
  do r <- nextInt t; let '(set_id, t) := r in
  do r <- nextDoubleDefault (1, 0) t; let '(s0, t) := r in
  do l <- load_loop (S (length (cvec t))) s0 t;
  Ok (set_id, l).

(** ** Pressures *)
(** NastranParser.cpp:2768-2779, PLOAD: set, pressure, three or four nodes (a
    blank fourth is UNAVAILABLE_INT). *)
Definition parsePLOAD (t : cursor) : outcome (Z * decimal * list Z) :=
  do r <- nextInt t; let '(loadset_id, t) := r in
  do r <- nextDouble t; let '(p, t) := r in
  do r <- ints 3 t; let '(g, t) := r in
  do r <- nextIntDefault INT_MIN32 t;
  Ok (loadset_id, p, if fst r =? INT_MIN32 then g else g ++ [fst r]).
(** NastranParser.cpp:2866-2877, PLOAD2. *)
Definition parsePLOAD2 (t : cursor) : outcome (Z * decimal * list Z) :=
  do r <- nextInt t; let '(loadset_id, t) := r in
  do r <- nextDouble t; let '(p, t) := r in
  do r <- nextInts t;
  Ok (loadset_id, p, fst r).

(** The four loadings PLOAD4 makes (Loading.h NormalPressionFace,
    NormalPressionFaceTwoNodes, ForceSurfaceTwoNodes, ForceSurface). *)
Inductive surface_load :=
| PressionFace (intensity : decimal)
| PressionFaceTwoNodes (node1 : Z) (node2 : option Z) (intensity : decimal)
| SurfaceForceTwoNodes (node1 : Z) (node2 : option Z) (force : dvec)
| SurfaceForce (force : dvec).
(** [for (cellId = eid1; cellId <= eid2; cellId++)]. *)
Definition cell_range (a b : Z) : list Z := map (fun i => a + Z.of_nat i) (seq 0 (Z.to_nat (b - a + 1))).
(** Utility.h:71-73 is_equal, with the tolerance 5 * 2^-52 (Utility.h:53), on
    exact numbers. *)
Definition dec_q (d : decimal) : Q := (inject_Z (fst d) * Qpower (10 # 1) (snd d))%Q.
Definition is_equal (x y : decimal) : bool :=
  Qle_bool (Qabs (dec_q x - dec_q y)) ((5 # 4503599627370496) * Qmax 1 (Qmax (Qabs (dec_q x)) (Qabs (dec_q y)))).
(** NastranParser.cpp:2879-2977: set, cells, load.  A node that is not given is
    UNAVAILABLE_INT. *)
Definition node_option (g : Z) : option Z := if g =? INT_MIN32 then None else Some g.
Definition parsePLOAD4 (t : cursor) : outcome (Z * list Z * surface_load) :=
  do r <- nextInt t; let '(loadset_id, t) := r in
  do r <- nextInt t; let '(eid1, t) := r in
  do r <- nextDouble t; let '(p1, t) := r in
  do r <- next3 p1 t; let '(p234, t) := r in
  do isint <- isNextInt t;
  do isempty <- isNextEmpty 1 t;
  do gt <- (if isint || isempty || isEmptyUntilNextKeyword t then
              do r <- nextIntDefault INT_MIN32 t; let '(g1, t) := r in
              do r <- nextIntDefault INT_MIN32 t; let '(g2, t) := r in
              Ok (g1, g2, eid1, t)
            else
              do thru <- isNextTHRU t;
              if thru then
                do t <- skip 1 t;
                do r <- nextInt t; let '(e2, t) := r in Ok (INT_MIN32, INT_MIN32, e2, t)
              else Throw);
  let '(g1, g2, eid2, t) := gt in
  do r <- nextIntDefault 0 t; let '(cid, t) := r in
  do r <- next3 dzero t; let '(n, t) := r in
  do r <- nextStringDefault (txt "SURF") t; let '(sorl, t) := r in
  do r <- nextStringDefault (txt "NORM") t;
  let '(n1, n2, n3) := n in
  let has_direction := negb (is_equal n1 dzero && is_equal n2 dzero && is_equal n3 dzero && (cid =? 0)) in
  Ok (loadset_id, cell_range eid1 eid2,
      match has_direction, node_option g1 with
      | false, None => PressionFace p1
      | false, Some g => PressionFaceTwoNodes g (node_option g2) (dneg p1)
      | true, Some g => SurfaceForceTwoNodes g (node_option g2) (dvec_scale p1 n)
      | true, None => SurfaceForce (dvec_scale p1 n)
      end).

(** ** Loads on lines *)
(** A FunctionTable (Value.cpp:138-158): its points in the order of the calls of
    setXY, and whether the abscissa is a length (PARAX) or a fraction (ABSC). *)
Record line_load := mkLine { ll_set : Z; ll_cell : Z; ll_dof : dof; ll_length : bool; ll_table : list (decimal * decimal) }.
Definition line_dof (type : str) : outcome dof :=
  if str_eqb type (txt "FX") then Ok DX
  else if str_eqb type (txt "FY") then Ok DY
  else if str_eqb type (txt "FZ") then Ok DZ
  else if str_eqb type (txt "MX") then Ok RX
  else if str_eqb type (txt "MY") then Ok RY
  else if str_eqb type (txt "MZ") then Ok RZ
  else Throw.
(** x - x/1000, x + x/1000. *)
Definition just_before (x : decimal) : decimal := (999 * fst x, snd x - 3).
Definition just_after (x : decimal) : decimal := (1001 * fst x, snd x - 3).
(** NastranParser.cpp:2781-2864. *)
Definition parsePLOAD1 (t : cursor) : outcome line_load :=
  do r <- nextInt t; let '(loadset_id, t) := r in
  do r <- nextInt t; let '(eid, t) := r in
  do r <- nextString t; let '(type, t) := r in
  do r <- nextString t; let '(scale, t) := r in
  do r <- nextDoubleDefault dzero t; let '(x1, t) := r in
  do r <- nextDoubleDefault dzero t; let '(p1, t) := r in
  do r <- nextDoubleDefault (-1, 0) t; let '(x2, t) := r in
  do r <- nextDoubleDefault dzero t; let '(p2, t) := r in
  do d <- line_dof type;
  do le <- (if str_eqb scale (txt "LE") then Ok true
            else if str_eqb scale (txt "FRPR") || str_eqb scale (txt "FR") then Ok false else Throw);
  if (fst x2 <? 0) || is_equal x2 x1 then Throw
  else Ok (mkLine loadset_id eid d le
             ((if 0 <? fst x1 then [(just_before x1, dzero)] else []) ++
              [(x1, p1); (x2, p2); (just_after x2, dzero)])).

(** ** What the Nastran writer prints (NastranWriter.cpp:566-782) *)
(** A real is [n / 10^k]; [tie] as in WriterLineModel. *)
Definition wreal := (Z * Z)%type.
Definition real_field (tie : bool) (x : wreal) : str := real_text tie (fst x) (snd x).
Definition wvec := (wreal * wreal * wreal)%type.
Definition vec_fields (tie : bool) (v : wvec) : list str :=
  let '(x, y, z) := v in [real_field tie x; real_field tie y; real_field tie z].
(** 571-584 GRAV. *)
Definition write_grav (tie : bool) (set_id : Z) (scale : wreal) (v : wvec) : list str :=
  int_text set_id :: int_text 0 :: real_field tie scale :: vec_fields tie v.
(** 730-754 FORCE: the force of the node in the global system.  [strict]:
    handleWritingError (SolverInterfaces.cpp:190-203) throws, otherwise it prints
    and the moment is dropped; [moment0] is the value of iszero(). *)
Definition write_force (tie strict : bool) (set_id node : Z) (force : wvec) (moment0 : bool) : outcome (list str) :=
  if strict && negb moment0 then Throw
  else Ok (int_text set_id :: int_text node :: int_text 0 :: real_field tie (1, 0) :: vec_fields tie force).
(** 756-772 PLOAD. *)
Definition write_pload (tie : bool) (set_id : Z) (p : wreal) (nodes : list Z) : list str :=
  int_text set_id :: real_field tie p :: map int_text nodes.
(** 631-643 PLOAD2, one card for each cell. *)
Definition write_pload2 (tie : bool) (set_id : Z) (p : wreal) (cell : Z) : list str :=
  [int_text set_id; real_field tie p; int_text cell].
(** 645-689 PLOAD4 of a pressure, one card for each cell. *)
Definition wneg (x : wreal) : wreal := (- fst x, snd x).
Definition write_pload4_face (tie : bool) (set_id cell : Z) (intensity : wreal) : list str :=
  [int_text set_id; int_text cell; real_field tie intensity].
Definition write_pload4_two (tie : bool) (set_id cell : Z) (node1 : Z) (node2 : option Z) (intensity : wreal) : list str :=
  [int_text set_id; int_text cell; real_field tie (wneg intensity); []; []; []; int_text node1;
   match node2 with Some n => int_text n | None => [] end].
(** 691-728 PLOAD1: the first two points of the table, always as fractions. *)
Definition dof_letters (d : dof) : str :=
  match d with
  | DX => txt "FX" | DY => txt "FY" | DZ => txt "FZ"
  | RX => txt "MX" | RY => txt "MY" | RZ => txt "MZ"
  end.
Definition write_pload1 (tie : bool) (set_id cell : Z) (d : dof) (table : list (wreal * wreal)) : outcome (list str) :=
  match table with
  | (x1, p1) :: (x2, p2) :: _ =>
    Ok [int_text set_id; int_text cell; dof_letters d; txt "FR"; real_field tie x1; real_field tie p1; real_field tie x2; real_field tie p2]
  | _ => UB
  end.

(** A decimal as the writer sees it. *)
Definition as_real (d : decimal) : wreal := if snd d <? 0 then (fst d, - snd d) else (fst d * 10 ^ snd d, 0).
(** 587-689, the card of one cell of a load on surfaces.  [split] is the norm of
    the force and the force divided by it (LoadModel.surface_force); in the last case
    the pointer is null: an exception or, when errors do not stop the writer, a
    null dereference. *)
Definition write_surface (split : dvec -> wreal * wvec) (tie strict : bool) (set_id cell : Z) (l : surface_load) : outcome (list str) :=
  match l with
  | PressionFace i => Ok (write_pload4_face tie set_id cell (as_real i))
  | PressionFaceTwoNodes g1 g2 i => Ok (write_pload4_two tie set_id cell g1 g2 (as_real i))
  | SurfaceForceTwoNodes g1 g2 f =>
    Ok ([int_text set_id; int_text cell; real_field tie (fst (split f)); []; []; []; int_text g1;
         match g2 with Some n => int_text n | None => [] end; int_text 0] ++ vec_fields tie (snd (split f)))
  | SurfaceForce f => if strict then Throw else UB
  end.
