(** Model of the cards of properties of the Nastran reader (PBAR, PBARL, PBEAML,
    PBEAM, PROD, CONROD, PSHELL, PSOLID, PLSOLID, PCOMP, PBUSH, CONM2) and of the
    cards of properties the Nastran writer prints.

    Reals are the exact decimals of the fields (RealModel).  Of the registration
    of the property only the values given to the element set are kept: the group
    of cells of the property, its registration and the material are in other
    modules (GroupModel, RegistryModel, SectionModel).  Warnings, which only print, are
    omitted. *)
From Coq Require Import Ascii String ZArith QArith Qpower Qabs List Bool Arith.
From Verif Require Import Base DofModel TextModel TokenizerModel RealModel WriterLineModel CardModel GridModel LoadCardModel.
From Verif Require SectionModel.
Import ListNotations.
Open Scope Z_scope.
Open Scope list_scope.

(** NastranTokenizer.cpp:500-529 nextDouble(true) compared with
    UNAVAILABLE_DOUBLE by its caller: a real, or nothing. *)
Definition optional_double (t : cursor) : outcome (option decimal * cursor) :=
  let '(s, t') := nextSymbolString t in
  if null (trim s) then Ok (None, t') else do v <- real_of_field s; Ok (Some v, t').
(** Utility.h is_zero, with the tolerance 5 * 2^-52, on an exact number. *)
Definition dec_is_zero (d : decimal) : bool := Qle_bool (Qabs (dec_q d)) (5 # 4503599627370496).

(** ** Beams and rods *)
Inductive beam_model := EULER | TIMOSHENKO | TRUSS.
(** A moment of inertia: a number, or pow(a, 2) / 4 / pi. *)
Inductive moment := Moment (m : decimal) | DiscMoment (area : decimal).
(** Element.h:218-245 GenericSectionBeam, with the number of its property, of its
    material, its additional mass and its recovery points (end, y, z).  A shear
    factor that is UNAVAILABLE_DOUBLE is [None]. *)
Record beam := mkBeam {
  bm_id : option Z; bm_mat : Z; bm_area : decimal; bm_iy : moment; bm_iz : moment; bm_j : decimal;
  bm_shear_y : option Q; bm_shear_z : option Q; bm_model : beam_model; bm_nsm : decimal;
  bm_recovery : list (bool * decimal * decimal) }.

(** NastranParser.cpp:2125-2134: the inverse of an area factor, 0 by default. *)
Definition inv_factor (k : option decimal) : option Q :=
  match k with
  | None => Some 0%Q
  | Some k => if dec_is_zero k then None else Some (/ dec_q k)%Q
  end.
(** 2145-2152: two points (end A, end B) for each pair that is not (0, 0). *)
Fixpoint recovery (l : list decimal) : list (bool * decimal * decimal) :=
  match l with
  | y :: z :: r => (if dec_is_zero y && dec_is_zero z then [] else [(false, y, z); (true, y, z)]) ++ recovery r
  | _ => []
  end.
(** NastranParser.cpp:2099-2155. *)
Definition parsePBAR (t : cursor) : outcome beam :=
  do r <- nextInt t; let '(elemId, t) := r in
  do r <- nextInt t; let '(mid, t) := r in
  do r <- nextDouble t; let '(area, t) := r in
  do r <- nextDoubleDefault dzero t; let '(i1, t) := r in
  do r <- nextDoubleDefault dzero t; let '(i2, t) := r in
  do r <- nextDoubleDefault dzero t; let '(j, t) := r in
  do r <- nextDoubleDefault dzero t; let '(nsm, t) := r in
  do t <- (if negb (isEmptyUntilNextKeyword t) then skip 1 t else Ok t);
  do r <- reals 8 t; let '(rec, t) := r in
  do r <- optional_double t; let '(k1, t) := r in
  do r <- optional_double t; let '(k2, t) := r in
  do r <- nextDoubleDefault dzero t; let '(i12, t) := r in
  Ok (mkBeam (Some elemId) mid area (Moment i2) (Moment i1) j (inv_factor k2) (inv_factor k1) TIMOSHENKO nsm (recovery rec)).

(** NastranParser.cpp:2157-2226 PBARL and 2335-2405 PBEAML: property, material,
    kind of section, dimensions, non structural mass; SectionModel.section_of is
    the section the dimensions make.  The beam is TIMOSHENKO. *)
Definition shape_of (type : str) : option (SectionModel.shape * nat) :=
  if str_eqb type (txt "BAR") then Some (SectionModel.BAR, 2%nat)
  else if str_eqb type (txt "ROD") then Some (SectionModel.ROD, 1%nat)
  else if str_eqb type (txt "TUBE") then Some (SectionModel.TUBE, 2%nat)
  else if str_eqb type (txt "I") then Some (SectionModel.I, 6%nat)
  else None.
Fixpoint required_reals (n : nat) (t : cursor) : outcome (list decimal * cursor) :=
  match n with
  | O => Ok ([], t)
  | S n => do r <- nextDouble t; let '(x, t) := r in
           do r <- required_reals n t; let '(l, t) := r in Ok (x :: l, t)
  end.
Definition parsePBARL (t : cursor) : outcome (Z * Z * SectionModel.shape * list decimal * decimal) :=
  do r <- nextInt t; let '(pid, t) := r in
  do r <- nextInt t; let '(mid, t) := r in
  do r <- nextStringDefault (txt "MSCBML0") t; let '(group, t) := r in
  if negb (str_eqb group (txt "MSCBML0")) then Throw else
  do r <- nextString t; let '(type, t) := r in
  match shape_of type with
  | None => Throw
  | Some (k, n) =>
    do t <- skip 4 t;
    do r <- required_reals n t; let '(dims, t) := r in
    do r <- nextDoubleDefault dzero t; let '(nsm, t) := r in
    Ok (pid, mid, k, dims, nsm)
  end.
Definition parsePBEAML := parsePBARL.

(** NastranParser.cpp:2228-2281: the sections after the first end and the shear,
    warping and mass fields (2283-2332), which are only warned about, are not
    read here. *)
Definition parsePBEAM (t : cursor) : outcome beam :=
  do r <- nextInt t; let '(elemId, t) := r in
  do r <- nextInt t; let '(mid, t) := r in
  do r <- nextDoubleDefault dzero t; let '(area, t) := r in
  do r <- nextDoubleDefault dzero t; let '(iz, t) := r in
  do r <- nextDoubleDefault dzero t; let '(iy, t) := r in
  do r <- nextDoubleDefault dzero t; let '(i12, t) := r in
  do r <- nextDoubleDefault dzero t; let '(j, t) := r in
  do r <- nextDoubleDefault dzero t; let '(nsm, t) := r in
  do r <- reals 8 t; let '(rec, t) := r in
  Ok (mkBeam (Some elemId) mid area (Moment iy) (Moment iz) j (Some 0%Q) (Some 0%Q) EULER nsm []).
(** NastranParser.cpp:3001-3021. *)
Definition parsePROD (t : cursor) : outcome beam :=
  do r <- nextInt t; let '(propId, t) := r in
  do r <- nextInt t; let '(mid, t) := r in
  do r <- nextDouble t; let '(a, t) := r in
  do r <- nextDoubleDefault dzero t; let '(j, t) := r in
  do r <- nextDoubleDefault dzero t; let '(c, t) := r in
  do r <- nextDoubleDefault dzero t; let '(nsm, t) := r in
  Ok (mkBeam (Some propId) mid a (DiscMoment a) (DiscMoment a) j (Some 1%Q) (Some 1%Q) TRUSS nsm []).
(** NastranParser.cpp:1156-1174: element, nodes, beam. *)
Definition parseCONROD (t : cursor) : outcome (Z * Z * Z * beam) :=
  do r <- nextInt t; let '(eid, t) := r in
  do r <- nextInt t; let '(g1, t) := r in
  do r <- nextInt t; let '(g2, t) := r in
  do r <- nextInt t; let '(mid, t) := r in
  do r <- nextDouble t; let '(a, t) := r in
  do r <- nextDoubleDefault dzero t; let '(j, t) := r in
  do r <- nextDoubleDefault dzero t; let '(c, t) := r in
  do r <- nextDoubleDefault dzero t; let '(nsm, t) := r in
  Ok (eid, g1, g2, mkBeam None mid a (Moment dzero) (Moment dzero) j (Some 0%Q) (Some 0%Q) TRUSS nsm []).

(** ** Shells and solids *)
(** Shell (Element.h): property, material, thickness, additional mass, offset. *)
Record shell := mkShell { sh_id : Z; sh_mat : Z; sh_thickness : decimal; sh_nsm : decimal; sh_offset : decimal }.
(** NastranParser.cpp:3023-3061; also the handler of PIHEX (line 134). *)
Definition parsePSHELL (t : cursor) : outcome shell :=
  do r <- nextInt t; let '(propId, t) := r in
  do r <- nextInt t; let '(mid1, t) := r in
  do r <- nextDoubleDefault dzero t; let '(thickness, t) := r in
  do r <- optional_int t; let '(mid2, t) := r in
  do r <- nextDoubleDefault (1, 0) t; let '(bending_moment, t) := r in
  do r <- optional_int t; let '(mid3, t) := r in
  do r <- nextDoubleDefault (833333, -6) t; let '(ts_t_ratio, t) := r in
  do r <- nextDoubleDefault dzero t; let '(nsm, t) := r in
  do r <- optional_double t; let '(z1, t) := r in
  do r <- optional_double t; let '(z2, t) := r in
  do r <- optional_int t; let '(mid4, t) := r in
  Ok (mkShell propId mid1 thickness nsm dzero).
Definition parsePIHEX := parsePSHELL.
(** ModelType of a Continuum: full or reduced integration. *)
Inductive integration := TRIDIMENSIONAL | TRIDIMENSIONAL_SI.
Record solid := mkSolid { so_id : Z; so_mat : Z; so_integration : integration }.
(** NastranParser.cpp:3063-3104. *)
Definition solid_integration (psolid_in isop : str) : integration :=
  let full := str_eqb isop (txt "FULL") || str_eqb isop (txt "1") in
  if str_eqb psolid_in (txt "BUBBLE") && str_eqb isop (txt "REDUCED") then TRIDIMENSIONAL_SI
  else if (str_eqb psolid_in (txt "TWO") || str_eqb psolid_in (txt "2")) && full then TRIDIMENSIONAL
  else if (str_eqb psolid_in (txt "THREE") || str_eqb psolid_in (txt "3")) && full then TRIDIMENSIONAL
  else TRIDIMENSIONAL_SI.
Definition parsePSOLID (t : cursor) : outcome solid :=
  do r <- nextInt t; let '(elemId, t) := r in
  do r <- nextInt t; let '(mid, t) := r in
  do r <- nextIntDefault 0 t; let '(cs, t) := r in
  do r <- nextStringDefault (txt "BUBBLE") t; let '(psolid_in, t) := r in
  do r <- nextStringDefault (txt "GRID") t; let '(stress, t) := r in
  do r <- nextStringDefault (txt "REDUCED") t; let '(isop, t) := r in
  do r <- nextStringDefault (txt "SMECH") t; let '(fctn, t) := r in
  Ok (mkSolid elemId mid (solid_integration psolid_in isop)).
(** NastranParser.cpp:2979-2999. *)
Definition parsePLSOLID (t : cursor) : outcome solid :=
  do r <- nextInt t; let '(pid, t) := r in
  do r <- nextInt t; let '(mid, t) := r in
  do r <- nextStringDefault (txt "GRID") t; let '(stress, t) := r in
  Ok (mkSolid pid mid TRIDIMENSIONAL).
(** The handlers of the keywords (NastranParser.cpp:134-160). *)
Definition parse_property (kw : str) (t : cursor) : outcome (shell + solid) :=
  if str_eqb kw (txt "PSHELL") then do s <- parsePSHELL t; Ok (inl s)
  else if str_eqb kw (txt "PIHEX") then do s <- parsePIHEX t; Ok (inl s)
  else if str_eqb kw (txt "PSOLID") then do s <- parsePSOLID t; Ok (inr s)
  else if str_eqb kw (txt "PLSOLID") then do s <- parsePLSOLID t; Ok (inr s)
  else Throw.

(** ** Composites *)
Record ply := mkPly { ply_mat : Z; ply_thickness : decimal; ply_angle : decimal }.
Inductive laminate := LFULL | LSYM | LHCS | LFCS | LACS | LSME | LSMC.
(** Element.cpp:411-432 getFullLayers and 402-409 getTotalThickness (exact). *)
Definition full_layers (o : laminate) (l : list ply) : outcome (list ply) :=
  match o with LFULL => Ok l | LSYM => Ok (l ++ rev l) | _ => Throw end.
Definition thickness_sum (l : list ply) : Q := fold_left (fun s p => (s + dec_q (ply_thickness p))%Q) l 0%Q.
Record composite := mkComposite { co_id : Z; co_option : laminate; co_plies : list ply; co_offset : Q }.
(** NastranParser.cpp:2546-2568: the failure theories that are known. *)
Definition known_theory (ft : str) : bool :=
  existsb (str_eqb ft) (map txt [""; "HILL"; "HOFF"; "TSAI"; "STRESS"; "STRAIN"; "STRN"; "LARC02"; "PUCK"; "MCT"]%string).
(** 2574-2592: after [lam == "SYM"] the tests are on [ft]. *)
Definition laminate_of (lam ft : str) : outcome laminate :=
  if str_eqb lam [] then Ok LFULL
  else if str_eqb lam (txt "SYM") then Ok LSYM
  else if str_eqb ft (txt "HCS") then Ok LHCS
  else if str_eqb ft (txt "FCS") then Ok LFCS
  else if str_eqb ft (txt "ACS") then Ok LACS
  else if str_eqb ft (txt "SME") then Ok LSME
  else if str_eqb ft (txt "SMC") then Ok LSMC
  else Throw.
(** 2603-2610.  [not isNextEmpty(4)] is tested first and may read beyond the end. *)
Fixpoint ply_loop (fuel : nat) (p1 : ply) (t : cursor) : outcome (list ply) :=
  match fuel with
  | O => NoFuel
  | S fuel =>
    do e <- isNextEmpty 4 t;
    if negb e && negb (isEmptyUntilNextKeyword t) then
      do r <- nextIntDefault (ply_mat p1) t; let '(midn, t) := r in
      do r <- nextDoubleDefault (ply_thickness p1) t; let '(tn, t) := r in
      do r <- nextDoubleDefault (ply_angle p1) t; let '(thetan, t) := r in
      do t <- skip 1 t;
      do l <- ply_loop fuel p1 t;
      Ok (mkPly midn tn thetan :: l)
    else Ok []
  end.
(** NastranParser.cpp:2538-2619. *)
Definition parsePCOMP (t : cursor) : outcome composite :=
  do r <- nextInt t; let '(pid, t) := r in
  do r <- optional_double t; let '(z0, t) := r in
  do r <- nextDoubleDefault dzero t; let '(nsm, t) := r in
  if negb (dec_is_zero nsm) then Throw else
  do r <- optional_double t; let '(sb, t) := r in
  do r <- nextStringDefault [] t; let '(ft, t) := r in
  if negb (known_theory ft) then Throw else
  do e <- isNextEmpty 2 t;
  do t <- (if e then skip 2 t else Throw);
  do r <- nextStringDefault [] t; let '(lam, t) := r in
  do o <- laminate_of lam ft;
  do r <- nextInt t; let '(mid1, t) := r in
  do r <- nextDouble t; let '(t1, t) := r in
  do r <- nextDoubleDefault dzero t; let '(theta1, t) := r in
  do t <- skip 1 t;
  do l <- ply_loop (S (length (cvec t))) (mkPly mid1 t1 theta1) t;
  let plies := mkPly mid1 t1 theta1 :: l in
  do off <- match z0 with
            | None => do f <- full_layers o plies; Ok (thickness_sum f / 2)%Q
            | Some z => Ok (dec_q z)
            end;
  Ok (mkComposite pid o plies off).

(** ** Bushes *)
(** DBL_MAX, the stiffness of a RIGID bush. *)
Definition DBL_MAX : decimal := dneg UNAVAILABLE_DOUBLE.
(** NastranTokenizer.cpp:431-434 skipToNotEmpty. *)
Fixpoint skipToNotEmpty (fuel : nat) (t : cursor) : outcome cursor :=
  match fuel with
  | O => NoFuel
  | S fuel => do e <- isNextEmpty 1 t; if e then do t <- skip 1 t; skipToNotEmpty fuel t else Ok t
  end.
(** NastranParser.cpp:2440-2482: one stiffness. *)
Definition bush_stiffness (t : cursor) : outcome (decimal * cursor) :=
  do d <- isNextDouble t;
  do e <- isNextEmpty 1 t;
  if d || e then nextDoubleDefault dzero t
  else do r <- nextString t; let '(w, t) := r in
       if str_eqb w (txt "RIGID") then Ok (DBL_MAX, t) else Throw.
Fixpoint bush_stiffnesses (n : nat) (t : cursor) : outcome (list decimal * cursor) :=
  match n with
  | O => Ok ([], t)
  | S n => do r <- bush_stiffness t; let '(k, t) := r in
           do r <- bush_stiffnesses n t; let '(l, t) := r in Ok (k :: l, t)
  end.
(** 2435-2505: the stiffnesses and the dampings; GE and RCV rows are read and
    dropped, an unknown flag is only warned about. *)
Fixpoint bush_loop (fuel : nat) (k b : list decimal) (t : cursor) : outcome (list decimal * list decimal) :=
  match fuel with
  | O => NoFuel
  | S fuel =>
    if isEmptyUntilNextKeyword t then Ok (k, b) else
    do t <- skipToNotEmpty (S (length (cvec t))) t;
    do r <- nextString t; let '(flag, t) := r in
    if str_eqb flag (txt "K") then do r <- bush_stiffnesses 6 t; let '(k, t) := r in bush_loop fuel k b t
    else if str_eqb flag (txt "B") then do r <- reals 6 t; let '(b, t) := r in bush_loop fuel k b t
    else if str_eqb flag (txt "GE") then do r <- reals 6 t; let '(_, t) := r in bush_loop fuel k b t
    else if str_eqb flag (txt "RCV") then do r <- reals 4 t; let '(_, t) := r in bush_loop fuel k b t
    else bush_loop fuel k b t
  end.
Definition six0 : list decimal := repeat dzero 6.
(** NastranParser.cpp:2410-2536: property, diagonal stiffnesses and dampings for
    DX, DY, DZ, RX, RY, RZ. *)
Definition parsePBUSH (t : cursor) : outcome (Z * list decimal * list decimal) :=
  do r <- nextInt t; let '(pid, t) := r in
  do r <- bush_loop (S (length (cvec t))) six0 six0 t;
  Ok (pid, fst r, snd r).

(** ** Concentrated masses *)
(** Element.h:507-540 NodalMass. *)
Record nodal_mass := mkNodalMass {
  nm_m : decimal; nm_ixx : decimal; nm_iyy : decimal; nm_izz : decimal;
  nm_ixy : decimal; nm_iyz : decimal; nm_ixz : decimal;
  nm_ex : decimal; nm_ey : decimal; nm_ez : decimal }.
(** NastranParser.cpp:1209-1246: element, node, system of the cell, mass.  The
    arguments of the constructor are in the order of Element.h:525. *)
Definition parseCONM2 (t : cursor) : outcome (Z * Z * Z * nodal_mass) :=
  do r <- nextInt t; let '(eid, t) := r in
  do r <- nextInt t; let '(g, t) := r in
  do r <- nextIntDefault 0 t; let '(ci, t) := r in
  let ci := if ci =? -1 then 0 else ci in
  do r <- nextDouble t; let '(mass, t) := r in
  do r <- next3 dzero t; let '(x, t) := r in
  let '(x1, x2, x3) := x in
  let ci := if negb (ci =? 0) && (negb (dec_is_zero x1) || negb (dec_is_zero x2) || negb (dec_is_zero x3)) then 0 else ci in
  do t <- skip 1 t;
  do r <- reals 6 t;
  match fst r with
  | [i11; i21; i22; i31; i32; i33] =>
    Ok (eid, g, ci, mkNodalMass mass i11 i22 i33 (dneg i21) (dneg i31) (dneg i32) x1 x2 x3)
  | _ => UB
  end.

(** ** What the Nastran writer prints (NastranWriter.cpp:790-892) *)
(** 802-815 PBEAM, or PBAR with the same fields for Cosmic. *)
Definition write_beam (tie : bool) (id mat : Z) (area iz iy j : wreal) : list str :=
  [int_text id; int_text mat; real_field tie area; real_field tie iz; real_field tie iy; real_field tie (0, 0); real_field tie j].
Definition beam_keyword (cosmic : bool) : str := if cosmic then txt "PBAR" else txt "PBEAM".
(** 793-801: the fields of PROD are prepared, then the pointer is printed
    ([out << truss]): [address] is its text. *)
Definition write_truss (address : str) (id mat : Z) (area j : wreal) : str := address.
(** 816-825. *)
Definition write_shell (tie : bool) (id mat : Z) (thickness : wreal) : list str :=
  [int_text id; int_text mat; real_field tie thickness; int_text mat].
(** 826-841. *)
Definition solid_keyword (cosmic : bool) : str := if cosmic then txt "PIHEX" else txt "PSOLID".
Definition write_solid (cosmic : bool) (id mat : Z) (i : integration) : list str :=
  int_text id :: int_text mat ::
  match i, cosmic with
  | TRIDIMENSIONAL, false => [int_text 0; txt "THREE"; txt "GRID"; txt "FULL"; txt "SMECH"]
  | _, _ => []
  end.
(** 862-873: one card for each node of the mass. *)
Definition write_conm2 (tie : bool) (id node : Z) (mass : wreal) : list str :=
  [int_text id; int_text node; int_text 0; real_field tie mass].
(** 874-891. *)
Definition write_bush (tie : bool) (id : Z) (k b : list wreal) : list str :=
  int_text id :: int_text 0 :: txt "K" :: map (real_field tie) k ++ [] :: txt "B" :: map (real_field tie) b.

(** The number a moment of inertia stands for (NastranParser.cpp:3014). *)
From Coq Require Import Reals Qreals.
Definition moment_R (m : moment) : R :=
  match m with Moment d => Q2R (dec_q d) | DiscMoment a => (Q2R (dec_q a) ^ 2 / 4 / PI)%R end.
