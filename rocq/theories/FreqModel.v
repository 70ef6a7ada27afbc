(** Model of the searches of modes, of the excitation frequencies and of the tabulated
    functions: the cards EIGRL, EIGR, EIGB, EIGC, FREQ, FREQ1, FREQ3, FREQ4, TABLED1,
    TABLES1 and TABDMP1 of the Nastran reader, the values they create, and what is
    written of them for Code_Aster and for Systus.

    Reals are the exact decimals of the fields, and rationals once computed with.  A
    value that is UNAVAILABLE_DOUBLE or UNAVAILABLE_INT is [None].  Of the text that is
    written only the commands, keywords and numbers are kept, not the layout nor the
    number of digits.  The registration in the model (objective sets, values) is in
    RegistryModel.  Warnings, which only print, are omitted. *)
From Coq Require Import Ascii String ZArith QArith Qabs List Bool Arith.
From Verif Require Import Base DofModel TextModel TokenizerModel RealModel WriterLineModel CardModel GridModel LoadCardModel PropCardModel.
Import ListNotations.
Open Scope Z_scope.
Open Scope list_scope.

(** ** Searches of modes *)
Inductive norm := MASS | MAX.
(** Value.h BandRange (start, maxsearch, end) with the set and the norm of the
    FrequencySearch that refers to it. *)
Record search := mkSearch { sr_set : Z; sr_lower : option decimal; sr_count : option Z; sr_upper : option decimal; sr_norm : norm }.
(** NastranParser.cpp:1544-1547, 1590-1593, 1631-1634. *)
Definition desired (nd : option Z) (upper : option decimal) : option Z :=
  match nd, upper with None, None => Some 1 | _, _ => nd end.
(** 1551-1560, 1597-1606, 1654-1663: any other word gives MAX. *)
Definition norm_of (w : str) : norm := if str_eqb w (txt "MASS") then MASS else MAX.

(** NastranParser.cpp:1624-1673. *)
Definition parseEIGRL (t : cursor) : outcome search :=
  do r <- nextInt t; let '(sid, t) := r in
  do r <- optional_double t; let '(lower, t) := r in
  do r <- optional_double t; let '(upper, t) := r in
  do r <- optional_int t; let '(nd, t) := r in
  do r <- optional_int t; let '(msglvl, t) := r in
  do r <- optional_int t; let '(maxset, t) := r in
  do r <- optional_double t; let '(shfscl, t) := r in
  do r <- nextStringDefault (txt "MASS") t; let '(w, t) := r in
  Ok (mkSearch sid lower (desired nd upper) upper (norm_of w)).
(** NastranParser.cpp:1575-1622. *)
Definition parseEIGR (t : cursor) : outcome search :=
  do r <- nextInt t; let '(sid, t) := r in
  do r <- nextStringDefault [] t; let '(method, t) := r in
  if negb (str_eqb method (txt "LAN")) then Throw else
  do r <- optional_double t; let '(lower, t) := r in
  do r <- optional_double t; let '(upper, t) := r in
  do r <- optional_int t; let '(ne, t) := r in
  do r <- optional_int t; let '(nd, t) := r in
  do t <- skip 2 t;
  do r <- nextStringDefault (txt "MASS") t; let '(w, t) := r in
  do r <- optional_int t; let '(g, t) := r in
  do r <- optional_int t; let '(c, t) := r in
  Ok (mkSearch sid lower (desired nd upper) upper (norm_of w)).
(** NastranParser.cpp:1531-1573: one field more than EIGR is read before the same
    skip(2). *)
Definition parseEIGB (t : cursor) : outcome search :=
  do r <- nextInt t; let '(sid, t) := r in
  do r <- nextStringDefault [] t; let '(method, t) := r in
  do r <- optional_double t; let '(lower, t) := r in
  do r <- optional_double t; let '(upper, t) := r in
  do r <- optional_int t; let '(ne, t) := r in
  do r <- optional_int t; let '(ndp, t) := r in
  do r <- optional_int t; let '(ndn, t) := r in
  do t <- skip 2 t;
  do r <- nextStringDefault (txt "MASS") t; let '(w, t) := r in
  do r <- optional_int t; let '(g, t) := r in
  do r <- optional_int t; let '(c, t) := r in
  Ok (mkSearch sid lower (desired ndp upper) upper (norm_of w)).
Inductive solver := ARNO | HESS | CLAN.
(** 1495-1504. *)
Definition solver_of (w : str) : solver :=
  if str_eqb w (txt "HESS") then HESS else if str_eqb w (txt "CLAN") then CLAN else ARNO.
(** NastranParser.cpp:1489-1529. *)
Definition parseEIGC (t : cursor) : outcome (Z * solver * Z) :=
  do r <- nextInt t; let '(sid, t) := r in
  do r <- nextStringDefault (txt "ARNO") t; let '(m, t) := r in
  do r <- nextStringDefault (txt "MAX") t; let '(w, t) := r in
  if negb (str_eqb w (txt "MAX")) then Throw else
  do r <- optional_int t; let '(g, t) := r in
  do r <- optional_int t; let '(c, t) := r in
  do r <- optional_double t; let '(ctol, t) := r in
  do r <- nextInt t; let '(nd, t) := r in
  Ok (sid, solver_of m, nd).

(** *** Written for Code_Aster *)
Inductive calc_option := SEPARE | PLUS_PETITE | CENTRE | BANDE.
Record calc_freq := mkCalc { cf_option : calc_option; cf_nmax : option Z; cf_band : option (decimal * decimal) }.
(** AsterWriter.cpp:2319-2364.  [cutoff]: the parameter LOWER_CUTOFF_FREQUENCY;
    [power]: use_power_iteration.  Without an upper bound the second number is
    -DBL_MAX: it is compared with UNAVAILABLE_INT. *)
Definition calc_start (cutoff lower : option decimal) : decimal :=
  match lower with Some l => l | None => match cutoff with Some c => c | None => dzero end end.
Definition writeCalcFreq (buckling power : bool) (cutoff : option decimal) (s : search) : calc_freq :=
  let option :=
    if power then SEPARE
    else if buckling || match sr_count s with Some _ => true | None => false end then PLUS_PETITE
    else match sr_upper s with None => CENTRE | Some _ => BANDE end in
  mkCalc option (sr_count s)
    match sr_count s with
    | Some _ => None
    | None => if buckling then None
              else Some (calc_start cutoff (sr_lower s), match sr_upper s with Some u => u | None => UNAVAILABLE_DOUBLE end)
    end.
(** 2299-2317: MASS_GENE or TRAN_ROTA. *)
Definition writeNorm (n : norm) : str := match n with MASS => txt "MASS_GENE" | MAX => txt "TRAN_ROTA" end.

(** *** Written for Systus *)
(** SystusWriter.h:88. *)
Definition defaultNbDesiredRoots : Z := 100.
(** [md_window]: FREQUENCY, STURM FREQUENCY, BETWEEN, AND; SHIFT if [None]. *)
Record modal := mkModal { md_modes : Z; md_iter : Z; md_window : option (Q * Q * Q * Q); md_mass : bool }.
(** SystusDat.cpp:100-196. *)
Definition writeLinearModal (version : Z) (cutoff : option decimal) (s : search) : modal :=
  let nmodes := match sr_count s with Some n => n | None => defaultNbDesiredRoots end in
  let lower := match sr_lower s with Some l => Some l | None => cutoff end in
  let window :=
    match sr_upper s with
    | None => None
    | Some u => let lo := match lower with Some l => dec_q l | None => 0%Q end in
                if version <? 2017 then None
                else Some ((1 # 2) * (lo + dec_q u), (1 # 2) * (dec_q u - lo), lo, dec_q u)%Q
    end in
  mkModal nmodes (2 * nmodes + 2) window match sr_norm s with MASS => true | MAX => false end.

(** ** Excitation frequencies *)
(** NastranTokenizer.cpp:492-498 nextDoubles. *)
Fixpoint doubles_loop (fuel : nat) (t : cursor) : outcome (list decimal * cursor) :=
  match fuel with
  | O => NoFuel
  | S fuel => do d <- isNextDouble t;
              if d then do r <- nextDouble t; let '(x, t) := r in
                        do r <- doubles_loop fuel t; let '(l, t) := r in Ok (x :: l, t)
              else Ok ([], t)
  end.
Definition nextDoubles (t : cursor) : outcome (list decimal * cursor) := doubles_loop (S (length (cvec t))) t.
(** Value.h StepRange. *)
Record step_range := mkStep { sg_start : Q; sg_step : Q; sg_count : Z; sg_end : Q }.
(** Value.cpp:110-113. *)
Definition step_of_count (start step : Q) (count : Z) : step_range :=
  mkStep start step count (start + step * inject_Z count)%Q.
(** Value.cpp:106-109. *)
Definition step_of_end (start : Q) (count : Z) (fin : Q) : step_range :=
  mkStep start ((fin - start) / inject_Z count)%Q count fin.
Inductive excitation :=
  | EList (sid : Z) (l : list decimal)
  | EStep (sid : Z) (r : step_range)
  | EInterpolate (sid : Z) (start : decimal) (n : Z) (fin : decimal)
  | ESpread (sid : Z) (start : decimal) (n : Z) (fin : decimal) (spread : decimal).
(** NastranParser.cpp:1724-1738. *)
Definition parseFREQ (t : cursor) : outcome excitation :=
  do r <- nextInt t; let '(sid, t) := r in
  do r <- nextDoubles t; let '(l, t) := r in
  Ok (EList sid l).
(** NastranParser.cpp:1740-1755. *)
Definition parseFREQ1 (t : cursor) : outcome excitation :=
  do r <- nextInt t; let '(sid, t) := r in
  do r <- nextDouble t; let '(start, t) := r in
  do r <- nextDouble t; let '(step, t) := r in
  do r <- nextIntDefault 1 t; let '(count, t) := r in
  Ok (EStep sid (step_of_count (dec_q start) (dec_q step) count)).
(** Utility.h:71-73 is_equal, on exact numbers. *)
Definition qmax (x y : Q) : Q := if Qle_bool x y then y else x.
Definition near (x y : Q) : bool :=
  Qle_bool (Qabs (x - y)) ((5 # 4503599627370496) * qmax 1 (qmax (Qabs x) (Qabs y)))%Q.
(** NastranParser.cpp:1757-1776. *)
Definition parseFREQ3 (t : cursor) : outcome excitation :=
  do r <- nextInt t; let '(sid, t) := r in
  do r <- nextDouble t; let '(startf, t) := r in
  do r <- nextDouble t; let '(endf, t) := r in
  do r <- nextStringDefault (txt "LINEAR") t; let '(type, t) := r in
  if negb (str_eqb type (txt "LINEAR")) then Throw else
  do r <- nextIntDefault 10 t; let '(nef, t) := r in
  do r <- nextDoubleDefault (1, 0) t; let '(cluster, t) := r in
  if negb (near (dec_q cluster) 1%Q) then Throw else
  Ok (EInterpolate sid startf nef endf).
(** NastranParser.cpp:1778-1795. *)
Definition parseFREQ4 (t : cursor) : outcome excitation :=
  do r <- nextInt t; let '(sid, t) := r in
  do r <- nextDouble t; let '(f1, t) := r in
  do r <- nextDouble t; let '(f2, t) := r in
  do r <- nextDouble t; let '(spread, t) := r in
  do r <- nextIntDefault 1 t; let '(nef, t) := r in
  Ok (ESpread sid f1 nef f2 spread).

(** Value.cpp:115-117 StepRange::iszero. *)
Definition step_is_zero (r : step_range) : bool :=
  near (sg_start r) (sg_end r) || (sg_count r =? 0) || near (sg_step r) 0%Q.
(** AsterWriter.cpp:798-828, 865-884: DEFI_LIST_REEL with VALE, or DEBUT, JUSQU_A
    and NOMBRE.  Nothing is written of a range that is zero nor of an empty list. *)
Inductive defi_list := Vale (l : list decimal) | Intervalle (debut jusqu_a : Q) (nombre : Z).
Definition writeListReel (e : excitation) : option defi_list :=
  match e with
  | EList _ [] => None
  | EList _ l => Some (Vale l)
  | EStep _ r => if step_is_zero r then None else Some (Intervalle (sg_start r) (sg_end r) (sg_count r))
  | _ => None
  end.
(** AsterWriter.cpp:2942-2952: for each modal frequency x, linspace(x, x+1-1/n, n),
    that is n numbers from x by steps of (1-1/n)/(n-1). *)
Definition linspace (a b : Q) (n : nat) : list Q :=
  map (fun i => a + (b - a) * inject_Z (Z.of_nat i) / inject_Z (Z.of_nat n - 1))%Q (seq 0 n).
Definition writeInterpolate (n : nat) (modes : list Q) : list Q :=
  flat_map (fun x => linspace x (x + 1 - 1 / inject_Z (Z.of_nat n)) n)%Q modes.
(** SystusDat.cpp:32-47: INITIAL, end and STEP; other values are only warned about. *)
Definition writeFrequencyExcit (e : excitation) : option (Q * Q * Q) :=
  match e with
  | EStep _ r => Some (sg_start r - sg_step r, sg_end r, sg_step r)%Q
  | _ => None
  end.

(** ** Tables *)
Inductive interpolation := ILINEAR | ILOG | ICONSTANT | INONE.
(** Value.h FunctionTable. *)
Record table := mkTable { tb_id : option Z; tb_x : interpolation; tb_y : interpolation;
  tb_left : interpolation; tb_right : interpolation; tb_points : list (decimal * decimal) }.
(** NastranParser.cpp:3610-3637, 3690-3722, 3742-3774: a break, an ENDT and a key that
    is only warned about all end the table, so that the three loops are one. *)
Fixpoint table_loop (fuel : nat) (t : cursor) : outcome (list (decimal * decimal)) :=
  match fuel with
  | O => NoFuel
  | S fuel =>
    do d <- isNextDouble t;
    if d then
      do r <- nextDouble t; let '(x, t) := r in
      do d <- isNextDouble t;
      if d then
        do r <- nextDouble t; let '(y, t) := r in
        do l <- table_loop fuel t; Ok ((x, y) :: l)
      else
        do r <- nextString t; let '(w, t) := r in
        if str_eqb w (txt "SKIP") then table_loop fuel t else Ok []
    else
      do r <- nextString t; let '(w, t) := r in
      if str_eqb w (txt "SKIP") then do t <- skip 1 t; table_loop fuel t else Ok []
  end.
Definition table_points (t : cursor) := table_loop (S (length (cvec t))) t.
(** 3664-3668. *)
Definition axis_of (w : str) : interpolation := if str_eqb w (txt "LINEAR") then ILINEAR else ILOG.
(** NastranParser.cpp:3661-3728. *)
Definition parseTABLED1 (t : cursor) : outcome table :=
  do r <- nextInt t; let '(id, t) := r in
  do r <- nextStringDefault (txt "LINEAR") t; let '(wx, t) := r in
  do r <- nextStringDefault (txt "LINEAR") t; let '(wy, t) := r in
  do i <- isNextInt t;
  do r <- (if i then nextInt t else Ok (-1, t)); let '(flat, t) := r in
  do t <- skipToNotEmpty (S (length (cvec t))) t;
  do l <- table_points t;
  Ok (mkTable (Some id) (axis_of wx) (axis_of wy) ILINEAR
        (if flat =? -1 then ILINEAR else if flat =? 0 then INONE else ICONSTANT) l).
(** NastranParser.cpp:3730-3779. *)
Definition parseTABLES1 (t : cursor) : outcome table :=
  do r <- nextInt t; let '(id, t) := r in
  do t <- skip 7 t;
  do l <- table_points t;
  Ok (mkTable (Some id) ILINEAR ILINEAR ILINEAR ILINEAR l).
Inductive damping := DCRIT | DG | DQ.
Definition damping_of (w : str) : outcome damping :=
  if str_eqb w (txt "CRIT") then Ok DCRIT else if str_eqb w (txt "G") then Ok DG
  else if str_eqb w (txt "Q") then Ok DQ else Throw.
(** NastranParser.cpp:3591-3659: the set, the kind of damping and the table. *)
Definition parseTABDMP1 (t : cursor) : outcome (Z * damping * table) :=
  do r <- nextInt t; let '(sid, t) := r in
  do r <- nextStringDefault (txt "G") t; let '(type, t) := r in
  do e <- isNextEmpty 1 t;
  do t <- (if e then
             do t <- skip 1 t;
             do i <- isNextInt t;
             do r <- (if i then nextInt t else Ok (-1, t)); let '(flat, t) := r in
             skipToNotEmpty (S (length (cvec t))) t
           else Ok t);
  do l <- table_points t;
  do d <- damping_of type;
  Ok (sid, d, mkTable None ILINEAR ILINEAR INONE ICONSTANT l).

(** Value.cpp:149-158. *)
Definition table_is_zero (f : table) : bool := forallb (fun p => dec_is_zero (snd p)) (tb_points f).
Definition table_scale (c : decimal) (f : table) : table :=
  mkTable (tb_id f) (tb_x f) (tb_y f) (tb_left f) (tb_right f)
    (map (fun p : decimal * decimal => (fst p, dmul (snd p) c)) (tb_points f)).
(** AsterModel.cpp:45-57. *)
Definition interpol_name (i : interpolation) : str :=
  match i with ILINEAR => txt "LIN" | ILOG => txt "LOG" | ICONSTANT => [] | INONE => txt "NON" end.
Definition prolongement_name (i : interpolation) : str :=
  match i with ILINEAR => txt "LINEAIRE" | ILOG => [] | ICONSTANT => txt "CONSTANT" | INONE => txt "EXCLU" end.
(** AsterWriter.cpp:885-924: VALE, INTERPOL, PROL_GAUCHE and PROL_DROITE of
    DEFI_FONCTION. *)
Record defi_fonction := mkFonction { ff_vale : list decimal; ff_interpol : str * str; ff_gauche : str; ff_droite : str }.
Definition writeFunction (f : table) : defi_fonction :=
  mkFonction (flat_map (fun p : decimal * decimal => [fst p; snd p]) (tb_points f))
    (interpol_name (tb_x f), interpol_name (tb_y f)) (prolongement_name (tb_left f)) (prolongement_name (tb_right f)).

(** SystusDat.cpp:50-92: GAMMA, and whether the writer warns that the damping is not
    constant.  An empty table is read beyond its end. *)
Definition gamma (d : damping) (x : Q) : Q :=
  match d with DCRIT => x | DG => x * 2 | DQ => 1 / x end%Q.
Definition writeModalDamping (d : damping) (f : table) : outcome (Q * bool) :=
  match tb_points f with
  | [] => UB
  | (_, y) :: _ => let g := gamma d (dec_q y) in
                   Ok (g, existsb (fun p => negb (near g (dec_q (snd p)))) (tb_points f))
  end.
(** AsterWriter.cpp:2893-2916: the coefficient and the name of the function that is
    combined, 1 and the table itself if there is no combination; Q is refused in strict mode
    (otherwise the function AMMOS that follows is missing). *)
Definition function_name (analysis : Z) : str := txt "AMMOI" ++ int_text analysis.
Definition writeDampingCoef (d : damping) (analysis : Z) : outcome (Q * str) :=
  match d with
  | DCRIT => Ok (1%Q, function_name analysis)
  | DG => Ok (2%Q, int_text analysis)
  | DQ => Throw
  end.
