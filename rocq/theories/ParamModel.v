(** Model of the PARAM cards (Nastran/NastranParser_param.cpp:38-311), of the texts in
    which the model keeps their values (Abstract/Utility.h:105-127) and of what the
    writers make of them. *)
From Coq Require Import Ascii String ZArith QArith List Bool Arith.
From Verif Require Import Base TextModel TokenizerModel RealModel LoadCardModel WriterLineModel CaseControlModel.
Import ListNotations.
Open Scope Z_scope.
Open Scope list_scope.

(** Abstract/Model.h ModelParameter, those the cards set. *)
Inductive parameter :=
| RAYLEIGH_MASS | RAYLEIGH_STIFFNESS | QUALITY_CHECK | UPPER_CUTOFF | LOWER_CUTOFF | LARGE_DISPLACEMENTS
| NORMAL_STIFFNESS | STRUCTURAL_DAMPING | FREQUENCY_OF_INTEREST | MASS_MULTIPLIER | PRINT_MAXIM.
Definition parameter_eq_dec (a b : parameter) : {a = b} + {a <> b}.
Proof. decide equality. Defined.

(** Model.h:264 [parameters], a map from parameters to texts; Model.cpp:811-826
    setParameter, contains, getParameter. *)
Definition parameters := parameter -> option str.
Definition no_parameters : parameters := fun _ => None.
Definition setParameter (p : parameter) (v : str) (m : parameters) : parameters :=
  fun q => if parameter_eq_dec p q then Some v else m q.
Definition getParameter (m : parameters) (p : parameter) : str := match m p with Some v => v | None => [] end.

(** Utility.h:105-119: [std::fixed] with digits10 = 15 decimals.  The value printed is the
    exact decimal of the card, rounded to nearest (ties to even, as glibc does). *)
Definition scaled15 (d : decimal) : Z :=
  let '(m, e) := d in
  if 0 <=? e + 15 then Z.abs m * 10 ^ (e + 15)
  else let b := 10 ^ (- (e + 15)) in nearest (Z.odd (Z.abs m / b)) (Z.abs m) b.
Definition fixed15 (d : decimal) : str :=
  (if fst d <? 0 then ["-"%char] else []) ++ fixed_text 15 (scaled15 d).
Definition complex15 (re im : decimal) : str := "("%char :: fixed15 re ++ ","%char :: fixed15 im ++ [")"%char].

(** The sixteen entries of PARSEPARAM_FUNCTION_BY_KEYWORD (NastranParser_param.cpp:38-56). *)
Inductive pname :=
| ALPHA1 | ALPHA2 | AUTOSPC | CHECKEL | PG | GRDPNT | HFREQ | K6ROT | INREL | LFREQ | LGDISP | NOCOMPS | PATVER | PRTMAXIM | W3 | WTMASS.
Definition param_table : list (str * pname) :=
  [(txt "ALPHA1", ALPHA1); (txt "ALPHA2", ALPHA2); (txt "AUTOSPC", AUTOSPC); (txt "CHECKEL", CHECKEL);
   (txt "G", PG); (txt "GRDPNT", GRDPNT); (txt "HFREQ", HFREQ); (txt "K6ROT", K6ROT); (txt "INREL", INREL);
   (txt "LFREQ", LFREQ); (txt "LGDISP", LGDISP); (txt "NOCOMPS", NOCOMPS); (txt "PATVER", PATVER);
   (txt "PRTMAXIM", PRTMAXIM); (txt "W3", W3); (txt "WTMASS", WTMASS)].
Definition find_param (w : str) : option pname := option_map snd (find (fun e => str_eqb (fst e) w) param_table).
(** NastranParser.h:904-913 IGNORED_PARAMS. *)
Definition ignored_params : list str :=
  map txt ["BAILOUT"; "COUPMASS"; "DESPCH"; "DESPCH1"; "NASPRT"; "OUGCORD"; "POST"; "PRGPST"; "TINY"]%string.

(** A real with a default, kept only if it is not equal to the default (HFREQ 150-158,
    LFREQ 188-193, G 195-200, W3 202-207). *)
Definition real_unless (dflt : decimal) (p : parameter) (m : parameters) (t : cursor) : outcome parameters :=
  do r <- nextDoubleDefault dflt t; let '(v, _) := r in
  Ok (if is_equal v dflt then m else setParameter p (fixed15 v) m).
(** A complex number (ALPHA1 58-64, ALPHA2 66-72). *)
Definition complex_of (p : parameter) (m : parameters) (t : cursor) : outcome parameters :=
  do r <- nextDoubleDefault (0, 0) t; let '(re, t) := r in
  do r <- nextDoubleDefault (0, 0) t; let '(im, _) := r in
  Ok (setParameter p (complex15 re im) m).

(** NastranParser_param.cpp:58-281, the functions of the table.  Warnings only print. *)
Definition parse_named (n : pname) (m : parameters) (t : cursor) : outcome parameters :=
  match n with
  | ALPHA1 => complex_of RAYLEIGH_MASS m t
  | ALPHA2 => complex_of RAYLEIGH_STIFFNESS m t
  | AUTOSPC => do r <- nextStringDefault (txt "NO") t; Ok m
  | CHECKEL => do r <- nextStringDefault (txt "YES") t; let '(v, _) := r in
      Ok (if str_eqb v (txt "YES") || str_eqb v (txt "FULL") then setParameter QUALITY_CHECK v m else m)
  | PG => real_unless (0, 0) STRUCTURAL_DAMPING m t
  | GRDPNT => do r <- nextIntDefault (-1) t; Ok m
  | HFREQ => real_unless (1, 30) UPPER_CUTOFF m t
  | K6ROT => do r <- nextDoubleDefault (100, 0) t; let '(v, _) := r in Ok (setParameter NORMAL_STIFFNESS (fixed15 v) m)
  | INREL => do r <- nextStringDefault (txt "NO") t; Ok m
  | LFREQ => real_unless (0, 0) LOWER_CUTOFF m t
  | LGDISP => do r <- nextIntDefault (-1) t; let '(v, _) := r in
      Ok (if v =? -1 then m else setParameter LARGE_DISPLACEMENTS (int_text v) m)
  | NOCOMPS => do r <- nextIntDefault 1 t; Ok m
  | PATVER => do r <- nextDoubleDefault (3, 0) t; let '(v, _) := r in if is_equal v (3, 0) then Ok m else Throw
  | PRTMAXIM => do r <- nextStringDefault (txt "NO") t; let '(v, _) := r in
      Ok (if str_eqb v (txt "YES") then setParameter PRINT_MAXIM v m else m)
  | W3 => real_unless (0, 0) FREQUENCY_OF_INTEREST m t
  | WTMASS => do r <- nextDoubleDefault (1, 0) t; let '(v, _) := r in Ok (setParameter MASS_MULTIPLIER (fixed15 v) m)
  end.

(** NastranParser_param.cpp:283-309 findParamParser, parsePARAM. *)
Definition parsePARAM (m : parameters) (t : cursor) : outcome parameters :=
  do r <- nextString t; let '(w, t) := r in
  match find_param w with
  | Some n => parse_named n m t
  | None => if existsb (str_eqb w) ignored_params then Ok m else Throw
  end.
(** NastranParser.cpp:504-509, 545-555: a card that throws is dismissed (outside strict
    mode); every throw above comes before the model is changed.  The fields of [vec]
    start with the keyword PARAM, read first. *)
Definition read_param (m : parameters) (vec : list str) : parameters :=
  match parsePARAM m (snd (nextSymbolString (mkCursor vec 0 KEYWORD))) with Ok m' => m' | _ => m end.
Definition read_params (m : parameters) (cards : list (list str)) : parameters := fold_left read_param cards m.

(** ** What the writers make of them *)

(** Material.cpp:136-143 (getRho, with the same lines in getRhoAsForceDensity and
    NodalMass::getMass, Element.cpp:935-942): the factor of the masses; the assertion
    that it is not zero is [UB]. *)
Definition mass_multiplier (m : parameters) : outcome decimal :=
  match m MASS_MULTIPLIER with
  | None => Ok (1, 0)
  | Some t => do v <- stod t; if is_equal v (0, 0) then UB else Ok v
  end.
(** Model.cpp:828-835 needsLargeDisplacements; std::stoi. *)
Definition needsLargeDisplacements (m : parameters) : outcome bool :=
  match m LARGE_DISPLACEMENTS with None => Ok false | Some t => do v <- stoi t; Ok (negb (v =? 0)) end.
(** AsterWriter.cpp:134-139: are the extrema of the displacements printed? *)
Definition prints_extrema (m : parameters) : bool := negb (str_eqb (getParameter m PRINT_MAXIM) (txt "NO")).
(** AsterWriter.cpp:676-688, outside debug: 'OUI', 'NON' or nothing. *)
Definition mesh_check (m : parameters) : option bool :=
  let v := getParameter m QUALITY_CHECK in
  if negb (str_eqb v []) then if negb (str_eqb v (txt "NO")) then Some true else None else Some false.
(** AsterWriter.cpp:2322-2331: the lower bound of a band without one. *)
Definition lower_bound (m : parameters) : outcome decimal :=
  match m LOWER_CUTOFF with Some t => stod t | None => Ok (0, 0) end.
(** AsterWriter.cpp:2585-2593: the coefficient of the damping matrix, if it is written. *)
Definition damping_coefficient (m : parameters) : outcome (option Q) :=
  let g := getParameter m STRUCTURAL_DAMPING in
  let w := getParameter m FREQUENCY_OF_INTEREST in
  if str_eqb g [] || str_eqb w [] then Ok None else
  do wv <- stod w;
  if Qle_bool (dec_q wv) 0 then Ok None else
  do gv <- stod g; Ok (Some (dec_q gv / dec_q wv)%Q).
(** Utility.h:121-127 from_string<complex<double>> on the texts of [complex15]: the
    parenthesis, a number, the comma, a number, the parenthesis. *)
Definition from_complex (t : str) : outcome (decimal * decimal) :=
  match t with
  | c :: r => if Ascii.eqb c "(" then
                match after_first "," r with
                | Some r' => do re <- lexical_double (before_first "," r); do im <- lexical_double (before_first ")" r'); Ok (re, im)
                | None => Throw
                end
              else Throw
  | [] => Throw
  end.
(** AsterWriter.cpp:955-973: AMOR_ALPHA, AMOR_BETA of the elastic materials; a factor
    with an imaginary part is an error outside which nothing else changes. *)
Definition rayleigh (m : parameters) (p : parameter) : outcome (option decimal) :=
  match m p with
  | None => Ok None
  | Some t => do c <- from_complex t; Ok (if is_equal (fst c) (0, 0) then None else Some (fst c))
  end.
