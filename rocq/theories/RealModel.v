(** Model of real fields: NastranTokenizer::nextDouble. *)
From Coq Require Import Ascii String ZArith List Bool Arith.
From Verif Require Import Base TextModel TokenizerModel.
Import ListNotations.
Open Scope nat_scope.
Open Scope list_scope.

(** A real is the exact decimal [m * 10^e] its text denotes, as the pair (m, e);
    the final rounding to the nearest double, overflow and underflow are not
    modelled, nor the texts "inf" and "nan". *)
Definition decimal := (Z * Z)%type.

Fixpoint take_digits (l : str) : str * str :=
  match l with
  | c :: r => if is_digit c then let '(d, r') := take_digits r in (c :: d, r') else ([], l)
  | [] => ([], [])
  end.
Definition take_sign (l : str) : bool * str :=
  match l with
  | c :: r => if Ascii.eqb c "-" then (true, r) else if Ascii.eqb c "+" then (false, r) else (false, l)
  | [] => (false, [])
  end.

(** boost::lexical_cast<double>: sign, digits with at most one point and at
    least one digit, optional exponent with at least one digit; nothing else. *)
Definition lexical_double (l : str) : outcome decimal :=
  let '(neg, l) := take_sign l in
  let '(ip, l) := take_digits l in
  let '(fp, l) := match l with c :: r => if Ascii.eqb c "." then take_digits r else ([], l) | [] => ([], []) end in
  if null (ip ++ fp) then Throw else
  let m := if neg then (- digits_val (ip ++ fp))%Z else digits_val (ip ++ fp) in
  let f := Z.of_nat (length fp) in
  match l with
  | [] => Ok (m, - f)%Z
  | c :: r =>
    if Ascii.eqb c "e" || Ascii.eqb c "E" then
      let '(eneg, r) := take_sign r in
      let '(ed, r) := take_digits r in
      if null ed || negb (null r) then Throw
      else Ok (m, (if eneg then - digits_val ed else digits_val ed) - f)%Z
    else Throw
  end.

(** std::string::find_first_of. *)
Fixpoint find_first (p : ascii -> bool) (l : str) : option nat :=
  match l with
  | [] => None
  | c :: r => if p c then Some 0 else option_map S (find_first p r)
  end.
Definition is_sign (c : ascii) : bool := Ascii.eqb c "+" || Ascii.eqb c "-".
Definition is_e (c : ascii) : bool := Ascii.eqb c "e" || Ascii.eqb c "E".

(** NastranTokenizer.cpp:512-518: 'd' becomes 'e', 'D' becomes 'E', blanks are
    erased, and an 'E' is inserted before the first sign after the first
    character unless the first 'e'/'E' is just before it. *)
Definition replace_d (l : str) : str :=
  map (fun c => if Ascii.eqb c "d" then "e"%char else if Ascii.eqb c "D" then "E"%char else c) l.
Definition insert_e (value : str) : str :=
  match value with
  | [] => []
  | _ :: rest =>
    match find_first is_sign rest with
    | None => value
    | Some p =>
      let position := S p in
      let epos1 := match find_first is_e rest with Some q => S (S q) | None => 0 end in
      if position =? epos1 then value else firstn position value ++ "E"%char :: skipn position value
    end
  end.
Definition normalise (value : str) : str := insert_e (erase_char " " (replace_d value)).

(** NastranTokenizer.cpp:500-529, nextDouble (no default): a field's text. *)
Definition real_of_field (f : str) : outcome decimal :=
  let value := trim f in
  if null value then Throw else lexical_double (normalise value).
Definition nextDouble (t : cursor) : outcome (decimal * cursor) :=
  let '(s, t') := nextSymbolString t in
  do v <- real_of_field s; Ok (v, t').
(** With a default value. *)
Definition nextDoubleDefault (d : decimal) (t : cursor) : outcome (decimal * cursor) :=
  let '(s, t') := nextSymbolString t in
  if null (trim s) then Ok (d, t') else do v <- real_of_field s; Ok (v, t').
