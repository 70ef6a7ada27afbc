(** Texts: strings as lists of characters, and the boost/std string functions
    the Nastran reader and writer rely on. *)
From Coq Require Import Ascii String ZArith List Bool Arith.
From Verif Require Import Base.
Import ListNotations.
Open Scope nat_scope.
Open Scope list_scope.

Definition str := list ascii.
Definition txt (x : string) : str := list_ascii_of_string x.
Definition null {A} (l : list A) : bool := match l with [] => true | _ => false end.

(** boost::is_space in the classic locale, used by boost::trim / trim_copy. *)
Definition is_space (c : ascii) : bool :=
  let n := nat_of_ascii c in (n =? 32) || ((9 <=? n) && (n <=? 13)).
(** std::isblank in the "C" locale: space or tabulation. *)
Definition is_blank (c : ascii) : bool :=
  let n := nat_of_ascii c in (n =? 32) || (n =? 9).
(** std::isdigit. *)
Definition is_digit (c : ascii) : bool :=
  let n := nat_of_ascii c in (48 <=? n) && (n <=? 57).

Fixpoint dropWhile (p : ascii -> bool) (l : str) : str :=
  match l with
  | [] => []
  | c :: r => if p c then dropWhile p r else l
  end.
(** boost::trim_left_copy, trim_right_copy, trim_copy. *)
Definition trim_left (l : str) : str := dropWhile is_space l.
Definition trim_right (l : str) : str := rev (dropWhile is_space (rev l)).
Definition trim (l : str) : str := trim_right (trim_left l).
(** boost::trim_if(s, is_any_of("0")). *)
Definition trim_char (z : ascii) (l : str) : str :=
  rev (dropWhile (Ascii.eqb z) (rev (dropWhile (Ascii.eqb z) l))).

(** boost::to_upper on one character ("C" locale). *)
Definition upper (c : ascii) : ascii :=
  let n := nat_of_ascii c in
  if (97 <=? n) && (n <=? 122) then ascii_of_nat (n - 32) else c.
Definition to_upper (l : str) : str := map upper l.

Fixpoint str_eqb (a b : str) : bool :=
  match a, b with
  | [], [] => true
  | x :: a, y :: b => Ascii.eqb x y && str_eqb a b
  | _, _ => false
  end.

(** Does the text begin with the character ([s[0] == c], which is false on the
    empty string: std::string's [s[0]] is then the terminating 0). *)
Definition starts (c : ascii) (l : str) : bool :=
  match l with x :: _ => Ascii.eqb x c | [] => false end.

Definition contains (c : ascii) (l : str) : bool := existsb (Ascii.eqb c) l.

(** boost::split(v, s, is_any_of(c)) without token compression. *)
Fixpoint split_on (c : ascii) (l : str) : list str :=
  match l with
  | [] => [[]]
  | x :: r =>
    if Ascii.eqb x c then [] :: split_on c r
    else match split_on c r with
         | f :: fs => (x :: f) :: fs
         | [] => [[x]]
         end
  end.

(** What follows the first occurrence of [c], the whole text if there is none:
    [s.substr(s.find(c) + 1)] with [npos + 1 = 0]. *)
Fixpoint after_first (c : ascii) (l : str) : option str :=
  match l with
  | [] => None
  | x :: r => if Ascii.eqb x c then Some r else after_first c r
  end.

(** What precedes the first occurrence of [c]. *)
Fixpoint before_first (c : ascii) (l : str) : str :=
  match l with
  | [] => []
  | x :: r => if Ascii.eqb x c then [] else x :: before_first c r
  end.

(** boost::erase_all(s, "c"). *)
Definition erase_char (c : ascii) (l : str) : str := filter (fun x => negb (Ascii.eqb x c)) l.

Definition spaces (n : nat) : str := repeat " "%char n.

(** ** Decimal numbers *)

Definition digit_val (c : ascii) : Z := (Z.of_nat (nat_of_ascii c) - 48)%Z.
Definition digits_val (l : str) : Z := fold_left (fun a c => (10 * a + digit_val c)%Z) l 0%Z.

Definition INT_MAX32 : Z := 2147483647.
Definition INT_MIN32 : Z := -2147483648.

(** boost::lexical_cast<int>: an optional sign, at least one digit, nothing
    else, and a value that fits; anything else is bad_lexical_cast. *)
Definition lexical_int (l : str) : outcome Z :=
  let '(neg, ds) := match l with
    | c :: r => if Ascii.eqb c "-" then (true, r) else if Ascii.eqb c "+" then (false, r) else (false, l)
    | [] => (false, l) end in
  if null ds || negb (forallb is_digit ds) then Throw
  else
    let v := if neg then (- digits_val ds)%Z else digits_val ds in
    if ((INT_MIN32 <=? v) && (v <=? INT_MAX32))%Z then Ok v else Throw.

(** std::to_string(int): fuelled on the binary size, which exceeds the number
    of decimal digits. *)
Fixpoint dec_digits (fuel : nat) (n : Z) (acc : str) : str :=
  match fuel with
  | O => acc
  | S f =>
    let acc := ascii_of_nat (48 + Z.to_nat (n mod 10)) :: acc in
    if (n <? 10)%Z then acc else dec_digits f (n / 10) acc
  end.
Definition nat_text (n : Z) : str := dec_digits (S (Z.to_nat (Z.log2 n))) n [].
Definition int_text (n : Z) : str := if (n <? 0)%Z then "-"%char :: nat_text (- n) else nat_text n.
