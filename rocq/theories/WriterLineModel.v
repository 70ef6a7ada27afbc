(** Model of the class Line of Nastran/NastranWriter.cpp: writing one card. *)
From Coq Require Import Ascii String ZArith List Bool Arith.
From Verif Require Import Base TextModel.
Import ListNotations.
Open Scope nat_scope.
Open Scope list_scope.

(** [out << left << setw(w) << s] and [out << internal << setw(w) << s] for a
    text: padding on the right, on the left; longer texts are not cut. *)
Definition pad_right (w : nat) (s : str) : str := s ++ spaces (w - length s).
Definition pad_left (w : nat) (s : str) : str := spaces (w - length s) ++ s.

(** NastranWriter.cpp:52-60, constructor: (fieldLength, fieldNum). *)
Definition ends_star (k : str) : bool := match rev k with c :: _ => Ascii.eqb c "*" | [] => false end.
Definition fieldLength (keyword : str) : nat := if ends_star keyword then 16 else 8.
Definition fieldNum (keyword : str) : nat := if ends_star keyword then 5 else 9.

(** NastranWriter.cpp:100-112, add(string): the text of a field. *)
Definition add_text (fl : nat) (value : str) : str := pad_left fl value.
(** NastranWriter.cpp:114-119, add(int): [internal] puts the padding between
    the sign and the digits of a number. *)
Definition add_int (fl : nat) (n : Z) : str :=
  if (n <? 0)%Z then "-"%char :: pad_left (fl - 1) (nat_text (- n)) else pad_left fl (nat_text n).

(** NastranWriter.cpp:34-50, operator<<: [fields] are the texts made by [add];
    [counter] is the static Line::newlineCounter.  The result is the list of
    the lines written and the final counter.  [cur] is the line being written. *)
Fixpoint print_fields (fl fn : nat) (fields : list str) (fieldCount : nat) (counter : Z) (cur : str)
  : list str * Z :=
  match fields with
  | [] => ([cur], counter)
  | f :: r =>
    let fieldCount := S fieldCount in
    if fieldCount mod fn =? 0 then
      let counter := (counter + 1)%Z in
      let newlinesep := "+"%char :: int_text counter in
      let '(ls, c) := print_fields fl fn r (S fieldCount) counter (pad_right fl newlinesep ++ f) in
      ((cur ++ newlinesep) :: ls, c)
    else print_fields fl fn r fieldCount counter (cur ++ f)
  end.
Definition print_line (keyword : str) (fields : list str) (counter : Z) : list str * Z :=
  print_fields (fieldLength keyword) (fieldNum keyword) fields 0 counter (pad_right 8 keyword).

(** ** Reals *)

(** Rounding of [a/b] to the nearest integer; [up] decides an exact tie. *)
Definition nearest (up : bool) (a b : Z) : Z :=
  let q := (a / b)%Z in let r := (a mod b)%Z in
  if (2 * r <? b)%Z then q else if (b <? 2 * r)%Z then (q + 1)%Z else if up then (q + 1)%Z else q.

(** Number of decimal digits of a positive integer. *)
Definition ndigits (n : Z) : Z := Z.of_nat (length (nat_text n)).

(** A double is a finite decimal [n / 10^k]; [sci12 n k] is its absolute value
    printed with "%8.11e" (NastranWriter.cpp:73), as (M, E) for M * 10^(E-11)
    with twelve digits in M.  glibc rounds the exact value, ties to even. *)
Definition sci12 (n k : Z) : Z * Z :=
  let E := (ndigits (Z.abs n) - 1 - k)%Z in
  let u := (E - 11 + k)%Z in
  let M := if (0 <=? u)%Z then
             let b := (10 ^ u)%Z in nearest (Z.odd (Z.abs n / b)) (Z.abs n) b
           else (Z.abs n * 10 ^ (- u))%Z in
  if (M =? 10 ^ 12)%Z then ((10 ^ 11)%Z, (E + 1)%Z) else (M, E).

(** "%1.{d}f": the integer part, a point and exactly [d] digits. *)
Definition pad_zeros (d : nat) (s : str) : str := repeat "0"%char (d - length s) ++ s.
Definition fixed_text (d : nat) (r : Z) : str :=
  nat_text (r / 10 ^ Z.of_nat d) ++ "."%char :: pad_zeros d (nat_text (r mod 10 ^ Z.of_nat d)).

(** Utility.h:67-69 with the tolerance 5 * 2^-52 (Utility.h:53). *)
Definition is_zero (n k : Z) : bool := (Z.abs n * 2 ^ 52 <=? 5 * 10 ^ k)%Z.

(** NastranWriter.cpp:67-98, add(double) for the value [n / 10^k] in a field of
    8.  The mantissa printed with [leftover] decimals is the double nearest to
    M * 10^-11: it rounds as M does, except that an exact tie of M may go either
    way ([tie]).  The case of a text longer than the field (line 94), which the
    width computation excludes, is kept as [None]. *)
Definition real_text (tie : bool) (n k : Z) : str :=
  if is_zero n k then txt "0."
  else
    let '(M, E) := sci12 n k in
    let exp2 := nat_text (Z.abs E) in
    let sign := if (Z.abs n <? 10 ^ k)%Z then "-"%char else "+"%char in
    let neg := (n <? 0)%Z in
    let leftover := 5 - length exp2 - (if neg then 1 else 0) in
    let r := nearest tie M (10 ^ (11 - Z.of_nat leftover)) in
    let svalue3 := trim_char "0" ((if neg then ["-"%char] else []) ++ fixed_text leftover r) in
    pad_left 8 (svalue3 ++ sign :: exp2).
Definition add_double (tie : bool) (n k : Z) : option str :=
  let gnum := real_text tie n k in
  if length gnum <=? 8 then Some (pad_left 8 gnum) else None.
