(** Model of the checks of results in the command files of Systus.  Definitions only.

    Simplifications: numbers are reals and are written exactly; a check is one record, with
    the meaning the command language gives to its text; the tables printed beside each
    verdict are not modelled; the results are a function of the load case or map, of the
    node and of the component. *)
From Coq Require Import Reals ZArith List.
From Verif Require Import Base OptionsModel SystusDatModel.
Import ListNotations.
Open Scope R_scope.

(** Objective.h:116-190: node, position of the degree of freedom, expected value, tolerance. *)
Inductive assertion :=
| Displacement (node dof : Z) (value tolerance instant : R)
| Frequency (number : Z) (cycles tolerance : R)
| ComplexDisplacement (node dof : Z) (re im frequency tolerance : R)
| VonMises
| OtherAssertion.
(** The checks of the command language. *)
Inductive check :=
| CheckDisplacement (case node comp : Z) (ref divisor tolerance : R)
| CheckFrequency (number : Z) (ref divisor tolerance : R)
| CheckComplex (node comp : Z) (puls scale re im divisor tolerance : R).
(** What the solver computes: displacements of each load case, frequencies, and the maps of
    a frequency response, from 1, each followed by its phases. *)
Record results := mkRes {
  r_disp : Z -> Z -> Z -> R;
  r_freq : Z -> R;
  r_maps : nat;
  r_time : nat -> R;
  r_tran : nat -> Z -> Z -> R }.

(** Utility.h:71-73 is_equal with the tolerance of 53, five times the epsilon of doubles. *)
Definition near (x y : R) : bool := if Rle_dec (Rabs (x - y)) (5 / 2 ^ 52 * Rmax 1 (Rmax (Rabs x) (Rabs y))) then true else false.
(** SystusWriter.cpp:3286, 3318, 3339: what the difference is divided by. *)
Definition divisor (v : R) : R := if Rle_dec (/ 10 ^ 9) (Rabs v) then v else 1.
Definition modulus (re im : R) : R := sqrt (re * re + im * im).
(** SystusWriter.cpp:3224-3253 with 3273-3351: the check of one assertion. *)
Definition write_check (mode : tmode) (type : Z) (a : assertion) : outcome (list check) :=
  match a with
  | Displacement node dof v tol instant =>
    do _ <- (if near instant (-1) then Ok tt else writing_error mode);
    Ok [CheckDisplacement 1 node (dof + 1) v (divisor v) tol]
  | Frequency number cycles tol => if (type =? DYNA_MODAL)%Z then Ok [] else Ok [CheckFrequency number cycles (divisor cycles) tol]
  | ComplexDisplacement node dof re im f tol =>
    Ok [CheckComplex node (dof + 1) (f * 2 * PI) (Rmax (f * 2 * PI) 1) re im (divisor (modulus re im)) tol]
  | VonMises => Ok []
  | OtherAssertion => do _ <- writing_error mode; Ok []
  end.
Definition write_checks (mode : tmode) (type : Z) (l : list assertion) : outcome (list check) :=
  do cs <- mapM (write_check mode type) l; Ok (concat cs).

(** 3309-3312: the search of the map, from number n, with as many steps as maps. *)
Fixpoint find_map (r : results) (puls scale : R) (n fuel : nat) : nat :=
  match fuel with
  | O => n
  | S k => if Nat.ltb n (r_maps r - 1) then (if Rlt_dec (/ 10 ^ 5) (Rabs (r_time r n - puls) / scale) then find_map r puls scale (S n) k else n) else n
  end.
(** What a check compares with its tolerance, 3284-3286, 3313-3318, 3337-3339. *)
Definition difference (r : results) (c : check) : R :=
  match c with
  | CheckDisplacement case node comp v d _ => Rabs ((r_disp r case node comp - v) / d)
  | CheckFrequency number v d _ => Rabs ((r_freq r number - v) / d)
  | CheckComplex node comp puls scale re im d _ =>
    let n := find_map r puls scale 1 (r_maps r) in
    let x := r_tran r n node comp in let p := r_tran r (S n) node comp in
    (Rabs (x * cos p - re) + Rabs (x * sin p - im)) / d
  end.
Definition tolerance_of (c : check) : R :=
  match c with CheckDisplacement _ _ _ _ _ t | CheckFrequency _ _ _ t | CheckComplex _ _ _ _ _ _ _ t => t end.
(** 3293, 3326, 3345: NOOK when the difference is greater. *)
Definition prints_ok (r : results) (c : check) : bool := if Rgt_dec (difference r c) (Rabs (tolerance_of c)) then false else true.
