(** Tests of results written for the solvers: Aster/AsterWriter.cpp:568-599, 3064-3178 and
    Systus/SystusWriter.cpp:3209-3352.  Doubles are reals; the text of the blocks is the
    records below, so layout and the fifteen digits kept of a number are not modelled. *)
From Coq Require Import Reals ZArith List Bool Arith Lia.
From Verif Require Import Base DofModel.
Import ListNotations.
Open Scope nat_scope.
Open Scope R_scope.

(** Utility.h:67-73, with Globals::DOUBLE_COMPARE_TOLERANCE. *)
Definition tiny : R := 5 * / 2 ^ 52.
Definition le_bool (x y : R) : bool := if Rle_dec x y then true else false.
Definition is_null (x : R) : bool := le_bool (Rabs x) tiny.
Definition same_real (x y : R) : bool := le_bool (Rabs (x - y)) (tiny * Rmax 1 (Rmax (Rabs x) (Rabs y))).

(** std::abs of a complex number. *)
Definition modulus (z : R * R) : R := sqrt (fst z * fst z + snd z * snd z).

(** Objective.h:140-186.  [pos] is the position of a node or cell in the mesh, [id] its number. *)
Inductive expected :=
| Displacement (pos : nat) (id : Z) (d : dof) (tol value instant : R)
| Harmonic (pos : nat) (id : Z) (d : dof) (tol : R) (value : R * R) (freq : R)
| Frequency (number : Z) (cycles eigen mass stiff tol : R)
| VonMises (node cell : nat) (tol value : R).

(** ** Code_Aster *)

Inductive criterion := Relative | Absolute.
Inductive when := FirstOrder | Instant (t : R) | AtFrequency (f : R).
Inductive para := FREQ | CHAR_CRIT | MASS_GENE | RIGI_GENE.
(** What a block looks at: NOEUD, NOM_CMP and the order; NOEUD and GROUP_MA; PARA and NUME_MODE. *)
Inductive query :=
| AtNode (pos : nat) (d : dof) (w : when)
| AtCell (node cell : nat)
| OfMode (p : para) (number : Z).
(** A block of TEST_RESU: the PRECISION and VALE_REFE when there is a reference, VALE_CALC or
    VALE_CALC_C, and the two values of TOLE_MACHINE (the same twice when only one is given). *)
Record block := mkBlock { b_query : query; b_crit : criterion; b_ref : option (R * R); b_calc : R * R; b_machine : R * R }.

(** AsterWriter.h:37. *)
Definition smallest_relative : R := / 10 ^ 7.
Definition crit_of (size : R) : criterion := if le_bool smallest_relative size then Relative else Absolute.

(** AsterWriter.cpp:3064-3082. *)
Definition aster_displacement (pos : nat) (d : dof) (tol value instant : R) : block :=
  mkBlock (AtNode pos d (if negb (same_real instant (-1)) then Instant instant else FirstOrder))
    (crit_of (Rabs value)) (Some (tol, value)) (if is_null value then / 10 ^ 10 else value, 0) (tol, / 10 ^ 5).

(** AsterWriter.cpp:3084-3098. *)
Definition aster_harmonic (pos : nat) (d : dof) (tol : R) (value : R * R) (freq : R) : block :=
  let c := crit_of (modulus value) in
  mkBlock (AtNode pos d (AtFrequency freq)) c None value (match c with Relative => tol | Absolute => / 10 ^ 5 end, / 10 ^ 5).

(** AsterWriter.cpp:3100-3112. *)
Definition aster_vonmises (node cell : nat) (tol value : R) : block :=
  let c := crit_of (Rabs value) in
  mkBlock (AtCell node cell) c None (value, 0) (match c with Relative => tol | Absolute => / 10 ^ 5 end, / 10 ^ 5).

(** AsterWriter.cpp:3114-3175; [buckling], [low] and [high] come from the analysis (3115-3125).
    The result the blocks refer to (3129-3135) is in AsterScriptModel. *)
Definition aster_frequency (buckling : bool) (low high : R) (number : Z) (cycles eigen mass stiff tol : R) : list block :=
  if negb buckling && (negb (le_bool low cycles) || negb (le_bool cycles high)) then [] else
  let c := if is_null cycles then Absolute else Relative in
  let one p v := mkBlock (OfMode p number) c None (v, 0) (tol, tol) in
  if buckling then [one CHAR_CRIT eigen] else
  [one FREQ cycles; one MASS_GENE mass] ++ (if same_real mass 1 then [] else [one RIGI_GENE stiff]).

(** AsterWriter.cpp:572-596. *)
Definition aster_blocks (buckling : bool) (low high : R) (e : expected) : list block :=
  match e with
  | Displacement pos _ d tol v t => [aster_displacement pos d tol v t]
  | Harmonic pos _ d tol v f => [aster_harmonic pos d tol v f]
  | Frequency n c e m k tol => aster_frequency buckling low high n c e m k tol
  | VonMises n c tol v => [aster_vonmises n c tol v]
  end.
Definition aster_tests (buckling : bool) (low high : R) (l : list expected) : list block := flat_map (aster_blocks buckling low high) l.

(** ** Systus *)

(** A test of the LANGAGE section: node, rank of the component, reference, divisor and
    tolerance; for the harmonic one, also the pulsation looked for and the divisor of its
    difference. *)
Inductive stest :=
| SNode (id : Z) (rank : Z) (value divisor tol : R)
| SHarmonic (id : Z) (rank : Z) (puls pdivisor : R) (value : R * R) (divisor tol : R)
| SMode (number : Z) (value divisor tol : R).

(** SystusWriter.cpp:3287, 3320, 3339. *)
Definition divisor_of (size value : R) : R := if le_bool (/ 10 ^ 9) size then value else 1.

(** SystusWriter.cpp:3209-3252; [strict] is the translation mode (handleWritingError only
    stops in strict mode), [dynamic] whether the analysis is LINEAR_DYNA_MODAL_FREQ. *)
Definition systus_test (strict dynamic : bool) (e : expected) : outcome (list stest) :=
  match e with
  | Displacement _ id d tol v t =>
      if negb (same_real t (-1)) && strict then Throw else Ok [SNode id (dof_position d + 1)%Z v (divisor_of (Rabs v) v) tol]
  | Harmonic _ id d tol v f =>
      let puls := f * 2 * PI in
      Ok [SHarmonic id (dof_position d + 1)%Z puls (Rmax puls 1) v (divisor_of (modulus v) (modulus v)) tol]
  | Frequency n c _ _ _ tol => if dynamic then Ok [] else Ok [SMode n c (divisor_of (Rabs c) c) tol]
  | VonMises _ _ _ _ => Ok []
  end.
Definition systus_tests (strict dynamic : bool) (l : list expected) : outcome (list stest) :=
  do ls <- mapM (systus_test strict dynamic) l; Ok (concat ls).

(** The results the language of Systus reads: node_displacement(1, node)[rank],
    frequency_number, time_map for maps 1, 2, ..., and trans_node_displacement(map, node)[rank]. *)
Record sresults := mkSR { s_disp : Z -> Z -> R; s_freq : Z -> R; s_times : list R; s_trans : nat -> Z -> Z -> R }.

(** SystusWriter.cpp:3310: the loop written in the file, from [n]; [fuel] bounds the maps left. *)
Fixpoint search (times : list R) (puls pdivisor : R) (fuel n : nat) : nat :=
  match fuel with
  | O => n
  | S fuel =>
    if (n <? length times - 1)%nat && negb (le_bool (Rabs (nth (n - 1) times 0 - puls) / pdivisor) (/ 10 ^ 5))
    then search times puls pdivisor fuel (n + 1) else n
  end.

(** SystusWriter.cpp:3286-3293, 3311-3328, 3338-3345: OK or NOOK. *)
Definition says_ok (r : sresults) (t : stest) : bool :=
  match t with
  | SNode id k v dv tol => le_bool (Rabs ((s_disp r id k - v) / dv)) (Rabs tol)
  | SHarmonic id k puls pd v dv tol =>
      let n := search (s_times r) puls pd (length (s_times r)) 1 in
      let a := s_trans r n id k in
      let p := s_trans r (n + 1) id k in
      le_bool ((Rabs (a * cos p - fst v) + Rabs (a * sin p - snd v)) / dv) (Rabs tol)
  | SMode n v dv tol => le_bool (Rabs ((s_freq r n - v) / dv)) (Rabs tol)
  end.
