(** Model of the statistics of a mesh (lengths of its cells) and of the stiffness
    given to rigid elements from them.  Definitions only.

    Simplifications: doubles are reals, [M] stands for DBL_MAX and [tol] for the
    tolerance of is_zero; a quotient by zero (a NaN) is [None]; cells are given as
    the points of their nodes, by type; types are in the order of the map. *)
From Coq Require Import Reals List Bool.
From Verif Require Import Base GeomModel.
Import ListNotations.
Open Scope R_scope.

(** boost::geometry::comparable_distance of two nodes: the square of the distance. *)
Definition sqd (a b : vec) : R :=
  (vx a - vx b) * (vx a - vx b) + (vy a - vy b) * (vy a - vy b) + (vz a - vz b) * (vz a - vz b).

(** Mesh.cpp:881-889, one cell: i from the first to the node before the last, j
    from i (included) to the last. *)
Fixpoint pair_distances (l : list vec) : list R :=
  match l with
  | [] | [_] => []
  | a :: r => map (sqd a) (a :: r) ++ pair_distances r
  end.

Definition near_zero (tol x : R) : bool := if Rle_dec (Rabs x) tol then true else false.

(** Mesh.cpp:870-874: min, min of the non zero, max, sum, count. *)
Record acc := mkAcc { a_min : R; a_minnz : R; a_max : R; a_sum : R; a_count : nat }.

(** A type of cells: its number of nodes, its cells. *)
Definition ctypes := list (nat * list (list vec)).

(** Mesh.cpp:875-902, one type; the minimum of an empty range is read: [UB]. *)
Definition type_step (tol : R) (st : acc) (t : nat * list (list vec)) : outcome acc :=
  if Nat.ltb (fst t) 2 then Ok st
  else match flat_map pair_distances (snd t) with
       | [] => UB
       | d :: r =>
         let mn := if Rlt_dec 0 (a_min st) then Rmin (a_min st) (fold_left Rmin r d) else a_min st in
         let mx := Rmax (a_max st) (fold_left Rmax r d) in
         match filter (fun x => negb (near_zero tol x)) (d :: r) with
         | [] => UB
         | e :: s =>
           Ok (mkAcc mn (Rmin (a_minnz st) (fold_left Rmin s e)) mx
                 (a_sum st + fold_left Rplus (e :: s) 0) (a_count st + length (e :: s))%nat)
         end
       end.

(** Mesh.h:132-138. *)
Record stats := mkStats { minLength : R; minNonzeroLength : R; maxLength : R; quadraticMeanLength : option R }.

(** Mesh.cpp:869-907. *)
Definition compute_stats (M tol : R) (ts : ctypes) : outcome stats :=
  do st <- foldM (type_step tol) ts (mkAcc M M 0 0 0);
  Ok (mkStats (sqrt (a_min st)) (sqrt (a_minnz st)) (sqrt (a_max st))
        (match a_count st with O => None | n => Some (sqrt (a_sum st / INR n)) end)).
(** Mesh.cpp:865-868: the statistics are computed once. *)
Definition calcStats (M tol : R) (cache : option stats) (ts : ctypes) : outcome (option stats * stats) :=
  match cache with
  | Some s => Ok (cache, s)
  | None => do s <- compute_stats M tol ts; Ok (Some s, s)
  end.

(** SystusWriter.cpp:572-598, generateRbarStiffness: [young] the greatest modulus
    already found by this writer, if any; [moduli] those of the effective element
    sets whose main material is elastic.  [None]: not a number. *)
Definition generateRbarStiffness (M tol : R) (young : option R) (cache : option stats)
    (moduli : list R) (ts : ctypes) : outcome (R * option stats * option R) :=
  let e := match young with Some e => e | None => fold_left Rmax moduli 0 end in
  do cs <- calcStats M tol cache ts;
  let k := match quadraticMeanLength (snd cs) with
           | None => None
           | Some l => Some (e * (if near_zero tol l then 1 else l))
           end in
  Ok (e, fst cs, k).

(** SystusWriter.cpp:661-672 (RBAR) and 844-856 (relations): the number given to
    the material, [chosen] being the stiffness set by the user. *)
Definition rigid_value (lagrangian : bool) (coef : R) (chosen : option R) (computed : option R) : option R :=
  if lagrangian then Some coef
  else match chosen with
       | Some k => Some (coef * k)
       | None => option_map (Rmult coef) computed
       end.
