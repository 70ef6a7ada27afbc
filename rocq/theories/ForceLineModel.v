(** Model of Model::changeParametricForceLineToAbsolute (Abstract/Model.cpp:2020-2052),
    the pass of Model::finish that gives the loads on lines as functions of X for
    Code_Aster. *)
From Coq Require Import ZArith QArith Qabs Qminmax List Bool Arith.
From Verif Require Import Base ReferenceModel.
Import ListNotations.
Open Scope Z_scope.

(** Utility.h:53,71-73 is_equal. *)
Definition close (x y : Q) : bool :=
  Qle_bool (Qabs (x - y)) ((5 # 1) * (1 # 2 ^ 52) * Qmax 1 (Qmax (Qabs x) (Qabs y))).

(** Value.h Function::ParaName (the names which play no part are numbered) and
    Interpolation. *)
Inductive para := ABSC | PARAX | ParaOther (n : nat).
Inductive interpolation := LINEAR | LOGARITHMIC | CONSTANT | NOINTER.

(** Value.h:340-358 FunctionTable; [t_id] is its original number or NO_ID. *)
Record ftable := mkTable {
  t_id : Z; t_x : para; t_y : option para;
  t_param : interpolation; t_value : interpolation; t_left : interpolation; t_right : interpolation;
  t_points : list (Q * Q)
}.

(** The force of a line (Loading.h:371-391): a number, a table or another
    function. *)
Inductive lforce := FNumber (x : Q) | FTable (t : ftable) | FOther (n : nat).
Definition is_function (f : lforce) : bool := match f with FNumber _ => false | _ => true end.

(** Loading.h:371-391 ForceLine: its cells with those of its groups, in ascending
    position, its force and its component. *)
Record fline := mkLine { l_cells : list nat; l_force : lforce; l_dof : Z }.

Section Pass.
(** Mesh::findCell and findNode: the node positions of a cell, the X of a node. *)
Variable cell_nodes : nat -> list nat.
Variable node_x : nat -> Q.

(** Model.cpp:2041-2046: the X of a point given by its fraction. *)
Definition absolute (x1 x2 : Q) (p : Q * Q) : Q * Q := ((x1 * (1 - fst p) + x2 * fst p)%Q, snd p).

(** Model.cpp:2021-2050, one load; [ids] are the original numbers of the tables in the
    model (Model.h:550-580: adding a table with the number of another which is not
    a placeholder throws). *)
Definition convert (ids : list Z) (l : fline) : outcome (list Z * fline) :=
  if negb (is_function (l_force l)) then Ok (ids, l)
  else match l_cells l with
  | [c] =>
      do n1 <- match nth_error (cell_nodes c) 0 with Some n => Ok n | None => UB end;
      do n2 <- match nth_error (cell_nodes c) 1 with Some n => Ok n | None => UB end;
      let x1 := node_x n1 in
      let x2 := node_x n2 in
      if close x1 x2 then Throw
      else match l_force l with
      | FTable t =>
          match t_x t with
          | ABSC =>
              let t' := mkTable (t_id t) PARAX (t_y t) (t_param t) (t_value t) (t_left t) (t_right t)
                                (map (absolute x1 x2) (t_points t)) in
              if negb (length (cell_nodes c) =? 2)%nat then Throw
              else if negb (t_id t =? NO_ID) && existsb (Z.eqb (t_id t)) ids then Throw
              else Ok (if t_id t =? NO_ID then ids else t_id t :: ids,
                       mkLine (l_cells l) (FTable t') (l_dof l))
          | _ => Ok (ids, l)
          end
      | _ => Throw
      end
  | _ => Throw
  end.

(** Model.cpp:2020-2052: all the loads on lines, in the order of their numbers. *)
Fixpoint to_absolute (ids : list Z) (ls : list fline) : outcome (list Z * list fline) :=
  match ls with
  | [] => Ok (ids, [])
  | l :: r => do a <- convert ids l; do b <- to_absolute (fst a) r; Ok (fst b, snd a :: snd b)
  end.
End Pass.
