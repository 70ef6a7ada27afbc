(** Faces of solid cells (Abstract/MeshComponents.cpp:327-596). *)
From Coq Require Import ZArith List Bool Arith.
From Verif Require Import Base MeshNodeModel MeshCellModel.
Import ListNotations.

(** MeshComponents.cpp:332-403: 1-based positions in the connectivity. *)
Definition face_table (t : ctype) : option (list (list nat)) :=
  match t with
  | HEXA8 => Some [[1;2;3;4]; [5;8;7;6]; [1;5;6;2]; [2;6;7;3]; [3;7;8;4]; [1;4;8;5]]
  | TETRA4 => Some [[1;2;3]; [1;4;2]; [1;3;4]; [2;4;3]]
  | PYRA5 => Some [[1;2;3;4]; [1;5;2]; [1;4;5]; [4;3;5]; [2;5;3]]
  | PENTA6 => Some [[1;2;3]; [4;6;5]; [1;4;5;2]; [1;3;6;4]; [2;5;6;3]]
  | TETRA10 => Some [[1;2;3;5;6;7]; [1;4;2;8;9;5]; [1;3;4;7;10;8]; [2;4;3;9;10;6]]
  | PYRA13 => Some [[1;2;3;4;6;7;8;9]; [1;5;2;10;11;6]; [1;4;5;9;13;10]; [4;3;5;8;12;13]; [2;5;3;11;12;7]]
  | PENTA15 => Some [[1;2;3;7;8;9]; [4;6;5;12;11;10]; [1;4;5;2;13;10;14;7]; [1;3;6;4;9;15;12;13]; [2;5;6;3;14;11;15;8]]
  | HEXA20 => Some [[1;2;3;4;9;10;11;12]; [5;8;7;6;16;15;14;16]; [1;2;6;5;9;18;13;17]; [2;6;7;3;18;14;19;10];
                    [3;7;8;4;19;15;20;11]; [1;4;8;5;12;20;16;17]]
  | _ => None
  end%nat.

(** Reading nodeIds[nodenum - 1] for each entry; outside the vector is UB. *)
Definition gather (ids : list Z) (l : list nat) : outcome (list Z) :=
  mapM (fun k => of_option (nth_error ids (k - 1))) l.

(** MeshComponents.cpp:448-465: face number (1-based) -> nodes. *)
Definition nodeIdsByFaceNum (t : ctype) (ids : list Z) : outcome (list (list Z)) :=
  match face_table t with
  | None => Throw
  | Some fs => mapM (gather ids) fs
  end.

(** MeshComponents.cpp:433-446. *)
Fixpoint findNodeIdPosition (ids : list Z) (n : Z) : outcome nat :=
  match ids with
  | [] => Throw
  | x :: r => if Z.eqb x n then Ok O else do p <- findNodeIdPosition r n; Ok (S p)
  end.

Definition memN (k : nat) (l : list nat) : bool := existsb (Nat.eqb k) l.

(** The face chosen from connectivity positions, 0-based ([p2 = None] when no
    second node is given): the bodies of the switch at lines 482-538.  The
    TETRA loop has no break: the last match wins. *)
Definition choose_face (t : ctype) (fs : list (list nat)) (p1 : nat) (p2 : option nat) : outcome (list nat) :=
  match t with
  | TETRA4 | TETRA10 =>
      match p2 with
      | None => Throw
      | Some p => Ok (last (filter (fun f => negb (memN (S p) f)) fs) [])
      end
  | HEXA8 | HEXA20 =>
      match p2 with
      | None => Throw
      | Some p => Ok (hd [] (filter (fun f => memN (S p) f && memN (S p1) f) fs))
      end
  | PYRA5 | PYRA13 | PENTA6 | PENTA15 =>
      Ok (hd [] (filter (fun f => memN (S p1) f &&
            match p2 with
            | None => (length f =? 3)%nat || (length f =? 6)%nat
            | Some p => memN (S p) f
            end) fs))
  | _ => Throw
  end.

(** MeshComponents.cpp:467-546.  For a type without face table the original
    dereferences the end iterator only to bind a reference, then throws in the
    default branch: modelled as Throw. *)
Definition faceids_from_two_nodes (t : ctype) (ids : list Z) (n1 n2 : Z) : outcome (list Z) :=
  do p1 <- findNodeIdPosition ids n1;
  do p2 <- (if Z.eqb n2 UNAVAILABLE_INT then Ok None else do p <- findNodeIdPosition ids n2; Ok (Some p));
  if (dimension t =? 2)%nat then Ok ids
  else match face_table t with
  | None => Throw
  | Some fs => do f <- choose_face t fs p1 p2; gather ids f
  end.

(** The smallest element of the difference (v_difference[0] of two sorted
    sets): UB when empty. *)
Definition min_of (l : list Z) : outcome Z :=
  match l with [] => UB | x :: r => Ok (fold_left Z.min r x) end.

(** MeshComponents.cpp:561-596; [nodeIds_By_FaceNum[faceNum]] is the empty
    vector for an unknown face number, and indexing it is UB. *)
Definition two_nodeids_from_facenum (t : ctype) (ids : list Z) (k : nat) : outcome (Z * Z) :=
  do fs <- nodeIdsByFaceNum t ids;
  let f := nth (k - 1) (if (k =? 0)%nat then [] else fs) [] in
  match t with
  | TETRA4 | TETRA10 =>
      do d <- min_of (filter (fun x => negb (existsb (Z.eqb x) f)) ids);
      do a <- of_option (nth_error f 0); Ok (a, d)
  | PYRA5 | PENTA6 | PYRA13 | PENTA15 =>
      do a <- of_option (nth_error f 0);
      if (length f =? 4)%nat || (length f =? 8)%nat
      then do b <- of_option (nth_error f 1); Ok (a, b)
      else Ok (a, UNAVAILABLE_INT)
  | HEXA8 | HEXA20 =>
      do a <- of_option (nth_error f 0); do b <- of_option (nth_error f 2); Ok (a, b)
  | _ => Throw
  end.

(** MeshComponents.cpp:407-422 and 548-559. *)
Definition corner_count (t : ctype) : option nat :=
  match t with
  | SEG2 | SEG3 => Some 2
  | TRI3 | TRI6 => Some 3
  | QUAD4 | QUAD8 | TETRA4 | TETRA10 => Some 4
  | PYRA5 | PYRA13 => Some 5
  | PENTA6 | PENTA15 => Some 6
  | HEXA8 | HEXA20 => Some 8
  | _ => None
  end%nat.
Definition cornerNodeIds (t : ctype) (ids : list Z) : outcome (list Z) :=
  match corner_count t with
  | None => Throw
  | Some n => mapM (fun k => of_option (nth_error ids k)) (seq 0 n)
  end.
