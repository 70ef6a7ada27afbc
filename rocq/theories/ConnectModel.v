(** Node order of elements between Nastran cards and the internal (MED) order. *)
From Coq Require Import ZArith List Bool Arith.
From Verif Require Import Base MeshNodeModel MeshCellModel.
Import ListNotations.
Open Scope nat_scope.

(** NastranParser_geometry.cpp:40-57. *)
Definition nastran2med (t : ctype) : option (list nat) :=
  match t with
  | TRI3 => Some [0;1;2]
  | TRI6 => Some [0;1;2;3;4;5]
  | QUAD4 => Some [0;1;2;3]
  | QUAD8 => Some [0;1;2;3;4;5;6;7]
  | QUAD9 => Some [0;1;2;3;4;5;6;7;8]
  | TETRA4 => Some [0;2;1;3]
  | TETRA10 => Some [0;2;1;3;6;5;4;7;9;8]
  | PYRA5 => Some [0;3;2;1;4]
  | PYRA13 => Some [0;3;2;1;4;8;7;6;5;9;12;11;10]
  | PENTA6 => Some [0;2;1;3;5;4]
  | PENTA15 => Some [0;2;1;3;5;4;8;7;6;12;14;13;11;10;9]
  | HEXA8 => Some [0;3;2;1;4;7;6;5]
  | HEXA20 => Some [0;3;2;1;4;7;6;5;11;10;9;8;16;19;18;17;15;14;13;12]
  | _ => None
  end.

(** NastranWriter.cpp:154-170. *)
Definition med2nastran (t : ctype) : option (list nat) :=
  match t with
  | TRI3 => Some [0;2;1]
  | TRI6 => Some [0;2;1;5;4;3]
  | QUAD4 => Some [0;3;2;1]
  | QUAD8 => Some [0;3;2;1;7;6;5;4]
  | QUAD9 => Some [0;3;2;1;7;6;5;4;8]
  | TETRA4 => Some [0;2;1;3]
  | TETRA10 => Some [0;2;1;3;6;5;4;7;9;8]
  | PYRA5 => Some [0;3;2;1;4]
  | PYRA13 => Some [0;3;2;1;4;8;7;6;5;9;12;11;10]
  | PENTA6 => Some [0;2;1;3;5;4]
  | PENTA15 => Some [0;2;1;3;5;4;8;7;6;14;13;12;9;11;10]
  | HEXA8 => Some [0;3;2;1;4;7;6;5]
  | HEXA20 => Some [0;3;2;1;4;7;6;5;11;10;9;8;19;18;17;16;12;15;14;13]
  | _ => None
  end.

(** v[k] = x on a vector: out of bounds is UB. *)
Definition store (v : list Z) (k : nat) (x : Z) : outcome (list Z) :=
  if k <? length v then Ok (set_nth v k x) else UB.

(** The loop "for i < n: out[table[i]] = in[i]" on a zero-initialised vector of
    n entries (NastranParser_geometry.cpp:449-453, NastranWriter.cpp:335-337). *)
Definition scatter (n : nat) (table : list nat) (inp : list Z) : outcome (list Z) :=
  foldM (fun v i =>
    do k <- of_option (nth_error table i);
    do x <- of_option (nth_error inp i);
    store v k x) (seq 0 n) (repeat 0%Z n).

(** NastranParser_geometry.cpp:430-439: the first listed type with as many nodes
    as the card has; none: parsing error (thrown in every translation mode,
    SolverInterfaces.cpp:163-182). *)
Fixpoint choose_type (ts : list ctype) (n : nat) : outcome ctype :=
  match ts with
  | [] => Throw
  | t :: r => if numNodes t =? n then Ok t else choose_type r n
  end.

(** NastranParser_geometry.cpp:440-455. *)
Definition parse_connect (t : ctype) (card : list Z) : outcome (list Z) :=
  match nastran2med t with
  | None => Ok card
  | Some p => scatter (numNodes t) p card
  end.

(** parseElem, NastranParser_geometry.cpp:424-458, from the node fields to the
    cell type and connectivity given to the mesh. *)
Definition parseElem (ts : list ctype) (card : list Z) : outcome (ctype * list Z) :=
  do t <- choose_type ts (length card);
  do med <- parse_connect t card;
  Ok (t, med).

(** NastranParser_geometry.cpp:485-535, cards CHEXA, CPENTA, CPYRA(M), CTETRA. *)
Definition card_types (t : ctype) : list ctype :=
  match t with
  | HEXA8 | HEXA20 => [HEXA8; HEXA20]
  | PENTA6 | PENTA15 => [PENTA6; PENTA15]
  | PYRA5 | PYRA13 => [PYRA5; PYRA13]
  | TETRA4 | TETRA10 => [TETRA4; TETRA10]
  | _ => []
  end.

(** parseShellElem, NastranParser_geometry.cpp:562-651: node fields as they are. *)
Definition parse_shell (t : ctype) (card : list Z) : outcome (list Z) :=
  match t with
  | TRI3 | QUAD4 | TRI6 | QUAD8 => if length card =? numNodes t then Ok card else Throw
  | _ => Throw
  end.

(** NastranWriter.cpp:328-338. *)
Definition write_connect (t : ctype) (med : list Z) : outcome (list Z) :=
  match med2nastran t with
  | None => Ok med
  | Some q => scatter (numNodes t) q med
  end.
