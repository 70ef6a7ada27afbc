(** Model of the cards of OptiStruct (Optistruct/OptistructParser.cpp): SET, SURF and CONTACT. *)
From Coq Require Import Ascii String ZArith List Bool Arith.
From Verif Require Import Base TextModel TokenizerModel RealModel CardModel LoadCardModel.
Import ListNotations.
Open Scope Z_scope.
Open Scope list_scope.

(** NastranTokenizer.cpp:431-434 skipToNotEmpty; each turn goes one field further. *)
Fixpoint skip_blanks (fuel : nat) (t : cursor) : outcome cursor :=
  match fuel with
  | O => NoFuel
  | S f => do e <- isNextEmpty 1 t; if e then do t <- skip 1 t; skip_blanks f t else Ok t
  end.
Definition skipToNotEmpty (t : cursor) : outcome cursor := skip_blanks (S (length (cvec t))) t.

(** ** SET *)

(** What a SET card leaves in the model: the set of the values and the group SET_sid with
    the numbers put in it, or the list of a FrequencySearch. *)
Inductive oset :=
| GridSet (sid : Z) (values group : list Z)
| ElemSet (sid : Z) (values group : list Z)
| FreqSet (sid : Z) (values : list decimal).

(** OptistructParser.cpp:141-143. *)
Fixpoint doubles (fuel : nat) (t : cursor) : outcome (list decimal * cursor) :=
  match fuel with
  | O => NoFuel
  | S f => do d <- isNextDouble t;
           if d then do r <- nextDouble t; let '(v, t) := r in
                     do r <- doubles f t; let '(l, t) := r in Ok (v :: l, t)
           else Ok ([], t)
  end.
(** OptistructParser.cpp:140-145. *)
Fixpoint freq_loop (fuel : nat) (t : cursor) : outcome (list decimal) :=
  match fuel with
  | O => NoFuel
  | S f => if isEmptyUntilNextKeyword t then Ok []
           else do r <- doubles (S (length (cvec t))) t; let '(l, t) := r in
                do t <- skipToNotEmpty t; do r <- freq_loop f t; Ok (l ++ r)
  end.

(** OptistructParser.cpp:103-159; the keyword is read.  An error dismisses the card.  The
    registries (a number or a group name taken already) are left out. *)
Definition parseSET (t : cursor) : outcome oset :=
  do r <- nextInt t; let '(sid, t) := r in
  do r <- nextString t; let '(type, t) := r in
  do r <- nextStringDefault (txt "LIST") t; let '(subtype, t) := r in
  do t <- skipToNotEmpty t;
  if negb (str_eqb subtype (txt "LIST")) then Throw
  else if str_eqb type (txt "GRID") then
    do r <- nextInts t; let '(ids, _) := r in Ok (GridSet sid ids ids)
  else if str_eqb type (txt "ELEM") then
    do r <- nextInts t; let '(ids, t) := r in
    do r <- nextInts t; let '(members, _) := r in Ok (ElemSet sid ids members)
  else if str_eqb type (txt "FREQ") then
    do l <- freq_loop (S (length (cvec t))) t; Ok (FreqSet sid l)
  else Throw.

(** ** SURF *)

(** Target.h:148-155 ElementFaceByTwoNodes; Utility.h:49 UNAVAILABLE_INT for a node not given. *)
Record face := mkFace { f_cell : Z; f_node1 : Z; f_node2 : Z; f_swap : bool }.
Definition NO_NODE : Z := INT_MIN32.

(** OptistructParser.cpp:168-176. *)
Fixpoint surf_loop (fuel : nat) (t : cursor) : outcome (list face) :=
  match fuel with
  | O => NoFuel
  | S f =>
    if isEmptyUntilNextKeyword t then Ok [] else
    do t <- skipToNotEmpty t;
    do r <- nextInt t; let '(eid, t) := r in
    do r <- nextIntDefault NO_NODE t; let '(a, t) := r in
    do r <- nextIntDefault NO_NODE t; let '(b, t) := r in
    do r <- nextIntDefault 0 t; let '(n, t) := r in
    do l <- surf_loop f t; Ok (mkFace eid a b (n =? 1) :: l)
  end.
(** OptistructParser.cpp:161-179. *)
Definition parseSURF (t : cursor) : outcome (Z * list face) :=
  do r <- nextInt t; let '(sid, t) := r in
  do i <- isNextInt t;
  do t <- (if i then Ok t else skip 1 t);
  do l <- surf_loop (S (length (cvec t))) t; Ok (sid, l).

(** ** CONTACT *)

(** OptistructParser.cpp:85-101: the set of contacts created, the master and the slave of
    the constraint, and the set it goes to (None: that of every analysis). *)
Record ocontact := mkContact { o_set : Z; o_master : Z; o_slave : Z; o_in : option Z }.
Definition parseCONTACT (t : cursor) : outcome ocontact :=
  do r <- nextInt t; let '(ctid, t) := r in
  do r <- nextString t; let '(_, t) := r in
  do r <- nextInt t; let '(ssid, t) := r in
  do r <- nextInt t; let '(msid, _) := r in
  Ok (mkContact ctid msid ssid None).
