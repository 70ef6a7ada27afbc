(** Model of the cards of dynamic excitations of the Nastran reader (DAREA, DELAY,
    DPHASE, DLOAD, LSEQ, RLOAD1, RLOAD2) and of what the Code_Aster and Systus
    writers print of an excitation.

    Reals read are the exact decimals of the fields; the value an excitation
    holds for a delay (-2 pi times the delay) is a real number.  Simplifications:
    a parsing error throws (strict mode; in the other modes the card is
    dropped); warnings, which only print, are omitted; the placeholders that give
    the tables their abscissa (FREQ) are omitted (they change no number). *)
From Coq Require Import Ascii String ZArith QArith Qreals Reals List Bool Arith.
From Verif Require Import Base DofModel TextModel TokenizerModel RealModel WriterLineModel CardModel LoadCardModel.
Import ListNotations.
Open Scope Z_scope.
Open Scope list_scope.

(** ** What the cards say *)
(** NastranParser.cpp:1340-1356: node, then the six components of the force. *)
Definition area_force := (Z * list decimal)%type.
Definition component (s : dofs) (d : dof) (a : decimal) : decimal := if DofModel.contains s d then a else dzero.
Fixpoint darea_loop (fuel : nat) (t : cursor) : outcome (list area_force) :=
  match fuel with
  | O => NoFuel
  | S fuel =>
    do more <- isNextInt t;
    if more then
      do r <- nextInt t; let '(node, t) := r in
      do r <- nextIntDefault 123456 t; let '(ci, t) := r in
      do r <- nextDouble t; let '(ai, t) := r in
      do s <- nastranCodeToDOFS ci;
      do l <- darea_loop fuel t;
      Ok ((node, map (fun d => component s d ai) [DX; DY; DZ; RX; RY; RZ]) :: l)
    else Ok []
  end.
(** NastranParser.cpp:1337-1357: set, forces. *)
Definition parseDAREA (t : cursor) : outcome (Z * list area_force) :=
  do r <- nextInt t; let '(set_id, t) := r in
  do l <- darea_loop (S (length (cvec t))) t;
  Ok (set_id, l).

(** The value of a DynaPhase: given as an angle, or -2 pi times a delay
    (NastranParser.cpp:1379, 1484, 3285, 3292). *)
Inductive dyna := Angle (d : decimal) | Delay (d : decimal).
Definition dyna_get (v : dyna) : R :=
  match v with
  | Angle d => Q2R (dec_q d)
  | Delay d => (-2 * PI * Q2R (dec_q d))%R
  end.
(** NastranParser.cpp:1361-1382 and 1469-1487: the point, the component and what
    follows are dismissed (with a warning). *)
Definition parse_point (make : decimal -> dyna) (t : cursor) : outcome (Z * dyna) :=
  do r <- nextInt t; let '(id, t) := r in
  do r <- nextIntDefault INT_MIN32 t; let '(p, t) := r in
  do r <- nextIntDefault INT_MIN32 t; let '(c, t) := r in
  do r <- nextDouble t;
  Ok (id, make (fst r)).
Definition parseDELAY := parse_point Delay.
Definition parseDPHASE := parse_point Angle.

(** NastranParser.cpp:1384-1395: the loop is that of LOAD. *)
Definition parseDLOAD (t : cursor) : outcome (Z * list (Z * decimal)) :=
  do r <- nextInt t; let '(set_id, t) := r in
  do r <- nextDoubleDefault (1, 0) t; let '(s0, t) := r in
  do l <- load_loop (S (length (cvec t))) s0 t;
  Ok (set_id, l).
(** NastranParser.cpp:1836-1849: set, (DAREA id, unused), static load. *)
Definition parseLSEQ (t : cursor) : outcome (Z * Z) :=
  do r <- nextInt t; let '(set_id, t) := r in
  do r <- nextInt t; let '(darea, t) := r in
  do r <- nextInt t;
  Ok (set_id, fst r).

(** Loading.h DynamicExcitationType. *)
Inductive excit_type := FORCE_ | DISPLACEMENT | VELOCITY | ACCELERATION.
(** NastranParser.cpp:3273-3285, 3356-3368: the first letter. *)
Definition excit_of (w : str) : outcome excit_type :=
  match firstn 1 w with
  | ["L"%char] | ["0"%char] => Ok FORCE_
  | ["D"%char] | ["1"%char] => Ok DISPLACEMENT
  | ["V"%char] | ["2"%char] => Ok VELOCITY
  | ["A"%char] | ["3"%char] => Ok ACCELERATION
  | _ => Throw
  end.
(** NastranParser.cpp:3247-3262, 3331-3346: a field that is a number or an id
    (0 when there is none). *)
Definition id_or_value (make : decimal -> dyna) (t : cursor) : outcome ((Z * dyna) * cursor) :=
  do isint <- isNextInt t;
  if isint then do r <- nextIntDefault 0 t; let '(id, t) := r in Ok ((id, make dzero), t)
  else do r <- nextDoubleDefault dzero t; let '(v, t) := r in Ok ((0, make v), t).
(** An excitation refers to a value of the model by its id or to one made for it
    (NastranParser.cpp:3287-3300). *)
Inductive dyna_ref := ById (id : Z) | Made (v : dyna).
Definition ref_of (r : Z * dyna) : dyna_ref := if fst r =? 0 then Made (snd r) else ById (fst r).
Record rload := mkRload { rl_set : Z; rl_area : Z; rl_delay : dyna_ref; rl_phase : dyna_ref;
                          rl_table : Z; rl_table2 : Z; rl_type : excit_type }.
(** NastranParser.cpp:3243-3300 and 3327-3384; [second] says whether the second
    table is accepted (RLOAD2). *)
Definition parse_rload (second : bool) (t : cursor) : outcome rload :=
  do r <- nextInt t; let '(set_id, t) := r in
  do r <- nextInt t; let '(area, t) := r in
  do r <- id_or_value Delay t; let '(delay, t) := r in
  do r <- id_or_value Angle t; let '(phase, t) := r in
  do r <- nextInt t; let '(tb, t) := r in
  do r <- nextIntDefault 0 t; let '(tp, t) := r in
  if negb second && negb (tp =? 0) then Throw else
  do r <- nextStringDefault (txt "LOAD") t;
  do ty <- excit_of (fst r);
  Ok (mkRload set_id area (ref_of delay) (ref_of phase) tb tp ty).
Definition parseRLOAD1 := parse_rload false.
Definition parseRLOAD2 := parse_rload true.

(** ** The model the cards build *)
(** The load sets an excitation may refer to. *)
Inductive set_ref := ExciteSet (id : Z) | LoadSetRef (id : Z).
(** Loading.h DynamicExcitation. *)
Record excitation := mkExcit { ex_set : Z; ex_original : option Z; ex_delay : dyna_ref; ex_phase : dyna_ref;
                               ex_table : Z; ex_table2 : Z; ex_load : set_ref; ex_type : excit_type }.
(** The parts of the model the cards touch.  The sets of each type in the order of
    their creation, which is that of the containers (Model.h:472-480: the ids of
    the program). *)
Record dstate := mkD {
  ds_areas : list Z;                              (* sets EXCITEID *)
  ds_forces : list (Z * area_force);              (* forces and their set EXCITEID *)
  ds_loads : list Z;                              (* sets LOAD *)
  ds_sequences : list (Z * list Z);               (* sets LOADSET, the LOAD sets embedded *)
  ds_dloads : list (Z * list (Z * decimal));      (* sets DLOAD, the DLOAD sets embedded *)
  ds_values : list (Z * dyna);                    (* DynaPhase of an original id *)
  ds_excit : list excitation }.
Definition dstate0 : dstate := mkD [] [] [] [] [] [] [].
Definition have (l : list Z) (n : Z) : bool := existsb (Z.eqb n) l.
Definition have_key {A} (l : list (Z * A)) (n : Z) : bool := existsb (fun p => n =? fst p) l.
(** Model.cpp:412-422 getOrCreateLoadSet, and the elements added to the set. *)
Definition with_id (l : list Z) (n : Z) : list Z := if have l n then l else l ++ [n].
Definition with_key {A} (l : list (Z * list A)) (n : Z) : list (Z * list A) := if have_key l n then l else l ++ [(n, [])].
Definition add_to {A} (n : Z) (more : list A) (l : list (Z * list A)) : list (Z * list A) :=
  map (fun p => if n =? fst p then (fst p, snd p ++ more) else p) (with_key l n).

Inductive dcard :=
| CDarea (t : cursor) | CDelay (t : cursor) | CDphase (t : cursor) | CDload (t : cursor) | CLseq (t : cursor)
| CRload1 (t : cursor) | CRload2 (t : cursor)
| CStatic (id : Z)       (* any card that makes a set LOAD: FORCE, GRAV, ... *)
| CLoadset (id : Z).     (* the request LOADSET of the case control (NastranParser.cpp:866-875) *)

(** Model.h:550-581: an id that is already there throws. *)
Definition add_value (s : dstate) (v : Z * dyna) : outcome dstate :=
  if have_key (ds_values s) (fst v) then Throw
  else Ok (mkD (ds_areas s) (ds_forces s) (ds_loads s) (ds_sequences s) (ds_dloads s) (ds_values s ++ [v]) (ds_excit s)).
(** NastranParser.cpp:3302-3316, 3405-3418: the set and the original id. *)
Definition add_excitation (s : dstate) (r : rload) (l : set_ref) : dstate :=
  mkD (ds_areas s) (ds_forces s) (ds_loads s) (ds_sequences s) (with_key (ds_dloads s) (rl_set r)) (ds_values s)
    (ds_excit s ++ [mkExcit (rl_set r) (if have_key (ds_dloads s) (rl_set r) then None else Some (rl_set r))
                      (rl_delay r) (rl_phase r) (rl_table r) (rl_table2 r) l (rl_type r)]).
(** NastranParser.cpp:3385-3400: [loadsets[0]->embedded_loadsets[0]] without a
    test of emptiness. *)
Definition resolve (s : dstate) (area : Z) : outcome set_ref :=
  if negb (match ds_sequences s with [] => true | _ => false end) && negb (have (ds_areas s) area) then
    match ds_sequences s with
    | (_, l :: _) :: _ => Ok (LoadSetRef l)
    | _ => UB
    end
  else if have (ds_loads s) area then Ok (LoadSetRef area)
  else Ok (ExciteSet area).
Definition dstep (s : dstate) (c : dcard) : outcome dstate :=
  match c with
  | CDarea t =>
      do r <- parseDAREA t;
      Ok (mkD (with_id (ds_areas s) (fst r)) (ds_forces s ++ map (fun f => (fst r, f)) (snd r)) (ds_loads s)
            (ds_sequences s) (ds_dloads s) (ds_values s) (ds_excit s))
  | CDelay t => do v <- parseDELAY t; add_value s v
  | CDphase t => do v <- parseDPHASE t; add_value s v
  | CDload t =>
      do r <- parseDLOAD t;
      Ok (mkD (ds_areas s) (ds_forces s) (ds_loads s) (ds_sequences s) (add_to (fst r) (snd r) (ds_dloads s)) (ds_values s) (ds_excit s))
  | CLseq t =>
      do r <- parseLSEQ t;
      Ok (mkD (ds_areas s) (ds_forces s) (ds_loads s) (add_to (fst r) [snd r] (ds_sequences s)) (ds_dloads s) (ds_values s) (ds_excit s))
  | CRload1 t =>
      do r <- parseRLOAD1 t;
      Ok (add_excitation (mkD (with_id (ds_areas s) (rl_area r)) (ds_forces s) (ds_loads s) (ds_sequences s) (ds_dloads s) (ds_values s) (ds_excit s))
            r (ExciteSet (rl_area r)))
  | CRload2 t =>
      do r <- parseRLOAD2 t;
      do l <- resolve s (rl_area r);
      Ok (add_excitation s r l)
  | CStatic n => Ok (mkD (ds_areas s) (ds_forces s) (with_id (ds_loads s) n) (ds_sequences s) (ds_dloads s) (ds_values s) (ds_excit s))
  | CLoadset n => Ok (mkD (ds_areas s) (ds_forces s) (ds_loads s) (with_key (ds_sequences s) n) (ds_dloads s) (ds_values s) (ds_excit s))
  end.
Definition read_cards (l : list dcard) : outcome dstate := foldM dstep l dstate0.

(** ** What is written of an excitation *)
(** Loading.cpp:810-829 the getters and 856-859 validate: an excitation whose load
    set, first table, phase or delay is missing is not valid. *)
Definition get_value (s : dstate) (r : dyna_ref) : option dyna :=
  match r with
  | Made v => Some v
  | ById n => option_map snd (find (fun p => n =? fst p) (ds_values s))
  end.
Definition get_set (s : dstate) (r : set_ref) : bool :=
  match r with ExciteSet n => have (ds_areas s) n | LoadSetRef n => have (ds_loads s) n end.
(** The points of the tables, by id. *)
Definition tables := Z -> option (list (R * R)).
Definition valid_excitation (T : tables) (s : dstate) (e : excitation) : bool :=
  get_set s (ex_load e) && match T (ex_table e) with Some _ => true | None => false end &&
  match get_value s (ex_phase e) with Some _ => true | None => false end &&
  match get_value s (ex_delay e) with Some _ => true | None => false end.
(** AsterWriter.cpp:2635-2653 (direct) and 2980-2998 (modal, same keywords): the
    load, FONC_MULT, PHAS_DEG; the nature of the vector (TYPE_VECT) only in a
    response on modes (2856-2880). *)
Record aster_excit := mkAster { ae_load : set_ref; ae_table : Z; ae_degrees : R; ae_nature : option excit_type }.
Definition aster_excitation (modal : bool) (s : dstate) (e : excitation) : outcome aster_excit :=
  do v <- of_option (get_value s (ex_phase e));
  Ok (mkAster (ex_load e) (ex_table e) (dyna_get v) (if modal then Some (ex_type e) else None)).
(** SystusWriter.cpp:1318-1345 and 1917-1940: a load that is not a set EXCITEID is
    dismissed; in a direct response the amplitude is the first value of the
    table, otherwise its points are written. *)
Inductive systus_amplitude := Constant (a : R) | Points (l : list (R * R)).
Definition systus_excitation (direct : bool) (T : tables) (e : excitation) : outcome (option (Z * systus_amplitude)) :=
  match ex_load e with
  | LoadSetRef _ => Ok None
  | ExciteSet n =>
      do l <- of_option (T (ex_table e));
      if direct then match l with [] => UB | p :: _ => Ok (Some (n, Constant (snd p))) end
      else Ok (Some (n, Points l))
  end.
