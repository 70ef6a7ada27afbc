(** Model of Nastran/NastranTokenizer.cpp: splitting bulk data cards into
    fields and reading integers from them. *)
From Coq Require Import Ascii String ZArith List Bool Arith.
From Verif Require Import Base TextModel.
Import ListNotations.
Open Scope nat_scope.
Open Scope list_scope.

(** The input stream is the list of its remaining lines (every line ended by a
    newline).  NastranTokenizer.cpp:176 and 368, [instrream.peek()]: the first
    character of the next line, the newline itself on an empty line, no
    character ([EOF]) at the end. *)
Definition newline : ascii := ascii_of_nat 10.
Definition tab : ascii := ascii_of_nat 9.
Definition peek (ls : list str) : option ascii :=
  match ls with
  | [] => None
  | [] :: _ => Some newline
  | (c :: _) :: _ => Some c
  end.
Definition peek_in (cs : list ascii) (ls : list str) : bool :=
  match peek ls with Some c => existsb (Ascii.eqb c) cs | None => false end.

Inductive line_type := SHORT_FORMAT | LONG_FORMAT | FREE_FORMAT.

(** NastranTokenizer.cpp:64-75, getLineType. *)
Definition getLineType (line : str) : line_type :=
  let beginning := firstn 8 line in
  if contains "," beginning then FREE_FORMAT
  else if contains "*" beginning then LONG_FORMAT else SHORT_FORMAT.

(** NastranTokenizer.cpp:78-99, replaceTabs.  The C++ loop replaces the first
    tabulation until none is left; as the replacement contains none, this is one
    pass carrying the position in the result. *)
Definition tab_width (long : bool) (pos : nat) : nat :=
  if long && (7 <? pos) then 16 - (pos - 8) mod 16 else 8 - pos mod 8.
Fixpoint expand (long : bool) (pos : nat) (l : str) : str :=
  match l with
  | [] => []
  | c :: r =>
    if Ascii.eqb c tab then spaces (tab_width long pos) ++ expand long (pos + tab_width long pos) r
    else c :: expand long (S pos) r
  end.
Definition replaceTabs (long : bool) (l : str) : str := expand long 0 l.

(** NastranTokenizer.cpp:122-156, readLineSkipComment; [None] is end of file.
    The HyperMesh label comments (lines 142-153) only fill a side table and are
    not modelled. *)
Fixpoint readLineSkipComment (first : bool) (ls : list str) : option (str * list str) :=
  match ls with
  | [] => None
  | line :: r =>
    let blankLine := forallb is_blank line in
    if negb (null line) && negb blankLine && negb (starts "$" line) then
      let line' := before_first "$" line in
      if negb (forallb is_blank line') then Some (line', r) else readLineSkipComment first r
    else if negb first && blankLine then Some (line, r)
    else readLineSkipComment first r
  end.

(** boost::offset_separator with the offsets of NastranTokenizer.cpp:331-344
    (partial last token returned; the wrap-around is never reached because the
    loop stops at [fieldMax] or one token later). *)
Definition offsets (long : bool) : list nat :=
  if long then [8; 16; 16; 16; 16; 8] else [8; 8; 8; 8; 8; 8; 8; 8; 8; 8].
Definition fieldMax (long : bool) : nat := if long then 5 else 9.
Fixpoint chop (ws : list nat) (l : str) : list str :=
  match ws, l with
  | w :: ws', _ :: _ => firstn w l :: chop ws' (skipn w l)
  | _, _ => []
  end.

(** NastranTokenizer.cpp:352-366: the loop over the tokens; returns the fields
    pushed, the final [count] and [explicitContinuation]. *)
Fixpoint scan_tokens (fm count : nat) (toks : list str) : list str * nat * bool :=
  match toks with
  | [] => ([], count, false)
  | t :: r =>
    let f := if count =? 0 then erase_char "*" (trim t) else trim t in
    if S count =? fm then
      ([f], S count, match r with [] => false | m :: _ => negb (null (trim m)) end)
    else
      let '(fs, n, e) := scan_tokens fm (S count) r in (f :: fs, n, e)
  end.

(** NastranTokenizer.cpp:370-374: skip comment lines inside a card. *)
Fixpoint skip_dollar (ls : list str) : list str :=
  match ls with
  | l :: r => if starts "$" l then skip_dollar r else ls
  | [] => []
  end.

(** NastranTokenizer.cpp:328-400, splitFixedFormat.  [vec] is currentLineVector;
    the result is the final vector and the lines left in the stream.
    Incrementing the token iterator of an empty continuation line (line 348)
    violates the iterator's contract: [UB].  End of file where an explicit
    continuation is expected throws (line 382). *)
Fixpoint splitFixed (fuel : nat) (long first : bool) (line : str) (vec : list str) (ls : list str)
  : outcome (list str * list str) :=
  match fuel with
  | O => NoFuel
  | S fuel =>
    let toks := chop (offsets long) (replaceTabs long line) in
    do start <- (if first then Ok (0, toks)
                 else match toks with [] => UB | _ :: r => Ok (1, r) end);
    let '(count0, toks) := start in
    let '(fs, count, explicitContinuation) := scan_tokens (fieldMax long) count0 toks in
    let vec := vec ++ fs in
    let ls := skip_dollar ls in
    if explicitContinuation || peek_in ["+"%char] ls then
      match readLineSkipComment false ls with
      | None => Throw
      | Some (line2, ls) => splitFixed fuel long false line2 vec ls
      end
    else if peek_in [" "%char; "+"%char; "*"%char; tab] ls then
      let long2 := peek_in ["*"%char] ls in
      let vec := vec ++ repeat [] (fieldMax long - count) in
      match readLineSkipComment false ls with
      | None => splitFixed fuel long2 false [] vec []
      | Some (line2, ls) => splitFixed fuel long2 false line2 vec ls
      end
    else Ok (vec, ls)
  end.

(** NastranTokenizer.cpp:168-175: every eighth field from the second one is
    erased if it begins with '+'.  [k] counts the fields before the next one
    examined; erasing shifts the following field into the examined place. *)
Fixpoint erase_marks (k : nat) (l : list str) : list str * bool :=
  match l with
  | [] => ([], false)
  | x :: r =>
    match k with
    | O => if starts "+" (trim x) then (fst (erase_marks 8 r), true)
           else let '(r', e) := erase_marks 7 r in (x :: r', e)
    | S k => let '(r', e) := erase_marks k r in (x :: r', e)
    end
  end.

(** NastranTokenizer.cpp:158-182, splitFreeFormat.  At end of file the line
    read is empty and the result of readLineSkipComment is ignored (line 179). *)
Fixpoint splitFree (fuel : nat) (first : bool) (line : str) (vec : list str) (ls : list str)
  : outcome (list str * list str) :=
  match fuel with
  | O => NoFuel
  | S fuel =>
    let vec := if first then split_on "," line
               else vec ++ split_on "," (match after_first "," line with Some r => r | None => line end) in
    let '(vec, explicitContinuation) := erase_marks 1 vec in
    if explicitContinuation || peek_in [","%char; "+"%char; "*"%char] ls then
      match readLineSkipComment false ls with
      | None => splitFree fuel false [] vec []
      | Some (line2, ls) => splitFree fuel false line2 vec ls
      end
    else Ok (vec, ls)
  end.

(** Enough fuel: each round but the last few consumes a line of the stream; at
    the end of the stream each round consumes a '+' field. *)
Definition chars (ls : list str) : nat := list_sum (map (fun l => S (length l)) ls).
Definition fuel_for (line : str) (ls : list str) : nat := 2 + length line + chars ls.

(** NastranTokenizer.cpp:184-200, parseBulkSectionLine. *)
Definition parseBulkSectionLine (line : str) (ls : list str) : outcome (list str * list str) :=
  match getLineType line with
  | LONG_FORMAT => splitFixed (fuel_for line ls) true true line [] ls
  | SHORT_FORMAT => splitFixed (fuel_for line ls) false true line [] ls
  | FREE_FORMAT => splitFree (fuel_for line ls) true line [] ls
  end.

(** NastranTokenizer.cpp:302-326, nextLine in the bulk section; [None] is the
    end-of-file symbol. *)
Definition nextLine (ls : list str) : outcome (option (list str * list str)) :=
  match readLineSkipComment true ls with
  | None => Ok None
  | Some (line, ls) => do r <- parseBulkSectionLine line ls; Ok (Some r)
  end.

(** ** The cursor over the fields of the current card *)

Inductive symbol := KEYWORD | FIELD | EOFSYM.
(** NastranTokenizer.h:70-71, 104: currentField, currentLineVector, nextSymbolType. *)
Record cursor := mkCursor { cvec : list str; ccur : nat; csym : symbol }.

(** NastranTokenizer.cpp:102-120, nextSymbolString. *)
Definition nextSymbolString (t : cursor) : str * cursor :=
  match nth_error (cvec t) (ccur t) with
  | None => ([], mkCursor (cvec t) (ccur t) KEYWORD)
  | Some f =>
    let r := trim_right f in
    let r := match csym t with KEYWORD => to_upper r | _ => r end in
    (r, mkCursor (cvec t) (S (ccur t)) (if length (cvec t) <=? S (ccur t) then KEYWORD else FIELD))
  end.

(** The current field of the tests below: [currentLineVector[currentField]],
    undefined behaviour out of bounds. *)
Definition peek_field (t : cursor) (p : str -> bool) : outcome bool :=
  match csym t with
  | FIELD => match nth_error (cvec t) (ccur t) with
             | Some f => Ok (p (trim f))
             | None => UB
             end
  | _ => Ok false
  end.

(** NastranTokenizer.cpp:224-230, isNextInt. *)
Definition isNextInt (t : cursor) : outcome bool :=
  peek_field t (fun f => negb (null f) && forallb (fun c => Ascii.eqb c "-" || is_digit c) f).
(** NastranTokenizer.cpp:232-248, isNextTHRU, isNextBY. *)
Definition isNextTHRU (t : cursor) : outcome bool :=
  peek_field t (fun f => str_eqb (to_upper f) (txt "THRU")).
Definition isNextBY (t : cursor) : outcome bool :=
  peek_field t (fun f => str_eqb (to_upper f) (txt "BY")).

(** NastranTokenizer.cpp:416-429, skip. *)
Definition skip (n : nat) (t : cursor) : outcome cursor :=
  match csym t with
  | EOFSYM => Throw
  | _ => let c := Nat.min (length (cvec t)) (ccur t + n) in
         Ok (mkCursor (cvec t) c (if c =? length (cvec t) then KEYWORD else FIELD))
  end.

(** NastranTokenizer.cpp:442-463, nextInt; handleParsingError throws. *)
Definition nextInt (t : cursor) : outcome (Z * cursor) :=
  let '(s, t') := nextSymbolString t in
  let v := trim s in
  if null v then Throw else do n <- lexical_int v; Ok (n, t').
Definition nextIntDefault (d : Z) (t : cursor) : outcome (Z * cursor) :=
  let '(s, t') := nextSymbolString t in
  let v := trim s in
  if null v then Ok (d, t') else do n <- lexical_int v; Ok (n, t').

(** NastranTokenizer.cpp:484-486: [for(int i=start+1;i<=endint;i+=step)].  The
    fuel given below suffices whenever [step] is positive; [NoFuel] means that
    the loop does not end ([step] 0 or negative).  Signed overflow is [UB]. *)
Fixpoint for_range (fuel : nat) (i e step : Z) : outcome (list Z) :=
  if (e <? i)%Z then Ok []
  else match fuel with
       | O => NoFuel
       | S f => if (INT_MAX32 <? i + step)%Z || (i + step <? INT_MIN32)%Z then UB
                else do r <- for_range f (i + step)%Z e step; Ok (i :: r)
       end.

(** NastranTokenizer.cpp:465-490, nextInts; [acc] is [result] in reverse, so
    that [result.back()] is its head.  [back()] of an empty list is [UB]. *)
Fixpoint nextInts_loop (fuel : nat) (acc : list Z) (t : cursor) : outcome (list Z * cursor) :=
  match fuel with
  | O => NoFuel
  | S fuel =>
    do isint <- isNextInt t;
    if isint then do nt <- nextInt t; let '(n, t) := nt in nextInts_loop fuel (n :: acc) t
    else
    do isthru <- isNextTHRU t;
    if isthru then
      do t <- skip 1 t;
      match acc with
      | [] => UB
      | start :: acc' =>
        do et <- nextInt t; let '(endint, t) := et in
        let '(acc, start, endint) := if (endint <? start)%Z then (endint :: acc', endint, start) else (acc, start, endint) in
        do isby <- isNextBY t;
        do st <- (if isby then do t <- skip 1 t; nextInt t else Ok (1%Z, t));
        let '(step, t) := st in
        if (INT_MAX32 <? start + 1)%Z then UB else
        do l <- for_range (Z.to_nat (endint - start)) (start + 1)%Z endint step;
        nextInts_loop fuel (rev l ++ acc) t
      end
    else Ok (rev acc, t)
  end.
Definition nextInts (t : cursor) : outcome (list Z * cursor) :=
  nextInts_loop (S (length (cvec t))) [] t.

(** NastranTokenizer.cpp:259-270, isNextEmpty: reads [currentField + i] without
    checking the bound ([operator[]]: undefined behaviour beyond the end). *)
Definition isNextEmpty (n : nat) (t : cursor) : outcome bool :=
  match csym t with
  | FIELD => foldM (fun r i => match nth_error (cvec t) (ccur t + i) with
                               | Some f => Ok (r && null (trim f))
                               | None => UB end) (seq 0 n) true
  | _ => Ok (n =? 0)
  end.
