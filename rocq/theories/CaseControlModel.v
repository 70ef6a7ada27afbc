(** Model of the case control part of Nastran/NastranParser.cpp: commands,
    subcases, SET definitions, choice of the analysis, combinations. *)
From Coq Require Import Ascii String ZArith List Bool Arith.
From Verif Require Import Base TextModel TokenizerModel RealModel.
Import ListNotations.
Open Scope nat_scope.
Open Scope list_scope.

(** boost::split(v, s, p, token_compress_on): runs of delimiters separate the
    tokens; a run at either end yields an empty token there. *)
Fixpoint split_compress (p : ascii -> bool) (l : str) : list str :=
  match l with
  | [] => [[]]
  | x :: r =>
    if p x then
      match r with
      | y :: _ => if p y then split_compress p r else [] :: split_compress p r
      | [] => [] :: split_compress p r
      end
    else match split_compress p r with
         | f :: fs => (x :: f) :: fs
         | [] => [[x]]
         end
  end.
Definition is_any_of (cs : list ascii) (c : ascii) : bool := existsb (Ascii.eqb c) cs.

(** std::stoi: blanks, sign, digits; what follows is ignored; no digit or a
    value out of range throws. *)
Definition stoi (l : str) : outcome Z :=
  let '(neg, r) := take_sign (dropWhile is_space l) in
  let '(ds, _) := take_digits r in
  if null ds then Throw else
  let v := if neg then (- digits_val ds)%Z else digits_val ds in
  if ((INT_MIN32 <=? v) && (v <=? INT_MAX32))%Z then Ok v else Throw.

(** std::stod: the longest prefix, blanks skipped, that is a number; throws if
    there is none.  (Hexadecimal numbers, "inf", "nan" not modelled.) *)
Fixpoint longest_double (n : nat) (l : str) : outcome decimal :=
  match lexical_double (firstn n l) with
  | Ok v => Ok v
  | e => match n with O => e | S n => longest_double n l end
  end.
Definition stod (l : str) : outcome decimal :=
  let l := dropWhile is_space l in longest_double (length l) l.

(** boost::starts_with / std::string::compare(0, n, p) == 0 with n the length
    of p; find(p) != npos; substr. *)
Definition has_prefix (p l : str) : bool := str_eqb (firstn (length p) l) p.
(** std::string::compare(0, n, p) == 0 for any n. *)
Definition compare0 (n : nat) (p l : str) : bool := str_eqb (firstn n l) p.
Fixpoint has_infix (p l : str) : bool :=
  has_prefix p l || match l with [] => false | _ :: r => has_infix p r end.

(** NastranTokenizer.cpp:305-326, nextLine in the executive section: the
    trimmed raw line (currentRawDataLine), its tokens, the following lines. *)
Definition case_delim : ascii -> bool := is_any_of [tab; "\"%char; "="%char; " "%char].
Definition nextCaseLine (ls : list str) : option (str * list str * list str) :=
  match readLineSkipComment true ls with
  | None => None
  | Some (line, r) => let l := trim line in Some (l, split_compress case_delim l, r)
  end.

(** NastranTokenizer.cpp:402-414, nextString(true, ""). *)
Definition word (f : str) : str := to_upper (trim f).

(** ** SET, NastranParser.cpp:276-329 *)

(** [line.back() == ',']. *)
Definition ends_comma (l : str) : bool := match rev l with c :: _ => Ascii.eqb c "," | [] => false end.

(** Lines 277-281.  At end of file nextLine leaves an empty line, and the loop
    goes on. *)
Fixpoint set_line (fuel : nat) (line : str) (ls : list str) : outcome (str * list str) :=
  match fuel with
  | O => NoFuel
  | S f =>
    if ends_comma line then
      match nextCaseLine ls with
      | Some (l, _, r) => set_line f (line ++ trim l) r
      | None => set_line f line []
      end
    else Ok (line, ls)
  end.

(** The [for] loop of lines 316-325.  [std::set<int>] is the list of the numbers
    inserted; [for (j = a; j <= b; j++)] overflows when b = INT_MAX. *)
Definition zrange (a b : Z) : list Z := map (fun i => (a + Z.of_nat i)%Z) (seq 0 (Z.to_nat (b - a + 1))).
Fixpoint set_values (parts : list str) : outcome (list Z) :=
  match parts with
  | [] => Ok []
  | p :: r =>
    match r with
    | t :: q :: r' =>
      if str_eqb t (txt "THRU") then
        do a <- stoi p; do b <- stoi q;
        if (b =? INT_MAX32)%Z && (a <=? b)%Z then UB else
        do vs <- set_values r'; Ok (zrange a b ++ vs)
      else do a <- stoi p; do vs <- set_values r; Ok (a :: vs)
    | _ => do a <- stoi p; do vs <- set_values r; Ok (a :: vs)
    end
  end.

(** What the model receives: a set of all numbers, a list of numbers, or
    nothing (a warning is printed). *)
Inductive set_def := SetAll (id : Z) | SetNumbers (id : Z) (vs : list Z) | SetIgnored (id : Z).

(** [line.find_last_of(" ")]: what precedes and what follows the last blank. *)
Fixpoint cut_last (l : str) : option (str * str) :=
  match l with
  | [] => None
  | c :: r => match cut_last r with
              | Some (a, b) => Some (c :: a, b)
              | None => if Ascii.eqb c " " then Some ([], r) else None
              end
  end.

(** Lines 282-328, on the whole line. *)
Definition set_of_line (line : str) : outcome set_def :=
  do parts <- (match split_compress (is_any_of ["="%char]) line with
               | [_] => match cut_last line with Some (a, b) => Ok (a, b) | None => Throw end
               | [a; b] => Ok (a, b)
               | _ => Throw
               end);
  let '(a, b) := parts in
  if length a <? 4 then Throw else
  do setid <- stoi (trim (skipn 4 a));
  let v := to_upper (trim b) in
  if has_prefix (txt "ALL") v then Ok (SetAll setid)
  else if has_prefix (txt "INCLUDE") v || has_prefix (txt "EXCLUDE") v || has_prefix (txt "ELEMENTS") v || has_prefix (txt "GRID") v
  then Ok (SetIgnored setid)
  else if has_infix (txt "EXCEPT") v then Ok (SetIgnored setid)
  else if negb (match v with c :: _ => is_digit c | [] => false end) then Ok (SetIgnored setid)
  else do vs <- set_values (split_compress (is_any_of [","%char; " "%char]) v); Ok (SetNumbers setid vs).

Definition addSet (line : str) (ls : list str) : outcome (set_def * list str) :=
  do lr <- set_line (S (S (length ls))) line ls;
  do d <- set_of_line (fst lr); Ok (d, snd lr).

(** ** Contexts: std::map<string, string>, sorted by key *)

Fixpoint str_ltb (a b : str) : bool :=
  match a, b with
  | _, [] => false
  | [], _ :: _ => true
  | x :: a, y :: b =>
    let x := nat_of_ascii x in let y := nat_of_ascii y in
    (x <? y) || ((x =? y) && str_ltb a b)
  end.
Definition context := list (str * str).
Fixpoint cfind (c : context) (k : str) : option str :=
  match c with
  | [] => None
  | (k', v) :: r => if str_eqb k k' then Some v else cfind r k
  end.
(** [context[k] = v]. *)
Fixpoint cset (c : context) (k v : str) : context :=
  match c with
  | [] => [(k, v)]
  | (k', v') :: r => if str_eqb k k' then (k, v) :: r
                     else if str_ltb k k' then (k, v) :: c
                     else (k', v') :: cset r k v
  end.

(** The value of a command in a subcase, lines 210-215: the words after the
    keyword, joined by underscores. *)
Fixpoint join_words (ws : list str) : str :=
  match ws with
  | [] => []
  | [w] => w
  | w :: r => w ++ "_"%char :: join_words r
  end.
Definition command_value (fields : list str) : str := join_words (map word fields).

Definition ends_subcase (k : str) : bool :=
  null k || str_eqb k (txt "BEGIN") || str_eqb k (txt "SUBCASE") || str_eqb k (txt "SUBCOM").

(** NastranParser.cpp:192-235, parseSubcase, up to the call of addAnalysis: the
    resulting context, the sets defined on the way, the keyword that ended the
    loop (empty list of lines: end of file) and the remaining lines.  With
    [sets = false] this is parseSubcom (237-274), where SET has no special
    meaning. *)
Fixpoint case_loop (fuel : nat) (sets : bool) (c : context) (ds : list set_def) (ls : list str)
  : outcome (context * list set_def * str * list str) :=
  match fuel with
  | O => NoFuel
  | S f =>
    match nextCaseLine ls with
    | None => Ok (c, ds, [], [])
    | Some (raw, toks, r) =>
      match toks with
      | [] => Ok (c, ds, [], r)
      | t :: fields =>
        let k := word t in
        if sets && str_eqb k (txt "SET") then
          do dr <- addSet raw r; case_loop f sets c (ds ++ [fst dr]) (snd dr)
        else if ends_subcase k then Ok (c, ds, k, r)
        else case_loop f sets (cset c k (command_value fields)) ds r
      end
    end
  end.
Definition parse_case (sets : bool) (c : context) (ls : list str) := case_loop (S (length ls)) sets c [] ls.

(** NastranParser.cpp:488-510, a command above the subcases: [raw] is the
    trimmed line, [toks] its tokens. *)
Definition exec_command (c : context) (raw : str) (toks : list str) : outcome context :=
  match toks with
  | [] => Ok c
  | t :: fields =>
    let k := word t in
    if null fields then Ok (cset c k [])
    else match split_compress (is_any_of ["="%char]) raw with
         | a :: b :: _ => Ok (cset c (to_upper (trim a)) b)
         | _ => match split_compress (is_any_of [" "%char]) raw with
                | _ :: v :: _ => Ok (cset c k v)
                | _ => UB
                end
         end
  end.

(** ** Choice of the analysis, NastranParser.cpp:651-832 *)

Inductive nastran_analysis := STATIC | MODES | BUCKL | NLSTATIC | DFREQ | DTRAN | MCEIG | MFREQ | MTRAN | DESOPT.
Definition nastran_analysis_eqb (a b : nastran_analysis) : bool :=
  match a, b with
  | STATIC, STATIC | MODES, MODES | BUCKL, BUCKL | NLSTATIC, NLSTATIC | DFREQ, DFREQ | DTRAN, DTRAN
  | MCEIG, MCEIG | MFREQ, MFREQ | MTRAN, MTRAN | DESOPT, DESOPT => true
  | _, _ => false
  end.
(** NastranParser.cpp:159-190, ANALYSIS_BY_LABEL. *)
Definition analysis_labels : list (string * nastran_analysis) :=
  [("1", STATIC); ("101", STATIC); ("1,1", STATIC); ("STATIC", STATIC); ("STATICS", STATIC); ("SESTATIC", STATIC); ("SESTATICS", STATIC);
   ("3", MODES); ("103", MODES); ("MODES", MODES); ("SEMODES", MODES);
   ("5", BUCKL); ("105", BUCKL); ("BUCKL", BUCKL); ("SEBUCKL", BUCKL);
   ("6", NLSTATIC); ("106", NLSTATIC); ("NLSTATIC", NLSTATIC);
   ("108", DFREQ); ("SEDFREQ", DFREQ); ("109", DTRAN); ("SEDTRAN", DTRAN);
   ("110", MCEIG); ("SEMCEIG", MCEIG); ("111", MFREQ); ("SEMFREQ", MFREQ);
   ("112", MTRAN); ("SEMTRAN", MTRAN); ("200", DESOPT); ("DESOPT", DESOPT)]%string.
Definition label_find (l : str) : option nastran_analysis :=
  option_map snd (find (fun e => str_eqb l (txt (fst e))) analysis_labels).

(** Is some key of the context one containing [p]? *)
Definition mentions (p : string) (c : context) : bool := existsb (fun e => has_infix (txt p) (fst e)) c.
(** NastranParser.cpp:618-649, autoSubcaseAnalysis. *)
Definition autoSubcaseAnalysis (c : context) : nastran_analysis :=
  if mentions "NLPARM" c then NLSTATIC
  else if mentions "CMETHOD" c then MCEIG
  else if mentions "METHOD" c then (if mentions "SDAMPING" c then MFREQ else MODES)
  else STATIC.

(** The analysis created, with the numbers of the objective sets it refers to. *)
Inductive analysis_kind :=
| LinearMecaStat
| LinearBuckling (method : Z) (statsub : option Z)
| LinearModalComplex (method cmethod : Z)
| LinearModal (method : Z)
| NonLinearMecaStat (strategy : Z)
| LinearDynaDirectFreq (freq : Z)
| LinearDynaModalFreq (method damping freq : Z) (residual : bool).

(** The loops "first key containing p": [break] at the first, the map being
    sorted; [None] when there is none. *)
Definition first_containing (p : string) (c : context) : outcome (option Z) :=
  match find (fun e => has_infix (txt p) (fst e)) c with
  | Some e => do n <- stoi (snd e); Ok (Some n)
  | None => Ok None
  end.
(** The loops without [break]: the last matching key wins, 0 if there is none. *)
Definition last_matching (q : str -> bool) (c : context) : outcome Z :=
  foldM (fun acc e => if q (fst e) then stoi (snd e) else Ok acc) c 0%Z.
(** [context.lower_bound(p)]: the first key not less than p. *)
Definition lower_bound (p : str) (c : context) : option (str * str) := find (fun e => negb (str_ltb (fst e) p)) c.

(** Lines 700-832: the analysis of a given type.  [previous]: is there already
    an analysis; [known]: the numbers of the analyses already read. *)
Definition make_analysis (ty : nastran_analysis) (c : context) (previous : bool) (known : Z -> bool) : outcome (option analysis_kind) :=
  match ty with
  | STATIC => Ok (Some LinearMecaStat)
  | BUCKL =>
    if negb previous then Ok (Some LinearMecaStat) else
    do m <- last_matching (has_infix (txt "METHOD")) c;
    do s <- last_matching (fun k => has_infix (txt "STATSUB") k && negb (has_infix (txt "PRELOAD") k)) c;
    if (m =? 0)%Z then Throw
    else if (s =? 0)%Z then Ok (Some (LinearBuckling m None))
    else if known s then Ok (Some (LinearBuckling m (Some s))) else Throw
  | MCEIG =>
    do m <- first_containing "METHOD" c;
    match m with
    | None => Throw
    | Some m => do cm <- first_containing "CMETHOD" c;
                match cm with None => Throw | Some cm => Ok (Some (LinearModalComplex m cm)) end
    end
  | MODES =>
    do m <- first_containing "METHOD" c;
    match m with None => Throw | Some m => Ok (Some (LinearModal m)) end
  | NLSTATIC =>
    match cfind c (txt "NLPARM") with
    | None => Throw
    | Some v => do n <- stoi v; Ok (Some (NonLinearMecaStat n))
    end
  | DFREQ =>
    do f <- last_matching (has_prefix (txt "FREQ")) c;
    if (f =? 0)%Z then Throw else Ok (Some (LinearDynaDirectFreq f))
  | MFREQ =>
    do m <- last_matching (has_prefix (txt "METHOD")) c;
    do d <- last_matching (has_prefix (txt "SDAMPING")) c;
    do f <- last_matching (has_prefix (txt "FREQ")) c;
    if (f =? 0)%Z then Throw else
    let r := match lower_bound (txt "RESVEC") c with
             | Some (k, v) => has_prefix (txt "RESVEC") k && str_eqb v (txt "YES")
             | None => false end in
    if (m =? 0)%Z then Throw else Ok (Some (LinearDynaModalFreq m d f r))
  | DTRAN | MTRAN | DESOPT => Throw
  end.

(** Lines 651-832: [Ok None] when no SOL is given. *)
Definition choose_analysis (c : context) (previous : bool) (known : Z -> bool) : outcome (option analysis_kind) :=
  let analysis_str := match cfind c (txt "SOL") with Some v => trim v | None => [] end in
  if null analysis_str then Ok None else
  match label_find analysis_str with
  | None => Throw
  | Some ty =>
    let ty := if nastran_analysis_eqb ty DESOPT then
                match cfind c (txt "ANALYSIS") with
                | Some v => match label_find (trim v) with Some t => t | None => autoSubcaseAnalysis c end
                | None => autoSubcaseAnalysis c
                end
              else ty in
    make_analysis ty c previous known
  end.

(** ** What the analysis selects, NastranParser.cpp:834-957 *)

Inductive selection :=
| SelSPC (id : Z) | SelMPC (id : Z) | SelLOADSET (id : Z) | SelLOAD (id : Z) | SelDLOAD (id : Z) | SelCONTACT (id : Z)
| SelDISP (id : Z) (phase : bool) | SelOFREQ (id : Z) | SelSTRESS (id : Z).

(** Lines 836-841: the number given, 0 if the value is not made of digits. *)
Definition selected_id (v : str) : outcome Z :=
  let v := trim v in
  if negb (null v) && forallb is_digit v then stoi v else Ok 0%Z.

(** Lines 842-848: the key without its options.  [options.erase(remove_if(…))]
    with one iterator erases the element it designates: the first of the removed
    ones or, when nothing was removed, [end()] — undefined behaviour.
    [erase_end] is what happens then: [None] for the standard's reading, or what
    libstdc++ does, dropping the last element. *)
Definition key_and_options (erase_end : list str -> outcome (list str)) (key : str) : outcome (str * list str) :=
  let options := split_compress (is_any_of ["("%char; ","%char; " "%char; ")"%char]) key in
  let kept := filter (fun o => negb (null o)) options in
  let removed := length options - length kept in
  (* after remove_if the tail holds unspecified values; erase takes out one of
     them, so that removed - 1 of them remain *)
  do options <- (if removed =? 0 then erase_end options else Ok (kept ++ repeat [] (removed - 1)));
  match options with
  | k :: (_ :: _) as r => Ok (k, r)
  | _ => Ok (key, options)
  end.
Definition erase_end_standard (l : list str) : outcome (list str) := UB.
Definition erase_end_libstdcxx (l : list str) : outcome (list str) := Ok (removelast l).

(** Lines 849-956: one entry of the context. *)
Definition select_entry (erase_end : list str -> outcome (list str)) (e : str * str) : outcome (list selection) :=
  do id <- selected_id (snd e);
  do ko <- key_and_options erase_end (fst e);
  let '(key, options) := ko in
  if compare0 3 (txt "SPC") key then Ok [SelSPC id]
  else if compare0 3 (txt "MPC") key then Ok [SelMPC id]
  else if compare0 7 (txt "LOADSET") key then Ok [SelLOADSET id]
  else if compare0 4 (txt "LOAD") key then Ok [SelLOAD id]
  else if compare0 5 (txt "DLOAD") key then Ok [SelDLOAD id]
  else if compare0 4 (txt "BCONTACT") key then Ok [SelCONTACT id]
  else if compare0 4 (txt "DISP") key then
    Ok (if (id =? 0)%Z then [] else [SelDISP id (existsb (fun o => str_eqb o (txt "PHASE")) options)])
  else if compare0 4 (txt "OFREQUENCY") key then Ok (if (id =? 0)%Z then [] else [SelOFREQ id])
  else if compare0 4 (txt "STRESS") key then Ok (if (id =? 0)%Z then [] else [SelSTRESS id])
  else Ok [].
Definition selections (erase_end : list str -> outcome (list str)) (c : context) : outcome (list selection) :=
  do ss <- mapM (select_entry erase_end) c; Ok (concat ss).

(** ** Combinations, NastranParser.cpp:979-1012 *)

(** [it = analyses.begin(); advance(it, i); *it] with the coefficient string
    [coefStrings[i++]], then the loop's own [i++].  Advancing past the end is
    undefined behaviour. *)
Fixpoint combine_loop (fuel : nat) (i : nat) (analyses : list Z) (coefs : list str) : outcome (list (Z * decimal)) :=
  match fuel with
  | O => NoFuel
  | S f =>
    if i <? length coefs then
      do a <- of_option (nth_error analyses i);
      do t <- of_option (nth_error coefs i);
      do v <- stod t;
      do r <- combine_loop f (i + 2) analyses coefs; Ok ((a, v) :: r)
    else Ok []
  end.
Definition addCombination (analyses : list Z) (c : context) : outcome (list (Z * decimal)) :=
  do subseq <- of_option (cfind c (txt "SUBSEQ"));
  let coefs := split_on "," subseq in
  combine_loop (S (length coefs)) 0 analyses coefs.
