(** The executive and case control section: reading it as a whole
    (NastranParser.cpp), and what NastranWriter.cpp prints there. *)
From Coq Require Import Ascii String ZArith List Bool Arith.
From Verif Require Import Base TextModel TokenizerModel RealModel CaseControlModel.
Import ListNotations.
Open Scope nat_scope.
Open Scope list_scope.

(** ** Reading *)
(** NastranParser.cpp:192-227 (parseSubcase) and 237-264 (parseSubcom), as
    [case_loop] of CaseControlModel, but the line that ends the loop is left in
    front of the remaining ones: the caller reads its fields. *)
Fixpoint block_loop (fuel : nat) (sets : bool) (c : context) (ds : list set_def) (ls : list str)
  : outcome (context * list set_def * list str) :=
  match fuel with
  | O => NoFuel
  | S f =>
    match nextCaseLine ls with
    | None => Ok (c, ds, [])
    | Some (raw, toks, r) =>
      match toks with
      | [] => Ok (c, ds, ls)
      | t :: fields =>
        let k := word t in
        if sets && str_eqb k (txt "SET") then
          do dr <- addSet raw r; block_loop f sets c (ds ++ [fst dr]) (snd dr)
        else if ends_subcase k then Ok (c, ds, ls)
        else block_loop f sets (cset c k (command_value fields)) ds r
      end
    end
  end.

(** An analysis of the model: its number (none: NO_ORIGINAL_ID), its kind, the
    sets and outputs it refers to. *)
Record analysis := mkAnalysis { a_id : option Z; a_kind : analysis_kind; a_sel : list selection }.
(** NastranParser.cpp:651-978 with the handlers of 229-233 and of the loop below:
    after an error the analysis is not added.  (An exception of std::stoi is not
    caught there; it counts as an error here.) *)
Definition add_analysis (id : option Z) (c : context) (as_ : list analysis) : outcome (list analysis) :=
  match choose_analysis c (negb (null as_)) (fun n => existsb (fun a => match a_id a with Some m => (m =? n)%Z | None => false end) as_) with
  | Ok None => Ok as_
  | Ok (Some k) => do ss <- selections erase_end_libstdcxx c; Ok (as_ ++ [mkAnalysis id k ss])
  | Throw => Ok as_
  | UB => UB
  | NoFuel => NoFuel
  end.

(** NastranParser.cpp:330-536, parseExecutiveSection: the analyses, the sets, the
    lines of the bulk section.  Direct matrices (B2GG, K2GG, M2GG) and titles leave
    the rest alone and are not modelled, nor are combinations (SUBCOM: [Throw]) and
    what follows an error in a SET or in the number of a subcase ([Throw]). *)
Definition silent (k : str) : bool :=
  existsb (str_eqb k) (map txt ["CEND"; "B2GG"; "K2GG"; "M2GG"; "SUBTITLE"; "TITLE"]%string).
Fixpoint exec_loop (fuel : nat) (c : context) (found : bool) (as_ : list analysis) (ds : list set_def) (ls : list str)
  : outcome (list analysis * list set_def * list str) :=
  match fuel with
  | O => NoFuel
  | S f =>
    match nextCaseLine ls with
    | None => Ok (as_, ds, [])
    | Some (raw, toks, r) =>
      match toks with
      | [] => exec_loop f c found as_ ds r
      | t :: fields =>
        let k := word t in
        if null k then exec_loop f c found as_ ds r
        else if has_infix (txt "BEGIN") k then
          if found then Ok (as_, ds, r) else do as_ <- add_analysis None c as_; Ok (as_, ds, r)
        else if str_eqb k (txt "SUBCASE") then
          do n <- nextIntDefault 0 (mkCursor toks 1 FIELD);
          do b <- block_loop (S (length r)) true c [] r; let '(c', ds', r') := b in
          do as_ <- add_analysis (Some (fst n)) c' as_;
          exec_loop f c true as_ (ds ++ ds') r'
        else if str_eqb k (txt "SUBCOM") then Throw
        else if silent k then exec_loop f c found as_ ds r
        else if str_eqb k (txt "SET") then
          do dr <- addSet raw r; exec_loop f c found as_ (ds ++ [fst dr]) (snd dr)
        else do c <- exec_command c raw toks; exec_loop f c found as_ ds r
      end
    end
  end.
Definition read_control (ls : list str) : outcome (list analysis * list set_def * list str) :=
  exec_loop (S (length ls)) [] false [] [] ls.

(** ** Writing *)
Inductive akind := AStatic | AModal | ANonlinear | AModalFreq | AOther.
(** NastranWriter.cpp:197-243, writeSOL: the label (empty after the warning). *)
Definition sol_label (cosmic : bool) (k : akind) : str :=
  match cosmic, k with
  | true, AStatic => txt "1,1"
  | true, AModal => txt "1,3"
  | true, ANonlinear => txt "1,6"
  | false, AStatic => txt "101"
  | false, AModal => txt "103"
  | false, ANonlinear => txt "106"
  | false, AModalFreq => txt "111"
  | _, _ => []
  end.
Definition write_sol (cosmic : bool) (k : akind) (described : str) : list str :=
  (if null (sol_label cosmic k) then [txt "$ WARN analysis " ++ described ++ txt " not supported. Skipping."] else []) ++
  [txt "SOL " ++ sol_label cosmic k].

(** A set of loads or of constraints: its type with its number in the input file,
    if any (original_id), and its own (id); Object.h:87-93, bestId. *)
Record setref (T : Type) := mkRef { r_type : T; r_original : option Z; r_own : Z }.
Arguments mkRef {T}. Arguments r_type {T}. Arguments r_original {T}. Arguments r_own {T}.
Definition best {T} (r : setref T) : Z := match r_original r with Some n => n | None => r_own r end.
(** Loading.cpp:72-73, Constraint.cpp:104-109, stringByType. *)
Inductive ltype := LLoad | LDload | LExcite | LLoadset | LAll.
Inductive ktype := KSpc | KMpc | KContact | KAll.
Definition lname (t : ltype) : str :=
  match t with LLoad => txt "LOAD" | LDload => txt "DLOAD" | LExcite => txt "EXCITEID" | LLoadset => txt "LOADSET" | LAll => txt "ALL" end.
Definition kname (t : ktype) : str :=
  match t with KSpc => txt "SPC" | KMpc => txt "MPC" | KContact => txt "CONTACT" | KAll => txt "ALL" end.
(** NastranWriter.cpp:497, 555: the set number of MPC and CONTACT cards; 422: that
    of SPC1 cards. *)
Definition mpc_number (r : setref ktype) : Z := r_own r.
Definition spc_number (r : setref ktype) : Z := best r.

(** [w_disp]: the displacement outputs, each the numbers of its groups. *)
Record wanalysis := mkWanalysis {
  w_id : Z; w_kind : akind; w_described : str; w_loads : list (setref ltype); w_constraints : list (setref ktype); w_disp : list (list Z) }.
(** Numbers separated by commas. *)
Fixpoint commas (l : list str) : str :=
  match l with
  | [] => []
  | [a] => a
  | a :: r => a ++ ","%char :: commas r
  end.
(** NastranWriter.cpp:985-1023: a subcase. *)
Definition write_subcase (w : wanalysis) : list str :=
  [txt "SUBCASE " ++ int_text (w_id w)] ++
  map (fun r => txt "  " ++ lname (r_type r) ++ txt "=" ++ int_text (best r)) (w_loads w) ++
  map (fun r => txt "  " ++ kname (r_type r) ++ txt "=" ++ int_text (best r)) (w_constraints w) ++
  map (fun g => txt "  DISP = " ++ commas (map int_text g)) (w_disp w).

(** NastranWriter.cpp:934-965: a SET.  The line is broken before the eighth
    number, the sixteenth...; [broken]: the lines, [cur] being the current one. *)
Record wgroup := mkWgroup { g_id : Z; g_numbers : list Z; g_comment : str }.
Fixpoint broken (count : nat) (first : bool) (cur : str) (ns : list Z) : list str :=
  match ns with
  | [] => [cur]
  | n :: r =>
    let cur := if first then cur else cur ++ [","%char] in
    if (count mod 8) =? 0 then cur :: broken (S count) false (int_text n) r
    else broken (S count) false (cur ++ int_text n) r
  end.
Definition on_last (f : str -> str) (ls : list str) : list str :=
  match rev ls with
  | [] => []
  | x :: r => rev r ++ [f x]
  end.
Definition write_set (g : wgroup) : list str :=
  on_last (fun l => l ++ txt " $ " ++ g_comment g) (broken 1 true (txt "SET " ++ int_text (g_id g) ++ txt " = ") (g_numbers g)).
(** NastranWriter.cpp:966-984: a von Mises output, none: all cells. *)
Definition write_stress (o : option (list Z)) : str :=
  txt "  STRESS(VONMISES) = " ++ match o with None => txt "ALL" | Some l => commas (map int_text l) end.

(** NastranWriter.cpp:919-1034, writeModel down to BEGIN BULK.  Without analyses
    the first one is read past the end: [UB].  The names and comments hold no line
    break. *)
Record wmodel := mkWmodel {
  m_name : str; m_node_groups : list wgroup; m_cell_groups : list wgroup; m_stress : list (option (list Z)); m_analyses : list wanalysis }.
Definition write_control (cosmic : bool) (m : wmodel) : outcome (list str) :=
  match m_analyses m with
  | [] => UB
  | a :: _ =>
    Ok ([txt "$ " ++ m_name m; txt "ID " ++ m_name m ++ txt ",NASTRAN"] ++ write_sol cosmic (w_kind a) (w_described a) ++
        [txt "APP   DISP"; txt "TIME  10000"; txt "CEND"] ++
        flat_map write_set (m_node_groups m) ++ flat_map write_set (m_cell_groups m) ++
        map write_stress (m_stress m) ++ flat_map write_subcase (m_analyses m) ++
        (if cosmic then [txt "MAXLINES=999999"] else []) ++ [txt "$"; txt "TITLE=Vega Exported Model"; txt "BEGIN BULK"])
  end.
