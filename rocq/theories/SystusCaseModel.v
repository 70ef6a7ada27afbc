(** The analysis option of a Systus file, and how analyses are grouped into its subcases:
    Systus/SystusWriter.cpp:417-570 and 885-1012, with the options of the command line that
    choose them, Commandline/VegaCommandLine.cpp:300-309 and 352-386. *)
From Coq Require Import Ascii String ZArith List Bool Arith Lia.
From Verif Require Import Base TextModel DofModel.
Import ListNotations.
Open Scope Z_scope.
Open Scope list_scope.

(** ** Option *)

(** Element.h:44-68.  [truss]: the beam model is TRUSS; [rot]: Lmpc::hasRotations or
    Discrete::hasRotations. *)
Inductive ekind :=
| Discrete0D | Discrete1D | NodalMass
| CircularBeam (truss : bool) | TubeBeam (truss : bool) | RectangularBeam (truss : bool) | IBeam (truss : bool) | GenericBeam (truss : bool)
| StructuralSegment | Shell | Continuum | Skin | StiffnessMatrix | MassMatrix | DampingMatrix | RigidSet | RBar | RBe3
| LmpcSet (rot : bool) | ScalarSpring (rot : bool) | CompositeSet | SlideContact | UnknownSet.

Inductive soption := SHELL_OPTION | CONTINUOUS_OPTION.
Inductive suboption := NONE_SUB | MULTI_SUB.

(** SystusWriter.cpp:426-497: what an element set tells (six degrees of freedom needed; three),
    and whether it goes on to the next one without the test at 499-502 ([continue]). *)
Definition tells (k : ekind) (has6 has3 : bool) : bool * bool * bool :=
  match k with
  | CircularBeam t | GenericBeam t | IBeam t | RectangularBeam t => (has6 || negb t, has3, false)
  | Shell => (true, has3, false)
  | StiffnessMatrix | MassMatrix | DampingMatrix => (true, has3, false)
  | LmpcSet r | ScalarSpring r => (has6 || r, has3 || negb r, false)
  | Skin | Continuum => (has6, true, false)
  | RBar | RBe3 | StructuralSegment => (has6, has3, true)
  | Discrete0D | Discrete1D | NodalMass => (has6, has3, true)
  | _ => (has6, has3, false)
  end.
Fixpoint scan (l : list ekind) (has6 has3 : bool) : bool * bool :=
  match l with
  | [] => (has6, has3)
  | k :: r =>
    let '(h6, h3, cont) := tells k has6 has3 in
    if cont then scan r h6 h3 else if h6 && h3 then (h6, h3) else scan r h6 h3
  end.

(** SystusWriter.cpp:417-513 getSystusAutomaticOption. *)
Definition automatic (l : list ekind) : soption * suboption :=
  let '(h6, h3) := scan l false false in
  if h6 then (SHELL_OPTION, if h3 then MULTI_SUB else NONE_SUB) else (CONTINUOUS_OPTION, NONE_SUB).

(** VegaCommandLine.cpp:300-309: the option asked, [None] when absent. *)
Definition option_word (o : option str) : outcome str :=
  match o with
  | None => Ok (txt "auto")
  | Some w => if existsb (str_eqb w) [txt "auto"; txt "3D"; txt "shell"; txt "shell-multi"] then Ok w else Throw
  end.
(** SystusWriter.cpp:516-570 getSystusInformations, for an option the command line accepts:
    the option, its suboption, the degrees of freedom available and their number.  Messages
    are not modelled; another word leaves the fields of the writer uninitialised. *)
Definition informations (word : str) (l : list ekind) : outcome (soption * suboption * dofs * Z) :=
  do o <- (if str_eqb word (txt "auto") then Ok (automatic l)
           else if str_eqb word (txt "shell") then Ok (SHELL_OPTION, NONE_SUB)
           else if str_eqb word (txt "shell-multi") then Ok (SHELL_OPTION, MULTI_SUB)
           else if str_eqb word (txt "3D") then Ok (CONTINUOUS_OPTION, NONE_SUB)
           else UB);
  match fst o with
  | SHELL_OPTION => Ok (fst o, snd o, ALL_DOFS, 6)
  | CONTINUOUS_OPTION => Ok (fst o, snd o, TRANSLATIONS, 3)
  end.

(** ** Subcases *)

(** The analyses of the model in order: number, number in the input (None is NO_ORIGINAL_ID),
    type (position in Analysis.h:56-66; [STATIC] is LINEAR_MECA_STAT) and numbers of its constraint sets
    (Analysis::getConstraintSets). *)
Record sana := mkSana { sn_id : Z; sn_original : option Z; sn_type : Z; sn_csets : list Z }.
Definition STATIC : Z := 1.

(** VegaCommandLine.cpp:374-384: one list; stoi of an empty or too large token throws. *)
Definition subcase_list (w : str) : outcome (list Z) :=
  if negb (forallb (fun c => is_digit c || Ascii.eqb c ",") w) then Throw else mapM lexical_int (split_on "," w).
(** VegaCommandLine.cpp:352-386. *)
Fixpoint subcase_options (ws : list str) (acc : list (list Z)) : outcome (list (list Z)) :=
  match ws with
  | [] => Ok acc
  | w :: r =>
    if str_eqb w (txt "single") then Ok [[-1]]
    else if str_eqb w (txt "auto") then Ok []
    else do v <- subcase_list w; subcase_options r (acc ++ [v])
  end.

Fixpoint zlist_eqb (a b : list Z) : bool :=
  match a, b with
  | [], [] => true
  | x :: a, y :: b => (x =? y) && zlist_eqb a b
  | _, _ => false
  end.
(** SystusWriter.cpp:896-905. *)
Definition characteristic (a : sana) : list Z := sn_type a :: Z.of_nat (length (sn_csets a)) :: sn_csets a.
(** SystusWriter.cpp:908-917: the first subcase with these characteristics, else [n]. *)
Fixpoint find_char (c : list Z) (l : list (list Z)) (i n : nat) : nat :=
  match l with
  | [] => n
  | d :: r => if zlist_eqb c d then i else find_char c r (S i) n
  end.
Fixpoint push_at (l : list (list Z)) (i : nat) (x : Z) : list (list Z) :=
  match l, i with
  | [], _ => []
  | s :: r, O => (s ++ [x]) :: r
  | s :: r, S i => s :: push_at r i x
  end.
(** SystusWriter.cpp:893-929. *)
Definition add_analysis (st : list (list Z) * list (list Z)) (a : sana) : list (list Z) * list (list Z) :=
  let '(chars, subs) := st in
  let n := length subs in
  let i := if sn_type a =? STATIC then find_char (characteristic a) chars 0 n else n in
  if (i =? n)%nat then (chars ++ [characteristic a], subs ++ [[sn_id a]]) else (chars, push_at subs i (sn_id a)).
Definition merged (l : list sana) : list (list Z) := snd (fold_left add_analysis l ([], [])).

(** SystusWriter.cpp:942-959: the number of the first analysis with an original number. *)
Fixpoint by_original (l : list sana) (o : Z) : option Z :=
  match l with
  | [] => None
  | a :: r => if match sn_original a with Some p => p =? o | None => false end then Some (sn_id a) else by_original r o
  end.
(** SystusWriter.cpp:961-974. *)
Definition user_subcase (l : list sana) (os : list Z) : list Z :=
  flat_map (fun o => match by_original l o with Some i => [i] | None => [] end) os.
Definition user_subcases (l : list sana) (cfg : list (list Z)) : list (list Z) :=
  filter (fun s => negb (null s)) (map (user_subcase l) cfg).

(** SystusWriter.cpp:885-1012 generateSubcases; its warnings (976-991) and log (994-1005) are
    not modelled. *)
Definition generate_subcases (cfg : list (list Z)) (l : list sana) : outcome (list (list Z)) :=
  do subs <- match cfg with
    | [] => Ok (merged l)
    | [ [] ] => UB
    | [ x :: _ ] => if x =? -1 then Ok (map (fun a => [sn_id a]) l) else Ok (user_subcases l cfg)
    | _ => Ok (user_subcases l cfg)
    end;
  Ok (match subs with [] => [[]] | _ => subs end).
