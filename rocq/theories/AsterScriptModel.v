(** * The command file written for Code_Aster, as definitions, uses and
    destructions of concepts (Aster/AsterWriter.cpp).

    A command "N=CMD(…X…)" uses the concepts X and defines N; DETRUIRE destroys
    concepts.  What the commands compute is not modelled, only the names they
    mention.  Python variables of the file (pfreq, modes, uloc, unit, efreq, AMMO)
    are treated as concepts.  Out of scope: LIRE_MAILLAGE, AFFE_MODELE and the
    commands on groups of lines 654-795, which define MAIL and MODMECA and use
    only these, and the materials M and MC, which only CHMAT uses. *)
From Coq Require Import Ascii String ZArith List Bool Arith Lia.
From Verif Require Import Base DofModel TextModel.
Import ListNotations.
Open Scope Z_scope.
Open Scope list_scope.

(** ** Names *)
Inductive prefix :=
| RESU | MO | MOD | URESU | UMO | IRESU | IMO | JRESU | JMO | PFREQ | MOSTA | RESVE | MODES
| NDDL | RIEL | RIGI | RGEL | RIGE | MAEL | MASS | AMEL | AMOR | AMST | DEP | LAUTO | RAMP | IRAMP
| NDDLG | MASSG | RIGIG | AMORG | AMMOI | AMMOS | AMMOT | AMMO | EFREQ | GENE | FSIG | TBCRT
| CRESU | TBLO | ULOC | RETB | UNIT
| LSPR | LSIP | LST | FCT | BL | BLF | CN | CHMEC | CHMEF
| LOCXX | LOCYY | LOCXY | TSAI.
Inductive prefix2 := VE | FX | VG | DD | CL | GI | GMX | GMY | GMZ.
Inductive prefix3 := LLOC | LTSAI.
(** [Blank]: nothing is written where a name is expected; [Number]: a bare number;
    [FreqList]: the Python variable freqList. *)
Inductive name :=
| Modmeca | Chmat | Cael | Blank | Number (i : Z) | FreqList
| One (p : prefix) (i : Z) | Two (p : prefix2) (i j : Z) | Three (p : prefix3) (i j k : Z).

Inductive event := Use (n : name) | Def (n : name) | Del (n : name).
(** A command that defines [n] from [uses]. *)
Definition cmd (n : name) (uses : list name) : list event := map Use uses ++ [Def n].

(** ** What is written before the analyses *)
(** The constraints of a set: gaps (for each node, whether the three components of its
    direction differ from zero), other contacts, and the others, which depend on functions
    or not. *)
Inductive constraint := Gap (parts : list (bool * bool * bool)) | Contact | Plain (functions : bool).
Record cset := mkCset { cs_id : Z; cs_list : list constraint }.
Definition is_contact (c : constraint) : bool := match c with Plain _ => false | _ => true end.
(** Constraint.cpp:111-127. *)
Definition cs_functions (s : cset) : bool := existsb (fun c => match c with Plain f => f | _ => false end) (cs_list s).
Definition cs_contacts (s : cset) : bool := existsb is_contact (cs_list s).
Definition cs_empty (s : cset) : bool := match cs_list s with [] => true | _ => false end.

(** The loadings of a set: initial temperatures, dynamic excitations (number, set of
    loads, table), others, which depend on functions or not. *)
Inductive loading := Temperature | Excitation (id loads table : Z) | Other (functions : bool).
Record lset := mkLset { ls_id : Z; ls_dload : bool; ls_list : list loading }.
Definition ls_functions (s : lset) : bool := existsb (fun l => match l with Other f => f | _ => false end) (ls_list s).
Definition is_temperature (l : loading) : bool := match l with Temperature => true | _ => false end.

(** Values: lists and sets ([written] unless empty, or all), ranges with a step ([zero]; [ended]), tables,
    and those that are not written. *)
Inductive value := VList (id : Z) (written : bool) | VStep (id : Z) (zero ended : bool) | VTable (id : Z) | VOther (id : Z).

(** AsterWriter.cpp:797-936 writeValue: the commands, and the name that is returned. *)
Definition writeValue (v : value) : list event * name :=
  match v with
  | VList id true => (cmd (One LST id) [], One LST id)
  | VList id false => ([], Blank)
  | VStep id true _ => ([], Blank)
  | VStep id false true => (cmd (One LST id) [], One LST id)
  | VStep id false false => ([], One LST id)
  | VTable id => (cmd (One FCT id) [], One FCT id)
  | VOther id => ([], Blank)
  end.

(** 1441-1486: the boundary conditions of a set, BLF with functions, BL without. *)
Definition cs_written (s : cset) : bool := negb (cs_empty s) && negb (forallb is_contact (cs_list s)).
Definition plain_name (s : cset) : name := if cs_functions s then One BLF (cs_id s) else One BL (cs_id s).
Definition writeConstraints (s : cset) : list event := if cs_written s then cmd (plain_name s) [Modmeca] else [].
(** 1488-1530. *)
Definition ls_written (s : lset) : bool :=
  negb (ls_dload s) && negb (match ls_list s with [] => true | _ => false end) && negb (forallb is_temperature (ls_list s)).
Definition load_name (s : lset) : name := if ls_functions s then One CHMEF (ls_id s) else One CHMEC (ls_id s).
Definition writeLoads (s : lset) : list event := if ls_written s then cmd (load_name s) [Modmeca] else [].

(** 1552-1578: the constants of the gaps of a set; the number restarts with every gap,
    and MZ is defined when the second component is not zero. *)
Definition gap_defs (s : Z) (k : Z) (g : bool * bool * bool) : list event :=
  let '(x, y, z) := g in
  [Def (Two GI s k)] ++ (if x then [Def (Two GMX s k)] else []) ++ (if y then [Def (Two GMY s k)] else []) ++ (if y then [Def (Two GMZ s k)] else []).
Definition gap_uses (s : Z) (k : Z) (g : bool * bool * bool) : list event :=
  let '(x, y, z) := g in
  [Use (Two GI s k)] ++ (if x then [Use (Two GMX s k)] else []) ++ (if y then [Use (Two GMY s k)] else []) ++ (if z then [Use (Two GMZ s k)] else []).
Fixpoint count_parts (f : Z -> bool * bool * bool -> list event) (k : Z) (l : list (bool * bool * bool)) : list event :=
  match l with [] => [] | g :: l => f k g ++ count_parts f (k + 1) l end.
Definition gaps (s : cset) : list (list (bool * bool * bool)) := flat_map (fun c => match c with Gap p => [p] | _ => [] end) (cs_list s).
(** 1532-1692. *)
Definition writeContact (s : cset) : list event :=
  if cs_empty s || negb (cs_contacts s) then []
  else flat_map (count_parts (gap_defs (cs_id s)) 1) (gaps s) ++ [Use Modmeca] ++
       flat_map (count_parts (gap_uses (cs_id s)) 1) (gaps s) ++ [Def (One CN (cs_id s))].
(** asternameByConstraintSet and asternameByLoadSet after both; nothing, an empty text. *)
Definition charge_of (s : cset) : name :=
  if negb (cs_empty s) && cs_contacts s then One CN (cs_id s)
  else if cs_written s then plain_name s else Blank.
Definition load_of (s : lset) : name := if ls_written s then load_name s else Blank.

(** ** Analyses *)
Inductive damping := DampCrit | DampG.
Inductive frequencies := FList | FSpread | FInterpolate.
(** [freq_id]: the number of the objective; [freq_value]: of its value. *)
Record excit := mkExcit { freq_kind : frequencies; freq_id : Z; freq_value : Z }.
Inductive kind :=
| Combination (subs : list Z)
| Static
| NonLinear (previous : option Z) (steps : value)
| Direct (structural : bool) (f : excit)
| Modal | ModalComplex
| ModalFreq (residual : bool) (damp : option (damping * Z)) (f : excit)
| Buckling (static : Z).
(** [a_reuse]: the analysis reusableAnalysisFor finds (Model.cpp:835-844, claim C69);
    [a_asserts]: for each assertion, whether it is about a frequency (and within the bounds,
    3121-3133); [a_outputs]: the values of its frequency outputs; [a_disp]: displacement
    outputs; [a_vm]: whether it asks for von Mises stresses. *)
Record analysis := mkAnalysis { a_id : Z; a_kind : kind; a_loads : list lset; a_csets : list cset; a_reuse : option Z;
  a_asserts : list bool; a_outputs : list Z; a_disp : bool; a_vm : bool }.
(** The model: [m_materials], [m_elements]: whether there are materials, sets of elements;
    [m_beams]: beams, or trusses with large displacements; [m_vm]: von Mises outputs;
    [m_composites]: for each composite, the number of its layers with a TSAI_WU criterion. *)
Record model := mkModel { m_materials : bool; m_elements : bool; m_beams : bool; m_vm : nat; m_print : bool; m_composites : list nat;
  m_values : list value; m_csets : list cset; m_lsets : list lset; m_analyses : list analysis }.

Definition is_modal (a : analysis) : bool := match a_kind a with Modal => true | _ => false end.
Definition find_analysis (m : model) (i : Z) : option analysis := find (fun a => a_id a =? i) (m_analyses m).
(** Model.cpp:846-867: a later analysis reuses it. *)
Fixpoint reused_after (l : list analysis) (i : Z) (after : bool) : bool :=
  match l with
  | [] => false
  | o :: l => if a_id o =? i then reused_after l i true
              else if negb after then reused_after l i after
              else match a_reuse o with Some b => (b =? i) || reused_after l i after | None => reused_after l i after end
  end.
Definition canBeReused (m : model) (a : analysis) : bool := reused_after (m_analyses m) (a_id a) false.
(** AsterWriter.cpp:602-625. *)
Definition refers (a : analysis) (i : Z) : bool :=
  match a_kind a with
  | NonLinear (Some p) _ => p =? i
  | Buckling s => s =? i
  | Combination subs => existsb (fun s => s =? i) subs
  | _ => false
  end.
Definition usedInNext (m : model) (a : analysis) : bool := existsb (fun o => refers o (a_id a)) (m_analyses m).

(** What a part of the writer writes, and the names it adds to destroyableConcepts. *)
Definition part := (list event * list name)%type.
Definition seq (p q : part) : part := (fst p ++ fst q, snd p ++ snd q).
Notation "p >> q" := (seq p q) (at level 61, right associativity).
Definition nothing : part := ([], []).
Definition writes (l : list event) : part := (l, []).
Definition drops (l : list name) : part := ([], l).
Definition when (b : bool) (p : part) : part := if b then p else nothing.
Definition parts {A} (f : A -> part) (l : list A) : part := (flat_map (fun x => fst (f x)) l, flat_map (fun x => snd (f x)) l).

Definition material (m : model) : list name := if m_materials m then [Chmat] else [].

(** 2234-2292 writeAssemblage. *)
Definition writeAssemblage (m : model) (a : analysis) (reused : bool) : part :=
  let i := a_id a in
  let charge := map (fun s => One BL (cs_id s)) (a_csets a) in
  let common := Modmeca :: charge ++ material m ++ [Cael] in
  let buckling := match a_kind a with Buckling _ => true | _ => false end in
  writes (cmd (One NDDL i) (Modmeca :: charge) ++ cmd (One RIEL i) common ++ cmd (One RIGI i) [One RIEL i; One NDDL i]) >>
  when (negb reused) (drops [One NDDL i; One RIEL i; One RIGI i]) >>
  (if buckling then
     writes (cmd (One RGEL i) (Modmeca :: material m ++ [Cael; One FSIG i]) ++ cmd (One RIGE i) [One RGEL i; One NDDL i]) >>
     when (negb reused) (drops [One RGEL i; One RIGE i])
   else
     writes (cmd (One MAEL i) common ++ cmd (One MASS i) [One MAEL i; One NDDL i] ++
             cmd (One AMEL i) (common ++ [One RIEL i; One MAEL i]) ++ cmd (One AMOR i) [One AMEL i; One NDDL i]) >>
     when (negb reused) (drops [One MAEL i; One MASS i; One AMEL i; One AMOR i])).

(** The dynamic excitations of the sets of loads of an analysis: number, set, table. *)
Definition excitations (a : analysis) : list (Z * Z * Z) :=
  flat_map (fun s => flat_map (fun l => match l with Excitation e s t => [(e, s, t)] | _ => [] end) (ls_list s)) (a_loads a).
(** 2592-2615, 2788-2812; [b]: the analysis whose numbering is used. *)
Definition writeExcitation (m : model) (i b : Z) (x : Z * Z * Z) : part :=
  let '(e, s, t) := x in
  (cmd (Two VE i e) (material m ++ [Cael; One CHMEC s]) ++ cmd (Two FX i e) [Two VE i e; One NDDL b], [Two VE i e; Two FX i e]).

(** 2413-2445. *)
Definition writeCombination (i : Z) (subs : list Z) : part :=
  writes (flat_map (fun s => cmd (Two DD i s) [One RESU s]) subs ++
          cmd (One DEP i) (Modmeca :: map (fun s => Two DD i s) subs) ++
          cmd (One RESU i) [One DEP i; Modmeca; Chmat]).
(** 2446-2471. *)
Definition writeStatic (m : model) (a : analysis) : part :=
  writes (cmd (One RESU (a_id a)) (Modmeca :: material m ++ [Cael] ++ map load_of (a_loads a) ++
          map charge_of (filter (fun s => negb (cs_empty s)) (a_csets a)))).
(** 2472-2575. *)
Definition writeNonLinear (m : model) (a : analysis) (previous : option Z) (steps : value) : part :=
  let i := a_id a in
  let '(ev, list_name) := writeValue steps in
  let before := match previous with Some p => match find_analysis m p with Some q => a_loads q | None => [] end | None => [] end in
  let prev := match previous with Some _ => true | None => false end in
  writes (ev ++ cmd (One LAUTO i) [list_name] ++ cmd (One RAMP i) [] ++ (if prev then cmd (One IRAMP i) [] else []) ++
    cmd (One RESU i)
      (Modmeca :: material m ++ [Cael] ++
       flat_map (fun s => [load_of s; One IRAMP i]) before ++
       flat_map (fun s => [load_of s; One RAMP i]) (a_loads a) ++
       map charge_of (filter (fun s => negb (cs_contacts s) && negb (cs_empty s)) (a_csets a)) ++
       map charge_of (filter (fun s => negb (cs_empty s) && cs_contacts s) (m_csets m)) ++
       [One LAUTO i; list_name] ++ match previous with Some p => [One RESU p] | None => [] end)).
(** 2576-2660. *)
Definition writeDirect (m : model) (a : analysis) (structural : bool) (f : excit) (reused : bool) : part :=
  let i := a_id a in
  writeAssemblage m a reused >>
  when structural (writes (cmd (One AMST i) [One RIGI i])) >>
  parts (writeExcitation m i i) (excitations a) >>
  writes (cmd (One RESU i) ([One MASS i; One RIGI i; if structural then One AMST i else One AMOR i; One LST (freq_value f)] ++
    flat_map (fun x : Z * Z * Z => let '(e, _, t) := x in [Two FX i e; One FCT t]) (excitations a))).
(** 2661-2728: the modes; the number of the analysis they come from, and their name. *)
Definition modal_name (m : model) (a : analysis) : Z * name :=
  match a_reuse a with
  | None => (a_id a, if is_modal a then One RESU (a_id a) else One MO (a_id a))
  | Some b => (b, match find_analysis m b with Some q => if is_modal q then One RESU b else One MOD b | None => One MOD b end)
  end.
Definition writeModal (m : model) (a : analysis) (reused : bool) : part :=
  let i := a_id a in
  let '(b, r) := modal_name m a in
  match a_reuse a with
  | None =>
      let mod_ := is_modal a in
      let u := if mod_ then One URESU i else One UMO i in
      let t := if mod_ then One IRESU i else One IMO i in
      let j := if mod_ then One JRESU i else One JMO i in
      writeAssemblage m a reused >>
      when (negb mod_ && negb reused) (drops [r]) >>
      writes (cmd u [One RIGI i; One MASS i]) >> drops [u] >>
      writes (cmd r [u] ++ cmd t [r] ++ [Use t]) >> drops [t] >>
      writes (cmd j [r] ++ [Use j]) >> drops [j]
  | Some _ => nothing
  end >> writes (cmd (One PFREQ i) [r]).
(** 2729-2980. *)
Definition writeModalFreq (m : model) (a : analysis) (residual : bool) (damp : option (damping * Z)) (f : excit) (reused : bool) : part :=
  let i := a_id a in
  let '(b, r) := modal_name m a in
  writeModal m a reused >>
  (if residual then
     writes (cmd (One MOSTA i) [One RIGI b; One MASS b] ++ cmd (One RESVE i) [r; One MOSTA i; One NDDL b; One RIGI b]) >>
     drops [One RESVE i; One MOSTA i] >> writes (cmd (One MODES i) [One RESVE i])
   else writes (cmd (One MODES i) [r])) >>
  parts (writeExcitation m i b) (excitations a) >>
  writes (map Use [One MODES i; One MASS b; One RIGI b] ++ match damp with None => [Use (One AMOR b)] | Some _ => [] end ++
          map (fun x : Z * Z * Z => let '(e, _, _) := x in Use (Two FX i e)) (excitations a) ++
          map Def [One NDDLG i; One MASSG i; One RIGIG i] ++ match damp with None => [Def (One AMORG i)] | Some _ => [] end ++
          map (fun x : Z * Z * Z => let '(e, _, _) := x in Def (Two VG i e)) (excitations a)) >>
  drops ([One NDDLG i; One RIGIG i; One MASSG i] ++ match damp with None => [One AMORG i] | Some _ => [] end ++
          map (fun x : Z * Z * Z => let '(e, _, _) := x in Two VG i e) (excitations a)) >>
  match damp with
  | None => nothing
  | Some (d, t) =>
      writes (cmd (One AMMOI i) [One FCT t; One PFREQ i]) >>
      match d with
      | DampCrit => writes (cmd (One AMMOS i) [One AMMOI i])
      | DampG => writes (cmd (One AMMOS i) [Number i]) >> drops [One AMMOS i]
      end >>
      writes (cmd (One AMMOT i) [One AMMOS i] ++ cmd (One AMMO i) [One AMMOT i]) >> drops [One AMMOI i; One AMMOT i]
  end >>
  match freq_kind f with
  | FSpread => writes (cmd (One LSPR (freq_id f)) [One PFREQ i]) >> drops [One LSPR (freq_id f)]
  | FInterpolate => writes (cmd (One EFREQ i) [FreqList] ++ cmd (One LSIP (freq_id f)) [One EFREQ i]) >> drops [One LSIP (freq_id f)]
  | FList => nothing
  end >>
  writes (cmd (One GENE i) ([One MASSG i; One RIGIG i; match damp with Some _ => One AMMO i | None => One AMORG i end;
            match freq_kind f with FSpread => One LSPR (freq_value f) | FInterpolate => One LSIP (freq_value f) | FList => One LST (freq_value f) end] ++
            flat_map (fun x : Z * Z * Z => let '(e, _, t) := x in [Two VG i e; One FCT t]) (excitations a)) ++
          cmd (One RESU i) (One GENE i :: map (One LST) (a_outputs a))) >>
  drops [One GENE i].
(** 3019-3054. *)
Definition writeBuckling (m : model) (a : analysis) (static : Z) (reused : bool) : part :=
  let i := a_id a in
  writes (cmd (One FSIG i) [One RESU static]) >> writeAssemblage m a reused >>
  writes (cmd (One RESU i) [One RIGI i; One RIGE i] ++ [Use (One RESU i)] ++ cmd (One TBCRT i) [One RESU i] ++ [Use (One TBCRT i)]) >>
  drops [One FSIG i; One TBCRT i].
(** 2404-3062 writeAnalysis. *)
Definition writeAnalysis (m : model) (a : analysis) : part :=
  let reused := canBeReused m a in
  match a_kind a with
  | Combination subs => writeCombination (a_id a) subs
  | Static => writeStatic m a
  | NonLinear p steps => writeNonLinear m a p steps
  | Direct s f => writeDirect m a s f reused
  | Modal | ModalComplex => writeModal m a reused
  | ModalFreq r d f => writeModalFreq m a r d f reused
  | Buckling s => writeBuckling m a s reused
  end.

(** 364-432: the work of the loads and the displacements of the beams. *)
Definition is_static (a : analysis) : bool := match a_kind a with Static | NonLinear _ _ => true | _ => false end.
Definition writeEnergy (m : model) (a : analysis) : part :=
  let i := a_id a in
  when (is_static a)
    (writes (map Use (One RESU i :: Modmeca :: material m ++ [Cael]) ++ cmd (One CRESU i) [One RESU i] ++ [Use (One CRESU i)]) >>
     drops [One CRESU i] >>
     when (m_beams m)
       (writes (cmd (One TBLO i) [One RESU i] ++ cmd (One ULOC i) [] ++ map Use [One TBLO i; One ULOC i]) >> drops [One TBLO i; One ULOC i])).
(** 434-470, with calc_sigm of 1087 and 1259-1261. *)
Definition calc_sigm (m : model) : bool := match m_composites m with [] => false | _ => m_elements m end.
Definition writeStresses (m : model) (a : analysis) : part :=
  let i := a_id a in
  when (calc_sigm m) (writes (map Use (One RESU i :: Modmeca :: material m ++ [Cael]))) >>
  (if a_vm a then writes (map Use [One RESU i; Modmeca])
   else writes (flat_map (fun _ => map Use [One RESU i; Modmeca]) (List.seq 0 (m_vm m)))).
(** 472-560: one layer, numbered [l], of the composite numbered [c]. *)
Definition writeLayer (i c l : Z) : part :=
  let s := Two CL c l in let loc := Three LLOC i c l in let ts := Three LTSAI i c l in
  (cmd s [One RESU i] ++ cmd (One LOCXX l) [] ++ cmd (One LOCYY l) [] ++ cmd (One LOCXY l) [] ++
   cmd loc [s; One LOCXX l; One LOCYY l; One LOCXY l] ++ [Use loc] ++ cmd (One TSAI l) [] ++ cmd ts [loc; One TSAI l] ++ [Use ts],
   [s; One LOCXX l; One LOCYY l; One LOCXY l; loc; One TSAI l; ts]).
Fixpoint writeLayers (i c l : Z) (n : nat) : part :=
  match n with O => nothing | S n => writeLayer i c l >> writeLayers i c (l + 1) n end.
Fixpoint writeComposites (i c : Z) (l : list nat) : part :=
  match l with [] => nothing | n :: l => writeLayers i c 1 n >> writeComposites i (c + 1) l end.
(** 562-594, with 3114-3150 for the frequencies. *)
Definition assertion_name (m : model) (a : analysis) (frequency : bool) : name :=
  if frequency then
    let by_kind q := match a_kind q with Modal | Buckling _ => One RESU (a_id q) | _ => One UMO (a_id q) end in
    match a_reuse a with
    | None => by_kind a
    | Some b => match find_analysis m b with Some q => by_kind q | None => One UMO b end
    end
  else One RESU (a_id a).
Definition writeAssertions (m : model) (a : analysis) : part := writes (map (fun f => Use (assertion_name m a f)) (a_asserts a)).
(** 125-356 writeImprResultats. *)
Definition writeImpr (m : model) (a : analysis) : part :=
  let i := a_id a in
  let fresh := match a_reuse a with None => true | Some _ => false end in
  writes match a_kind a with
         | Combination _ | Static => if m_print m then [Use (One RESU i)] else []
         | Buckling _ | Direct _ _ | NonLinear _ _ => [Use (One RESU i)]
         | Modal | ModalFreq _ _ _ | ModalComplex => []
         end >>
  writes match a_kind a with
         | Combination _ | Static | NonLinear _ _ | Buckling _ | Modal | Direct _ _ => [Use (One RESU i)]
         | ModalFreq _ _ _ => (if fresh then [Use (One MO i)] else []) ++ [Use (One RESU i)]
         | ModalComplex => []
         end >>
  writes (if a_disp a then cmd (One RETB i) (One RESU i :: map (One LST) (a_outputs a)) ++ [Use (One RETB i)]
          else cmd (One RETB i) match a_kind a with
                                | Combination _ | Modal | Buckling _ | NonLinear _ _ | Static => [One RESU i]
                                | ModalFreq _ _ _ => if fresh then [One MO i] else []
                                | Direct _ _ | ModalComplex => []
                                end) >>
  writes (cmd (One UNIT i) [] ++ map Use [One RETB i; One UNIT i]) >> drops [One RETB i; One UNIT i].

(** 358-641 writeAnalyses: one analysis, and what is destroyed after it. *)
Definition writeOne (m : model) (a : analysis) : list event :=
  let p := writeAnalysis m a >> writeEnergy m a >> writeStresses m a >> writeComposites (a_id a) 1 (m_composites m) >>
           writeAssertions m a >> writeImpr m a >>
           when (negb (usedInNext m a) && negb (canBeReused m a)) (drops [One RESU (a_id a)]) in
  fst p ++ map Del (snd p).

(** 643-673 writeComm, with 1057-1083 (CHMAT) and 1086-1089 (CAEL). *)
Definition preamble (m : model) : list event :=
  [Def Modmeca] ++ flat_map (fun v => fst (writeValue v)) (m_values m) ++
  (if m_materials m then [Def Chmat] else []) ++ (if m_elements m then cmd Cael [Modmeca] else []) ++
  flat_map writeConstraints (m_csets m) ++ flat_map writeLoads (m_lsets m) ++ flat_map writeContact (m_csets m).
Definition writeComm (m : model) : list event := preamble m ++ flat_map (writeOne m) (m_analyses m).

(** ** The texts of the names *)
(** 8-digit ids at most would be [setw]: the number is padded with zeros to a width. *)
Definition pad (w : nat) (s : str) : str := repeat "0"%char (w - length s) ++ s.
Definition prefix_text (p : prefix) : str :=
  match p with
  | RESU => txt "RESU" | MO => txt "MO" | MOD => txt "MOD" | URESU => txt "URESU" | UMO => txt "UMO" | IRESU => txt "IRESU" | IMO => txt "IMO"
  | JRESU => txt "JRESU" | JMO => txt "JMO" | PFREQ => txt "pfreq" | MOSTA => txt "MOSTA" | RESVE => txt "RESVE" | MODES => txt "modes"
  | NDDL => txt "NDDL" | RIEL => txt "RIEL" | RIGI => txt "RIGI" | RGEL => txt "RGEL" | RIGE => txt "RIGE" | MAEL => txt "MAEL" | MASS => txt "MASS"
  | AMEL => txt "AMEL" | AMOR => txt "AMOR" | AMST => txt "AMST" | DEP => txt "DEP" | LAUTO => txt "LAUTO" | RAMP => txt "RAMP" | IRAMP => txt "IRAMP"
  | NDDLG => txt "NDDLG" | MASSG => txt "MASSG" | RIGIG => txt "RIGIG" | AMORG => txt "AMORG" | AMMOI => txt "AMMOI" | AMMOS => txt "AMMOS"
  | AMMOT => txt "AMMOT" | AMMO => txt "AMMO" | EFREQ => txt "efreq" | GENE => txt "GENE" | FSIG => txt "FSIG" | TBCRT => txt "TBCRT"
  | CRESU => txt "CRESU" | TBLO => txt "TBLO" | ULOC => txt "uloc" | RETB => txt "RETB" | UNIT => txt "unit"
  | LSPR => txt "LSPR" | LSIP => txt "LSIP" | LST => txt "LST" | FCT => txt "FCT" | BL => txt "BL" | BLF => txt "BLF" | CN => txt "CN"
  | CHMEC => txt "CHMEC" | CHMEF => txt "CHMEF"
  | LOCXX => txt "locxx" | LOCYY => txt "locyy" | LOCXY => txt "locxy" | TSAI => txt "TSAI"
  end.
Definition width (p : prefix) : nat := match p with LST | FCT => 5 | LSPR | LSIP => 4 | _ => 0 end.
(** What stands before the first number, and between the two. *)
Definition prefix2_text (p : prefix2) : str * str :=
  match p with
  | VE => (txt "VE", txt "_") | FX => (txt "FX", txt "_") | VG => (txt "VG", txt "_") | DD => (txt "D", txt "_") | CL => (txt "C", txt "L")
  | GI => (txt "C", txt "I") | GMX => (txt "C", txt "MX") | GMY => (txt "C", txt "MY") | GMZ => (txt "C", txt "MZ")
  end.
Definition prefix3_text (p : prefix3) : str := match p with LLOC => txt "r" | LTSAI => txt "R" end.
Definition name_text (n : name) : str :=
  match n with
  | Modmeca => txt "MODMECA" | Chmat => txt "CHMAT" | Cael => txt "CAEL" | Blank => [] | FreqList => txt "freqList"
  | Number i => int_text i
  | One p i => prefix_text p ++ pad (width p) (int_text i)
  | Two p i j => fst (prefix2_text p) ++ int_text i ++ snd (prefix2_text p) ++ int_text j
  | Three p i j k => prefix3_text p ++ int_text i ++ txt "C" ++ int_text j ++ txt "L" ++ int_text k
  end.
