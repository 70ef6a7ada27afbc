(** * The texts of the names of concepts differ *)
From Coq Require Import Ascii String ZArith List Bool Arith Lia.
From Verif Require Import Base DofModel TextModel TextProofs AsterScriptModel AsterScriptProofs AsterScriptReady AsterScriptAnalysis.
Import ListNotations.
Open Scope Z_scope.
Open Scope list_scope.

Definition mark (c : ascii) : bool := negb (is_digit c).
Fixpoint span (p : ascii -> bool) (s : str) : str * str :=
  match s with [] => ([], []) | c :: r => if p c then let '(u, v) := span p r in (c :: u, v) else ([], s) end.
Definition stops (p : ascii -> bool) (s : str) : Prop := match s with [] => True | c :: _ => p c = false end.
Lemma span_app p u d : forallb p u = true -> stops p d -> span p (u ++ d) = (u, d).
Proof.
  induction u as [|c u IH]; intros F H; cbn in *; [destruct d as [|c d]; [reflexivity|]; cbn in H |- *; now rewrite H|].
  apply andb_true_iff in F. destruct F as [F1 F2]. rewrite F1, (IH F2 H). reflexivity.
Qed.
(** Three times marks then digits. *)
Definition pieces (s : str) : (str * str * str) * (str * str * str) :=
  let '(u1, r) := span mark s in let '(d1, r) := span is_digit r in
  let '(u2, r) := span mark r in let '(d2, r) := span is_digit r in
  let '(u3, r) := span mark r in let '(d3, r) := span is_digit r in ((u1, u2, u3), (d1, d2, d3)).
Definition digits (d : str) : Prop := forallb is_digit d = true /\ d <> [].
Lemma digits_stop d r : digits d -> stops mark (d ++ r).
Proof. intros [F N]. destruct d as [|c d]; [congruence|]. cbn in *. apply andb_true_iff in F. unfold mark. now rewrite (proj1 F). Qed.
Lemma marks_stop u r : forallb mark u = true -> u <> [] -> stops is_digit (u ++ r).
Proof. intros F N. destruct u as [|c u]; [congruence|]. cbn in *. apply andb_true_iff in F. destruct F as [F _]. unfold mark in F. now apply negb_true_iff in F. Qed.
Lemma pieces0 u : forallb mark u = true -> pieces u = ((u, [], []), ([], [], [])).
Proof. intros F. unfold pieces. rewrite <- (app_nil_r u) at 1. rewrite (span_app mark u [] F I). reflexivity. Qed.
Lemma pieces1 u d : forallb mark u = true -> digits d -> pieces (u ++ d) = ((u, [], []), (d, [], [])).
Proof.
  intros F D. unfold pieces. rewrite (span_app _ u); [|exact F|rewrite <- (app_nil_r d); now apply digits_stop].
  rewrite <- (app_nil_r d) at 1. rewrite (span_app _ d); [reflexivity|apply D|exact I].
Qed.
Lemma pieces2 u d v e : forallb mark u = true -> digits d -> forallb mark v = true -> v <> [] -> digits e -> pieces (u ++ d ++ v ++ e) = ((u, v, []), (d, e, [])).
Proof.
  intros F D G N E. unfold pieces. rewrite (span_app _ u); [|exact F|now apply digits_stop].
  rewrite (span_app _ d); [|apply D|now apply marks_stop]. rewrite (span_app _ v); [|exact G|rewrite <- (app_nil_r e); now apply digits_stop].
  rewrite <- (app_nil_r e) at 1. rewrite (span_app _ e); [reflexivity|apply E|exact I].
Qed.
Lemma pieces3 u d v e w f : forallb mark u = true -> digits d -> forallb mark v = true -> v <> [] -> digits e -> forallb mark w = true -> w <> [] -> digits f ->
  pieces (u ++ d ++ v ++ e ++ w ++ f) = ((u, v, w), (d, e, f)).
Proof.
  intros F D G N E H M K. unfold pieces. rewrite (span_app _ u); [|exact F|now apply digits_stop].
  rewrite (span_app _ d); [|apply D|now apply marks_stop]. rewrite (span_app _ v); [|exact G|now apply digits_stop].
  rewrite (span_app _ e); [|apply E|now apply marks_stop]. rewrite (span_app _ w); [|exact H|rewrite <- (app_nil_r f); now apply digits_stop].
  rewrite <- (app_nil_r f) at 1. rewrite (span_app _ f); [reflexivity|apply K|exact I].
Qed.

(** What the pieces of a name are, and the name from its pieces. *)
Definition heads (n : name) : str * str * str :=
  match n with
  | Modmeca => (txt "MODMECA", [], []) | Chmat => (txt "CHMAT", [], []) | Cael => (txt "CAEL", [], []) | Blank | Number _ | FreqList => ([], [], [])
  | One p _ => (prefix_text p, [], []) | Two p _ _ => (fst (prefix2_text p), snd (prefix2_text p), []) | Three p _ _ _ => (prefix3_text p, txt "C", txt "L")
  end.
Definition nums (n : name) : Z * Z * Z :=
  match n with One _ i => (i, 0, 0) | Two _ i j => (i, j, 0) | Three _ i j k => (i, j, k) | _ => (0, 0, 0) end.
Definition samples : list name :=
  [Modmeca; Chmat; Cael; One RESU 0; One MO 0; One MOD 0; One URESU 0; One UMO 0; One IRESU 0; One IMO 0; One JRESU 0; One JMO 0; One PFREQ 0; One MOSTA 0; One RESVE 0; One MODES 0; One NDDL 0; One RIEL 0; One RIGI 0; One RGEL 0; One RIGE 0; One MAEL 0; One MASS 0; One AMEL 0; One AMOR 0; One AMST 0; One DEP 0; One LAUTO 0; One RAMP 0; One IRAMP 0; One NDDLG 0; One MASSG 0; One RIGIG 0; One AMORG 0; One AMMOI 0; One AMMOS 0; One AMMOT 0; One AMMO 0; One EFREQ 0; One GENE 0; One FSIG 0; One TBCRT 0; One CRESU 0; One TBLO 0; One ULOC 0; One RETB 0; One UNIT 0; One LSPR 0; One LSIP 0; One LST 0; One FCT 0; One BL 0; One BLF 0; One CN 0; One CHMEC 0; One CHMEF 0; One LOCXX 0; One LOCYY 0; One LOCXY 0; One TSAI 0; Two VE 0 0; Two FX 0 0; Two VG 0 0; Two DD 0 0; Two CL 0 0; Two GI 0 0; Two GMX 0 0; Two GMY 0 0; Two GMZ 0 0; Three LLOC 0 0 0; Three LTSAI 0 0 0].
Definition heads_eqb (h k : str * str * str) : bool := let '(a, b, c) := h in let '(a', b', c') := k in str_eqb a a' && str_eqb b b' && str_eqb c c'.
Definition renumber (n : name) (v : Z * Z * Z) : name :=
  let '(i, j, k) := v in match n with One p _ => One p i | Two p _ _ => Two p i j | Three p _ _ _ => Three p i j k | _ => n end.
Definition rebuild (h : str * str * str) (v : Z * Z * Z) : option name := option_map (fun n => renumber n v) (find (fun n => heads_eqb (heads n) h) samples).
Lemma rebuild_ok n : good n -> rebuild (heads n) (nums n) = Some n.
Proof. intros G. destruct n as [| | | |i| |p i|p i j|p i j k]; try reflexivity; try (exfalso; exact G); destruct p; reflexivity. Qed.
Definition values (d : str * str * str) : Z * Z * Z := let '(a, b, c) := d in (digits_val a, digits_val b, digits_val c).
Lemma int_digits i : 0 <= i -> digits (int_text i) /\ digits_val (int_text i) = i.
Proof.
  intros H. unfold int_text. destruct (Z.ltb_spec i 0); [lia|]. destruct (nat_text_spec i H) as (A & B & C). split; [split; assumption|exact B].
Qed.
Lemma pad_digits w d : digits d -> digits (pad w d) /\ digits_val (pad w d) = digits_val d.
Proof.
  intros [F N]. unfold pad. set (k := (w - length d)%nat). clearbody k. split; [split|].
  - rewrite forallb_app, F, andb_true_r. induction k; [reflexivity|exact IHk].
  - intros E. apply app_eq_nil in E. tauto.
  - induction k; [reflexivity|]. cbn [repeat app]. rewrite digits_val_cons, IHk. cbn [digit_val]. replace (digit_val "0") with 0 by reflexivity. lia.
Qed.
Lemma text_pieces n : good n -> exists d, pieces (name_text n) = (heads n, d) /\ values d = nums n.
Proof.
  intros G. destruct n as [| | | |i| |p i|p i j|p i j k]; try (exfalso; exact G); cbn [name_text heads nums].
  - exists ([], [], []). split; reflexivity.
  - exists ([], [], []). split; reflexivity.
  - exists ([], [], []). split; reflexivity.
  - cbn in G. destruct (int_digits i G) as [D V]. destruct (pad_digits (width p) _ D) as [D' V'].
    exists (pad (width p) (int_text i), [], []). split; [apply pieces1; [destruct p; reflexivity|exact D']|]. cbn [values]. now rewrite V', V.
  - cbn in G. destruct (int_digits i (proj1 G)) as [D V]. destruct (int_digits j (proj2 G)) as [E W].
    exists (int_text i, int_text j, []). split; [apply pieces2; [destruct p; reflexivity|exact D|destruct p; reflexivity|destruct p; discriminate|exact E]|]. cbn [values]. now rewrite V, W.
  - cbn in G. destruct G as (G1 & G2 & G3). destruct (int_digits i G1) as [D V]. destruct (int_digits j G2) as [E W]. destruct (int_digits k G3) as [H U].
    exists (int_text i, int_text j, int_text k).
    split; [apply pieces3; [destruct p; reflexivity|exact D|reflexivity|discriminate|exact E|reflexivity|discriminate|exact H]|]. cbn [values]. now rewrite V, W, U.
Qed.
Lemma text_inj n n' : good n -> good n' -> name_text n = name_text n' -> n = n'.
Proof.
  intros G G' E. destruct (text_pieces n G) as (d & P & V). destruct (text_pieces n' G') as (d' & P' & V'). rewrite E, P' in P. injection P as H D.
  assert (Some n = Some n') as X; [|now injection X]. rewrite <- (rebuild_ok n G), <- (rebuild_ok n' G'), <- V, <- V', H, D. reflexivity.
Qed.

(** From structured names to texts. *)
Definition same (S : name -> Prop) (T : list str) : Prop := (forall n, S n -> good n /\ In (name_text n) T) /\ forall t, In t T -> exists n, S n /\ name_text n = t.
Definition allows (T : list str) (e : event) : Prop :=
  match e with Use n => In (name_text n) T | Def n => ~ In (name_text n) T | Del n => In (name_text n) T end.
Lemma valid_accepted : forall l S T, same S T -> validN good S l -> forall before e rest, l = before ++ e :: rest -> allows (fold_left step before T) e.
Proof.
  induction l as [|x l IH]; intros S T R V before e rest E; [destruct before; discriminate E|].
  assert (HERE : allows T x).
  { destruct x as [n|n|n]; cbn [validN allows] in *; [apply R, V| |apply R, V]. destruct V as [[V1 V2] _]. intros I. destruct (proj2 R _ I) as (n' & N & TE).
    apply V1. rewrite <- (text_inj n' n); [exact N|apply R, N|exact V2|exact TE]. }
  destruct before as [|y before]; cbn [app] in E; injection E as -> E; [exact HERE|]. cbn [fold_left].
  destruct y as [n|n|n]; cbn [validN step] in *; destruct V as [V1 V2].
  - exact (IH S T R V2 before e rest E).
  - apply (IH (add n S) (name_text n :: T)) with (rest := rest); [|exact V2|exact E]. split.
    + intros k [->|K]; [split; [apply V1|now left]|]. destruct (proj1 R k K) as [K1 K2]. split; [exact K1|now right].
    + intros t [<-|I]; [exists n; split; [now left|reflexivity]|]. destruct (proj2 R t I) as (k & K & <-). exists k. split; [now right|reflexivity].
  - apply (IH (fun k => S k /\ k <> n) (remove text_eq_dec (name_text n) T)) with (rest := rest); [|exact V2|exact E]. destruct (proj1 R n V1) as [G _]. split.
    + intros k [K N]. destruct (proj1 R k K) as [K1 K2]. split; [exact K1|]. apply in_in_remove; [|exact K2]. intros X. apply N. now apply text_inj.
    + intros t I. apply in_remove in I. destruct I as [I N]. destruct (proj2 R t I) as (k & K & <-). exists k. split; [split; [exact K|]|reflexivity]. intros ->. now apply N.
Qed.
