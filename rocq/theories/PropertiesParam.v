(** C109: the parameters of a deck (PARAM cards) and what is made of them. *)
From Coq Require Import Ascii String ZArith QArith Qabs Qminmax Lqa List Bool Arith Lia.
From Verif Require Import Base TextModel TextProofs TokenizerModel NextIntsProofs RealModel LoadCardModel FieldProofs WriterLineModel CaseControlModel ParamModel ParamProofs.
Import ListNotations.
Open Scope Z_scope.
Open Scope list_scope.

(** The specification.  The name of the card of each parameter. *)
Definition card_name (p : parameter) : str :=
  txt (match p with
       | RAYLEIGH_MASS => "ALPHA1" | RAYLEIGH_STIFFNESS => "ALPHA2" | QUALITY_CHECK => "CHECKEL"
       | UPPER_CUTOFF => "HFREQ" | LOWER_CUTOFF => "LFREQ" | LARGE_DISPLACEMENTS => "LGDISP"
       | NORMAL_STIFFNESS => "K6ROT" | STRUCTURAL_DAMPING => "G" | FREQUENCY_OF_INTEREST => "W3"
       | MASS_MULTIPLIER => "WTMASS" | PRINT_MAXIM => "PRTMAXIM"
       end)%string.
(** The card [vec] gives the parameter [p]; no card of a list does. *)
Definition gives (p : parameter) (vec : list str) : Prop := word_at vec 1 (card_name p).
Definition silent (p : parameter) (cards : list (list str)) : Prop := forall vec, In vec cards -> ~ gives p vec.
(** Two values within half a unit of the fifteenth decimal; values with at most fifteen
    decimals. *)
Definition near (x y : decimal) : Prop := (Qabs (dec_q x - dec_q y) <= (1 # 2) * (10 # 1) ^ (-15))%Q.
Definition short (x : decimal) : Prop := exists n, (dec_q x == inject_Z n * (10 # 1) ^ (-15))%Q.
(** Utility.h:71-73, the other way round: two values that are not taken for equal. *)
Definition apart (x y : Q) : Prop := ((5 # 4503599627370496) * Qmax 1 (Qmax (Qabs x) (Qabs y)) < Qabs (x - y))%Q.
(** The text of parameter [p] denotes a number. *)
Definition valued (m : parameters) (p : parameter) (v : decimal) : Prop := exists t, m p = Some t /\ stod t = Ok v.

(** ** Lemmas *)
Definition name_text (n : pname) : str :=
  txt (match n with
       | ALPHA1 => "ALPHA1" | ALPHA2 => "ALPHA2" | AUTOSPC => "AUTOSPC" | CHECKEL => "CHECKEL" | PG => "G" | GRDPNT => "GRDPNT"
       | HFREQ => "HFREQ" | K6ROT => "K6ROT" | INREL => "INREL" | LFREQ => "LFREQ" | LGDISP => "LGDISP" | NOCOMPS => "NOCOMPS"
       | PATVER => "PATVER" | PRTMAXIM => "PRTMAXIM" | W3 => "W3" | WTMASS => "WTMASS" end)%string.
Lemma find_param_name w n : find_param w = Some n -> w = name_text n.
Proof.
  unfold find_param. destruct (find _ param_table) as [[k x]|] eqn:F; [|discriminate]. intros [= <-].
  apply find_some in F. destruct F as [I E]. cbn [fst snd] in *. destruct (str_eqb_spec k w); [subst|discriminate].
  unfold param_table in I. repeat (destruct I as [I|I]; [injection I as <- <-; reflexivity|]). destruct I.
Qed.
Lemma parse_other n m t m' p : parse_named n m t = Ok m' -> card_name p <> name_text n -> m' p = m p.
Proof.
  intros H N.
  destruct n; cbn [parse_named] in H; unfold real_unless, complex_of in H;
    repeat match type of H with
    | (do r <- ?x; _) = Ok _ => destruct x as [[? ?]| | |]; cbn [bind] in H; try discriminate H
    | (if ?b then _ else _) = Ok _ => destruct b; try discriminate H
    end; injection H as <-; try reflexivity;
    repeat match goal with |- (if ?b then _ else _) p = _ => destruct b; try reflexivity end;
    unfold setParameter; match goal with |- context [parameter_eq_dec ?a p] => destruct (parameter_eq_dec a p) as [<-|]; [exfalso; apply N; reflexivity|reflexivity] end.
Qed.
Lemma read_other m vec p : ~ gives p vec -> read_param m vec p = m p.
Proof.
  intros H. destruct (null (to_upper (trim (field vec 1)))) eqn:E.
  - rewrite read_nothing; [reflexivity|]. unfold word_at. destruct (to_upper _); [reflexivity|discriminate].
  - rewrite (read_at vec _ eq_refl) by (intros X; rewrite X in E; discriminate).
    destruct (find_param _) as [n|] eqn:F.
    + destruct (parse_named n m _) as [m'| | |] eqn:P; try reflexivity. apply (parse_other _ _ _ _ _ P). intros C. apply H.
      unfold gives, word_at. apply find_param_name in F. congruence.
    + destruct (existsb _ _); reflexivity.
Qed.
Lemma read_silent cards : forall m p, silent p cards -> read_params m cards p = m p.
Proof.
  induction cards as [|c r IH]; intros m p H; [reflexivity|]. change (read_params m (c :: r) p) with (read_params (read_param m c) r p).
  rewrite IH by (intros v I; apply H; now right). apply read_other, H. now left.
Qed.
Lemma read_last m before vec after p : silent p after ->
  read_params m (before ++ vec :: after) p = read_param (read_params m before) vec p.
Proof.
  intros H. unfold read_params at 1. rewrite fold_left_app. cbn [fold_left]. apply (read_silent after _ p H).
Qed.
Lemma name_present p : card_name p <> [].
Proof. destruct p; discriminate. Qed.
Lemma set_same p v m : setParameter p v m p = Some v.
Proof. unfold setParameter. destruct (parameter_eq_dec p p); congruence. Qed.
Lemma apart_equal x y : apart (dec_q x) (dec_q y) -> is_equal x y = false.
Proof.
  intros H. unfold is_equal. destruct (Qle_bool _ _) eqn:E; [|reflexivity]. apply Qle_bool_iff in E. unfold apart in H. exfalso. apply (Qlt_not_le _ _ H E).
Qed.
Lemma not_apart_equal x y : ~ apart (dec_q x) (dec_q y) -> is_equal x y = true.
Proof. intros H. unfold is_equal. apply Qle_bool_iff. apply Qnot_lt_le. exact H. Qed.

(** ** The theorems *)

(** A parameter that no card gives keeps its value. *)
Theorem C109_others m cards p : silent p cards -> read_params m cards p = m p.
Proof. apply read_silent. Qed.
Print Assumptions C109_others.

(** K6ROT and WTMASS: the last card counts, to fifteen decimals. *)
Theorem C109_last m before vec after p dflt v :
  (p = NORMAL_STIFFNESS /\ dflt = (100, 0) \/ p = MASS_MULTIPLIER /\ dflt = (1, 0)) ->
  gives p vec -> real_or dflt vec 2 v -> silent p after ->
  exists w, valued (read_params m (before ++ vec :: after)) p w /\ near w v /\ (short v -> dec_q w == dec_q v)%Q.
Proof.
  intros K G R A. exists (kept v). split; [|split; [apply kept_near|intros [n H]; exact (kept_exact v n H)]].
  exists (fixed15 v). split; [|apply fixed15_stod]. rewrite read_last by exact A. rewrite (read_at vec _ G (name_present p)).
  destruct K as [[-> ->]|[-> ->]].
  - change (find_param (card_name NORMAL_STIFFNESS)) with (Some K6ROT). cbn [parse_named]. rewrite (f_doubledef _ _ _ _ R). cbn [bind]. apply set_same.
  - change (find_param (card_name MASS_MULTIPLIER)) with (Some WTMASS). cbn [parse_named]. rewrite (f_doubledef _ _ _ _ R). cbn [bind]. apply set_same.
Qed.
Print Assumptions C109_last.

(** ALPHA1 and ALPHA2: the same for a complex number. *)
Theorem C109_complex m before vec after p re im : (p = RAYLEIGH_MASS \/ p = RAYLEIGH_STIFFNESS) ->
  gives p vec -> real_or (0, 0) vec 2 re -> real_or (0, 0) vec 3 im -> silent p after ->
  exists t x y, read_params m (before ++ vec :: after) p = Some t /\ from_complex t = Ok (x, y) /\ near x re /\ near y im.
Proof.
  intros K G R I A. exists (complex15 re im), (kept re), (kept im). split; [|split; [apply complex15_read|split; apply kept_near]].
  rewrite read_last by exact A. rewrite (read_at vec _ G (name_present p)).
  destruct K as [-> | ->].
  - change (find_param (card_name RAYLEIGH_MASS)) with (Some ALPHA1). cbn [parse_named]. unfold complex_of. rewrite (f_doubledef _ _ _ _ R). cbn [bind]. rewrite (f_doubledef _ _ _ _ I). cbn [bind]. apply set_same.
  - change (find_param (card_name RAYLEIGH_STIFFNESS)) with (Some ALPHA2). cbn [parse_named]. unfold complex_of. rewrite (f_doubledef _ _ _ _ R). cbn [bind]. rewrite (f_doubledef _ _ _ _ I). cbn [bind]. apply set_same.
Qed.
Print Assumptions C109_complex.

(** G, W3, LFREQ and HFREQ: the last card counts provided it does not say the default;
    one that does is as if it were not there (C109_reset_refuted).  The full statement is
    that of C109_last. *)
Definition defaulted (p : parameter) (dflt : decimal) : Prop :=
  (p = STRUCTURAL_DAMPING \/ p = FREQUENCY_OF_INTEREST \/ p = LOWER_CUTOFF) /\ dflt = (0, 0) \/ p = UPPER_CUTOFF /\ dflt = (1, 30).
Lemma defaulted_parse p dflt m vec v : defaulted p dflt -> gives p vec -> real_or dflt vec 2 v ->
  read_param m vec = if is_equal v dflt then m else setParameter p (fixed15 v) m.
Proof.
  intros D G R. rewrite (read_at vec _ G (name_present p)).
  destruct D as [[[-> |[-> | ->]] ->]|[-> ->]].
  - change (find_param (card_name STRUCTURAL_DAMPING)) with (Some PG). cbn [parse_named]. unfold real_unless. now rewrite (f_doubledef _ _ _ _ R).
  - change (find_param (card_name FREQUENCY_OF_INTEREST)) with (Some W3). cbn [parse_named]. unfold real_unless. now rewrite (f_doubledef _ _ _ _ R).
  - change (find_param (card_name LOWER_CUTOFF)) with (Some LFREQ). cbn [parse_named]. unfold real_unless. now rewrite (f_doubledef _ _ _ _ R).
  - change (find_param (card_name UPPER_CUTOFF)) with (Some HFREQ). cbn [parse_named]. unfold real_unless. now rewrite (f_doubledef _ _ _ _ R).
Qed.
Theorem C109_last_partial m before vec after p dflt v : defaulted p dflt ->
  gives p vec -> real_or dflt vec 2 v -> apart (dec_q v) (dec_q dflt) -> silent p after ->
  exists w, valued (read_params m (before ++ vec :: after)) p w /\ near w v /\ (short v -> dec_q w == dec_q v)%Q.
Proof.
  intros D G R N A. exists (kept v). split; [|split; [apply kept_near|intros [n H]; exact (kept_exact v n H)]].
  exists (fixed15 v). split; [|apply fixed15_stod]. rewrite read_last by exact A. rewrite (defaulted_parse p dflt _ vec v D G R).
  rewrite (apart_equal _ _ N). apply set_same.
Qed.
Print Assumptions C109_last_partial.
Theorem C109_default m before vec after p dflt v : defaulted p dflt ->
  gives p vec -> real_or dflt vec 2 v -> ~ apart (dec_q v) (dec_q dflt) -> silent p after ->
  read_params m (before ++ vec :: after) p = read_params m before p.
Proof.
  intros D G R N A. rewrite read_last by exact A. rewrite (defaulted_parse p dflt _ vec v D G R). now rewrite (not_apart_equal _ _ N).
Qed.
Print Assumptions C109_default.

(** A value that is not tiny is not taken for zero. *)
Lemma near_nonzero w v : near w v -> (2 * (10 # 1) ^ (-15) <= Qabs (dec_q v))%Q -> is_equal w (0, 0) = false.
Proof.
  intros N L. apply apart_equal. unfold apart, near in *. change (dec_q (0, 0)) with (0 * 1)%Q.
  assert (E : ((10 # 1) ^ (-15) == 1 # 1000000000000000)%Q) by (vm_compute; reflexivity). rewrite E in *.
  assert (T1 : (Qabs (dec_q v) <= Qabs (dec_q w) + Qabs (dec_q w - dec_q v))%Q).
  { assert (dec_q v == dec_q w + - (dec_q w - dec_q v))%Q as V by ring. rewrite V at 1. eapply Qle_trans; [apply Qabs_triangle|]. rewrite Qabs_opp. apply Qle_refl. }
  assert (Z0 : (dec_q w - 0 * 1 == dec_q w)%Q) by ring. rewrite Z0.
  assert (A0 : (Qabs (0 * 1) == 0)%Q) by reflexivity. rewrite A0.
  set (a := Qabs (dec_q w)) in *. pose proof (Qabs_nonneg (dec_q w)) as P. fold a in P. clearbody a.
  rewrite (Q.max_l a 0) by exact P.
  destruct (Qlt_le_dec 1 a) as [H|H].
  - rewrite (Q.max_r 1 a) by lra. lra.
  - rewrite (Q.max_l 1 a) by exact H. lra.
Qed.
(** The factor of the masses: that of the last WTMASS card, if it is not tiny. *)
Theorem C109_mass m before vec after v :
  gives MASS_MULTIPLIER vec -> real_or (1, 0) vec 2 v -> silent MASS_MULTIPLIER after -> (2 * (10 # 1) ^ (-15) <= Qabs (dec_q v))%Q ->
  exists w, mass_multiplier (read_params m (before ++ vec :: after)) = Ok w /\ near w v /\ (short v -> dec_q w == dec_q v)%Q.
Proof.
  intros G R A L. destruct (C109_last m before vec after MASS_MULTIPLIER (1, 0) v) as (w & (t & T & S) & N & X); [now right|exact G|exact R|exact A|].
  exists w. split; [|split; [exact N|exact X]]. unfold mass_multiplier. rewrite T, S. cbn [bind].
  now rewrite (near_nonzero w v N L).
Qed.
Print Assumptions C109_mass.
Theorem C109_no_mass cards : silent MASS_MULTIPLIER cards -> mass_multiplier (read_params no_parameters cards) = Ok (1, 0).
Proof. intros S. unfold mass_multiplier. now rewrite (read_silent cards _ _ S). Qed.
Print Assumptions C109_no_mass.

(** The lower bound of a band without one: that of the last LFREQ card that is not zero. *)
Theorem C109_lower m before vec after v : gives LOWER_CUTOFF vec -> real_at vec 2 v -> apart (dec_q v) 0 -> silent LOWER_CUTOFF after ->
  exists w, lower_bound (read_params m (before ++ vec :: after)) = Ok w /\ near w v.
Proof.
  intros G R N A. destruct (C109_last_partial m before vec after LOWER_CUTOFF (0, 0) v) as (w & (t & T & S) & X & _);
    [left; split; [now right; right|reflexivity]|exact G|now left|exact N|exact A|]. exists w. split; [|exact X]. unfold lower_bound. now rewrite T.
Qed.
Print Assumptions C109_lower.

(** Rayleigh's factors given to the materials. *)
Theorem C109_rayleigh m before vec after p re im : (p = RAYLEIGH_MASS \/ p = RAYLEIGH_STIFFNESS) ->
  gives p vec -> real_or (0, 0) vec 2 re -> real_or (0, 0) vec 3 im -> silent p after ->
  ((2 * (10 # 1) ^ (-15) <= Qabs (dec_q re))%Q -> exists w, rayleigh (read_params m (before ++ vec :: after)) p = Ok (Some w) /\ near w re) /\
  ((dec_q re == 0)%Q -> rayleigh (read_params m (before ++ vec :: after)) p = Ok None).
Proof.
  intros K G R I A. destruct (C109_complex m before vec after p re im K G R I A) as (t & x & y & T & C & X & _).
  unfold rayleigh. rewrite T, C. cbn [bind fst]. split; intros H.
  - rewrite (near_nonzero x re X H). now exists x.
  - rewrite not_apart_equal; [reflexivity|]. unfold apart, near in *. rewrite H in X. change (dec_q (0, 0)) with (0 * 1)%Q.
    assert (E : ((10 # 1) ^ (-15) == 1 # 1000000000000000)%Q) by (vm_compute; reflexivity). rewrite E in X.
    assert (Z0 : (dec_q x - 0 * 1 == dec_q x)%Q) by ring. assert (Z1 : (dec_q x - 0 == dec_q x)%Q) by ring. rewrite Z0. rewrite Z1 in X.
    intros B. pose proof (Q.le_max_l 1 (Qmax (Qabs (dec_q x)) (Qabs (0 * 1)))) as M. set (q := Qmax 1 _) in *. clearbody q. set (a := Qabs (dec_q x)) in *. clearbody a. lra.
Qed.
Print Assumptions C109_rayleigh.

(** The damping matrix is G / W3 times the stiffness matrix. *)
Theorem C109_damping m g w vg vw : m STRUCTURAL_DAMPING = Some g -> m FREQUENCY_OF_INTEREST = Some w ->
  stod g = Ok vg -> stod w = Ok vw ->
  (0 < dec_q vw -> exists c, damping_coefficient m = Ok (Some c) /\ c * dec_q vw == dec_q vg)%Q /\
  (dec_q vw <= 0 -> damping_coefficient m = Ok None)%Q.
Proof.
  intros G W SG SW. unfold damping_coefficient, getParameter. rewrite G, W.
  assert (NG : str_eqb g [] = false) by (destruct g; [discriminate SG|reflexivity]).
  assert (NW : str_eqb w [] = false) by (destruct w; [discriminate SW|reflexivity]). rewrite NG, NW, SW. cbn [orb bind].
  split; intros H.
  - destruct (Qle_bool (dec_q vw) 0) eqn:E; [apply Qle_bool_iff in E; lra|]. rewrite SG. cbn [bind]. eexists. split; [reflexivity|].
    field. intros X. rewrite X in H. discriminate.
  - apply Qle_bool_iff in H. now rewrite H.
Qed.
Print Assumptions C109_damping.

(** LGDISP: large displacements if and only if the last card that does not say -1 does
    not say 0. *)
Theorem C109_large_partial m before vec after k : gives LARGE_DISPLACEMENTS vec -> int_at vec 2 k -> k <> -1 -> silent LARGE_DISPLACEMENTS after ->
  needsLargeDisplacements (read_params m (before ++ vec :: after)) = Ok (negb (k =? 0)).
Proof.
  intros G K N A. assert (B : INT_MIN32 <= k <= INT_MAX32) by (destruct K as (ds & _ & _ & B & _); exact B). unfold needsLargeDisplacements. rewrite read_last by exact A. rewrite (read_at vec _ G (name_present _)).
  change (find_param (card_name LARGE_DISPLACEMENTS)) with (Some LGDISP). cbn [parse_named]. rewrite (f_intdef (-1) _ _ _ (or_introl K)). cbn [bind].
  apply Z.eqb_neq in N. rewrite N. rewrite set_same. rewrite stoi_int by exact B. reflexivity.
Qed.
Print Assumptions C109_large_partial.
Theorem C109_no_large cards : silent LARGE_DISPLACEMENTS cards -> needsLargeDisplacements (read_params no_parameters cards) = Ok false.
Proof. intros S. unfold needsLargeDisplacements. now rewrite (read_silent cards _ _ S). Qed.
Print Assumptions C109_no_large.

(** CHECKEL: the mesh is checked if and only if some card asks for it. *)
Definition asks (vec : list str) : Prop :=
  gives QUALITY_CHECK vec /\ (word_at vec 2 (txt "YES") \/ word_at vec 2 (txt "FULL") \/ word_at vec 2 []).
Lemma checkel_read m vec : gives QUALITY_CHECK vec ->
  (asks vec /\ exists v, (v = txt "YES" \/ v = txt "FULL") /\ read_param m vec QUALITY_CHECK = Some v) \/ (~ asks vec /\ read_param m vec = m).
Proof.
  intros G. rewrite (read_at vec _ G (name_present _)). change (find_param (card_name QUALITY_CHECK)) with (Some CHECKEL). cbn [parse_named].
  unfold nextStringDefault. rewrite next_field, trim_trim_right. cbn [bind]. unfold asks, word_at.
  set (v := to_upper (trim (field vec 2))).
  destruct (null v) eqn:N.
  - left. assert (v = []) as -> by (destruct v; [reflexivity|discriminate]). split; [tauto|]. exists (txt "YES"). split; [now left|]. reflexivity.
  - assert (v <> []) by (intros ->; discriminate).
    destruct (str_eqb_spec v (txt "YES")) as [E|E]; [left; split; [tauto|exists v; split; [now left|apply set_same]]|].
    destruct (str_eqb_spec v (txt "FULL")) as [F|F]; [left; split; [tauto|exists v; split; [now right|apply set_same]]|].
    right. split; [tauto|reflexivity].
Qed.
Theorem C109_check cards :
  (mesh_check (read_params no_parameters cards) = Some true <-> exists vec, In vec cards /\ asks vec) /\
  (mesh_check (read_params no_parameters cards) = Some false <-> ~ exists vec, In vec cards /\ asks vec).
Proof.
  assert (K : forall cards m, (m QUALITY_CHECK = None \/ exists v, (v = txt "YES" \/ v = txt "FULL") /\ m QUALITY_CHECK = Some v) ->
    let m' := read_params m cards in
    (((exists vec, In vec cards /\ asks vec) \/ m QUALITY_CHECK <> None) /\ (exists v, (v = txt "YES" \/ v = txt "FULL") /\ m' QUALITY_CHECK = Some v)) \/
    (~ (exists vec, In vec cards /\ asks vec) /\ m QUALITY_CHECK = None /\ m' QUALITY_CHECK = None)).
  { clear cards. induction cards as [|c r IH]; intros m H.
    - cbn. destruct H as [H|(v & V & H)]; [right; split; [intros (x & [] & _)|now split]|left]. split; [right; congruence|now exists v].
    - cbv zeta. change (read_params m (c :: r)) with (read_params (read_param m c) r).
      assert (C : (asks c /\ exists v, (v = txt "YES" \/ v = txt "FULL") /\ read_param m c QUALITY_CHECK = Some v) \/ (~ asks c /\ read_param m c QUALITY_CHECK = m QUALITY_CHECK)).
      { destruct (str_eqb_spec (to_upper (trim (field c 1))) (card_name QUALITY_CHECK)) as [E|E].
        - destruct (checkel_read m c E) as [X|[X Y]]; [now left|right; split; [exact X|now rewrite Y]].
        - right. split; [intros [G _]; now apply E|]. apply read_other. exact E. }
      destruct C as [[Ac (v & V & Ev)]|[Ac Ev]].
      + specialize (IH (read_param m c) (or_intror (ex_intro _ v (conj V Ev)))). cbv zeta in IH. destruct IH as [[_ I]|(_ & I & _)]; [|congruence].
        left. split; [left; exists c; split; [now left|exact Ac]|exact I].
      + specialize (IH (read_param m c)). rewrite Ev in IH. specialize (IH H). cbv zeta in IH. destruct IH as [[I J]|(I & J & L)].
        * left. split; [|exact J]. destruct I as [(x & X & Y)|I]; [left; exists x; split; [now right|exact Y]|now right].
        * right. split; [|now split]. intros (x & [<- |X] & Y); [now apply Ac|]. apply I. now exists x. }
  specialize (K cards no_parameters (or_introl eq_refl)). cbv zeta in K. unfold mesh_check, getParameter.
  destruct K as [[I (v & V & E)]|(I & _ & E)]; rewrite E.
  - destruct I as [I|I]; [|exfalso; apply I; reflexivity]. split; (split; [|]).
    + intros _. exact I.
    + intros _. destruct V as [-> | ->]; reflexivity.
    + destruct V as [-> | ->]; discriminate.
    + intros N. contradiction.
  - split; (split; [|]); [discriminate|intros X; contradiction|intros _; exact I|reflexivity].
Qed.
Print Assumptions C109_check.
(** Without one of the two, no damping matrix. *)
Theorem C109_damping_missing m : m STRUCTURAL_DAMPING = None \/ m FREQUENCY_OF_INTEREST = None -> damping_coefficient m = Ok None.
Proof.
  intros H. unfold damping_coefficient, getParameter. destruct H as [-> | ->]; [reflexivity|]. now rewrite orb_true_r.
Qed.
Print Assumptions C109_damping_missing.
(** PATVER: only version 3 is accepted. *)
Theorem C109_patver m vec v : word_at vec 1 (txt "PATVER") -> real_or (3, 0) vec 2 v ->
  (apart (dec_q v) 3 -> parsePARAM m (at_field vec 1) = Throw) /\ (~ apart (dec_q v) 3 -> parsePARAM m (at_field vec 1) = Ok m).
Proof.
  intros W R. unfold parsePARAM. rewrite (f_string vec 1 _ W) by discriminate. cbn [bind]. change (find_param (txt "PATVER")) with (Some PATVER). cbn [parse_named].
  rewrite (f_doubledef (3, 0) _ _ _ R). cbn [bind]. split; intros H; [now rewrite (apart_equal v (3, 0) H)|now rewrite (not_apart_equal v (3, 0) H)].
Qed.
Print Assumptions C109_patver.

(** Unknown and ignored names change nothing. *)
Theorem C109_unknown m vec : (forall p, ~ gives p vec) -> forall p, read_param m vec p = m p.
Proof. intros H p. apply read_other, H. Qed.
Print Assumptions C109_unknown.

(** ** Refutations *)
Definition card (fs : list string) : list str := map txt ("PARAM" :: fs)%string.

(** A deck that meets the hypotheses. *)
Example C109_case :
  let cards := [card ["WTMASS"; "0.00259"]; card ["G"; "0.06"]; card ["post"; "-1"]; card ["W3"; "12.5"]; card ["LGDISP"; "1"]; card ["CHECKEL"]; card ["alpha1"; "1.5"; ""]]%string in
  let m := read_params no_parameters cards in
  mass_multiplier m = Ok (2590000000000, -15) /\ (exists c, damping_coefficient m = Ok (Some c) /\ c == 6 # 1250)%Q /\
  needsLargeDisplacements m = Ok true /\ mesh_check m = Some true /\ rayleigh m RAYLEIGH_MASS = Ok (Some (1500000000000000, -15)) /\
  m RAYLEIGH_STIFFNESS = None /\ lower_bound m = Ok (0, 0).
Proof. cbv zeta. split; [vm_compute; reflexivity|]. split; [eexists; split; [vm_compute; reflexivity|reflexivity]|]. vm_compute. repeat split. Qed.

(** "The last card counts": a card that says the default does not take back what an
    earlier one said. *)
Theorem C109_reset_refuted : exists before vec, gives STRUCTURAL_DAMPING vec /\ real_or (0, 0) vec 2 (0, -1) /\
  exists w, valued (read_params no_parameters (before ++ [vec])) STRUCTURAL_DAMPING w /\ (dec_q w == 6 # 100)%Q.
Proof.
  exists [card ["G"; "0.06"]]%string, (card ["G"; "0.0"])%string. split; [vm_compute; reflexivity|]. split; [left; vm_compute; reflexivity|].
  exists (60000000000000, -15). split; [eexists; split; [vm_compute; reflexivity|vm_compute; reflexivity]|reflexivity].
Qed.
Print Assumptions C109_reset_refuted.
Theorem C109_large_refuted : exists before vec, gives LARGE_DISPLACEMENTS vec /\ int_at vec 2 (-1) /\
  needsLargeDisplacements (read_params no_parameters (before ++ [vec])) = Ok true.
Proof.
  exists [card ["LGDISP"; "1"]]%string, (card ["LGDISP"; "-1"])%string. split; [vm_compute; reflexivity|]. split; [|vm_compute; reflexivity].
  exists ["1"%char]. split; [discriminate|]. split; [reflexivity|]. split; [unfold INT_MIN32, INT_MAX32; lia|]. right. split; reflexivity.
Qed.
Print Assumptions C109_large_refuted.
Theorem C109_check_refuted : exists before vec, gives QUALITY_CHECK vec /\ word_at vec 2 (txt "NO") /\
  mesh_check (read_params no_parameters (before ++ [vec])) = Some true.
Proof. exists [card ["CHECKEL"; "YES"]]%string, (card ["CHECKEL"; "NO"])%string. vm_compute. repeat split. Qed.
Print Assumptions C109_check_refuted.
(** "A positive WTMASS multiplies the masses": too small, it becomes zero. *)
Theorem C109_small_refuted : exists vec v, gives MASS_MULTIPLIER vec /\ real_at vec 2 v /\ (0 < dec_q v)%Q /\
  mass_multiplier (read_params no_parameters [vec]) = UB.
Proof. exists (card ["WTMASS"; "1.-16"])%string, (1, -16). vm_compute. repeat split. Qed.
Print Assumptions C109_small_refuted.
(** "PRTMAXIM says whether extrema are printed": they always are. *)
Theorem C109_extrema_always cards : prints_extrema (read_params no_parameters cards) = true.
Proof.
  assert (K : forall cards m, m PRINT_MAXIM <> Some (txt "NO") -> read_params m cards PRINT_MAXIM <> Some (txt "NO")).
  { clear. induction cards as [|c r IH]; intros m H; [exact H|]. change (read_params m (c :: r)) with (read_params (read_param m c) r). apply IH.
    destruct (str_eqb_spec (to_upper (trim (field c 1))) (card_name PRINT_MAXIM)) as [E|E]; [|now rewrite (read_other m c PRINT_MAXIM E)].
    rewrite (read_at c _ E (name_present PRINT_MAXIM)). change (find_param (card_name PRINT_MAXIM)) with (Some PRTMAXIM). cbn [parse_named].
    unfold nextStringDefault. rewrite next_field. cbn [bind].
    match goal with |- context [str_eqb ?v (txt "YES")] => destruct (str_eqb_spec v (txt "YES")) as [Y|Y]; [rewrite Y|exact H] end.
    rewrite set_same. discriminate. }
  specialize (K cards no_parameters ltac:(discriminate)). unfold prints_extrema, getParameter. destruct (read_params _ _ _) as [t|]; [|reflexivity].
  destruct (str_eqb_spec t (txt "NO")); [congruence|reflexivity].
Qed.
Print Assumptions C109_extrema_always.
Theorem C109_extrema_refuted : exists vec, gives PRINT_MAXIM vec /\ word_at vec 2 (txt "NO") /\
  prints_extrema (read_params no_parameters [vec]) = true.
Proof. exists (card ["PRTMAXIM"; "NO"])%string. vm_compute. repeat split. Qed.
Print Assumptions C109_extrema_refuted.
