(** * C89: the command file for Code_Aster; C90: the names in it

    The conditions [ready] and the meaning of an accepted file are in AsterScriptReady.v. *)
From Coq Require Import Ascii String ZArith List Bool Arith Lia.
From Verif Require Import Base DofModel TextModel TextProofs AsterScriptModel AsterScriptProofs AsterScriptReady AsterScriptAnalysis AsterScriptNames AsterScriptOne.
Import ListNotations.
Open Scope Z_scope.
Open Scope list_scope.

(** ** C89 *)
(** Every concept that a command uses or destroys exists at that point and no concept is
    defined twice, for every model that meets the conditions of [ready].  Partial: without
    the conditions it is false, as the refutations below show. *)
Theorem C89_script_partial m : ready m -> accepted (writeComm m).
Proof. exact (comm_accepted m). Qed.

Definition sample_supports := mkCset 1 [Plain false; Plain false].
Definition sample_gap := mkCset 2 [Gap [(true, false, false); (false, true, true)]].
Definition sample_force := mkLset 10 false [Other false].
Definition sample_dload := mkLset 11 true [Excitation 5 10 2; Excitation 6 10 2].
Definition sample_an i k ls cs r fs o d := mkAnalysis i k ls cs r fs o d false.
Definition sample_analyses : list analysis :=
    [ sample_an 1 Static [sample_force] [sample_supports] None [false] [] true;
      sample_an 2 (Combination [1]) [] [] None [] [] true;
      sample_an 3 Modal [] [sample_supports] None [true; false] [] false;
      sample_an 4 (ModalFreq true (Some (DampCrit, 2)) (mkExcit FSpread 7 7)) [sample_dload] [sample_supports] (Some 3) [true] [1] true;
      sample_an 5 (ModalFreq false None (mkExcit FList 8 1)) [sample_dload] [sample_supports] None [true] [] false;
      sample_an 6 (NonLinear (Some 1) (VStep 20 false true)) [sample_force] [sample_supports; sample_gap] None [] [] true;
      sample_an 7 (Buckling 1) [] [sample_supports] None [true] [] true;
      sample_an 8 (Direct true (mkExcit FList 9 3)) [sample_dload] [sample_supports] None [] [1] true ].
Definition sample_m := mkModel true true true 1 true [0; 2; 0]%nat [VList 1 true; VTable 2; VStep 3 false true; VOther 4] [sample_supports; sample_gap] [sample_force; sample_dload] sample_analyses.
Ltac distinct := repeat (apply NoDup_cons; [cbn; intuition discriminate|]); apply NoDup_nil.
Example C89_ready_example : ready sample_m.
Proof.
  assert (L : loading_set sample_force) by (split; [reflexivity|]; exists (Other false); split; [now left|discriminate]).
  assert (As : assembled sample_supports) by (split; [exists (Plain false); split; [now left|reflexivity]|reflexivity]).
  assert (Ex : forall a, a_loads a = [sample_dload] -> excited sample_m a).
  { intros a E. unfold excited, excitations. rewrite E. cbn. split; [distinct|]. intros e s t H.
    destruct H as [H|[H|[]]]; injection H as <- <- <-; (split; [lia|split; [right; now left|]]); exists sample_force; (split; [now left|split; [reflexivity|split; [exact L|reflexivity]]]). }
  constructor; cbn.
  - reflexivity.
  - lia.
  - distinct.
  - distinct.
  - distinct.
  - distinct.
  - constructor; [split; [cbn; lia|intros g x y z []]|constructor; [|constructor]]. split; [cbn; lia|]. intros g x y z [<-|[]] [H|[H|[]]]; injection H as <- <- <-; [discriminate|reflexivity].
  - repeat (apply Forall_cons; [lia|]). apply Forall_nil.
  - assert (I1 : incl [sample_supports] (m_csets sample_m)) by (intros x [<-|[]]; now left).
    assert (I2 : incl [sample_dload] (m_lsets sample_m)) by (intros x [<-|[]]; right; now left).
    assert (I3 : incl [sample_force] (m_lsets sample_m)) by (intros x [<-|[]]; now left).
    assert (I4 : incl [sample_supports; sample_gap] (m_csets sample_m)) by (intros x H; exact H).
    assert (N1 : forall A (l : list A), incl [] l) by (intros A l x []).
    assert (O0 : forall i, In i [] -> listed sample_m i) by (intros i []).
    assert (O1 : forall i, In i [1] -> listed sample_m i) by (intros i [<-|[]]; left; now left).
    assert (LS : listed sample_m 3) by (right; do 2 right; now left).
    intros done a rest E. unfold sample_analyses in E.
    repeat (destruct done as [|? done]; cbn [app] in E; [injection E as <- <-|injection E as <- E]); try (destruct done; discriminate E).
    + refine (conj I1 (conj I3 (conj O0 (conj _ (conj eq_refl _))))); [intros [H|[]]; discriminate H|now constructor].
    + refine (conj (N1 _ _) (conj (N1 _ _) (conj O0 (conj _ (conj eq_refl _))))); [intros []|]. split; [reflexivity|]. split; [distinct|]. intros s [<-|[]]. now left.
    + refine (conj I1 (conj (N1 _ _) (conj O0 (conj (fun _ => I) (conj eq_refl _))))). now constructor.
    + refine (conj I1 (conj I2 (conj O1 (conj (fun _ => I) (conj I _))))). split; [|split; [now apply Ex|split; [split; [reflexivity|cbn; lia]|right; now left]]].
      exists (nth 2 sample_analyses (sample_an 0 Static [] [] None [] [] true)). split; [right; right; now left|split; reflexivity].
    + refine (conj I1 (conj I2 (conj O0 (conj (fun _ => I) (conj I _))))). split; [now constructor|split; [now apply Ex|split; [left; now left|exact I]]].
    + refine (conj I4 (conj I3 (conj O0 (conj _ (conj eq_refl _))))); [intros []|]. split; [now constructor|split; [eexists; reflexivity|]]. intros i H. injection H as <-.
      exists (nth 0 sample_analyses (sample_an 0 Static [] [] None [] [] true)). split; [now left|split; [reflexivity|now constructor]].
    + refine (conj I1 (conj (N1 _ _) (conj O0 (conj (fun _ => I) (conj eq_refl _))))). split; [now constructor|now left].
    + refine (conj I1 (conj I2 (conj O1 (conj _ (conj eq_refl _))))); [intros []|]. split; [now constructor|split; [now apply Ex|exact LS]].
Qed.
Example C89_script_example : accepted (writeComm sample_m) /\ (200 < length (writeComm sample_m))%nat.
Proof. split; [apply C89_script_partial, C89_ready_example|]. apply Nat.ltb_lt. vm_compute. reflexivity. Qed.

(** The supports and the loads of a static analysis reach its commands: a set of ordinary
    constraints is written under a name, and the analysis mentions this name. *)
Definition ordinary (s : cset) : Prop := cs_list s <> [] /\ forall c, In c (cs_list s) -> exists f, c = Plain f.
Theorem C89_supports_partial m a s : In a (m_analyses m) -> (a_kind a = Static \/ exists p v, a_kind a = NonLinear p v) ->
  In s (a_csets a) -> In s (m_csets m) -> ordinary s ->
  exists n, (n = One BL (cs_id s) \/ n = One BLF (cs_id s)) /\ In (Def n) (writeComm m) /\ In (Use n) (writeOne m a).
Proof.
  intros A K I J (NE & OR). exists (plain_name s).
  assert (E : cs_empty s = false) by (unfold cs_empty; destruct (cs_list s); [congruence|reflexivity]).
  assert (C : cs_contacts s = false).
  { unfold cs_contacts. apply not_true_iff_false. intros X. apply existsb_exists in X. destruct X as (c & X & Y). destruct (OR c X) as (f & ->). discriminate Y. }
  assert (W : cs_written s = true).
  { unfold cs_written. rewrite E. cbn [negb andb]. destruct (cs_list s) as [|c l] eqn:L; [congruence|]. destruct (OR c ltac:(now left)) as (f & ->). reflexivity. }
  split; [unfold plain_name; destruct (cs_functions s); tauto|]. split.
  - apply in_or_app. left. unfold preamble. rewrite !in_app_iff. do 4 right. left. apply in_flat_map. exists s. split; [exact J|]. unfold writeConstraints. rewrite W. apply in_or_app. right. now left.
  - unfold writeOne. apply in_or_app. left. rewrite seq_fst. apply in_or_app. left.
    assert (H : charge_of s = plain_name s) by (unfold charge_of; now rewrite E, C, W). rewrite <- H. destruct K as [K|(p & v & K)]; unfold writeAnalysis; rewrite K.
    + unfold writeStatic. cbn [writes fst]. apply in_or_app. left. apply in_map. right. rewrite !in_app_iff. do 3 right. apply in_map, filter_In. split; [exact I|]. now rewrite E.
    + unfold writeNonLinear. destruct (writeValue v) as [ev ln]. cbn [writes fst]. rewrite !in_app_iff. do 4 right. apply in_or_app. left. apply in_map. right. rewrite !in_app_iff. do 4 right. left.
      apply in_map, filter_In. split; [exact I|]. now rewrite E, C.
Qed.
Theorem C89_loads_partial m a s : In a (m_analyses m) -> (a_kind a = Static \/ exists p v, a_kind a = NonLinear p v) ->
  In s (a_loads a) -> In s (m_lsets m) -> loading_set s ->
  exists n, (n = One CHMEC (ls_id s) \/ n = One CHMEF (ls_id s)) /\ In (Def n) (writeComm m) /\ In (Use n) (writeOne m a).
Proof.
  intros A K I J L. exists (load_name s). pose proof (loading_written s L) as W.
  split; [unfold load_name; destruct (ls_functions s); tauto|]. split.
  - apply in_or_app. left. unfold preamble. rewrite !in_app_iff. do 5 right. left. apply in_flat_map. exists s. split; [exact J|]. unfold writeLoads. rewrite W. apply in_or_app. right. now left.
  - unfold writeOne. apply in_or_app. left. rewrite seq_fst. apply in_or_app. left.
    assert (H : load_of s = load_name s) by (unfold load_of; now rewrite W). rewrite <- H. destruct K as [K|(p & v & K)]; unfold writeAnalysis; rewrite K.
    + unfold writeStatic. cbn [writes fst]. apply in_or_app. left. apply in_map. right. rewrite !in_app_iff. do 2 right. left. now apply in_map.
    + unfold writeNonLinear. destruct (writeValue v) as [ev ln]. cbn [writes fst]. rewrite !in_app_iff. do 4 right. apply in_or_app. left. apply in_map. right. rewrite !in_app_iff. do 3 right. left.
      apply in_flat_map. exists s. split; [exact I|]. now left.
Qed.
Example C89_supports_example : ordinary sample_supports /\ In (Use (One BL 1)) (writeOne sample_m (nth 5 sample_analyses (nth 0 sample_analyses (sample_an 0 Static [] [] None [] [] true)))) /\
  In (Use (One CHMEC 10)) (writeOne sample_m (nth 5 sample_analyses (nth 0 sample_analyses (sample_an 0 Static [] [] None [] [] true)))).
Proof.
  split; [split; [discriminate|]; intros c [<-|[<-|[]]]; eexists; reflexivity|]. split.
  - destruct (C89_supports_partial sample_m (nth 5 sample_analyses (nth 0 sample_analyses (sample_an 0 Static [] [] None [] [] true))) sample_supports) as (n & _ & _ & _);
      [do 5 right; now left|right; do 2 eexists; reflexivity|now left|now left|split; [discriminate|]; intros c [<-|[<-|[]]]; eexists; reflexivity|]. cbn. tauto.
  - cbn. tauto.
Qed.

(** ** Refutations of C89 *)
(** A command uses, or destroys, a concept that does not exist; a command defines again a
    concept that exists. *)
Definition undefined (m : model) (n : name) : Prop := exists before rest, writeComm m = before ++ Use n :: rest /\ ~ In (name_text n) (alive before).
Definition undestroyable (m : model) (n : name) : Prop := exists before rest, writeComm m = before ++ Del n :: rest /\ ~ In (name_text n) (alive before).
Definition redefined (m : model) (n : name) : Prop := exists before rest, writeComm m = before ++ Def n :: rest /\ In (name_text n) (alive before).
Theorem C89_refused m n : undefined m n \/ undestroyable m n \/ redefined m n -> ~ accepted (writeComm m).
Proof.
  intros H A. destruct H as [(b & r & E & X)|[(b & r & E & X)|(b & r & E & X)]]; specialize (A b _ r E); cbn in A; tauto.
Qed.
Fixpoint first_bad (l : list event) (k : nat) (T : list str) : nat :=
  match l with
  | [] => k
  | e :: l => let inT n := existsb (str_eqb (name_text n)) T in
              let ok := match e with Use n | Del n => inT n | Def n => negb (inT n) end in
              if ok then first_bad l (S k) (step T e) else k
  end.
Lemma absent t T : existsb (str_eqb t) T = false -> ~ In t T.
Proof. intros H I. rewrite <- not_true_iff_false in H. apply H, existsb_exists. exists t. split; [exact I|]. now destruct (str_eqb_spec t t). Qed.
Lemma present t T : existsb (str_eqb t) T = true -> In t T.
Proof. intros H. apply existsb_exists in H. destruct H as (u & I & E). destruct (str_eqb_spec t u) as [->|]; [exact I|discriminate E]. Qed.
Ltac breaks := match goal with |- ?P ?m ?n =>
  let k := eval vm_compute in (first_bad (writeComm m) 0 []) in
  exists (firstn k (writeComm m)), (skipn (S k) (writeComm m)); split; [vm_compute; reflexivity|first [apply absent; vm_compute; reflexivity|apply present; vm_compute; reflexivity]] end.
Definition with_ (vs : list value) (cs : list cset) (ls : list lset) (l : list analysis) : model := mkModel true true false 0 false [] vs cs ls l.
Definition plain : cset := mkCset 1 [Plain false].

(** An analysis that reuses the modes of another dynamic analysis asks for MOD<n>, although they are MO<n>. *)
Theorem C89_reused_modes_refuted : exists m b, In b (m_analyses m) /\ (exists r d f, a_kind b = ModalFreq r d f) /\ undefined m (One MOD (a_id b)).
Proof.
  set (a1 := sample_an 1 (ModalFreq false None (mkExcit FList 8 1)) [sample_dload] [plain] None [] [] true).
  exists (with_ [VList 1 true; VTable 2] [plain] [sample_force; sample_dload] [a1; sample_an 2 (ModalFreq false None (mkExcit FList 8 1)) [sample_dload] [plain] (Some 1) [] [] true]), a1.
  split; [now left|]. split; [do 3 eexists; reflexivity|]. breaks.
Qed.
(** A complex modal analysis has no RESU, which the displacements printed for it use. *)
Theorem C89_complex_modes_refuted : exists m a, m_analyses m = [a] /\ a_kind a = ModalComplex /\ Forall assembled (a_csets a) /\ undefined m (One RESU (a_id a)).
Proof.
  set (a := sample_an 1 ModalComplex [] [plain] None [] [] true). exists (with_ [] [plain] [] [a]), a. split; [reflexivity|split; [reflexivity|split]].
  - constructor; [|constructor]. split; [exists (Plain false); split; [now left|reflexivity]|reflexivity].
  - breaks.
Qed.
(** A modal analysis with a set of constraints that is empty, that has contacts only, or
    that depends on a function. *)
Theorem C89_assembled_refuted : exists s1 s2 s3, cs_list s1 = [] /\ (forall c, In c (cs_list s2) -> is_contact c = true) /\ cs_functions s3 = true /\ ordinary s3 /\
  forall s, In s [s1; s2; s3] -> undefined (with_ [] [s] [] [sample_an 1 Modal [] [s] None [] [] true]) (One BL (cs_id s)).
Proof.
  exists (mkCset 1 []), (mkCset 1 [Contact]), (mkCset 1 [Plain true]). split; [reflexivity|]. split; [intros c [<-|[]]; reflexivity|]. split; [reflexivity|].
  split; [split; [discriminate|]; intros c [<-|[]]; eexists; reflexivity|]. intros s H. cbn [In] in H. repeat (destruct H as [<-|H]; [breaks|]). destruct H.
Qed.
(** The frequencies of a modal response: spread about the modes, the list is defined under
    the number of the objective and used under that of its values; interpolated, a variable
    that nothing defines is read. *)
Definition response (d : option (damping * Z)) (f : excit) (force : lset) : model :=
  with_ [VList 1 true; VTable 2] [plain] [force; sample_dload] [sample_an 1 (ModalFreq false d f) [sample_dload] [plain] None [] [] true].
Theorem C89_frequencies_refuted : exists f g, freq_kind f = FSpread /\ freq_kind g = FInterpolate /\
  undefined (response None f sample_force) (One LSPR (freq_value f)) /\ undefined (response None g sample_force) FreqList.
Proof. exists (mkExcit FSpread 8 1), (mkExcit FInterpolate 8 1). split; [reflexivity|split; [reflexivity|split; breaks]]. Qed.
(** A structural damping table: the number of the analysis stands where the table should. *)
Theorem C89_damping_refuted : exists t, tabled (response (Some (DampG, t)) (mkExcit FList 8 1) sample_force) t /\ undefined (response (Some (DampG, t)) (mkExcit FList 8 1) sample_force) (Number 1).
Proof. exists 2. split; [right; now left|breaks]. Qed.
(** An excitation whose loads depend on a function: CHMEF is defined, CHMEC used. *)
Theorem C89_excitation_refuted : exists s, ls_functions s = true /\ In (Def (One CHMEF (ls_id s))) (writeComm (response None (mkExcit FList 8 1) s)) /\
  undefined (response None (mkExcit FList 8 1) s) (One CHMEC (ls_id s)).
Proof. exists (mkLset 10 false [Other true]). split; [reflexivity|split; [vm_compute; tauto|breaks]]. Qed.
(** A static analysis with loads that are all temperatures, or dynamic: nothing stands
    where a load should. *)
Theorem C89_static_loads_refuted : exists s1 s2, (forall l, In l (ls_list s1) -> l = Temperature) /\ ls_list s1 <> [] /\ ls_dload s2 = true /\
  forall s, In s [s1; s2] -> undefined (with_ [VTable 2] [plain] [sample_force; s] [sample_an 1 Static [s] [plain] None [] [] true]) Blank.
Proof.
  exists (mkLset 3 false [Temperature]), sample_dload. split; [intros l [<-|[]]; reflexivity|]. split; [discriminate|]. split; [reflexivity|].
  intros s H. cbn [In] in H. repeat (destruct H as [<-|H]; [breaks|]). destruct H.
Qed.
(** A gap along z alone; two gaps in a set. *)
Theorem C89_gaps_refuted : exists s1 s2, gaps s1 = [[(false, false, true)]] /\ length (gaps s2) = 2%nat /\
  undefined (with_ [] [plain; s1] [] []) (Two GMZ (cs_id s1) 1) /\ redefined (with_ [] [plain; s2] [] []) (Two GI (cs_id s2) 1).
Proof. exists (mkCset 4 [Gap [(false, false, true)]]), (mkCset 4 [Gap [(true, false, false)]; Gap [(true, false, false)]]). split; [reflexivity|split; [reflexivity|split; breaks]]. Qed.
(** Two composites whose layers have a criterion: the names of the formulas mention the layer only. *)
Theorem C89_composites_refuted : exists m, m_composites m = [1; 1]%nat /\ redefined m (One LOCXX 1).
Proof. exists (mkModel true true false 0 false [1; 1]%nat [] [plain] [] [sample_an 1 Static [] [plain] None [] [] true]). split; [reflexivity|breaks]. Qed.
(** A combination in a model without materials. *)
Theorem C89_combination_refuted : exists m, m_materials m = false /\ (exists a, In a (m_analyses m) /\ a_kind a = Combination [1]) /\ undefined m Chmat.
Proof.
  exists (mkModel false true false 0 false [] [] [plain] [] [sample_an 1 Static [] [plain] None [] [] true; sample_an 2 (Combination [1]) [] [] None [] [] true]).
  split; [reflexivity|split; [|breaks]]. eexists. split; [right; left; reflexivity|reflexivity].
Qed.
(** Supports that share a set with a contact are written, and no command ever uses them. *)
Theorem C89_mixed_supports_refuted : exists m a s, m_analyses m = [a] /\ In s (a_csets a) /\ In s (m_csets m) /\ In (Plain false) (cs_list s) /\
  (exists p v, a_kind a = NonLinear p v) /\ In (Def (One BL (cs_id s))) (writeComm m) /\ ~ In (Use (One BL (cs_id s))) (writeComm m) /\ ~ In (Use (One BLF (cs_id s))) (writeComm m).
Proof.
  set (s := mkCset 1 [Plain false; Contact]). set (a := sample_an 1 (NonLinear None (VStep 20 false true)) [sample_force] [s] None [] [] true).
  exists (with_ [] [s] [sample_force] [a]), a, s. split; [reflexivity|]. split; [now left|]. split; [now left|]. split; [now left|]. split; [do 2 eexists; reflexivity|].
  split; [vm_compute; tauto|]. split; intros H; vm_compute in H; repeat (destruct H as [H|H]; [discriminate H|]); exact H.
Qed.
(** A nonlinear analysis is given the contacts of a set that is not one of its own. *)
Theorem C89_foreign_contact_refuted : exists m a s, m_analyses m = [a] /\ In s (m_csets m) /\ ~ In s (a_csets a) /\ In (Use (One CN (cs_id s))) (writeOne m a).
Proof.
  set (s := mkCset 2 [Contact]). set (a := sample_an 1 (NonLinear None (VStep 20 false true)) [sample_force] [plain] None [] [] true).
  exists (with_ [] [plain; s] [sample_force] [a]), a, s. split; [reflexivity|]. split; [right; now left|]. split; [intros [H|[]]; discriminate H|]. vm_compute. tauto.
Qed.

(** ** C90: names *)
(** A number that a name carries is not negative. *)
Definition proper (n : name) : Prop :=
  match n with
  | Modmeca | Chmat | Cael => True
  | Blank | Number _ | FreqList => False
  | One _ i => 0 <= i
  | Two _ i j => 0 <= i /\ 0 <= j
  | Three _ i j k => 0 <= i /\ 0 <= j /\ 0 <= k
  end.
(** Different concepts have different names. *)
Theorem C90_distinct n n' : proper n -> proper n' -> name_text n = name_text n' -> n = n'.
Proof. intros P P'. apply text_inj; [destruct n|destruct n']; assumption. Qed.
Example C90_distinct_example : name_text (Two VE 1 23) = txt "VE1_23" /\ name_text (Two VE 12 3) = txt "VE12_3" /\ name_text (One LST 12) = txt "LST00012".
Proof. repeat split. Qed.
(** The concepts that a command file defines are such. *)
Lemma valid_good : forall l S n, validN good S l -> In (Def n) l -> good n.
Proof.
  induction l as [|[k|k|k] l IH]; intros S n V H; [destruct H|..]; cbn [validN] in V; destruct V as [V1 V2]; destruct H as [H|H]; try discriminate H; try exact (IH _ _ V2 H).
  injection H as ->. apply V1.
Qed.
Theorem C90_defined m n n' : ready m -> In (Def n) (writeComm m) -> In (Def n') (writeComm m) -> name_text n = name_text n' -> n = n'.
Proof.
  intros R H H'. assert (V : validN good (fun _ => False) (writeComm m)).
  { destruct (pre_valid m R) as [V1 V2]. apply valid_app; [exact V1|]. now apply (analyses_valid m R (m_analyses m) []). }
  apply text_inj; eapply valid_good; eassumption.
Qed.
Example C90_defined_example : ready sample_m /\ In (Def (Two FX 5 6)) (writeComm sample_m) /\ In (Def (Three LTSAI 1 2 1)) (writeComm sample_m).
Proof. split; [exact C89_ready_example|]. split; vm_compute; tauto. Qed.
(** Code_Aster takes eight characters: enough for numbers below these bounds. *)
Definition small (n : name) : Prop :=
  match n with
  | One p i => 0 <= i < match p with LST | FCT => 100000 | LSPR | LSIP => 10000 | _ => 1000 end
  | Two p i j => 0 <= i < 1000 /\ 0 <= j < 100
  | Three p i j k => 0 <= i < 100 /\ 0 <= j < 100 /\ 0 <= k < 10
  | Number _ => False
  | _ => True
  end.
Lemma int_text_short i k : 0 <= i < 10 ^ Z.of_nat (S k) -> (length (int_text i) <= S k)%nat.
Proof. intros H. unfold int_text. destruct (Z.ltb_spec i 0); [lia|]. now apply nat_text_length. Qed.
Lemma pad_length w s : length (pad w s) = Nat.max w (length s).
Proof. unfold pad. rewrite app_length, repeat_length. lia. Qed.
Theorem C90_short n : small n -> (length (name_text n) <= 8)%nat.
Proof.
  destruct n as [| | | |i| |p i|p i j|p i j k]; cbn [small name_text]; intros H; try (cbn; lia); try (exfalso; exact H).
  - rewrite app_length, pad_length. assert (B3 : i < 1000 -> (length (int_text i) <= 3)%nat) by (intros; apply (int_text_short i 2); cbn; lia).
    assert (B5 : i < 100000 -> (length (int_text i) <= 5)%nat) by (intros; apply (int_text_short i 4); cbn; lia).
    assert (B4 : i < 10000 -> (length (int_text i) <= 4)%nat) by (intros; apply (int_text_short i 3); cbn; lia).
    set (L := length (int_text i)) in *. clearbody L. destruct p; cbn in H; unfold prefix_text, width;
      match goal with |- (?n + _ <= 8)%nat => let k := eval vm_compute in n in change n with k end;
      first [specialize (B3 (proj2 H)); lia|specialize (B5 (proj2 H)); lia|specialize (B4 (proj2 H)); lia].
  - rewrite !app_length. pose proof (int_text_short i 2 ltac:(cbn; lia)). pose proof (int_text_short j 1 ltac:(cbn; lia)). generalize dependent (length (int_text i)); generalize dependent (length (int_text j)); intros; destruct p; cbn; lia.
  - rewrite !app_length. pose proof (int_text_short i 1 ltac:(cbn; lia)). pose proof (int_text_short j 1 ltac:(cbn; lia)). pose proof (int_text_short k 0 ltac:(cbn; lia)). destruct p; cbn; lia.
Qed.
Example C90_short_example : small (Two VG 999 99) /\ name_text (Two VG 999 99) = txt "VG999_99" /\ small (One CHMEC 999) /\ name_text (One CHMEC 999) = txt "CHMEC999".
Proof. repeat split; cbn; lia. Qed.
(** Beyond, a file that is accepted in this sense defines a name that is too long. *)
Theorem C90_long_refuted : exists m n, ready m /\ In (Def n) (writeComm m) /\ (8 < length (name_text n))%nat.
Proof.
  set (s := mkLset 1000 false [Other false]). set (a := sample_an 1 Static [s] [plain] None [] [] true).
  exists (with_ [] [plain] [s] [a]), (One CHMEC 1000). split; [|split; [vm_compute; tauto|apply Nat.ltb_lt; vm_compute; reflexivity]].
  constructor; cbn.
  - reflexivity.
  - lia.
  - distinct.
  - distinct.
  - distinct.
  - distinct.
  - constructor; [|constructor]. split; [cbn; lia|intros g x y z []].
  - repeat (apply Forall_cons; [lia|]). apply Forall_nil.
  - intros done b rest E. destruct done as [|b' done]; cbn [app] in E; [injection E as <- <-|destruct done; discriminate E].
    refine (conj _ (conj _ (conj _ (conj _ (conj eq_refl _))))); [intros x H; exact H|intros x H; exact H|intros i []|intros []|].
    constructor; [|constructor]. split; [reflexivity|]. exists (Other false). split; [now left|discriminate].
Qed.

Print Assumptions C89_script_partial.
Print Assumptions C89_supports_partial.
Print Assumptions C90_defined.
Print Assumptions C90_short.
