(** C125: what is kept after validation is coherent, a strict validation reports every
    incoherence, and the check of writing covers what the analyses use. *)
From Coq Require Import ZArith List Bool Lia.
From Verif Require Import Base OptionsModel OptionsProofs ValidateModel ValidateProofs.
Import ListNotations.
Open Scope Z_scope.

Lemma coherent_from mode mv m b m' : validate mode mv m = Ok (b, m') ->
  (forall o, In o (v_materials m') -> b_valid o = true) -> (forall o, In o (v_elements m') -> b_valid o = true) ->
  (forall o, In o (v_loadings m') -> b_valid o = true) ->
  (forall s, In s (v_loadSets m') -> loadSet_valid (v_loadings m') s = Ok true) ->
  (forall n, In n (v_analyses m') -> analysis_valid m' n = Ok true) -> coherent m'.
Proof.
  intros _ H1 H2 H3 H4 H5. constructor; try assumption.
  - intros s I. now apply loadSet_valid_true, H4.
  - intros n I. apply H5, analysis_valid_true in I as (A & B & C & D). repeat split; try assumption. now apply search_valid_found.
Qed.

(** In strict mode nothing is removed, and the answer is whether the model is coherent. *)
Theorem C125_strict mv m b m' : validate Strict mv m = Ok (b, m') ->
  m' = m /\ (b = true <-> mv = true /\ coherent m).
Proof.
  intros H. pose proof H as H0. apply validate_inv in H as (bm & be & bl & bs & ba & E1 & E2 & E3 & E4 & E5 & -> & R1 & R2 & R3 & R4 & R5 & R6 & R7).
  apply validate_all_spec in E1 as (_ & B1 & L1), E2 as (_ & B2 & L2), E3 as (_ & B3 & L3), E4 as (_ & B4 & L4), E5 as (T5 & B5 & L5).
  assert (m' = m) as M by (apply vmodel_eq; assumption). subst m'. split; [reflexivity|].
  rewrite !andb_true_iff. split.
  - intros (((((-> & X1) & X2) & X3) & X4) & X5). split; [reflexivity|].
    rewrite X1 in B1. rewrite X2 in B2. rewrite X3 in B3. rewrite X4 in B4. rewrite X5 in B5. eapply coherent_from; [exact H0| | | | |].
    + intros o I. apply (proj1 B1 eq_refl) in I. congruence.
    + intros o I. apply (proj1 B2 eq_refl) in I. congruence.
    + intros o I. apply (proj1 B3 eq_refl) in I. congruence.
    + now apply B4.
    + now apply B5.
  - intros (-> & C). repeat split.
    + apply B1. intros o I. now rewrite (ch_materials m C o I).
    + apply B2. intros o I. now rewrite (ch_elements m C o I).
    + apply B3. intros o I. now rewrite (ch_loadings m C o I).
    + apply B4. intros s I. apply loadSet_valid_true, (ch_loadSets m C s I).
    + apply B5. intros n I. apply analysis_valid_true. destruct (ch_analyses m C n I) as (A1 & A2 & A3 & _).
      repeat split; try assumption. destruct (T5 n I) as [v Ev]. now apply analysis_valid_value in Ev.
Qed.

Lemma yes_valid l : filter (says_yes (fun o => Ok (b_valid o))) l = filter b_valid l.
Proof. apply filter_ext. intros o. unfold says_yes. now destruct (b_valid o). Qed.

(** In the other modes exactly the valid objects are kept: among the load sets, those
    that hold something; among the analyses, those that refer to sets that are kept. *)
Theorem C125_kept mode mv m b m' : mode <> Strict -> validate mode mv m = Ok (b, m') ->
  v_materials m' = filter b_valid (v_materials m) /\ v_elements m' = filter b_valid (v_elements m) /\
  v_loadings m' = filter b_valid (v_loadings m) /\
  (forall s, In s (v_loadSets m') <-> In s (v_loadSets m) /\ t_refs s <> []) /\
  (forall n, In n (v_analyses m') <-> In n (v_analyses m) /\ incl (n_loadSets n) (map t_key (v_loadSets m')) /\
    incl (n_constraintSets n) (map t_key (v_constraintSets m)) /\ incl (n_objectiveSets n) (map t_key (v_objectiveSets m))) /\
  v_constraints m' = v_constraints m /\ v_constraintSets m' = v_constraintSets m /\
  v_objectives m' = v_objectives m /\ v_objectiveSets m' = v_objectiveSets m.
Proof.
  intros NS H. apply validate_inv in H as (bm & be & bl & bs & ba & E1 & E2 & E3 & E4 & E5 & _ & R1 & R2 & R3 & R4 & _).
  apply validate_all_spec in E1 as (_ & _ & L1), E2 as (_ & _ & L2), E3 as (_ & _ & L3), E4 as (T4 & _ & L4), E5 as (T5 & _ & L5).
  assert (K : forall A (x y : A), match mode with Strict => x | _ => y end = y) by (intros; destruct mode; congruence).
  rewrite K in L1, L2, L3, L4, L5. rewrite yes_valid in L1, L2, L3.
  repeat (split; [assumption|]). split; [|split].
  - intros s. rewrite L4 at 1. rewrite filter_In, says_yes_spec, loadSet_valid_true. split; [tauto|]. intros [I N]. split; [assumption|].
    destruct (T4 s I) as [v Ev]. apply loadSet_valid_true. unfold loadSet_valid in Ev |- *.
    destruct (set_loadings (v_loadings m') s) as [l| | |] eqn:E; try discriminate Ev. cbn. destruct l; [|reflexivity].
    exfalso. unfold set_loadings in E. apply mapM_Forall2 in E. inversion E. congruence.
  - intros n. rewrite L5, filter_In, says_yes_spec, analysis_valid_true, R2, R4. split; [tauto|]. intros (I & A1 & A2 & A3).
    split; [assumption|]. repeat split; try assumption. destruct (T5 n I) as [v Ev]. apply analysis_valid_value in Ev. now rewrite R4 in Ev.
  - repeat split; assumption.
Qed.
(** What is kept is coherent. *)
Theorem C125_coherent mode mv m b m' : mode <> Strict -> validate mode mv m = Ok (b, m') -> coherent m'.
Proof.
  intros NS H. pose proof H as H0. apply validate_inv in H as (bm & be & bl & bs & ba & E1 & E2 & E3 & E4 & E5 & _).
  apply validate_all_spec in E1 as (_ & _ & L1), E2 as (_ & _ & L2), E3 as (_ & _ & L3), E4 as (_ & _ & L4), E5 as (_ & _ & L5).
  assert (K : forall A (x y : A), match mode with Strict => x | _ => y end = y) by (intros; destruct mode; congruence).
  rewrite K in L1, L2, L3, L4, L5. rewrite yes_valid in L1, L2, L3. eapply coherent_from; [exact H0| | | | |].
  - intros o I. rewrite L1 in I. now apply filter_In in I.
  - intros o I. rewrite L2 in I. now apply filter_In in I.
  - intros o I. rewrite L3 in I. now apply filter_In in I.
  - intros s I. rewrite L4 in I. apply filter_In in I as [_ I]. now apply says_yes_spec.
  - intros n I. rewrite L5 in I. apply filter_In in I as [_ I]. now apply says_yes_spec.
Qed.
(** Validating again finds nothing to say and removes nothing. *)
Theorem C125_again mode mv m b m' : mode <> Strict -> validate mode mv m = Ok (b, m') -> validate mode true m' = Ok (true, m').
Proof.
  intros NS H. pose proof (C125_coherent mode mv m b m' NS H) as C.
  apply validate_inv in H as (bm & be & bl & bs & ba & E1 & E2 & E3 & E4 & E5 & _).
  apply validate_all_spec in E5 as (_ & _ & L5).
  assert (K : forall A (x y : A), match mode with Strict => x | _ => y end = y) by (intros; destruct mode; congruence). rewrite K in L5.
  unfold validate.
  rewrite (validate_all_yes mode _ (v_materials m')) by (intros o I; now rewrite (ch_materials m' C o I)). cbn [bind fst snd].
  rewrite (validate_all_yes mode _ (v_elements m')) by (intros o I; now rewrite (ch_elements m' C o I)). cbn [bind fst snd].
  rewrite (validate_all_yes mode _ (v_loadings m')) by (intros o I; now rewrite (ch_loadings m' C o I)). cbn [bind fst snd].
  rewrite (validate_all_yes mode (loadSet_valid (v_loadings m')) (v_loadSets m'))
    by (intros s I; apply loadSet_valid_true, (ch_loadSets m' C s I)). cbn [bind fst snd v_analyses].
  rewrite (validate_all_yes mode (analysis_valid _) (v_analyses m')).
  - cbn. destruct m'; reflexivity.
  - intros n I. rewrite L5 in I. apply filter_In in I as [_ I]. apply says_yes_spec in I. exact I.
Qed.
(** The answer is whether the mesh is valid and nothing was removed. *)
Theorem C125_answer mode mv m b m' : mode <> Strict -> validate mode mv m = Ok (b, m') -> b = true <-> mv = true /\ m' = m.
Proof.
  intros NS H. pose proof H as H0. apply validate_inv in H as (bm & be & bl & bs & ba & E1 & E2 & E3 & E4 & E5 & -> & R1 & R2 & R3 & R4 & R5 & R6 & R7).
  assert (G : forall A (ok : A -> outcome bool) l x l', validate_all mode ok l = Ok (x, l') -> x = true <-> l' = l).
  { intros A ok l x l' E. pose proof (validate_all_spec _ _ _ _ _ E) as (_ & B & L). split.
    - intros X. pose proof (validate_all_yes mode ok l (proj1 B X)) as Y. congruence.
    - intros ->. apply B. intros y I. assert (filter (says_yes ok) l = l) as F by (rewrite L at 2; destruct mode; congruence).
      apply says_yes_spec. now apply (filter_all _ _ F). }
  apply G in E1, E2, E3, E4, E5. rewrite !andb_true_iff, E1, E2, E3, E4, E5. split.
  - intros (((((-> & ?) & ?) & ?) & ?) & ?). split; [reflexivity|]. now apply vmodel_eq.
  - intros (-> & ->). repeat split; reflexivity.
Qed.

(** ** Loadings that are not valid *)

Lemma mapM_throw {A B} (f : A -> outcome B) l : (forall a, In a l -> f a = Throw \/ exists b, f a = Ok b) -> (exists a, In a l /\ f a = Throw) -> mapM f l = Throw.
Proof.
  induction l as [|a l IH]; intros H (x & I & E); [destruct I|]. cbn. destruct (H a (or_introl eq_refl)) as [->|[b Eb]]; [reflexivity|].
  rewrite Eb. cbn. destruct I as [<-|I]; [congruence|]. rewrite IH; [reflexivity| |eauto]. intros; apply H; now right.
Qed.
(** In the modes that should go on without it, a loading that is not valid but belongs to
    a load set ends the program: it is removed and the set still refers to it. *)
Theorem C125_invalid_loading mode mv m o s : mode <> Strict -> In o (v_loadings m) -> b_valid o = false ->
  (forall p, In p (v_loadings m) -> b_key p = b_key o -> p = o) ->
  In s (v_loadSets m) -> In (b_key o) (t_refs s) -> validate mode mv m = Throw.
Proof.
  intros NS Io Vo U Is R. unfold validate.
  destruct (validate_all_ok mode (fun o => Ok (b_valid o)) (v_materials m)) as (? & ? & ->); [eauto|]. cbn [bind fst snd].
  destruct (validate_all_ok mode (fun o => Ok (b_valid o)) (v_elements m)) as (? & ? & ->); [eauto|]. cbn [bind fst snd].
  destruct (validate_all_ok mode (fun o => Ok (b_valid o)) (v_loadings m)) as (bl & l & E); [eauto|]. rewrite E. cbn [bind fst snd].
  apply validate_all_spec in E as (_ & _ & L).
  assert (K : forall A (x y : A), match mode with Strict => x | _ => y end = y) by (intros; destruct mode; congruence). rewrite K, yes_valid in L.
  unfold validate_all at 1. rewrite mapM_throw; [reflexivity| |].
  - intros t _. unfold loadSet_valid. assert (set_loadings l t = Throw \/ exists y, set_loadings l t = Ok y) as [->|[y ->]]; [|now left|right; cbn; eauto].
    unfold set_loadings. induction (t_refs t) as [|k ks IH]; [right; now exists []|]. cbn. destruct (find_obj l k); [|now left]. cbn.
    destruct IH as [->|[y ->]]; [now left|right; cbn; eauto].
  - exists s. split; [assumption|]. unfold loadSet_valid, set_loadings. rewrite mapM_throw; [reflexivity| |].
    + intros k _. destruct (find_obj l k); [right; eauto|now left].
    + exists (b_key o). split; [assumption|]. destruct (find_obj l (b_key o)) as [p|] eqn:F; [|reflexivity].
      exfalso. unfold find_obj in F. apply find_some in F as [J Q]. apply Z.eqb_eq in Q. rewrite L in J. apply filter_In in J as [J V].
      rewrite (U p J Q) in V. congruence.
Qed.

Definition bad_load : vmodel := mkVModel [] [] [mkObj 1 false true; mkObj 2 true true] [mkSet 10 [1; 2] true] [] [] [] []
  [mkAnalysis 100 [10] [] [] None true] None None None.
Example C125_bad_load : validate MeshAtLeast false bad_load = Throw.
Proof.
  apply (C125_invalid_loading _ _ _ (mkObj 1 false true) (mkSet 10 [1; 2] true)); try discriminate; try (cbn; tauto); try reflexivity.
  intros p [<-|[<-|[]]] E; [reflexivity|discriminate E].
Qed.
(** Best effort ends the program where strict reports the model. *)
Theorem C125_best_effort_refuted : exists m, validate Strict true m = Ok (false, m) /\ validate BestEffort true m = Throw.
Proof. exists bad_load. split; reflexivity. Qed.
(** An analysis whose frequency search is missing, or empty, is undefined behaviour: the
    report of the missing search is never reached. *)
Theorem C125_search_refuted : (exists m, validate BestEffort true m = UB /\ validate Strict true m = UB) /\
  forall mode mv m b m', validate mode mv m = Ok (b, m') -> forall n k, In n (v_analyses m) -> n_search n = Some k ->
  exists s, In s (v_objectiveSets m) /\ t_key s = k /\ t_refs s <> [].
Proof.
  split.
  - exists (mkVModel [] [] [] [] [] [] [] [] [mkAnalysis 100 [] [] [] (Some 5) true] None None None). split; reflexivity.
  - intros mode mv m b m' H n k I E. apply validate_inv in H as (bm & be & bl & bs & ba & _ & _ & _ & _ & E5 & _ & _ & _ & _ & R4 & _).
    apply validate_all_spec in E5 as (T5 & _). destruct (T5 n I) as [v Ev]. apply analysis_valid_value in Ev. rewrite R4 in Ev.
    now apply (search_valid_found _ n Ev).
Qed.

Definition mixed : vmodel := mkVModel [mkObj 1 true true; mkObj 2 false true] [mkObj 1 true true] [mkObj 1 true true; mkObj 2 false false]
  [mkSet 10 [1] true; mkSet 11 [] true] [mkObj 3 true true] [mkSet 20 [3] true] [] [mkSet 30 [] true]
  [mkAnalysis 100 [10] [20] [30] None true; mkAnalysis 101 [11] [20] [] None true; mkAnalysis 102 [10] [21] [] None true] None None None.
Example C125_case : validate BestEffort true mixed = Ok (false,
  mkVModel [mkObj 1 true true] [mkObj 1 true true] [mkObj 1 true true] [mkSet 10 [1] true] [mkObj 3 true true] [mkSet 20 [3] true] [] [mkSet 30 [] true]
  [mkAnalysis 100 [10] [20] [30] None true] None None None) /\ validate Strict true mixed = Ok (false, mixed).
Proof. split; reflexivity. Qed.

(** ** What has been written *)

Lemma find_set_key l s : NoDup (map t_key l) -> In s l -> find_set l (t_key s) = Some s.
Proof.
  unfold find_set. induction l as [|a l IH]; intros N I; [destruct I|]. cbn. inversion N as [|? ? N1 N2]; subst. destruct I as [<-|I].
  - now rewrite Z.eqb_refl.
  - destruct (Z.eqb_spec (t_key a) (t_key s)) as [E|_]; [|auto]. exfalso. apply N1. rewrite E. now apply in_map.
Qed.
Lemma find_obj_key l o : NoDup (map b_key l) -> In o l -> find_obj l (b_key o) = Some o.
Proof.
  unfold find_obj. induction l as [|a l IH]; intros N I; [destruct I|]. cbn. inversion N as [|? ? N1 N2]; subst. destruct I as [<-|I].
  - now rewrite Z.eqb_refl.
  - destruct (Z.eqb_spec (b_key a) (b_key o)) as [E|_]; [|auto]. exfalso. apply N1. rewrite E. now apply in_map.
Qed.
Lemma mapM_in {A B} (f : A -> outcome B) l r a : mapM f l = Ok r -> In a l -> exists b, f a = Ok b /\ In b r.
Proof.
  intros H. apply mapM_Forall2 in H. induction H as [|x y l r E H IH]; intros I; [destruct I|].
  destruct I as [<-|I]; [exists y; split; [assumption|now left]|]. destruct (IH I) as (b & Eb & Ib). exists b. split; [assumption|now right].
Qed.

Definition distinct_keys (m : vmodel) : Prop :=
  NoDup (map b_key (v_loadings m)) /\ NoDup (map t_key (v_loadSets m)) /\ NoDup (map b_key (v_constraints m)) /\
  NoDup (map t_key (v_constraintSets m)) /\ NoDup (map b_key (v_objectives m)) /\ NoDup (map t_key (v_objectiveSets m)).
(** The sets of an analysis: those it refers to and the common one. *)
Definition uses (c : option oset) (sets : list oset) (refs : list Z) (s : oset) : Prop :=
  (c = Some s /\ t_refs s <> []) \/ (In s sets /\ In (t_key s) refs).

Lemma common_in c s : In s (common c) <-> c = Some s /\ t_refs s <> [].
Proof.
  unfold common. destruct c as [x|]; [|split; [intros []|intros [? _]; discriminate]].
  destruct (t_refs x) eqn:E; cbn; split.
  - intros [].
  - intros [H N]. injection H as <-. congruence.
  - intros [<-|[]]. split; congruence.
  - intros [H _]. injection H as <-. now left.
Qed.
Lemma some_sets_in sets refs s : NoDup (map t_key sets) -> In s sets -> In (t_key s) refs -> In s (some_sets sets refs).
Proof. intros N I R. apply in_flat_map. exists (t_key s). split; [assumption|]. rewrite find_set_key by assumption. now left. Qed.

(** When the check succeeds, the materials, element sets and analyses are marked as
    written, and so are the load sets, loadings, constraint sets and constraints of every
    analysis, and its objectives. *)
Theorem C125_written m : checkWritten m = Ok true -> distinct_keys m ->
  (forall o, In o (v_materials m) \/ In o (v_elements m) -> b_written o = true) /\
  (forall n, In n (v_analyses m) -> n_written n = true /\
    (forall s, uses (v_commonLoadSet m) (v_loadSets m) (n_loadSets n) s -> t_written s = true /\
       forall o, In o (v_loadings m) -> In (b_key o) (t_refs s) -> b_written o = true) /\
    (forall s, uses (v_commonConstraintSet m) (v_constraintSets m) (n_constraintSets n) s -> t_written s = true /\
       forall o, In o (v_constraints m) -> In (b_key o) (t_refs s) -> b_written o = true) /\
    (forall s, uses (v_commonObjectiveSet m) (v_objectiveSets m) (n_objectiveSets n) s ->
       forall o, In o (v_objectives m) -> In (b_key o) (t_refs s) -> b_written o = true)).
Proof.
  intros H (N1 & N2 & N3 & N4 & N5 & N6). unfold checkWritten in H.
  destruct (mapM (analysis_written m) (v_analyses m)) as [bs| | |] eqn:E; try discriminate H. cbn in H. injection H as H.
  rewrite !andb_true_iff, !forallb_forall in H. destruct H as (((H1 & H2) & H3) & H4).
  split; [intros o [I|I]; auto|]. intros n I. specialize (H3 n I) as Wn. split; [assumption|].
  destruct (mapM_in _ _ _ _ E I) as (b & Eb & Ib). apply H4 in Ib. cbn beta in Ib. subst b.
  unfold analysis_written in Eb. rewrite Wn in Eb. cbn [negb] in Eb.
  destruct (mapM _ (analysis_loadSets m n)) as [ls| | |] eqn:El; try discriminate Eb. cbn [bind] in Eb.
  destruct (analysis_constraintSets m n) as [sets| | |] eqn:Es; try discriminate Eb. cbn [bind] in Eb.
  destruct (mapM _ sets) as [cs| | |] eqn:Ec; try discriminate Eb. cbn [bind] in Eb. injection Eb as Eb.
  rewrite !andb_true_iff, !forallb_forall in Eb. destruct Eb as ((((A1 & A2) & A3) & A4) & A5).
  split; [|split].
  - intros s U. assert (J : In s (analysis_loadSets m n)).
    { apply in_or_app. destruct U as [U|[U R]]; [left; now apply common_in|right; now apply some_sets_in]. }
    split; [now apply A1|]. intros o Io Ro. destruct (mapM_in _ _ _ _ El J) as (l & F & Il). unfold set_loadings in F.
    destruct (mapM_in _ _ _ _ F Ro) as (p & P & Ip). rewrite find_obj_key in P by assumption. injection P as <-.
    apply A2, in_concat. eauto.
  - intros s U. unfold analysis_constraintSets in Es. destruct (mapM _ (n_constraintSets n)) as [found_| | |] eqn:Ef; try discriminate Es.
    cbn in Es. injection Es as <-. assert (J : In s (common (v_commonConstraintSet m) ++ found_)).
    { apply in_or_app. destruct U as [U|[U R]]; [left; now apply common_in|right].
      destruct (mapM_in _ _ _ _ Ef R) as (t & P & It). rewrite find_set_key in P by assumption. now injection P as <-. }
    split; [now apply A3|]. intros o Io Ro. destruct (mapM_in _ _ _ _ Ec J) as (l & F & Il). unfold set_members in F.
    destruct (mapM_in _ _ _ _ F Ro) as (p & P & Ip). rewrite find_obj_key in P by assumption. injection P as <-.
    apply A4, in_concat. eauto.
  - intros s U o Io Ro. apply A5, in_flat_map. exists s. split.
    + apply in_or_app. destruct U as [U|[U R]]; [left; now apply common_in|right; now apply some_sets_in].
    + apply in_flat_map. exists (b_key o). split; [assumption|]. rewrite find_obj_key by assumption. now left.
Qed.
(** Conversely the check succeeds on a coherent model where everything is marked, an
    empty common set aside. *)
Theorem C125_all_written m : coherent m ->
  (forall s, In s (v_constraintSets m) \/ v_commonConstraintSet m = Some s -> incl (t_refs s) (map b_key (v_constraints m))) ->
  (forall s, v_commonLoadSet m = Some s -> incl (t_refs s) (map b_key (v_loadings m))) ->
  (forall o, In o (v_materials m ++ v_elements m ++ v_loadings m ++ v_constraints m ++ v_objectives m) -> b_written o = true) ->
  (forall s, In s (v_loadSets m ++ v_constraintSets m) \/ (t_refs s <> [] /\ (v_commonLoadSet m = Some s \/ v_commonConstraintSet m = Some s)) -> t_written s = true) ->
  (forall n, In n (v_analyses m) -> n_written n = true) -> checkWritten m = Ok true.
Proof.
  intros C RC RL WO WS WN. unfold checkWritten.
  assert (WO' : forall l, incl l (v_materials m ++ v_elements m ++ v_loadings m ++ v_constraints m ++ v_objectives m) -> forallb b_written l = true).
  { intros l I. apply forallb_forall. intros o J. apply WO, I, J. }
  assert (S : forall k sets s, find_set sets k = Some s -> In s sets /\ t_key s = k).
  { intros k sets s F. apply find_some in F as [I E]. apply Z.eqb_eq in E. auto. }
  assert (O : forall k l o, find_obj l k = Some o -> In o l).
  { intros k l o F. now apply find_some in F as [I _]. }
  assert (P : forall objs (e : outcome obj) s, incl (t_refs s) (map b_key objs) ->
    exists l, mapM (fun k => match find_obj objs k with Some o => Ok o | None => e end) (t_refs s) = Ok l /\ incl l objs).
  { intros objs e s. induction (t_refs s) as [|k ks IH]; intros I; [exists []; split; [reflexivity|intros x []]|].
    destruct (proj2 (find_obj_in objs k) (I k (or_introl eq_refl))) as [o Eo]. destruct IH as (l & El & Il); [intros x X; apply I; now right|].
    exists (o :: l). cbn. rewrite Eo. cbn. rewrite El. split; [reflexivity|]. intros x [<-|X]; [now apply (O k)|auto]. }
  assert (Q : forall objs (e : outcome obj) sets, (forall s, In s sets -> incl (t_refs s) (map b_key objs)) ->
    exists ls, mapM (fun s => mapM (fun k => match find_obj objs k with Some o => Ok o | None => e end) (t_refs s)) sets = Ok ls /\ incl (concat ls) objs).
  { intros objs e sets. induction sets as [|s sets IH]; intros I; [exists []; split; [reflexivity|intros x []]|].
    destruct (P objs e s (I s (or_introl eq_refl))) as (l & El & Il). destruct IH as (ls & Els & Ils); [intros; apply I; now right|].
    exists (l :: ls). cbn. rewrite El. cbn. rewrite Els. split; [reflexivity|]. apply incl_app; assumption. }
  assert (A : forall n, In n (v_analyses m) -> analysis_written m n = Ok true).
  { intros n I. unfold analysis_written. rewrite (WN n I). cbn [negb]. destruct (ch_analyses m C n I) as (I1 & I2 & I3 & _).
    assert (U1 : forall s, In s (analysis_loadSets m n) -> In s (v_loadSets m) \/ (v_commonLoadSet m = Some s /\ t_refs s <> [])).
    { intros s J. apply in_app_or in J as [J|J]; [right; now apply common_in in J|left]. apply in_flat_map in J as (k & _ & J).
      destruct (find_set (v_loadSets m) k) eqn:F; [|destruct J]. destruct J as [<-|[]]. now apply S in F. }
    destruct (Q (v_loadings m) Throw (analysis_loadSets m n)) as (ls & Els & Ils).
    { intros s J. destruct (U1 s J) as [K|K]; [|apply RL, K]. intros k Ik. now apply (ch_loadSets m C s K). }
    unfold set_loadings. rewrite Els. cbn [bind].
    assert (exists sets, analysis_constraintSets m n = Ok sets /\ forall s, In s sets -> In s (v_constraintSets m) \/ (v_commonConstraintSet m = Some s /\ t_refs s <> [])) as (sets & Es & U2).
    { unfold analysis_constraintSets.
      assert (exists l, mapM (fun k => match find_set (v_constraintSets m) k with Some s => Ok s | None => UB end) (n_constraintSets n) = Ok l /\ incl l (v_constraintSets m)) as (l & El & Il).
      { induction (n_constraintSets n) as [|k ks IH]; [exists []; split; [reflexivity|intros x []]|].
        destruct IH as (l & El & Il); [intros x X; apply I2; now right|].
        pose proof (proj2 (find_set_in (v_constraintSets m) k) (I2 k (or_introl eq_refl))) as F.
        destruct (find_set (v_constraintSets m) k) as [s|] eqn:Ef; [|discriminate F]. exists (s :: l). cbn. rewrite Ef. cbn. rewrite El.
        split; [reflexivity|]. intros x [<-|X]; [now apply S in Ef|auto]. }
      rewrite El. cbn. eexists. split; [reflexivity|]. intros s J. apply in_app_or in J as [J|J]; [right; now apply common_in in J|left; auto]. }
    rewrite Es. cbn [bind]. destruct (Q (v_constraints m) UB sets) as (cs & Ecs & Ics); [intros s J; apply RC; destruct (U2 s J) as [K|[K _]]; [now left|now right]|].
    unfold set_members. rewrite Ecs. cbn [bind].
    assert (forallb t_written (analysis_loadSets m n) = true) as ->.
    { apply forallb_forall. intros s J. apply WS. destruct (U1 s J) as [K|[K N]]; [left; apply in_or_app; now left|right; split; [assumption|now left]]. }
    assert (forallb t_written sets = true) as ->.
    { apply forallb_forall. intros s J. apply WS. destruct (U2 s J) as [K|[K N]]; [left; apply in_or_app; now right|right; split; [assumption|now right]]. }
    rewrite (WO' (concat ls)) by (intros x X; apply Ils in X; rewrite !in_app_iff; tauto).
    rewrite (WO' (concat cs)) by (intros x X; apply Ics in X; rewrite !in_app_iff; tauto).
    rewrite WO'; [reflexivity|]. intros x X. apply in_flat_map in X as (s & _ & X). apply in_flat_map in X as (k & _ & X).
    destruct (find_obj (v_objectives m) k) eqn:F; [|destruct X]. destruct X as [<-|[]]. apply O in F. rewrite !in_app_iff. tauto. }
  assert (exists bs, mapM (analysis_written m) (v_analyses m) = Ok bs /\ forallb (fun b => b) bs = true) as (bs & -> & B).
  { clear - A. induction (v_analyses m) as [|n l IH]; [exists []; split; reflexivity|]. destruct IH as (bs & E & B); [intros; apply A; now right|].
    exists (true :: bs). cbn. rewrite (A n (or_introl eq_refl)). cbn. rewrite E. split; [reflexivity|exact B]. }
  cbn. rewrite B. rewrite (WO' (v_materials m)), (WO' (v_elements m)) by (intros x X; rewrite !in_app_iff; tauto).
  assert (forallb n_written (v_analyses m) = true) as ->; [|reflexivity]. now apply forallb_forall.
Qed.
(** A loading that no analysis uses can be left out without a word. *)
Theorem C125_unused_refuted : exists m o s, checkWritten m = Ok true /\ coherent m /\ In o (v_loadings m) /\ In s (v_loadSets m) /\
  In (b_key o) (t_refs s) /\ b_written o = false /\ t_written s = false.
Proof.
  exists (mkVModel [] [] [mkObj 1 true false] [mkSet 10 [1] false] [] [] [] [] [] None None None), (mkObj 1 true false), (mkSet 10 [1] false).
  split; [reflexivity|]. split; [|cbn; tauto]. constructor; cbn; try tauto.
  - intros o [<-|[]]. reflexivity.
  - intros s [<-|[]]. split; [discriminate|]. cbn. tauto.
Qed.

(** With the strict option, ending well means that the model was coherent and that what
    its analyses use is marked as written. *)
Theorem C125_strict_exit mv m b m' w written : validate Strict mv m = Ok (b, m') -> checkWritten w = Ok written -> distinct_keys w ->
  fst (convertStudy Strict true true b written) = ExitOk ->
  mv = true /\ coherent m /\
  forall n, In n (v_analyses w) -> forall s, uses (v_commonLoadSet w) (v_loadSets w) (n_loadSets n) s ->
    forall o, In o (v_loadings w) -> In (b_key o) (t_refs s) -> b_written o = true.
Proof.
  intros H W D E. destruct b; [|discriminate E]. destruct written; [|discriminate E].
  apply C125_strict in H as [_ H]. destruct (proj1 H eq_refl) as [-> C]. split; [reflexivity|]. split; [assumption|].
  intros n I s U. now apply (proj2 (C125_written w W D) n I).
Qed.
Definition done : vmodel := mkVModel [mkObj 1 true true] [] [mkObj 1 true true] [mkSet 10 [1] true] [mkObj 3 true true] [mkSet 20 [3] true]
  [mkObj 4 true true] [mkSet 30 [4] true] [mkAnalysis 100 [10] [20] [30] (Some 30) true] (Some (mkSet 11 [1] true)) (Some (mkSet 21 [] false)) None.
Example C125_done : checkWritten done = Ok true /\ validate Strict true done = Ok (true, done) /\ distinct_keys done.
Proof. split; [reflexivity|]. split; [reflexivity|]. unfold distinct_keys. cbn. repeat constructor; intros []. Qed.
Example C125_done_all : checkWritten done = Ok true.
Proof.
  apply C125_all_written.
  - now apply (C125_strict true done true done).
  - intros s [[<-|[]]|E]; [cbn; apply incl_refl|injection E as <-; intros x []].
  - intros s E. injection E as <-. cbn. apply incl_refl.
  - cbn. intros o I. repeat destruct I as [<-|I]; reflexivity || destruct I.
  - cbn. intros s [I|[N [E|E]]]; [|injection E as <-; reflexivity|injection E as <-; now elim N]. repeat destruct I as [<-|I]; reflexivity || destruct I.
  - intros n [<-|[]]. reflexivity.
Qed.

Print Assumptions C125_strict.
Print Assumptions C125_kept.
Print Assumptions C125_coherent.
Print Assumptions C125_again.
Print Assumptions C125_answer.
Print Assumptions C125_invalid_loading.
Print Assumptions C125_best_effort_refuted.
Print Assumptions C125_search_refuted.
Print Assumptions C125_written.
Print Assumptions C125_all_written.
Print Assumptions C125_unused_refuted.
Print Assumptions C125_strict_exit.
