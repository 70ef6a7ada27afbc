(** C127: removing what has no effect leaves a coherent model whose analyses apply the
    same effective loadings and constraints. *)
From Coq Require Import ZArith List Bool Lia.
From Verif Require Import Base OptionsModel OptionsProofs ValidateModel ValidateProofs PropertiesValidate PruneModel PruneProofs.
Import ListNotations.
Open Scope Z_scope.

(** Every reference finds an object. *)
Record closed (m : vmodel) : Prop := {
  cl_loadSets : forall s, In s (v_loadSets m) -> incl (t_refs s) (map b_key (v_loadings m));
  cl_constraintSets : forall s, In s (v_constraintSets m) -> incl (t_refs s) (map b_key (v_constraints m));
  cl_analyses : forall n, In n (v_analyses m) -> incl (n_loadSets n) (map t_key (v_loadSets m)) /\
    incl (n_constraintSets n) (map t_key (v_constraintSets m)) /\ incl (n_objectiveSets n) (map t_key (v_objectiveSets m));
  cl_commonLoadSet : forall s, v_commonLoadSet m = Some s -> incl (t_refs s) (map b_key (v_loadings m));
  cl_commonConstraintSet : forall s, v_commonConstraintSet m = Some s -> incl (t_refs s) (map b_key (v_constraints m)) }.
(** An analysis applies an object when one of its sets holds it. *)
Definition applies (c : option oset) (sets : list oset) (refs : list Z) (objs : list obj) (o : obj) : Prop :=
  In o objs /\ exists s, uses c sets refs s /\ In (b_key o) (t_refs s).

Definition bad_keys (bad : obj -> bool) (l : list obj) : list Z := map b_key (filter bad l).
Definition left_sets (bad : obj -> bool) (l : list obj) (sets : list oset) : list oset :=
  filter (fun s => negb (no_refs s)) (map (drops (bad_keys bad l)) sets).
Definition gone_sets (bad : obj -> bool) (l : list obj) (sets : list oset) : list Z :=
  map t_key (filter no_refs (map (drops (bad_keys bad l)) sets)).

Lemma no_refs_in s k : In k (t_refs s) -> no_refs s = false.
Proof. unfold no_refs. destruct (t_refs s); [intros []|reflexivity]. Qed.
Lemma good_key bad l k : NoDup (map b_key l) -> In k (map b_key l) -> ~ In k (bad_keys bad l) -> In k (map b_key (filter (fun o => negb (bad o)) l)).
Proof.
  intros N I B. apply in_map_iff in I as (o & <- & I). apply in_map, filter_In. split; [assumption|]. destruct (bad o) eqn:E; [|reflexivity].
  exfalso. apply B, in_map, filter_In. auto.
Qed.
Lemma key_inj {A} (key : A -> Z) l x y : NoDup (map key l) -> In x l -> In y l -> key x = key y -> x = y.
Proof.
  intros N I J K. induction l as [|a l IH]; [destruct I|]. cbn in N. inversion N as [|? ? N1 N2]; subst.
  destruct I as [->|I], J as [->|J]; auto; exfalso; apply N1; [rewrite K|rewrite <- K]; now apply in_map.
Qed.
Lemma good_not_bad bad l o : NoDup (map b_key l) -> In o l -> bad o = false -> ~ In (b_key o) (bad_keys bad l).
Proof.
  intros N I B J. apply in_map_iff in J as (p & K & J). apply filter_In in J as [J C]. rewrite (key_inj b_key l p o N J I K) in C. congruence.
Qed.

Lemma keep_bad bad l : NoDup (map b_key l) -> keep b_key (bad_keys bad l) l = filter (fun o => negb (bad o)) l.
Proof. apply keep_filter. Qed.
Lemma keep_left bad l sets : NoDup (map t_key sets) -> keep t_key (gone_sets bad l sets) (map (drops (bad_keys bad l)) sets) = left_sets bad l sets.
Proof. intros N. apply keep_sets. now rewrite keys_drops. Qed.

Lemma remove_loads_result bad m : NoDup (map b_key (v_loadings m)) -> NoDup (map t_key (v_loadSets m)) ->
  (forall s, In s (v_loadSets m) -> incl (t_refs s) (map b_key (v_loadings m))) -> remove_loads bad m =
  Ok (set_loads m (filter (fun o => negb (bad o)) (v_loadings m)) (left_sets bad (v_loadings m) (v_loadSets m))
    (option_map (drops (bad_keys bad (v_loadings m))) (v_commonLoadSet m)) (map (n_less (gone_sets bad (v_loadings m) (v_loadSets m))) (v_analyses m))).
Proof.
  intros N1 N2 C. unfold remove_loads. rewrite remove_loadings. fold (bad_keys bad (v_loadings m)). cbv zeta. rewrite (keep_bad bad) by assumption.
  unfold set_loads at 1 2 3. proj. rewrite (mapM_map _ no_refs).
  2:{ intros s I. apply loadSet_empty_closed. intros k K. apply in_map_iff in I as (s0 & <- & I). apply less_In in K as [K B].
      apply good_key; [assumption| |assumption]. now apply (C s0 I). }
  cbn [bind]. rewrite marked_map. fold (gone_sets bad (v_loadings m) (v_loadSets m)). rewrite remove_loadSets.
  - unfold set_loads. proj. rewrite keep_left by assumption. reflexivity.
  - apply NoDup_filter_map. now rewrite keys_drops.
  - unfold set_loads. proj. intros k K. apply in_map_iff in K as (s & <- & K). apply filter_In in K as [K _]. now apply in_map.
Qed.
Lemma remove_cons_result bad m : NoDup (map b_key (v_constraints m)) -> NoDup (map t_key (v_constraintSets m)) ->
  (forall s, In s (v_constraintSets m) -> incl (t_refs s) (map b_key (v_constraints m))) ->
  (forall n, In n (v_analyses m) -> incl (n_constraintSets n) (map t_key (v_constraintSets m))) -> remove_cons bad m =
  Ok (set_cons m (filter (fun o => negb (bad o)) (v_constraints m)) (left_sets bad (v_constraints m) (v_constraintSets m))
    (option_map (drops (bad_keys bad (v_constraints m))) (v_commonConstraintSet m)) (map (c_less (gone_sets bad (v_constraints m) (v_constraintSets m))) (v_analyses m))).
Proof.
  intros N1 N2 C A. unfold remove_cons. rewrite remove_constraints. fold (bad_keys bad (v_constraints m)). cbv zeta. rewrite (keep_bad bad) by assumption.
  unfold set_cons at 1 2 3. proj. rewrite (mapM_map _ no_refs).
  2:{ intros s I. apply constraintSet_empty_closed. intros k K. apply in_map_iff in I as (s0 & <- & I). apply less_In in K as [K B].
      apply good_key; [assumption| |assumption]. now apply (C s0 I). }
  cbn [bind]. rewrite marked_map. fold (gone_sets bad (v_constraints m) (v_constraintSets m)). rewrite remove_constraintSets.
  - unfold set_cons. proj. rewrite keep_left by assumption. reflexivity.
  - unfold set_cons. proj. intros n I. rewrite keys_drops. now apply A.
Qed.
Lemma prune_result badL badC eff m : distinct_keys m -> closed m -> removeIneffectives badL badC eff m =
  Ok (mkVModel (v_materials m) (filter eff (v_elements m)) (filter (fun o => negb (badL o)) (v_loadings m)) (left_sets badL (v_loadings m) (v_loadSets m))
    (filter (fun o => negb (badC o)) (v_constraints m)) (left_sets badC (v_constraints m) (v_constraintSets m)) (v_objectives m) (v_objectiveSets m)
    (map (c_less (gone_sets badC (v_constraints m) (v_constraintSets m))) (map (n_less (gone_sets badL (v_loadings m) (v_loadSets m))) (v_analyses m)))
    (option_map (drops (bad_keys badL (v_loadings m))) (v_commonLoadSet m)) (option_map (drops (bad_keys badC (v_constraints m))) (v_commonConstraintSet m))
    (v_commonObjectiveSet m)).
Proof.
  intros (N1 & N2 & N3 & N4 & _) C. unfold removeIneffectives. rewrite remove_loads_result; [|assumption|assumption|apply (cl_loadSets m C)].
  cbn [bind]. rewrite remove_cons_result; [reflexivity|assumption|assumption|apply (cl_constraintSets m C)|].
  unfold set_loads. proj. intros n I. apply in_map_iff in I as (n0 & <- & I). apply (cl_analyses m C n0 I).
Qed.

(** Exactly the effective objects are left; a set is left, without its ineffective members,
    when something is left of it. *)
Theorem C127_left badL badC eff m m' : distinct_keys m -> closed m -> removeIneffectives badL badC eff m = Ok m' ->
  v_loadings m' = filter (fun o => negb (badL o)) (v_loadings m) /\
  v_constraints m' = filter (fun o => negb (badC o)) (v_constraints m) /\ v_elements m' = filter eff (v_elements m) /\
  v_materials m' = v_materials m /\ v_objectives m' = v_objectives m /\ v_objectiveSets m' = v_objectiveSets m /\
  (forall k, In k (map t_key (v_loadSets m')) <-> exists s o, In s (v_loadSets m) /\ t_key s = k /\ In o (v_loadings m) /\ badL o = false /\ In (b_key o) (t_refs s)) /\
  (forall k, In k (map t_key (v_constraintSets m')) <-> exists s o, In s (v_constraintSets m) /\ t_key s = k /\ In o (v_constraints m) /\ badC o = false /\ In (b_key o) (t_refs s)).
Proof.
  intros D C H. rewrite prune_result in H by assumption. injection H as <-. proj. repeat (split; [reflexivity|]). destruct D as (N1 & N2 & N3 & N4 & _).
  assert (G : forall bad objs sets, NoDup (map b_key objs) -> (forall s, In s sets -> incl (t_refs s) (map b_key objs)) ->
    forall k, In k (map t_key (left_sets bad objs sets)) <-> exists s o, In s sets /\ t_key s = k /\ In o objs /\ bad o = false /\ In (b_key o) (t_refs s)).
  { intros bad objs sets N R k. unfold left_sets. rewrite in_map_iff. split.
    - intros (s' & <- & I). apply filter_In in I as [I E]. apply in_map_iff in I as (s & <- & I). unfold no_refs in E. cbn in E.
      destruct (less (bad_keys bad objs) (t_refs s)) as [|j r] eqn:L; [discriminate E|].
      assert (In j (less (bad_keys bad objs) (t_refs s))) as J by (rewrite L; now left). apply less_In in J as [J B].
      pose proof (R s I j J) as K. apply in_map_iff in K as (o & <- & K). exists s, o. repeat split; try assumption.
      destruct (bad o) eqn:E'; [|reflexivity]. exfalso. apply B, in_map, filter_In. auto.
    - intros (s & o & I & <- & J & B & K). exists (drops (bad_keys bad objs) s). split; [reflexivity|]. apply filter_In. split; [now apply in_map|].
      unfold no_refs. cbn. assert (In (b_key o) (less (bad_keys bad objs) (t_refs s))) as X by (apply less_In; split; [assumption|now apply good_not_bad]).
      destruct (less _ _); [destruct X|reflexivity]. }
  split; apply G; try assumption; [apply (cl_loadSets m C)|apply (cl_constraintSets m C)].
Qed.

Lemma applies_prune bad objs sets c refs o : NoDup (map b_key objs) -> NoDup (map t_key sets) ->
  applies (option_map (drops (bad_keys bad objs)) c) (left_sets bad objs sets) (less (gone_sets bad objs sets) refs) (filter (fun o => negb (bad o)) objs) o <->
  applies c sets refs objs o /\ bad o = false.
Proof.
  intros N S. unfold applies, uses. rewrite filter_In, negb_true_iff. split.
  - intros ((I & B) & s & U & K). split; [|assumption]. split; [assumption|]. destruct U as [[U _]|[U R]].
    + destruct c as [s0|]; [|discriminate U]. cbn in U. injection U as <-. cbn in K. apply less_In in K as [K _]. exists s0. split; [|assumption].
      left. split; [reflexivity|]. intros E. rewrite E in K. destruct K.
    + unfold left_sets in U. apply filter_In in U as [U _]. apply in_map_iff in U as (s0 & <- & U). cbn in K, R. apply less_In in K as [K _]. apply less_In in R as [R _].
      exists s0. split; [right; auto|assumption].
  - intros ((I & s & U & K) & B). split; [auto|]. pose proof (good_not_bad bad objs o N I B) as G.
    assert (X : In (b_key o) (t_refs (drops (bad_keys bad objs) s))) by (cbn; apply less_In; auto).
    exists (drops (bad_keys bad objs) s). split; [|assumption]. destruct U as [[-> _]|[U R]].
    + left. split; [reflexivity|]. intros E. rewrite E in X. destruct X.
    + right. pose proof (no_refs_in _ _ X) as Y.
      split; [apply filter_In; split; [now apply in_map|now rewrite Y]|]. apply less_In. split; [assumption|]. intros J.
      apply in_map_iff in J as (s2 & E & J). apply filter_In in J as [J Z]. assert (s2 = drops (bad_keys bad objs) s); [|congruence].
      apply (key_inj t_key (map (drops (bad_keys bad objs)) sets)); [now rewrite keys_drops|assumption|now apply in_map|assumption].
Qed.
(** The sets that are left keep their mark and exactly their effective members. *)
Theorem C127_sets badL badC eff m m' : distinct_keys m -> closed m -> removeIneffectives badL badC eff m = Ok m' ->
  (forall s', In s' (v_loadSets m') -> exists s, In s (v_loadSets m) /\ t_key s' = t_key s /\ t_written s' = t_written s /\
    forall o, In o (v_loadings m) -> In (b_key o) (t_refs s') <-> In (b_key o) (t_refs s) /\ badL o = false) /\
  (forall s', In s' (v_constraintSets m') -> exists s, In s (v_constraintSets m) /\ t_key s' = t_key s /\ t_written s' = t_written s /\
    forall o, In o (v_constraints m) -> In (b_key o) (t_refs s') <-> In (b_key o) (t_refs s) /\ badC o = false).
Proof.
  intros D C H. rewrite prune_result in H by assumption. injection H as <-. proj. destruct D as (N1 & N2 & N3 & N4 & _).
  assert (G : forall bad objs sets, NoDup (map b_key objs) -> forall s', In s' (left_sets bad objs sets) ->
    exists s, In s sets /\ t_key s' = t_key s /\ t_written s' = t_written s /\ forall o, In o objs -> In (b_key o) (t_refs s') <-> In (b_key o) (t_refs s) /\ bad o = false).
  { intros bad objs sets N s' I. unfold left_sets in I. apply filter_In in I as [I _]. apply in_map_iff in I as (s & <- & I). exists s.
    split; [assumption|]. split; [reflexivity|]. split; [reflexivity|]. intros o J. cbn. rewrite less_In. split; intros [X Y]; (split; [assumption|]).
    - destruct (bad o) eqn:E; [|reflexivity]. exfalso. apply Y, in_map, filter_In. auto.
    - now apply good_not_bad. }
  split; intros s' I; now apply G.
Qed.
(** Each analysis is still there and applies the same effective loadings and constraints,
    and none of the others. *)
Theorem C127_same badL badC eff m m' : distinct_keys m -> closed m -> removeIneffectives badL badC eff m = Ok m' ->
  Forall2 (fun n n' => n_key n' = n_key n /\ n_objectiveSets n' = n_objectiveSets n /\ n_search n' = n_search n /\ n_written n' = n_written n /\
    (forall o, applies (v_commonLoadSet m') (v_loadSets m') (n_loadSets n') (v_loadings m') o <->
       applies (v_commonLoadSet m) (v_loadSets m) (n_loadSets n) (v_loadings m) o /\ badL o = false) /\
    (forall o, applies (v_commonConstraintSet m') (v_constraintSets m') (n_constraintSets n') (v_constraints m') o <->
       applies (v_commonConstraintSet m) (v_constraintSets m) (n_constraintSets n) (v_constraints m) o /\ badC o = false))
    (v_analyses m) (v_analyses m').
Proof.
  intros D C H. rewrite prune_result in H by assumption. injection H as <-. proj. destruct D as (N1 & N2 & N3 & N4 & _). clear C.
  rewrite map_map. induction (v_analyses m) as [|n l IH]; cbn [map]; constructor; [|exact IH].
  unfold c_less, n_less. proj. repeat (split; [reflexivity|]). split; intros o; now apply applies_prune.
Qed.

(** References still find their objects, and no set is empty. *)
Theorem C127_closed badL badC eff m m' : distinct_keys m -> closed m -> removeIneffectives badL badC eff m = Ok m' ->
  closed m' /\ forall s, In s (v_loadSets m') \/ In s (v_constraintSets m') -> t_refs s <> [].
Proof.
  intros D C H. rewrite prune_result in H by assumption. injection H as <-. destruct D as (N1 & N2 & N3 & N4 & _).
  assert (G : forall bad objs sets, NoDup (map b_key objs) -> (forall s, In s sets -> incl (t_refs s) (map b_key objs)) ->
    forall s, In s (left_sets bad objs sets) -> incl (t_refs s) (map b_key (filter (fun o => negb (bad o)) objs)) /\ t_refs s <> []).
  { intros bad objs sets N R s I. unfold left_sets in I. apply filter_In in I as [I E]. apply in_map_iff in I as (s0 & <- & I). split.
    - intros k K. cbn in K. apply less_In in K as [K B]. apply good_key; [assumption| |assumption]. now apply (R s0).
    - unfold no_refs in E. intros X. rewrite X in E. discriminate E. }
  assert (K : forall bad objs sets refs, incl refs (map t_key sets) -> incl (less (gone_sets bad objs sets) refs) (map t_key (left_sets bad objs sets))).
  { intros bad objs sets refs I k J. apply less_In in J as [J X]. apply I in J. apply in_map_iff in J as (s & <- & J).
    change (t_key s) with (t_key (drops (bad_keys bad objs) s)). apply in_map, filter_In. split; [now apply in_map|].
    destruct (no_refs _) eqn:E; [|reflexivity]. exfalso. apply X. change (t_key s) with (t_key (drops (bad_keys bad objs) s)).
    apply in_map, filter_In. split; [now apply in_map|assumption]. }
  split; [constructor|]; proj.
  - intros s I. now apply (G badL _ _ N1 (cl_loadSets m C)).
  - intros s I. now apply (G badC _ _ N3 (cl_constraintSets m C)).
  - intros n I. rewrite map_map in I. apply in_map_iff in I as (n0 & <- & I). unfold c_less, n_less. proj. destruct (cl_analyses m C n0 I) as (A1 & A2 & A3).
    split; [now apply K|]. split; [now apply K|assumption].
  - intros s E k J. destruct (v_commonLoadSet m) as [s0|] eqn:F; [|discriminate E]. injection E as <-. cbn in J. apply less_In in J as [J B].
    apply good_key; [assumption| |assumption]. now apply (cl_commonLoadSet m C s0).
  - intros s E k J. destruct (v_commonConstraintSet m) as [s0|] eqn:F; [|discriminate E]. injection E as <-. cbn in J. apply less_In in J as [J B].
    apply good_key; [assumption| |assumption]. now apply (cl_commonConstraintSet m C s0).
  - intros s [I|I]; [now apply (G badL _ _ N1 (cl_loadSets m C))|now apply (G badC _ _ N3 (cl_constraintSets m C))].
Qed.
(** So the removal never fails on such a model, and the strict validation that follows
    accepts it when the objects left are valid. *)
Theorem C127_validates badL badC eff m : distinct_keys m -> closed m ->
  (forall o, In o (v_materials m) -> b_valid o = true) -> (forall o, In o (v_elements m) -> eff o = true -> b_valid o = true) ->
  (forall o, In o (v_loadings m) -> badL o = false -> b_valid o = true) ->
  (forall n k, In n (v_analyses m) -> n_search n = Some k -> exists s, find_set (v_objectiveSets m) k = Some s /\ t_refs s <> []) ->
  exists m', removeIneffectives badL badC eff m = Ok m' /\ validate Strict true m' = Ok (true, m').
Proof.
  intros D C VM VE VL VS. pose proof (prune_result badL badC eff m D C) as H. eexists. split; [exact H|].
  destruct (C127_closed _ _ _ _ _ D C H) as [C' NE]. revert C' NE. set (m' := mkVModel _ _ _ _ _ _ _ _ _ _ _ _). intros C' NE. unfold validate.
  rewrite (validate_all_yes Strict _ (v_materials m')) by (intros o I; now rewrite (VM o I)). cbn [bind fst snd].
  rewrite (validate_all_yes Strict _ (v_elements m')) by (intros o I; apply filter_In in I as [I E]; now rewrite (VE o I E)). cbn [bind fst snd].
  rewrite (validate_all_yes Strict _ (v_loadings m')) by (intros o I; apply filter_In in I as [I E]; apply negb_true_iff in E; now rewrite (VL o I E)). cbn [bind fst snd].
  rewrite (validate_all_yes Strict (loadSet_valid (v_loadings m')) (v_loadSets m'))
    by (intros s I; apply loadSet_valid_true; split; [apply NE; now left|apply (cl_loadSets m' C' s I)]). cbn [bind fst snd v_analyses].
  rewrite (validate_all_yes Strict (analysis_valid _) (v_analyses m')); [reflexivity|].
  intros n I. apply analysis_valid_true. destruct (cl_analyses m' C' n I) as (A1 & A2 & A3). proj. repeat (split; [assumption|]).
  unfold search_valid. destruct (n_search n) as [k|] eqn:E; [|reflexivity].
  assert (exists n0, In n0 (v_analyses m) /\ n_search n0 = Some k) as (n0 & I0 & E0).
  { cbn [m' v_analyses] in I. rewrite map_map in I. apply in_map_iff in I as (n0 & <- & I). exists n0. auto. }
  destruct (VS n0 k I0 E0) as (s & F & R). change (v_objectiveSets m') with (v_objectiveSets m). rewrite F. destruct (t_refs s); [congruence|reflexivity].
Qed.
(** A reference that finds nothing: an analysis without one of its constraint sets makes
    the removal of an empty one undefined, before validation could report it. *)
Definition lost : vmodel := mkVModel [] [] [] [] [mkObj 3 true true] [mkSet 20 [3] true] [] [] [mkAnalysis 100 [] [21; 20] [] None true] None None None.
Theorem C127_lost_refuted : exists m, distinct_keys m /\ removeIneffectives (fun _ => false) (fun _ => true) (fun _ => true) m = UB /\
  validate BestEffort true m = Ok (false, mkVModel [] [] [] [] (v_constraints m) (v_constraintSets m) [] [] [] None None None).
Proof.
  exists lost. split; [|split; reflexivity]. unfold distinct_keys. cbn. repeat split; repeat constructor; intros [].
Qed.

Definition study : vmodel := mkVModel [mkObj 1 true true] [mkObj 1 true true; mkObj 2 false true] [mkObj 1 true true; mkObj 2 false true]
  [mkSet 10 [1; 2] true; mkSet 11 [2] true] [mkObj 3 true true; mkObj 4 true true] [mkSet 20 [3] true; mkSet 21 [4] true] [] []
  [mkAnalysis 100 [10; 11] [20; 21] [] None true; mkAnalysis 101 [11] [21] [] None true] (Some (mkSet 0 [2] true)) None None.
Example C127_study : distinct_keys study /\ closed study /\
  removeIneffectives (fun o => b_key o =? 2) (fun o => b_key o =? 4) (fun o => b_key o =? 1) study = Ok (
    mkVModel [mkObj 1 true true] [mkObj 1 true true] [mkObj 1 true true] [mkSet 10 [1] true] [mkObj 3 true true] [mkSet 20 [3] true] [] []
    [mkAnalysis 100 [10] [20] [] None true; mkAnalysis 101 [] [] [] None true] (Some (mkSet 0 [] true)) None None).
Proof.
  split; [|split; [|reflexivity]].
  - unfold distinct_keys. cbn. repeat split; repeat constructor; cbn; intuition lia.
  - constructor.
    + intros s I k K. cbn in I. destruct I as [<-|[<-|[]]]; cbn in K |- *; tauto.
    + intros s I k K. cbn in I. destruct I as [<-|[<-|[]]]; cbn in K |- *; tauto.
    + intros n I. cbn in I. destruct I as [<-|[<-|[]]]; (split; [|split]); intros k K; cbn in K |- *; tauto.
    + intros s E k K. injection E as <-. cbn in K |- *. tauto.
    + discriminate.
Qed.

Print Assumptions C127_left.
Print Assumptions C127_sets.
Print Assumptions C127_same.
Print Assumptions C127_closed.
Print Assumptions C127_validates.
Print Assumptions C127_lost_refuted.
