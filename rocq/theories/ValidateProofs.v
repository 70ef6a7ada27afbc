(** Proofs about the validation of a model. *)
From Coq Require Import ZArith List Bool Lia.
From Verif Require Import Base OptionsModel OptionsProofs ValidateModel.
Import ListNotations.
Open Scope Z_scope.

(** ** Spec *)

(** Every object is valid, every load set holds something and only known loadings, every
    analysis refers to known sets, and the searches it needs are there. *)
Record coherent (m : vmodel) : Prop := {
  ch_materials : forall o, In o (v_materials m) -> b_valid o = true;
  ch_elements : forall o, In o (v_elements m) -> b_valid o = true;
  ch_loadings : forall o, In o (v_loadings m) -> b_valid o = true;
  ch_loadSets : forall s, In s (v_loadSets m) -> t_refs s <> [] /\
    forall k, In k (t_refs s) -> In k (map b_key (v_loadings m));
  ch_analyses : forall n, In n (v_analyses m) ->
    incl (n_loadSets n) (map t_key (v_loadSets m)) /\
    incl (n_constraintSets n) (map t_key (v_constraintSets m)) /\
    incl (n_objectiveSets n) (map t_key (v_objectiveSets m)) /\
    forall k, n_search n = Some k -> exists s, In s (v_objectiveSets m) /\ t_key s = k /\ t_refs s <> [] }.

Lemma find_obj_in l k : (exists o, find_obj l k = Some o) <-> In k (map b_key l).
Proof.
  unfold find_obj. split.
  - intros [o H]. apply find_some in H as [I E]. apply Z.eqb_eq in E. subst. now apply in_map.
  - intros H. apply in_map_iff in H as (o & <- & I). destruct (find _ l) as [x|] eqn:E; [eauto|].
    apply (find_none _ _ E) in I. rewrite Z.eqb_refl in I. discriminate I.
Qed.
Lemma find_set_in l k : found (find_set l k) = true <-> In k (map t_key l).
Proof.
  unfold find_set, found. split.
  - destruct (find _ l) as [o|] eqn:H; [|discriminate]. intros _. apply find_some in H as [I E]. apply Z.eqb_eq in E. subst. now apply in_map.
  - intros H. apply in_map_iff in H as (o & <- & I). destruct (find _ l) as [x|] eqn:E; [reflexivity|].
    apply (find_none _ _ E) in I. rewrite Z.eqb_refl in I. discriminate I.
Qed.
Lemma forallb_found l refs : forallb (fun k => found (find_set l k)) refs = true <-> incl refs (map t_key l).
Proof. rewrite forallb_forall. unfold incl. split; intros H k I; apply find_set_in, H, I. Qed.

(** ** Containers *)
Definition says_yes {A} (ok : A -> outcome bool) (x : A) : bool := match ok x with Ok true => true | _ => false end.

Lemma validate_all_spec {A} mode (ok : A -> outcome bool) l b l' : validate_all mode ok l = Ok (b, l') ->
  (forall x, In x l -> exists v, ok x = Ok v) /\
  (b = true <-> forall x, In x l -> ok x = Ok true) /\
  l' = match mode with Strict => l | _ => filter (says_yes ok) l end.
Proof.
  unfold validate_all. destruct (mapM ok l) as [bs| | |] eqn:E; try discriminate. cbn [bind]. intros H.
  apply mapM_Forall2 in E. injection H as <- <-.
  split; [|split].
  - clear mode. induction E as [|x v l bs H E IH]; [intros x []|]. intros y [<-|I]; eauto.
  - rewrite forallb_forall. split.
    + clear mode. induction E as [|x v l bs H E IH]; intros B y I; [destruct I|]. destruct I as [<-|I].
      * rewrite H. f_equal. apply B. now left.
      * apply IH; [|assumption]. intros c C. apply B. now right.
    + clear mode. induction E as [|x v l bs H E IH]; intros B c C; [destruct C|]. destruct C as [<-|C].
      * specialize (B x (or_introl eq_refl)). congruence.
      * apply IH; [|assumption]. intros y I. apply B. now right.
  - assert (map fst (filter snd (combine l bs)) = filter (says_yes ok) l) as K; [|now destruct mode].
    induction E as [|x v l bs H E IH]; [reflexivity|]. cbn. unfold says_yes at 1. rewrite H. destruct v; cbn; now rewrite IH.
Qed.
Lemma validate_all_ok {A} mode (ok : A -> outcome bool) l : (forall x, In x l -> exists v, ok x = Ok v) ->
  exists b l', validate_all mode ok l = Ok (b, l').
Proof.
  intros H. unfold validate_all. assert (exists bs, mapM ok l = Ok bs) as [bs ->]; [|cbn; eauto].
  induction l as [|x l IH]; [now exists []|]. destruct (H x (or_introl eq_refl)) as [v E].
  destruct IH as [bs Es]; [intros y I; apply H; now right|]. exists (v :: bs). cbn. now rewrite E, Es.
Qed.
Lemma validate_all_yes {A} mode (ok : A -> outcome bool) l : (forall x, In x l -> ok x = Ok true) ->
  validate_all mode ok l = Ok (true, l).
Proof.
  intros H. destruct (validate_all_ok mode ok l) as (b & l' & E); [intros x I; eauto|].
  pose proof (validate_all_spec _ _ _ _ _ E) as (_ & B & L). apply B in H as Hb. rewrite E, Hb. do 2 f_equal.
  rewrite L. destruct mode; try reflexivity.
  all: clear - H; induction l as [|x l IH]; [reflexivity|]; cbn; unfold says_yes at 1; rewrite (H x (or_introl eq_refl)); f_equal; apply IH; intros; apply H; now right.
Qed.
Lemma filter_all {A} (p : A -> bool) l : filter p l = l -> forall x, In x l -> p x = true.
Proof. intros H x I. rewrite <- H in I. now apply filter_In in I. Qed.
Lemma says_yes_spec {A} (ok : A -> outcome bool) x : says_yes ok x = true <-> ok x = Ok true.
Proof. unfold says_yes. destruct (ok x) as [[]| | |]; split; congruence. Qed.

(** ** Load sets and analyses *)
Lemma loadSet_valid_true loadings s : loadSet_valid loadings s = Ok true <->
  t_refs s <> [] /\ forall k, In k (t_refs s) -> In k (map b_key loadings).
Proof.
  unfold loadSet_valid, set_loadings. generalize (t_refs s) as refs. intros refs.
  assert (A : (exists l, mapM (fun k => match find_obj loadings k with Some o => Ok o | None => Throw end) refs = Ok l /\ (l = [] <-> refs = [])) <->
    forall k, In k refs -> In k (map b_key loadings)).
  { split.
    - intros (l & H & _). apply mapM_Forall2 in H. induction H as [|k o refs l E H IH]; intros x I; [destruct I|].
      destruct I as [<-|I]; [|auto]. apply find_obj_in. destruct (find_obj loadings k); [eauto|discriminate E].
    - intros H. induction refs as [|k refs IH]; [exists []; split; [reflexivity|tauto]|].
      destruct IH as (l & E & _); [intros; apply H; now right|]. destruct (proj2 (find_obj_in loadings k) (H k (or_introl eq_refl))) as [o Eo].
      exists (o :: l). cbn. rewrite Eo. cbn. rewrite E. cbn. split; [reflexivity|]. split; discriminate. }
  split.
  - intros H. destruct (mapM _ refs) as [l| | |] eqn:E; try discriminate H. cbn in H.
    assert (K : l <> []) by (intros ->; discriminate H). split.
    + intros ->. cbn in E. injection E as <-. congruence.
    + apply A. exists l. split; [reflexivity|]. split; [congruence|]. intros ->. cbn in E. injection E as <-. congruence.
  - intros [N H]. apply A in H as (l & -> & L). cbn. destruct l; [|reflexivity]. exfalso. apply N, L. reflexivity.
Qed.
Lemma analysis_valid_true m n : analysis_valid m n = Ok true <->
  incl (n_loadSets n) (map t_key (v_loadSets m)) /\
  incl (n_constraintSets n) (map t_key (v_constraintSets m)) /\
  incl (n_objectiveSets n) (map t_key (v_objectiveSets m)) /\
  search_valid (v_objectiveSets m) n = Ok true.
Proof.
  unfold analysis_valid. rewrite <- !forallb_found. unfold search_valid.
  destruct (match n_search n with None => _ | Some k => _ end) as [s| | |]; cbn [bind].
  2-4: split; [discriminate|]; intros (_ & _ & _ & X); discriminate X.
  split.
  - intros H. injection H as H. rewrite !andb_true_iff in H. destruct H as (((H1 & H2) & H3) & ->). auto.
  - intros (-> & -> & -> & X). injection X as ->. reflexivity.
Qed.
Lemma search_valid_found sets n : search_valid sets n = Ok true ->
  forall k, n_search n = Some k -> exists s, In s sets /\ t_key s = k /\ t_refs s <> [].
Proof.
  unfold search_valid. intros H k E. rewrite E in H. unfold find_set in H.
  destruct (find _ sets) as [s|] eqn:F; [|discriminate H]. apply find_some in F as [I K]. apply Z.eqb_eq in K.
  exists s. split; [assumption|]. split; [assumption|]. destruct (t_refs s); [discriminate H|discriminate].
Qed.
Lemma search_valid_value sets n v : search_valid sets n = Ok v -> v = true.
Proof. unfold search_valid. destruct (n_search n); [|congruence]. destruct find_set; [|discriminate]. destruct t_refs; congruence. Qed.

Lemma analysis_valid_value m n v : analysis_valid m n = Ok v -> search_valid (v_objectiveSets m) n = Ok true.
Proof.
  unfold analysis_valid. destruct (search_valid _ n) as [s| | |] eqn:E; cbn; try discriminate. intros _. apply search_valid_value in E as S. now subst.
Qed.

Lemma validate_inv mode mv m b m' : validate mode mv m = Ok (b, m') ->
  exists bm be bl bs ba,
  validate_all mode (fun o => Ok (b_valid o)) (v_materials m) = Ok (bm, v_materials m') /\
  validate_all mode (fun o => Ok (b_valid o)) (v_elements m) = Ok (be, v_elements m') /\
  validate_all mode (fun o => Ok (b_valid o)) (v_loadings m) = Ok (bl, v_loadings m') /\
  validate_all mode (loadSet_valid (v_loadings m')) (v_loadSets m) = Ok (bs, v_loadSets m') /\
  validate_all mode (analysis_valid m') (v_analyses m) = Ok (ba, v_analyses m') /\
  b = mv && bm && be && bl && bs && ba /\
  v_constraints m' = v_constraints m /\ v_constraintSets m' = v_constraintSets m /\
  v_objectives m' = v_objectives m /\ v_objectiveSets m' = v_objectiveSets m /\
  v_commonLoadSet m' = v_commonLoadSet m /\ v_commonConstraintSet m' = v_commonConstraintSet m /\
  v_commonObjectiveSet m' = v_commonObjectiveSet m.
Proof.
  unfold validate. intros H.
  destruct (validate_all mode _ (v_materials m)) as [[bm m1]| | |] eqn:E1; try discriminate H. cbn [bind snd fst] in H.
  destruct (validate_all mode _ (v_elements m)) as [[be m2]| | |] eqn:E2; try discriminate H. cbn [bind snd fst] in H.
  destruct (validate_all mode _ (v_loadings m)) as [[bl m3]| | |] eqn:E3; try discriminate H. cbn [bind snd fst] in H.
  destruct (validate_all mode (loadSet_valid m3) (v_loadSets m)) as [[bs m4]| | |] eqn:E4; try discriminate H. cbn [bind snd fst v_analyses] in H.
  match type of H with bind (validate_all mode (analysis_valid ?x) _) _ = _ => set (mm := x) in H end.
  destruct (validate_all mode (analysis_valid mm) (v_analyses m)) as [[ba m5]| | |] eqn:E5; try discriminate H. cbn [bind snd fst] in H.
  injection H as <- <-. cbn. exists bm, be, bl, bs, ba. repeat split; try assumption.
Qed.

Lemma vmodel_eq a b :
  v_materials a = v_materials b -> v_elements a = v_elements b -> v_loadings a = v_loadings b -> v_loadSets a = v_loadSets b ->
  v_constraints a = v_constraints b -> v_constraintSets a = v_constraintSets b -> v_objectives a = v_objectives b ->
  v_objectiveSets a = v_objectiveSets b -> v_analyses a = v_analyses b -> v_commonLoadSet a = v_commonLoadSet b ->
  v_commonConstraintSet a = v_commonConstraintSet b -> v_commonObjectiveSet a = v_commonObjectiveSet b -> a = b.
Proof. destruct a, b; cbn; intros; subst; reflexivity. Qed.
