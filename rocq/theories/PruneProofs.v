(** Lemmas on the removal of what has no effect. *)
From Coq Require Import ZArith List Bool Lia.
From Verif Require Import Base OptionsModel OptionsProofs ValidateModel ValidateProofs PruneModel.
Import ListNotations.
Open Scope Z_scope.

Definition mem (k : Z) (ks : list Z) : bool := existsb (Z.eqb k) ks.
Lemma mem_In k ks : mem k ks = true <-> In k ks.
Proof.
  unfold mem. rewrite existsb_exists. split.
  - intros (x & I & E). apply Z.eqb_eq in E. now subst.
  - intros I. exists k. split; [assumption|apply Z.eqb_refl].
Qed.
Lemma mem_not k ks : mem k ks = false <-> ~ In k ks.
Proof. rewrite <- mem_In. destruct (mem k ks); split; congruence. Qed.
(** Several references removed. *)
Definition less (ks l : list Z) : list Z := filter (fun j => negb (mem j ks)) l.
Definition drops (ks : list Z) (s : oset) : oset := mkSet (t_key s) (less ks (t_refs s)) (t_written s).
Lemma filter_filter {A} (p q : A -> bool) l : filter p (filter q l) = filter (fun x => q x && p x) l.
Proof. induction l as [|a l IH]; [reflexivity|]. cbn. destruct (q a); cbn; [destruct (p a); now rewrite IH|assumption]. Qed.
Lemma less_nil l : less [] l = l.
Proof. unfold less. induction l as [|a l IH]; [reflexivity|]. cbn in *. now rewrite IH. Qed.
Lemma less_cons k ks l : less ks (without k l) = less (k :: ks) l.
Proof. unfold less, without. rewrite filter_filter. apply filter_ext. intros j. cbn. rewrite negb_orb. reflexivity. Qed.
Lemma less_In ks l k : In k (less ks l) <-> In k l /\ ~ In k ks.
Proof. unfold less. rewrite filter_In, negb_true_iff, mem_not. tauto. Qed.
Lemma less_same ks l : (forall k, In k l -> ~ In k ks) -> less ks l = l.
Proof.
  intros H. unfold less. induction l as [|a l IH]; [reflexivity|]. cbn. rewrite (proj2 (mem_not a ks)) by (apply H; now left). cbn.
  f_equal. apply IH. intros k I. apply H. now right.
Qed.
Lemma without_same k l : ~ In k l -> without k l = l.
Proof.
  intros H. unfold without. induction l as [|a l IH]; [reflexivity|]. cbn. destruct (Z.eqb_spec a k) as [->|_]; [exfalso; apply H; now left|].
  cbn. f_equal. apply IH. intros I. apply H. now right.
Qed.
Lemma without_In k l j : In j (without k l) <-> In j l /\ j <> k.
Proof. unfold without. rewrite filter_In, negb_true_iff, Z.eqb_neq. tauto. Qed.
Lemma drops_nil s : drops [] s = s.
Proof. unfold drops. rewrite less_nil. now destruct s. Qed.
Lemma drops_cons k ks s : drops ks (drop k s) = drops (k :: ks) s.
Proof. unfold drops, drop. cbn [t_refs t_key t_written]. now rewrite less_cons. Qed.
Lemma opt_nil o : option_map (drops []) o = o.
Proof. destruct o as [s|]; [cbn; now rewrite drops_nil|reflexivity]. Qed.
Lemma map_drops_nil l : map (drops []) l = l.
Proof. rewrite (map_ext _ (fun s => s)) by (intros; apply drops_nil). apply map_id. Qed.
Definition keep {A} (key : A -> Z) (ks : list Z) (l : list A) : list A := filter (fun o => negb (mem (key o) ks)) l.
Lemma keep_nil {A} (key : A -> Z) l : keep key [] l = l.
Proof. unfold keep. induction l as [|a l IH]; [reflexivity|]. cbn in *. now rewrite IH. Qed.
Lemma keep_cons {A} (key : A -> Z) k ks l : keep key ks (filter (fun o => negb (key o =? k)) l) = keep key (k :: ks) l.
Proof. unfold keep. rewrite filter_filter. apply filter_ext. intros o. cbn. now rewrite negb_orb. Qed.
Lemma keep_In {A} (key : A -> Z) ks l o : In o (keep key ks l) <-> In o l /\ ~ In (key o) ks.
Proof. unfold keep. rewrite filter_In, negb_true_iff, mem_not. tauto. Qed.

Ltac proj := cbn [v_materials v_elements v_loadings v_loadSets v_constraints v_constraintSets v_objectives v_objectiveSets v_analyses
  v_commonLoadSet v_commonConstraintSet v_commonObjectiveSet n_key n_loadSets n_constraintSets n_objectiveSets n_search n_written t_key t_refs t_written].
(** ** The members *)
Lemma set_loads_same m : set_loads m (v_loadings m) (v_loadSets m) (v_commonLoadSet m) (v_analyses m) = m.
Proof. now destruct m. Qed.
Lemma set_cons_same m : set_cons m (v_constraints m) (v_constraintSets m) (v_commonConstraintSet m) (v_analyses m) = m.
Proof. now destruct m. Qed.
Lemma remove_loadings ks : forall m, fold_left remove_loading ks m =
  set_loads m (keep b_key ks (v_loadings m)) (map (drops ks) (v_loadSets m)) (option_map (drops ks) (v_commonLoadSet m)) (v_analyses m).
Proof.
  induction ks as [|k ks IH]; intros m.
  - cbn [fold_left]. rewrite keep_nil, map_drops_nil, opt_nil. now rewrite set_loads_same.
  - cbn [fold_left]. rewrite IH. unfold remove_loading, set_loads. proj. rewrite keep_cons, map_map.
    f_equal; [apply map_ext; intros; apply drops_cons|]. destruct (v_commonLoadSet m); [cbn; now rewrite drops_cons|reflexivity].
Qed.
Lemma remove_constraints ks : forall m, fold_left remove_constraint ks m =
  set_cons m (keep b_key ks (v_constraints m)) (map (drops ks) (v_constraintSets m)) (option_map (drops ks) (v_commonConstraintSet m)) (v_analyses m).
Proof.
  induction ks as [|k ks IH]; intros m.
  - cbn [fold_left]. rewrite keep_nil, map_drops_nil, opt_nil. now rewrite set_cons_same.
  - cbn [fold_left]. rewrite IH. unfold remove_constraint, set_cons. proj. rewrite keep_cons, map_map.
    f_equal; [apply map_ext; intros; apply drops_cons|]. destruct (v_commonConstraintSet m); [cbn; now rewrite drops_cons|reflexivity].
Qed.
(** With distinct keys, removing by key is removing the object. *)
Lemma keep_filter bad l : NoDup (map b_key l) -> keep b_key (map b_key (filter bad l)) l = filter (fun o => negb (bad o)) l.
Proof.
  intros N. unfold keep. apply filter_ext_in. intros o I. f_equal. destruct (bad o) eqn:E.
  - apply mem_In, in_map, filter_In. auto.
  - apply mem_not. intros J. apply in_map_iff in J as (p & K & J). apply filter_In in J as [J B].
    assert (p = o); [|congruence]. clear -N I J K. induction l as [|a l IH]; [destruct I|]. cbn in N. inversion N as [|? ? N1 N2]; subst.
    destruct I as [->|I], J as [->|J]; auto; exfalso; apply N1; [rewrite <- K|rewrite K]; now apply in_map.
Qed.

(** ** The load sets *)
Definition n_less (ks : list Z) (n : analysis) : analysis :=
  mkAnalysis (n_key n) (less ks (n_loadSets n)) (n_constraintSets n) (n_objectiveSets n) (n_search n) (n_written n).
Lemma drop_loadSet m k n : In k (map t_key (v_loadSets m)) -> analysis_drop_loadSet m k n =
  mkAnalysis (n_key n) (without k (n_loadSets n)) (n_constraintSets n) (n_objectiveSets n) (n_search n) (n_written n).
Proof.
  intros I. unfold analysis_drop_loadSet. destruct (existsb _ _) eqn:E; [reflexivity|].
  rewrite without_same; [now destruct n|]. intros J. apply not_true_iff_false in E. apply E, existsb_exists.
  apply find_set_in in I. destruct (find_set (v_loadSets m) k) as [s|] eqn:F; [|discriminate I]. exists s.
  assert (t_key s =? k = true) as K by (now apply find_some in F). split; [|assumption]. apply in_or_app. right.
  apply in_flat_map. exists k. split; [assumption|]. rewrite F. now left.
Qed.
Lemma remove_loadSets ks : forall m, NoDup ks -> incl ks (map t_key (v_loadSets m)) -> fold_left remove_loadSet ks m =
  set_loads m (v_loadings m) (keep t_key ks (v_loadSets m)) (v_commonLoadSet m) (map (n_less ks) (v_analyses m)).
Proof.
  induction ks as [|k ks IH]; intros m N I.
  - cbn [fold_left]. rewrite keep_nil, (map_ext _ (fun n => n)), map_id by (intros n; unfold n_less; rewrite less_nil; now destruct n). now rewrite set_loads_same.
  - cbn [fold_left]. inversion N as [|? ? N1 N2]; subst. rewrite IH; [|assumption|].
    + unfold remove_loadSet, set_loads. proj. rewrite keep_cons, map_map. f_equal. apply map_ext. intros n.
      rewrite drop_loadSet by (apply I; now left). unfold n_less. proj. now rewrite less_cons.
    + intros j J. cbn. assert (In j (map t_key (v_loadSets m))) as K by (apply I; now right).
      apply in_map_iff in K as (s & <- & K). apply in_map. apply filter_In. split; [assumption|].
      apply negb_true_iff, Z.eqb_neq. intros X. apply N1. now rewrite <- X.
Qed.

(** ** The constraint sets *)
Definition c_less (ks : list Z) (n : analysis) : analysis :=
  mkAnalysis (n_key n) (n_loadSets n) (less ks (n_constraintSets n)) (n_objectiveSets n) (n_search n) (n_written n).
Lemma scan_found sets k refs : incl refs (map t_key sets) -> scan_sets sets k refs = Ok (mem k refs).
Proof.
  induction refs as [|r rs IH]; intros I; [reflexivity|]. cbn [scan_sets]. change (mem k (r :: rs)) with ((k =? r) || mem k rs). pose proof (proj2 (find_set_in sets r) (I r (or_introl eq_refl))) as F.
  destruct (find_set sets r) as [s|] eqn:E; [|discriminate F]. apply find_some in E as [_ E]. apply Z.eqb_eq in E. rewrite E, (Z.eqb_sym r k).
  destruct (k =? r); [reflexivity|]. apply IH. intros x X. apply I. now right.
Qed.
Lemma drop_constraintSet m k n : incl (n_constraintSets n) (map t_key (v_constraintSets m)) -> analysis_drop_constraintSet m k n =
  Ok (mkAnalysis (n_key n) (n_loadSets n) (without k (n_constraintSets n)) (n_objectiveSets n) (n_search n) (n_written n)).
Proof.
  intros I. unfold analysis_drop_constraintSet, contains_constraintSet. destruct (existsb _ _); [reflexivity|]. rewrite scan_found by assumption. cbn.
  destruct (mem k (n_constraintSets n)) eqn:E; [reflexivity|]. apply mem_not in E. rewrite without_same by assumption. now destruct n.
Qed.
Lemma mapM_map {A B} (f : A -> outcome B) (g : A -> B) l : (forall a, In a l -> f a = Ok (g a)) -> mapM f l = Ok (map g l).
Proof.
  induction l as [|a l IH]; intros H; [reflexivity|]. cbn. rewrite (H a) by now left. cbn. rewrite IH; [reflexivity|]. intros; apply H; now right.
Qed.
Lemma remove_constraintSets ks : forall m, (forall n, In n (v_analyses m) -> incl (n_constraintSets n) (map t_key (v_constraintSets m))) ->
  foldM remove_constraintSet ks m =
  Ok (set_cons m (v_constraints m) (keep t_key ks (v_constraintSets m)) (v_commonConstraintSet m) (map (c_less ks) (v_analyses m))).
Proof.
  induction ks as [|k ks IH]; intros m C.
  - cbn [foldM]. rewrite keep_nil, (map_ext _ (fun n => n)), map_id by (intros n; unfold c_less; rewrite less_nil; now destruct n). now rewrite set_cons_same.
  - cbn [foldM]. unfold remove_constraintSet at 1.
    rewrite (mapM_map _ (fun n => mkAnalysis (n_key n) (n_loadSets n) (without k (n_constraintSets n)) (n_objectiveSets n) (n_search n) (n_written n)))
      by (intros n I; apply drop_constraintSet; now apply C).
    cbn [bind]. rewrite IH.
    + unfold set_cons. proj. rewrite keep_cons, map_map. f_equal. f_equal. apply map_ext. intros n. unfold c_less. proj. now rewrite less_cons.
    + cbn. intros n I j J. apply in_map_iff in I as (n0 & <- & I). cbn in J. apply without_In in J as [J NE]. apply (C n0 I) in J.
      apply in_map_iff in J as (s & <- & J). apply in_map, filter_In. split; [assumption|]. now apply negb_true_iff, Z.eqb_neq.
Qed.

(** ** The empty sets *)
Definition no_refs (s : oset) : bool := match t_refs s with [] => true | _ => false end.
Lemma loadSet_empty_closed l s : incl (t_refs s) (map b_key l) -> loadSet_empty l s = Ok (no_refs s).
Proof.
  intros I. unfold loadSet_empty, set_loadings, no_refs.
  assert (exists r, mapM (fun k => match find_obj l k with Some o => Ok o | None => Throw end) (t_refs s) = Ok r /\ length r = length (t_refs s)) as (r & -> & L).
  { induction (t_refs s) as [|k ks IH]; [exists []; split; reflexivity|]. destruct IH as (r & E & L); [intros x X; apply I; now right|].
    destruct (proj2 (find_obj_in l k) (I k (or_introl eq_refl))) as [o Eo]. exists (o :: r). cbn. rewrite Eo. cbn. rewrite E. cbn. split; [reflexivity|now f_equal]. }
  cbn. destruct r, (t_refs s); cbn in L; congruence.
Qed.
Lemma constraintSet_empty_closed l s : incl (t_refs s) (map b_key l) -> constraintSet_empty l s = Ok (no_refs s).
Proof.
  intros I. unfold constraintSet_empty, no_refs. assert (exists r, set_members l s = Ok r) as [r E].
  { unfold set_members. induction (t_refs s) as [|k ks IH]; [exists []; reflexivity|]. destruct IH as (r & E); [intros x X; apply I; now right|].
    destruct (proj2 (find_obj_in l k) (I k (or_introl eq_refl))) as [o Eo]. exists (o :: r). cbn. rewrite Eo. cbn. rewrite E. reflexivity. }
  rewrite E. destruct (t_refs s) as [|a [|b r']]; reflexivity.
Qed.
Lemma marked_map {A} (p : A -> bool) l : marked l (map p l) = filter p l.
Proof. unfold marked. induction l as [|a l IH]; [reflexivity|]. cbn. destruct (p a); cbn; now rewrite IH. Qed.
Lemma keep_sets l : NoDup (map t_key l) -> keep t_key (map t_key (filter no_refs l)) l = filter (fun s => negb (no_refs s)) l.
Proof.
  intros N. unfold keep. apply filter_ext_in. intros o I. f_equal. destruct (no_refs o) eqn:E.
  - apply mem_In, in_map, filter_In. auto.
  - apply mem_not. intros J. apply in_map_iff in J as (p & K & J). apply filter_In in J as [J B].
    assert (p = o); [|congruence]. clear -N I J K. induction l as [|a l IH]; [destruct I|]. cbn in N. inversion N as [|? ? N1 N2]; subst.
    destruct I as [->|I], J as [->|J]; auto; exfalso; apply N1; [rewrite <- K|rewrite K]; now apply in_map.
Qed.
Lemma NoDup_filter_map {A} (key : A -> Z) p l : NoDup (map key l) -> NoDup (map key (filter p l)).
Proof.
  induction l as [|a l IH]; intros N; [constructor|]. cbn in N |- *. inversion N as [|? ? N1 N2]; subst. destruct (p a); [|auto].
  cbn. constructor; [|auto]. intros I. apply N1. apply in_map_iff in I as (x & E & I). apply filter_In in I as [I _]. rewrite <- E. now apply in_map.
Qed.
Lemma keys_drops ks l : map t_key (map (drops ks) l) = map t_key l.
Proof. rewrite map_map. now apply map_ext. Qed.
