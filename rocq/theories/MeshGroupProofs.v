(** Lemmas about the group registry. *)
From Coq Require Import ZArith String List Bool Lia.
From Verif Require Import Base ZMap MeshGroupModel.
Import ListNotations.
Open Scope Z_scope.

Lemma sfind_erase m k k' : sfind (serase m k) k' = if String.eqb k k' then None else sfind m k'.
Proof.
  unfold serase. induction m as [|[k0 a] m IH]; cbn.
  - destruct (String.eqb k k'); reflexivity.
  - destruct (String.eqb_spec k0 k) as [->|N]; cbn; rewrite ?IH.
    + destruct (String.eqb k k'); reflexivity.
    + destruct (String.eqb_spec k0 k'), (String.eqb_spec k k'); congruence.
Qed.

Lemma sfind_put m k a k' : sfind (sput m k a) k' = if String.eqb k k' then Some a else sfind m k'.
Proof.
  unfold sput. cbn. rewrite sfind_erase. destruct (String.eqb k k'); reflexivity.
Qed.

Lemma upd_length l h f : length (upd l h f) = length l.
Proof. revert h. induction l as [|g l IH]; intros [|h]; cbn; congruence. Qed.

Lemma upd_nth l h f h' : nth_error (upd l h f) h' =
  if Nat.eqb h h' then option_map f (nth_error l h') else nth_error l h'.
Proof.
  revert h h'. induction l as [|g l IH]; intros [|h] [|h']; cbn; try reflexivity.
  - destruct (Nat.eqb h h'); reflexivity.
  - apply IH.
Qed.

Lemma nth_snoc {A} (l : list A) x i : nth_error (l ++ [x]) i =
  if Nat.eqb i (length l) then Some x else nth_error l i.
Proof.
  destruct (Nat.eqb_spec i (length l)) as [->|N].
  - rewrite nth_error_app2 by lia. now rewrite Nat.sub_diag.
  - destruct (Nat.lt_ge_cases i (length l)).
    + now apply nth_error_app1.
    + rewrite (proj2 (nth_error_None _ _)) by (rewrite app_length; cbn; lia).
      symmetry. apply nth_error_None. lia.
Qed.

Record ginv (s : groups) : Prop := mkGinv {
  gi_wf : zmap_wf (byId s);
  gi_name : forall n h, findGroup s n = Some h -> exists g, nth_error (heap s) h = Some g /\ g_name g = n;
  gi_id : forall i h, findGroupById s i = Some h -> i <> NO_ORIGINAL /\ exists g, nth_error (heap s) h = Some g /\ g_orig g = i;
  gi_ne : findGroup s "" = None }.

Lemma ginv_empty a : ginv (empty_groups a).
Proof. constructor; cbn; try discriminate; try reflexivity. apply zmap_wf_nil. Qed.

(** What creation does, when it accepts. *)
Lemma createGroup_spec s k n i : ginv s -> n <> ""%string -> findGroup s n = None ->
  (i <> NO_ORIGINAL -> findGroupById s i = None) ->
  exists s' h, createGroup s k n i = Ok (s', h) /\ ginv s' /\ h = length (heap s) /\
   heap s' = heap s ++ [mkG n k i (gauto s + 1) []] /\
   (forall n', findGroup s' n' = if String.eqb n n' then Some h else findGroup s n') /\
   (forall i', findGroupById s' i' = if (i =? i') && negb (i =? NO_ORIGINAL) then Some h else findGroupById s i').
Proof.
  intros I Hn Hf Hi. unfold createGroup.
  destruct (String.eqb_spec n ""); [contradiction|]. rewrite Hf.
  assert (E : negb (i =? NO_ORIGINAL) && match findGroupById s i with Some _ => true | None => false end = false).
  { destruct (Z.eqb_spec i NO_ORIGINAL); cbn; [reflexivity|]. now rewrite Hi. }
  rewrite E. eexists; eexists. split; [reflexivity|].
  set (h := length (heap s)). set (s' := mkGs _ _ _ _).
  assert (F1 : forall n', findGroup s' n' = if String.eqb n n' then Some h else findGroup s n').
  { intros n'. unfold findGroup, s'. cbn [byName]. apply sfind_put. }
  assert (F2 : forall i', findGroupById s' i' = if (i =? i') && negb (i =? NO_ORIGINAL) then Some h else findGroupById s i').
  { intros i'. unfold findGroupById, s'. cbn [byId]. destruct (Z.eqb_spec i NO_ORIGINAL); cbn.
    - now rewrite andb_false_r.
    - rewrite andb_true_r. apply zfind_insert, I. }
  assert (Hold : forall h' g, nth_error (heap s) h' = Some g -> nth_error (heap s') h' = Some g).
  { intros h' g Hg. unfold s'; cbn [heap]. rewrite nth_snoc. destruct (Nat.eqb_spec h' (length (heap s))); [|exact Hg].
    assert (nth_error (heap s) h' <> None) by congruence. apply nth_error_Some in H. lia. }
  assert (Hnew : nth_error (heap s') h = Some (mkG n k i (gauto s + 1) [])).
  { unfold s'; cbn [heap]. rewrite nth_snoc. unfold h. now rewrite Nat.eqb_refl. }
  split; [|auto].
  constructor.
  - unfold s'; cbn [byId]. destruct (i =? NO_ORIGINAL); [apply I|apply zinsert_wf, I].
  - intros n' h' H. rewrite F1 in H. destruct (String.eqb_spec n n') as [<-|N].
    + injection H as <-. eauto.
    + destruct (gi_name _ I _ _ H) as (g & ? & ?). eauto.
  - intros i' h' H. rewrite F2 in H. destruct ((i =? i') && negb (i =? NO_ORIGINAL)) eqn:B.
    + apply andb_true_iff in B. destruct B as [B1 B2]. apply Z.eqb_eq in B1. subst i'.
      injection H as <-. split; [|eauto]. intros C. rewrite C in B2. discriminate.
    + destruct (gi_id _ I _ _ H) as (? & g & ? & ?). eauto.
  - rewrite F1. destruct (String.eqb_spec n ""); [contradiction|]. apply I.
Qed.

Lemma createGroup_inv s k n i : ginv s ->
  (exists s' h, createGroup s k n i = Ok (s', h)) ->
  n <> ""%string /\ findGroup s n = None /\ (i <> NO_ORIGINAL -> findGroupById s i = None).
Proof.
  intros I (s' & h & E). unfold createGroup in E. destruct (String.eqb_spec n ""); [discriminate|].
  destruct (findGroup s n); [discriminate|]. split; [auto|]. split; [auto|].
  intros Hi. destruct (Z.eqb_spec i NO_ORIGINAL); [contradiction|]. cbn in E.
  destruct (findGroupById s i); [discriminate|reflexivity].
Qed.

Lemma createGroup_dec s k n i : createGroup s k n i = Throw \/ exists s' h, createGroup s k n i = Ok (s', h).
Proof.
  unfold createGroup. destruct (String.eqb n ""); [auto|]. destruct (findGroup s n); [auto|].
  destruct (_ && _); eauto.
Qed.

Lemma renameGroup_spec s o n : ginv s -> o <> ""%string -> n <> ""%string -> forall h, findGroup s o = Some h ->
  exists s', renameGroup s o n = Ok s' /\ ginv s' /\ byId s' = byId s /\
   (forall n', findGroup s' n' = if String.eqb n n' then Some h else if String.eqb o n' then None else findGroup s n') /\
   (forall h' g, nth_error (heap s) h' = Some g -> exists g', nth_error (heap s') h' = Some g' /\
       g_kind g' = g_kind g /\ g_orig g' = g_orig g /\ g_pos g' = g_pos g /\ (h' <> h -> g' = g) /\ (h' = h -> g_name g' = n)).
Proof.
  intros I Ho Hn h Hh. unfold renameGroup.
  destruct (String.eqb_spec o ""); [contradiction|]. destruct (String.eqb_spec n ""); [contradiction|].
  rewrite Hh. eexists. split; [reflexivity|]. set (s' := mkGs _ _ _ _).
  assert (F1 : forall n', findGroup s' n' = if String.eqb n n' then Some h else if String.eqb o n' then None else findGroup s n').
  { intros n'. unfold findGroup, s'. cbn [byName]. rewrite sfind_put, sfind_erase. reflexivity. }
  assert (Hh' : forall h' g, nth_error (heap s) h' = Some g -> exists g', nth_error (heap s') h' = Some g' /\
       g_kind g' = g_kind g /\ g_orig g' = g_orig g /\ g_pos g' = g_pos g /\ (h' <> h -> g' = g) /\ (h' = h -> g_name g' = n)).
  { intros h' g Hg. unfold s'; cbn [heap]. rewrite upd_nth, Hg. destruct (Nat.eqb_spec h h') as [->|N]; cbn [option_map].
    - eexists. split; [reflexivity|]. cbn. repeat split; congruence.
    - eexists. split; [reflexivity|]. repeat split; try reflexivity. congruence. }
  split; [|repeat split; auto].
  constructor; [apply I| | |].
  - intros n' h' H. rewrite F1 in H. destruct (String.eqb_spec n n') as [<-|N].
    + injection H as <-. destruct (gi_name _ I _ _ Hh) as (g & Hg & _). destruct (Hh' _ _ Hg) as (g' & G1 & _ & _ & _ & _ & G2). eauto.
    + destruct (String.eqb_spec o n'); [discriminate|]. destruct (gi_name _ I _ _ H) as (g & Hg & Eg).
      assert (h' <> h). { intros ->. destruct (gi_name _ I _ _ Hh) as (g2 & ? & ?). congruence. }
      destruct (Hh' _ _ Hg) as (g' & G1 & _ & _ & _ & G2 & _). rewrite G2 in G1 by assumption. eauto.
  - intros i h' H. destruct (gi_id _ I _ _ H) as (? & g & Hg & ?). destruct (Hh' _ _ Hg) as (g' & ? & ? & ? & _). split; [assumption|].
    exists g'. split; [assumption|congruence].
  - rewrite F1. destruct (String.eqb_spec n ""); [contradiction|]. destruct (String.eqb o ""); [reflexivity|apply I].
Qed.

Lemma removeGroup_spec s n : ginv s -> exists s', removeGroup s n = Ok s' /\ ginv s' /\ heap s' = heap s /\
  (forall n', findGroup s' n' = if String.eqb n n' then None else findGroup s n') /\
  (forall i h, findGroupById s' i = Some h -> findGroupById s i = Some h).
Proof.
  intros I. unfold removeGroup. destruct (findGroup s n) as [h|] eqn:Eh.
  - destruct (gi_name _ I _ _ Eh) as (g & Hg & _). rewrite Hg. eexists. split; [reflexivity|].
    set (s' := mkGs _ _ _ _).
    assert (F1 : forall n', findGroup s' n' = if String.eqb n n' then None else findGroup s n').
    { intros n'. unfold findGroup, s'. cbn. apply sfind_erase. }
    assert (F2 : forall i h', findGroupById s' i = Some h' -> findGroupById s i = Some h').
    { intros i h' H. unfold findGroupById, s' in *. cbn [byId] in H. destruct (g_auto g =? NO_ORIGINAL); [exact H|].
      rewrite zfind_erase in H by apply I. destruct (g_auto g =? i); [discriminate|exact H]. }
    split; [|auto]. constructor.
    + unfold s'; cbn [byId]. destruct (g_auto g =? NO_ORIGINAL); [apply I|apply zerase_wf, I].
    + intros n' h' H. rewrite F1 in H. destruct (String.eqb n n'); [discriminate|]. apply (gi_name _ I _ _ H).
    + intros i h' H. apply F2 in H. apply (gi_id _ I _ _ H).
    + rewrite F1. destruct (String.eqb n ""); [reflexivity|apply I].
  - exists s. split; [reflexivity|]. split; [exact I|]. split; [reflexivity|]. split; [|auto].
    intros n'. destruct (String.eqb_spec n n'); [congruence|reflexivity].
Qed.

Lemma groupAdd_spec s h p : ginv s -> ginv (groupAdd s h p) /\
  (forall h' g, nth_error (heap s) h' = Some g -> exists g', nth_error (heap (groupAdd s h p)) h' = Some g' /\
     g_name g' = g_name g /\ g_kind g' = g_kind g /\ g_orig g' = g_orig g /\
     (forall q, In q (g_pos g') <-> In q (g_pos g) \/ h' = h /\ q = p)).
Proof.
  intros I.
  assert (Hh : forall h' g, nth_error (heap s) h' = Some g -> exists g', nth_error (heap (groupAdd s h p)) h' = Some g' /\
     g_name g' = g_name g /\ g_kind g' = g_kind g /\ g_orig g' = g_orig g /\
     (forall q, In q (g_pos g') <-> In q (g_pos g) \/ h' = h /\ q = p)).
  { intros h' g Hg. cbn [groupAdd heap]. rewrite upd_nth, Hg. destruct (Nat.eqb_spec h h') as [->|N]; cbn [option_map].
    - eexists. split; [reflexivity|]. cbn. split; [reflexivity|]. split; [reflexivity|]. split; [reflexivity|]. intros q.
      unfold insN. destruct (existsb (Nat.eqb p) (g_pos g)) eqn:Ex; cbn; [|intuition congruence].
      apply existsb_exists in Ex. destruct Ex as (x & Hx & E). apply Nat.eqb_eq in E. subst x.
      split; [auto|]. intros [H|[_ ->]]; assumption.
    - eexists. split; [reflexivity|]. split; [reflexivity|]. split; [reflexivity|]. split; [reflexivity|].
      intros q. split; [auto|]. intros [H|[? _]]; [exact H|congruence]. }
  split; [|exact Hh].
  constructor; [apply I| | |apply I].
  - intros n h' H. destruct (gi_name _ I _ _ H) as (g & Hg & ?). destruct (Hh _ _ Hg) as (g' & ? & ? & _). exists g'. split; [assumption|congruence].
  - intros i h' H. destruct (gi_id _ I _ _ H) as (? & g & Hg & ?). destruct (Hh _ _ Hg) as (g' & ? & ? & ? & ? & _). split; [assumption|].
    exists g'. split; [assumption|congruence].
Qed.

Lemma gstep_inv s o : ginv s -> gstep s o = Throw \/ exists s', gstep s o = Ok s' /\ ginv s'.
Proof.
  intros I. destruct o as [k n i|n i|o n|n|h p]; cbn [gstep].
  - destruct (createGroup_dec s k n i) as [E|E]; [left; now rewrite E|]. right.
    destruct (createGroup_inv _ _ _ _ I E) as (A & B & C).
    destruct (createGroup_spec s k n i I A B C) as (s1 & h1 & E1 & I1 & _). rewrite E1. cbn. eauto.
  - unfold findOrCreateNodeGroup. destruct (String.eqb_spec n ""); [now left|].
    destruct (findGroup s n) as [h|] eqn:Eh.
    + destruct (gi_name _ I _ _ Eh) as (g & Hg & _). rewrite Hg. destruct (gkind_eqb (g_kind g) NodeG).
      * right. cbn. eauto.
      * left. unfold createGroup. destruct (String.eqb n ""); [reflexivity|]. now rewrite Eh.
    + destruct (createGroup_dec s NodeG n i) as [E|E]; [left; now rewrite E|]. right.
      destruct (createGroup_inv _ _ _ _ I E) as (A & B & C).
      destruct (createGroup_spec s NodeG n i I A B C) as (s1 & h1 & E1 & I1 & _). rewrite E1. cbn. eauto.
  - destruct (String.eqb_spec o "") as [Ho|Ho]; [left; unfold renameGroup; subst; reflexivity|].
    destruct (String.eqb_spec n "") as [Hn|Hn]; [left; unfold renameGroup; subst; cbn; destruct (String.eqb o ""); reflexivity|].
    destruct (findGroup s o) as [h|] eqn:Eh.
    + destruct (renameGroup_spec s o n I Ho Hn h Eh) as (s' & E & I' & _). eauto.
    + left. unfold renameGroup. destruct (String.eqb o ""); [reflexivity|]. destruct (String.eqb n ""); [reflexivity|]. now rewrite Eh.
  - right. destruct (removeGroup_spec s n I) as (s' & E & I' & _). eauto.
  - right. eexists. split; [reflexivity|]. apply groupAdd_spec, I.
Qed.

Lemma grun_inv l s s' : ginv s -> grun s l = Ok s' -> ginv s'.
Proof.
  revert s. induction l as [|o l IH]; intros s I E; unfold grun in E; cbn [foldM] in E.
  - injection E as <-. exact I.
  - destruct (gstep_inv s o I) as [T|(s1 & E1 & I1)]; [rewrite T in E; discriminate|].
    rewrite E1 in E. cbn [bind] in E. eapply IH; eassumption.
Qed.
