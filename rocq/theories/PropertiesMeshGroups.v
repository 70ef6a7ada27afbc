(** Properties C16 (group registry) and C53 (cell containers). *)
From Coq Require Import ZArith String List Bool Lia.
From Verif Require Import Base ZMap MeshGroupModel MeshGroupProofs.
Import ListNotations.
Open Scope Z_scope.
Open Scope list_scope.

(** [s] results from some history of accepted calls on an empty registry. *)
Definition gbuilt (s : groups) : Prop := exists a l, grun (empty_groups a) l = Ok s.
Lemma gbuilt_inv s : gbuilt s -> ginv s.
Proof. intros (a & l & E). eapply grun_inv; [apply ginv_empty|exact E]. Qed.
(** The object behind a handle. *)
Definition obj (s : groups) (h : nat) : option group := nth_error (heap s) h.

(** ** C16 *)

(** Whatever the history: looking a name (a number) up gives a group that bears
    that name (that original number); no two names give the same group; no call
    is undefined. *)
Theorem C16_lookup_sound : forall s, gbuilt s ->
  (forall n h, findGroup s n = Some h -> exists g, obj s h = Some g /\ g_name g = n) /\
  (forall i h, findGroupById s i = Some h -> exists g, obj s h = Some g /\ g_orig g = i) /\
  (forall n n' h, findGroup s n = Some h -> findGroup s n' = Some h -> n = n') /\
  (forall i i' h, findGroupById s i = Some h -> findGroupById s i' = Some h -> i = i') /\
  (forall o, gstep s o = Throw \/ exists s', gstep s o = Ok s').
Proof.
  intros s B. apply gbuilt_inv in B. split; [intros; eapply gi_name; eauto|].
  split; [intros i h H; apply (gi_id _ B _ _ H)|]. split; [|split].
  - intros n n' h H H'. destruct (gi_name _ B _ _ H) as (g & ? & ?), (gi_name _ B _ _ H') as (g' & ? & ?). congruence.
  - intros n n' h H H'. destruct (gi_id _ B _ _ H) as (_ & g & ? & ?), (gi_id _ B _ _ H') as (_ & g' & ? & ?). congruence.
  - intros o. destruct (gstep_inv s o B) as [|(s' & ? & _)]; eauto.
Qed.

(** Creation is accepted exactly when the name is non-empty and unused and the
    number, if any, is unused; then the group is empty, retrievable by both
    keys, and every other look-up and every other group is unchanged. *)
Theorem C16_create : forall s k n i, gbuilt s ->
  ((exists s' h, createGroup s k n i = Ok (s', h)) <->
     n <> ""%string /\ findGroup s n = None /\ (i <> NO_ORIGINAL -> findGroupById s i = None)) /\
  (forall s' h, createGroup s k n i = Ok (s', h) ->
     findGroup s' n = Some h /\ (i <> NO_ORIGINAL -> findGroupById s' i = Some h) /\
     (exists g, obj s' h = Some g /\ g_name g = n /\ g_kind g = k /\ g_orig g = i /\ g_pos g = []) /\
     (forall n', n' <> n -> findGroup s' n' = findGroup s n') /\
     (forall i', i' <> i -> findGroupById s' i' = findGroupById s i') /\
     (forall h' g, obj s h' = Some g -> h' <> h /\ obj s' h' = Some g)).
Proof.
  intros s k n i B. apply gbuilt_inv in B. split; [split|].
  - intros H. apply (createGroup_inv s k n i B H).
  - intros (A & A' & A''). destruct (createGroup_spec s k n i B A A' A'') as (s' & h & E & _). eauto.
  - intros s' h E. destruct (createGroup_inv s k n i B (ex_intro _ _ (ex_intro _ _ E))) as (A & A' & A'').
    destruct (createGroup_spec s k n i B A A' A'') as (s1 & h1 & E1 & I1 & Hh & Hp & F1 & F2).
    rewrite E in E1. injection E1 as <- <-. split; [rewrite F1, String.eqb_refl; reflexivity|].
    split; [intros Hi; rewrite F2, Z.eqb_refl; destruct (Z.eqb_spec i NO_ORIGINAL); [contradiction|reflexivity]|].
    split; [|split; [|split]].
    + eexists. unfold obj. rewrite Hp, Hh, nth_snoc, Nat.eqb_refl. split; [reflexivity|]. auto.
    + intros n' N. rewrite F1. destruct (String.eqb_spec n n'); [congruence|reflexivity].
    + intros i' N. rewrite F2. destruct (Z.eqb_spec i i'); [congruence|reflexivity].
    + intros h' g Hg. unfold obj in *. assert (h' <> h).
      { intros ->. assert (nth_error (heap s) h <> None) as X by congruence. apply nth_error_Some in X. lia. }
      split; [assumption|]. rewrite Hp, nth_snoc. destruct (Nat.eqb_spec h' (length (heap s))); [congruence|exact Hg].
Qed.

(** Full property: renaming moves the group to the new name and affects no
    other group.  Proved when the new name is unused (or is the old one). *)
Theorem C16_rename_partial : forall s o n h, gbuilt s -> findGroup s o = Some h -> n <> ""%string ->
  findGroup s n = None \/ n = o ->
  exists s', renameGroup s o n = Ok s' /\ findGroup s' n = Some h /\ (n <> o -> findGroup s' o = None) /\
    (forall n', n' <> o -> n' <> n -> findGroup s' n' = findGroup s n') /\
    (forall i, findGroupById s' i = findGroupById s i) /\
    (forall h' g, obj s h' = Some g -> exists g', obj s' h' = Some g' /\
        g_kind g' = g_kind g /\ g_orig g' = g_orig g /\ g_pos g' = g_pos g /\ (h' <> h -> g' = g)).
Proof.
  intros s o n h B Hh Hn Hfree. apply gbuilt_inv in B.
  assert (Ho : o <> ""%string) by (intros ->; rewrite (gi_ne _ B) in Hh; discriminate).
  destruct (renameGroup_spec s o n B Ho Hn h Hh) as (s' & E & I & Ei & F & Hp). exists s'.
  split; [exact E|]. split; [rewrite F, String.eqb_refl; reflexivity|].
  split; [intros N; rewrite F, String.eqb_refl; destruct (String.eqb_spec n o); [contradiction|reflexivity]|].
  split; [|split].
  - intros n' N1 N2. rewrite F. destruct (String.eqb_spec n n'); [congruence|]. destruct (String.eqb_spec o n'); [congruence|reflexivity].
  - intros i. unfold findGroupById. now rewrite Ei.
  - intros h' g Hg. destruct (Hp _ _ Hg) as (g' & ? & ? & ? & ? & ? & _). eauto 10.
Qed.

(** Renaming onto a name in use is accepted and makes the group that had the
    name unreachable by name (its cells are lost), though it is still reachable
    by its number. *)
Theorem C16_rename_refuted : exists s s' g, gbuilt s /\
  findGroup s "A" = Some 0%nat /\ findGroup s "B" = Some 1%nat /\
  renameGroup s "A" "B" = Ok s' /\ findGroup s' "B" = Some 0%nat /\ findGroupById s' 7 = Some 1%nat /\
  obj s' 1 = Some g /\ g_pos g = [5%nat].
Proof.
  do 3 eexists. split; [exists 0, [GCreate CellG "A" 6; GCreate CellG "B" 7; GAdd 1 5]; reflexivity|].
  vm_compute. auto 10.
Qed.

(** Removal makes the group unreachable by name, whether or not it existed, and
    leaves look-ups of all other names and all group objects unchanged. *)
Theorem C16_remove_by_name : forall s n, gbuilt s ->
  exists s', removeGroup s n = Ok s' /\ findGroup s' n = None /\
    (forall n', n' <> n -> findGroup s' n' = findGroup s n') /\ (forall h, obj s' h = obj s h).
Proof.
  intros s n B. apply gbuilt_inv in B. destruct (removeGroup_spec s n B) as (s' & E & I & Hh & F & _).
  exists s'. split; [exact E|]. split; [rewrite F, String.eqb_refl; reflexivity|].
  split; [|intros h; unfold obj; now rewrite Hh].
  intros n' N. rewrite F. destruct (String.eqb_spec n n'); [congruence|reflexivity].
Qed.

(** A removed group stays reachable by its original number, and the removal
    makes another group unreachable by its own number. *)
Theorem C16_remove_by_number_refuted : exists s s', gbuilt s /\
  findGroupById s 2 = Some 0%nat /\ findGroupById s 1 = Some 1%nat /\
  removeGroup s "A" = Ok s' /\ findGroupById s' 2 = Some 0%nat /\
  findGroup s' "B" = Some 1%nat /\ findGroupById s' 1 = None.
Proof.
  do 2 eexists. split; [exists 0, [GCreate CellG "A" 2; GCreate CellG "B" 1]; reflexivity|].
  vm_compute. auto 10.
Qed.

(** As long as nothing is removed, a group created with a number stays
    reachable by it, with the same handle, whatever is created, renamed or
    filled.  (Missing from the full property: histories with removals.) *)
Theorem C16_number_reachable_partial : forall l s s' i h, gbuilt s -> findGroupById s i = Some h ->
  (forall n, ~ In (GRemove n) l) -> grun s l = Ok s' -> findGroupById s' i = Some h.
Proof.
  intros l s s' i h B Hi Hno E. apply gbuilt_inv in B. revert s B Hi E.
  induction l as [|o l IH]; intros s I Hi E; unfold grun in E; cbn [foldM] in E; [congruence|].
  destruct (gstep_inv s o I) as [T|(s1 & E1 & I1)]; [rewrite T in E; discriminate|].
  rewrite E1 in E. cbn [bind] in E.
  apply (IH (fun n H => Hno n (or_intror H)) s1 I1); [|exact E].
  destruct o as [k n j|n j|o n|n|hh p]; cbn [gstep] in E1.
  - destruct (createGroup s k n j) as [[s2 h2]| | |] eqn:Ec; try discriminate. cbn in E1. injection E1 as <-.
    destruct (createGroup_inv s k n j I (ex_intro _ _ (ex_intro _ _ Ec))) as (A & A' & A'').
    destruct (createGroup_spec s k n j I A A' A'') as (s3 & h3 & E3 & _ & _ & _ & _ & F2). rewrite Ec in E3. injection E3 as <- <-.
    rewrite F2. destruct (Z.eqb_spec j i) as [->|]; [|exact Hi].
    rewrite A'' in Hi; [discriminate|]. apply (gi_id _ I _ _ Hi).
  - unfold findOrCreateNodeGroup in E1. destruct (String.eqb n ""); [discriminate|].
    assert (forall r, createGroup s NodeG n j = Ok r -> findGroupById (fst r) i = Some h) as Hc.
    { intros [s2 h2] Ec. destruct (createGroup_inv s NodeG n j I (ex_intro _ _ (ex_intro _ _ Ec))) as (A & A' & A'').
      destruct (createGroup_spec s NodeG n j I A A' A'') as (s3 & h3 & E3 & _ & _ & _ & _ & F2). rewrite Ec in E3. injection E3 as <- <-.
      cbn. rewrite F2. destruct (Z.eqb_spec j i) as [->|]; [|exact Hi].
      rewrite A'' in Hi; [discriminate|]. apply (gi_id _ I _ _ Hi). }
    destruct (findGroup s n) as [h0|].
    + destruct (nth_error (heap s) h0) as [g|]; [|discriminate]. destruct (gkind_eqb (g_kind g) NodeG).
      * cbn in E1. injection E1 as <-. exact Hi.
      * destruct (createGroup s NodeG n j) as [r| | |] eqn:Ec; try discriminate. cbn in E1. injection E1 as <-. now apply Hc.
    + destruct (createGroup s NodeG n j) as [r| | |] eqn:Ec; try discriminate. cbn in E1. injection E1 as <-. now apply Hc.
  - assert (byId s1 = byId s) as Eb.
    { unfold renameGroup in E1. destruct (String.eqb o ""); [discriminate|]. destruct (String.eqb n ""); [discriminate|].
      destruct (findGroup s o); [|discriminate]. injection E1 as <-. reflexivity. }
    unfold findGroupById. rewrite Eb. exact Hi.
  - exfalso. apply (Hno n). now left.
  - injection E1 as <-. exact Hi.
Qed.

(** Find-or-create of a node group: the existing node group of that name if any
    (registry unchanged), a new one if the name is unused, an error if the name
    is that of a cell group. *)
Theorem C16_find_or_create : forall s n i, gbuilt s -> n <> ""%string ->
  match findGroup s n with
  | Some h => match obj s h with
      | Some g => findOrCreateNodeGroup s n i = match g_kind g with NodeG => Ok (s, h) | CellG => Throw end
      | None => False
      end
  | None => findOrCreateNodeGroup s n i = createGroup s NodeG n i
  end.
Proof.
  intros s n i B Hn. apply gbuilt_inv in B. unfold findOrCreateNodeGroup, obj.
  destruct (String.eqb_spec n ""); [contradiction|].
  destruct (findGroup s n) as [h|] eqn:Eh; [|reflexivity].
  destruct (gi_name _ B _ _ Eh) as (g & -> & _). destruct (g_kind g); cbn; [reflexivity|].
  unfold createGroup. rewrite Eh. destruct (String.eqb n ""); reflexivity.
Qed.

Example C16_case : exists s h, gbuilt s /\ findGroup s "PSHELL_3" = Some h /\ findGroupById s 3 = Some h /\
  findGroup s "OLD" = None /\ removeGroup s "X" <> Ok s.
Proof.
  do 2 eexists. split; [exists 0, [GCreate CellG "OLD" 3; GCreate NodeG "X" NO_ORIGINAL; GAdd 0 4; GRename "OLD" "PSHELL_3"]; reflexivity|].
  vm_compute. repeat split. discriminate.
Qed.
Print Assumptions C16_lookup_sound.
Print Assumptions C16_create.
Print Assumptions C16_rename_partial.
Print Assumptions C16_remove_by_name.
Print Assumptions C16_number_reachable_partial.
Print Assumptions C16_find_or_create.

(** ** C53: a container of cells holds exactly what was put in it *)

(** [added find o p]: operation [o] adds the cell position [p] individually. *)
Definition added (find : Z -> option nat) (o : cop) (p : nat) : Prop :=
  match o with CPos q => q = p | CId i => find i = Some p | CUnion d => In (Some p) (c_pos d) | _ => False end.
Definition added_group (o : cop) (n : string) : Prop :=
  match o with CGroup m => m = n | CUnion d => In n (c_groups d) | _ => False end.
Definition removes (o : cop) (p : nat) : Prop :=
  match o with CDrop q => q = p | CDropAll | CClear => True | _ => False end.
(** Position [p] is held individually after history [l]: some call added it and
    no later call removed it. *)
Definition held find (l : list cop) (p : nat) : Prop :=
  exists l1 o l2, l = l1 ++ o :: l2 /\ added find o p /\ forall o', In o' l2 -> ~ removes o' p.
Definition held_group (l : list cop) (n : string) : Prop :=
  exists l1 o l2, l = l1 ++ o :: l2 /\ added_group o n /\ forall o', In o' l2 -> o' <> CClear.
(** [p] belongs to the existing cell group named [n]. *)
Definition in_group (s : groups) (n : string) (p : nat) : Prop :=
  exists h g, findGroup s n = Some h /\ obj s h = Some g /\ g_kind g = CellG /\ In p (g_pos g).

Lemma held_snoc find l o p : held find (l ++ [o]) p <-> added find o p \/ (held find l p /\ ~ removes o p).
Proof.
  split.
  - intros (l1 & x & l2 & E & A & H). destruct (rev l2) as [|y r] eqn:Er.
    + assert (l2 = []) as -> by (rewrite <- (rev_involutive l2), Er; reflexivity).
      apply app_inj_tail in E. destruct E as [_ ->]. now left.
    + assert (l2 = rev r ++ [y]) as -> by (rewrite <- (rev_involutive l2), Er; reflexivity).
      rewrite app_comm_cons, app_assoc in E. apply app_inj_tail in E. destruct E as [-> ->]. right. split.
      * exists l1, x, (rev r). repeat split; auto. intros o' Ho. apply H, in_or_app; auto.
      * apply H, in_or_app. right. now left.
  - intros [A|[(l1 & x & l2 & -> & A & H) Hr]].
    + exists l, o, []. repeat split; auto.
    + exists l1, x, (l2 ++ [o]). rewrite <- app_assoc. repeat split; auto.
      intros o' Ho. apply in_app_or in Ho. destruct Ho as [Ho|[<-|[]]]; auto.
Qed.

Lemma held_group_snoc l o n : held_group (l ++ [o]) n <-> added_group o n \/ (held_group l n /\ o <> CClear).
Proof.
  split.
  - intros (l1 & x & l2 & E & A & H). destruct (rev l2) as [|y r] eqn:Er.
    + assert (l2 = []) as -> by (rewrite <- (rev_involutive l2), Er; reflexivity).
      apply app_inj_tail in E. destruct E as [_ ->]. now left.
    + assert (l2 = rev r ++ [y]) as -> by (rewrite <- (rev_involutive l2), Er; reflexivity).
      rewrite app_comm_cons, app_assoc in E. apply app_inj_tail in E. destruct E as [-> ->]. right. split.
      * exists l1, x, (rev r). repeat split; auto. intros o' Ho. apply H, in_or_app; auto.
      * apply H, in_or_app. right. now left.
  - intros [A|[(l1 & x & l2 & -> & A & H) Hr]].
    + exists l, o, []. repeat split; auto.
    + exists l1, x, (l2 ++ [o]). rewrite <- app_assoc. repeat split; auto.
      intros o' Ho. apply in_app_or in Ho. destruct Ho as [Ho|[<-|[]]]; auto.
Qed.

Lemma foldM_snoc {A B} (f : B -> A -> outcome B) l x b : foldM f (l ++ [x]) b = do y <- foldM f l b; f y x.
Proof.
  revert b. induction l as [|a l IH]; intros b; cbn.
  - destruct (f b x); reflexivity.
  - destruct (f b a); cbn; auto.
Qed.

Lemma held_empty find p : ~ held find [] p.
Proof. intros (l1 & o & l2 & E & _). destruct l1; discriminate. Qed.
Lemma held_group_empty n : ~ held_group [] n.
Proof. intros (l1 & o & l2 & E & _). destruct l1; discriminate. Qed.

Lemma crun_held find s l : forall c, crun find s empty_container l = Ok c ->
  (forall p, In (Some p) (c_pos c) <-> held find l p) /\ (forall n, In n (c_groups c) <-> held_group l n).
Proof.
  induction l as [|o l IH] using rev_ind; intros c E; unfold crun in E.
  - cbn in E. injection E as <-. cbn. split; intros x; split; intros H; try contradiction.
    + now apply held_empty in H.
    + now apply held_group_empty in H.
  - rewrite foldM_snoc in E. fold (crun find s empty_container l) in E.
    destruct (crun find s empty_container l) as [c0| | |]; cbn [bind] in E; try discriminate.
    destruct (IH _ eq_refl) as [H1 H2]. clear IH.
    split; intros x; [rewrite held_snoc, <- H1 | rewrite held_group_snoc, <- H2];
    destruct o as [p|i|m|d|p| |]; cbn [cstep added removes added_group] in *;
    try (destruct (findGroup s m); [|discriminate]); injection E as <-; cbn [c_pos c_groups In]; rewrite ?in_app_iff, ?filter_In.
    all: try (intuition (try congruence)).
    all: destruct (Nat.eqb_spec x p); cbn in *; intuition congruence.
Qed.

(** For every history of calls on a fresh container: the cells it reports are
    exactly those added individually and not removed since, plus the members of
    the cell groups added by name. *)
Theorem C53_contents : forall find s l c, crun find s empty_container l = Ok c ->
  forall p, In (Some p) (getCellPositionsIncludingGroups s c) <->
    held find l p \/ exists n, held_group l n /\ in_group s n p.
Proof.
  intros find s l c E p. destruct (crun_held _ _ _ _ E) as [H1 H2].
  unfold getCellPositionsIncludingGroups. rewrite in_app_iff, H1, in_flat_map.
  assert (forall n, In (Some p) (group_positions s n) <-> in_group s n p) as Hg.
  { intros n. unfold group_positions, in_group, obj. destruct (findGroup s n) as [h|].
    - destruct (nth_error (heap s) h) as [g|] eqn:Eg.
      + destruct (g_kind g) eqn:Ek; cbn.
        * split; [intros []|]. intros (h' & g' & A & A' & A'' & _). injection A as <-. congruence.
        * rewrite in_map_iff. split.
          -- intros (x & Ex & Hx). injection Ex as ->. exists h, g. auto.
          -- intros (h' & g' & A & A' & _ & Hx). injection A as <-. assert (g' = g) by congruence. subst. eauto.
      + split; [intros []|]. intros (h' & g' & A & A' & _). injection A as <-. congruence.
    - split; [intros []|]. intros (h' & g' & A & _). discriminate. }
  split.
  - intros [H|(n & Hn & Hp)]; [now left|]. right. exists n. rewrite <- H2, <- Hg. auto.
  - intros [H|(n & Hn & Hp)]; [now left|]. right. exists n. rewrite H2, Hg. auto.
Qed.

(** Calls are rejected only for an unknown group name. *)
Theorem C53_accepts : forall find s l c0, (forall n, In (CGroup n) l -> findGroup s n <> None) ->
  exists c, crun find s c0 l = Ok c.
Proof.
  intros find s l. induction l as [|o l IH]; intros c0 H; unfold crun; cbn [foldM]; [eauto|].
  assert (exists c1, cstep find s c0 o = Ok c1) as [c1 ->].
  { destruct o; cbn; eauto. destruct (findGroup s n) eqn:E; eauto. exfalso. apply (H n); [now left|exact E]. }
  cbn [bind]. apply IH. intros n Hn. apply H. now right.
Qed.

(** When every name given is that of an existing cell group, asking whether the
    container has cells answers truthfully. *)
Theorem C53_has_cells_partial : forall s c,
  (forall n, In n (c_groups c) -> exists h g, findGroup s n = Some h /\ obj s h = Some g /\ g_kind g = CellG) ->
  exists b, hasCellsIncludingGroups s c = Ok b /\ (b = true <-> getCellPositionsIncludingGroups s c <> []).
Proof.
  intros s c H. unfold hasCellsIncludingGroups, getCellPositionsIncludingGroups.
  destruct (c_pos c) as [|x r]; [|exists true; split; [reflexivity|]; split; [discriminate|reflexivity]].
  cbn [app]. induction (c_groups c) as [|n l IH]; cbn.
  - exists false. split; [reflexivity|]. split; [discriminate|congruence].
  - destruct (H n (or_introl eq_refl)) as (h & g & E1 & E2 & E3). unfold obj in E2.
    unfold group_positions at 1. rewrite E1, E2, E3. cbn.
    destruct (g_pos g) as [|p ps]; cbn.
    + apply IH. intros m Hm. apply H. now right.
    + exists true. split; [reflexivity|]. split; [discriminate|reflexivity].
Qed.

(** Removing a group another part of the model still names makes the same
    question undefined behaviour (null pointer). *)
Theorem C53_has_cells_refuted : exists s s' c, gbuilt s /\
  crun (fun _ => None) s empty_container [CGroup "A"] = Ok c /\ removeGroup s "A" = Ok s' /\
  hasCellsIncludingGroups s' c = UB.
Proof.
  do 3 eexists. split; [exists 0, [GCreate CellG "A" NO_ORIGINAL; GAdd 0 3]; reflexivity|].
  vm_compute. auto.
Qed.

(** Renaming a group silently empties the containers that name it. *)
Theorem C53_rename_refuted : exists s s' c, gbuilt s /\
  crun (fun _ => None) s empty_container [CGroup "A"] = Ok c /\
  getCellPositionsIncludingGroups s c = [Some 3%nat] /\
  renameGroup s "A" "B" = Ok s' /\ getCellPositionsIncludingGroups s' c = [].
Proof.
  do 3 eexists. split; [exists 0, [GCreate CellG "A" NO_ORIGINAL; GAdd 0 3]; reflexivity|].
  vm_compute. auto.
Qed.

(** Adding an unknown cell number is accepted and makes reading the cells an
    out-of-bounds access. *)
Theorem C53_unknown_cell_refuted : exists s c, gbuilt s /\
  crun (fun _ => None) s empty_container [CId 5] = Ok c /\ getCellsIncludingGroups 10 s c = UB.
Proof. do 2 eexists. split; [exists 0, []; reflexivity|]. vm_compute. auto. Qed.

(** When only known cells are used, reading the cells succeeds. *)
Theorem C53_readable_partial : forall find s l c nc, crun find s empty_container l = Ok c ->
  (forall o p, In o l -> added find o p -> (p < nc)%nat) ->
  (forall i, In (CId i) l -> find i <> None) ->
  (forall d, In (CUnion d) l -> ~ In None (c_pos d)) ->
  (forall h g p, obj s h = Some g -> In p (g_pos g) -> (p < nc)%nat) ->
  exists cs, getCellsIncludingGroups nc s c = Ok cs /\ map Some cs = getCellPositionsIncludingGroups s c.
Proof.
  intros find s l c nc E Ha Hi Hu Hg.
  assert (Hn : ~ In None (c_pos c)).
  { clear Ha Hg. revert c E. induction l as [|o l IH] using rev_ind; intros c E; unfold crun in E.
    - cbn in E. injection E as <-. auto.
    - rewrite foldM_snoc in E. fold (crun find s empty_container l) in E.
      destruct (crun find s empty_container l) as [c0| | |]; cbn [bind] in E; try discriminate.
      assert (~ In None (c_pos c0)) as H0.
      { apply IH; auto.
        - intros i H. apply Hi, in_or_app. auto.
        - intros d H. apply Hu, in_or_app. auto. }
      destruct o as [p|i|m|d|p| |]; cbn [cstep] in E; try (destruct (findGroup s m); [|discriminate]); injection E as <-; cbn [c_pos In]; auto.
      + intros [X|X]; [discriminate|auto].
      + intros [X|X]; [|auto]. apply (Hi i); [apply in_or_app; right; now left|exact X].
      + rewrite in_app_iff. intros [X|X]; [|auto]. apply (Hu d); [apply in_or_app; right; now left|exact X].
      + rewrite filter_In. intros [X _]. auto. }
  assert (Hall : forall x, In x (getCellPositionsIncludingGroups s c) -> exists p, x = Some p /\ (p < nc)%nat).
  { intros [p|] Hx.
    - exists p. split; [reflexivity|]. apply (C53_contents find s l c E) in Hx.
      destruct Hx as [(l1 & o & l2 & -> & A & _)|(n & _ & h & g & _ & Hob & _ & Hp)].
      + apply (Ha o p); [apply in_or_app; right; now left|exact A].
      + eapply Hg; eauto.
    - exfalso. unfold getCellPositionsIncludingGroups in Hx. apply in_app_or in Hx. destruct Hx as [Hx|Hx]; [auto|].
      apply in_flat_map in Hx. destruct Hx as (n & _ & Hx). unfold group_positions in Hx.
      destruct (findGroup s n) as [h|]; [|contradiction]. destruct (nth_error (heap s) h) as [g|]; [|contradiction].
      destruct (gkind_eqb (g_kind g) CellG); [|contradiction]. apply in_map_iff in Hx. destruct Hx as (? & ? & _). discriminate. }
  unfold getCellsIncludingGroups. clear E. induction (getCellPositionsIncludingGroups s c) as [|x r IH]; cbn [mapM].
  - exists []. auto.
  - destruct (Hall x (or_introl eq_refl)) as (p & -> & Hp). cbn [read_cell]. rewrite (proj2 (Nat.ltb_lt _ _) Hp). cbn.
    destruct IH as (cs & -> & Hc); [intros; apply Hall; now right|]. cbn. exists (p :: cs). split; [reflexivity|]. cbn. now rewrite Hc.
Qed.

Example C53_case : exists s c, gbuilt s /\
  crun (fun i => if i =? 9 then Some 2%nat else None) s empty_container [CPos 1; CId 9; CGroup "A"; CDrop 1] = Ok c /\
  getCellPositionsIncludingGroups s c = [Some 2%nat; Some 3%nat] /\ getCellsIncludingGroups 4 s c = Ok [2; 3]%nat.
Proof.
  do 2 eexists. split; [exists 0, [GCreate CellG "A" NO_ORIGINAL; GAdd 0 3]; reflexivity|]. vm_compute. auto.
Qed.
Print Assumptions C53_contents.
Print Assumptions C53_accepts.
Print Assumptions C53_has_cells_partial.
Print Assumptions C53_readable_partial.
