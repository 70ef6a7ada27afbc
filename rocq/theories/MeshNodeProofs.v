(** Lemmas about the node storage. *)
From Coq Require Import ZArith List Bool Lia.
From Verif Require Import Base ZMap MeshNodeModel.
Import ListNotations.
Open Scope Z_scope.
Local Opaque AUTO_ID UNAVAILABLE_INT UNAVAILABLE_NODE.

(** * Generic *)
Lemma set_nth_length {A} (l : list A) n a : length (set_nth l n a) = length l.
Proof. revert n. induction l; intros [|n]; cbn; auto. Qed.

Lemma nth_error_set_nth {A} (l : list A) n a m :
  nth_error (set_nth l n a) m =
  if Nat.eqb n m then match nth_error l n with Some _ => Some a | None => None end
  else nth_error l m.
Proof.
  revert n m. induction l as [|x l IH]; intros [|n] [|m]; cbn; try reflexivity.
  - destruct (Nat.eqb n m); reflexivity.
  - apply IH.
Qed.

Lemma nth_error_snoc {A} (l : list A) a m :
  nth_error (l ++ [a]) m = if Nat.eqb (length l) m then Some a else nth_error l m.
Proof.
  destruct (Nat.eqb_spec (length l) m).
  - subst. rewrite nth_error_app2 by lia. now rewrite Nat.sub_diag.
  - destruct (Nat.lt_ge_cases m (length l)).
    + apply nth_error_app1. assumption.
    + rewrite (proj2 (nth_error_None l m)) by lia. apply nth_error_None. rewrite app_length. cbn. lia.
Qed.

Lemma foldM_app {A B} (f : B -> A -> outcome B) l1 l2 b :
  foldM f (l1 ++ l2) b = bind (foldM f l1 b) (fun b' => foldM f l2 b').
Proof.
  revert b. induction l1 as [|a l1 IH]; intros b; cbn; [reflexivity|].
  destruct (f b a); cbn; auto.
Qed.

Lemma smem_insert s k c : zmap_wf s -> smem (sinsert s k) c = (k =? c) || smem s c.
Proof.
  intros W. unfold smem, sinsert. rewrite zfind_insert by assumption.
  destruct (k =? c); reflexivity.
Qed.

Lemma zset_eqb_eq a b : zset_eqb a b = true <-> a = b.
Proof.
  revert b. induction a as [|[x []] a IH]; intros [|[y []] b]; cbn; split; intros H;
    try reflexivity; try discriminate.
  - apply andb_true_iff in H. destruct H as [H1 H2]. apply Z.eqb_eq in H1. apply IH in H2.
    now subst.
  - inversion H; subst. rewrite Z.eqb_refl. cbn. now apply IH.
Qed.

Lemma zset_ext a b : zmap_wf a -> zmap_wf b -> (forall c, smem a c = smem b c) -> a = b.
Proof.
  revert b. induction a as [|[x []] a IH]; intros [|[y []] b] Wa Wb H.
  - reflexivity.
  - specialize (H y). unfold smem in H. cbn in H. rewrite Z.eqb_refl in H. discriminate.
  - specialize (H x). unfold smem in H. cbn in H. rewrite Z.eqb_refl in H. discriminate.
  - assert (Hin : forall l k, smem l k = true -> In (k, tt) l).
    { intros l k. unfold smem. destruct (zfind l k) as [[]|] eqn:E; [|discriminate].
      intros _. now apply zfind_in in E. }
    assert (x = y).
    { destruct (Z.lt_trichotomy x y) as [L|[E|L]]; [|exact E|]; exfalso.
      - specialize (H x). unfold smem at 1 in H. cbn in H. rewrite Z.eqb_refl in H.
        symmetry in H. apply Hin in H. destruct H as [H|H]; [inversion H; lia|].
        pose proof (wf_head _ _ _ _ Wb H). cbn in H0. lia.
      - specialize (H y). unfold smem at 2 in H. cbn in H. rewrite Z.eqb_refl in H.
        apply Hin in H. destruct H as [H|H]; [inversion H; lia|].
        pose proof (wf_head _ _ _ _ Wa H). cbn in H0. lia. }
    subst y. f_equal. apply IH; [eapply wf_tail; exact Wa|eapply wf_tail; exact Wb|].
    intros c. specialize (H c). unfold smem in *. cbn in H.
    destruct (Z.eqb_spec x c); [|exact H]. subst.
    destruct (zfind a c) eqn:Ea; [apply zfind_in in Ea; pose proof (wf_head _ _ _ _ Wa Ea); cbn in *; lia|].
    destruct (zfind b c) eqn:Eb; [apply zfind_in in Eb; pose proof (wf_head _ _ _ _ Wb Eb); cbn in *; lia|].
    reflexivity.
Qed.

(** * The automatic numbering loop *)
Lemma auto_pick_spec fuel m k r nx : auto_pick fuel m k = Ok (r, nx) ->
  zfind m r = None /\ r <= k /\ nx = r - 1 /\ (forall j, r < j <= k -> zfind m j <> None).
Proof.
  revert k. induction fuel as [|f IH]; intros k; cbn; [discriminate|].
  destruct (zfind m k) eqn:E.
  - intros H. apply IH in H. destruct H as (H1 & H2 & H3 & H4).
    split; [exact H1|]. split; [lia|]. split; [exact H3|].
    intros j Hj. destruct (Z.eq_dec j k); [subst; congruence|apply H4; lia].
  - intros H. inversion H; subst. split; [assumption|]. split; [lia|]. split; [reflexivity|].
    intros j Hj. lia.
Qed.

(** Erasing a found key shortens the map, so the loop stops within |m|+1 steps. *)
Lemma zerase_length {A} (m : zmap A) k a : zfind m k = Some a -> length (zerase m k) = pred (length m).
Proof.
  induction m as [|[k' a'] m IH]; cbn; [discriminate|].
  destruct (k' =? k); [reflexivity|]. intros H. cbn. rewrite IH by exact H.
  destruct m; [discriminate|reflexivity].
Qed.

Lemma auto_pick_ext fuel m m' k : (forall j, j <= k -> zfind m j = zfind m' j) ->
  auto_pick fuel m k = auto_pick fuel m' k.
Proof.
  revert k. induction fuel as [|f IH]; intros k H; cbn; [reflexivity|].
  rewrite <- (H k) by lia. destruct (zfind m k); [|reflexivity]. apply IH. intros j Hj. apply H. lia.
Qed.

Lemma auto_pick_total m k : zmap_wf m -> exists r, auto_pick (S (length m)) m k = Ok (r, r - 1).
Proof.
  remember (length m) as n eqn:En. revert m k En. induction n as [|n IH]; intros m k En W.
  - destruct m; [|discriminate]. cbn. eauto.
  - cbn [auto_pick]. destruct (zfind m k) eqn:E; [|eauto].
    change (exists r, auto_pick (S n) m (k - 1) = Ok (r, r - 1)).
    rewrite (auto_pick_ext _ m (zerase m k)).
    2:{ intros j Hj. rewrite zfind_erase by exact W. destruct (Z.eqb_spec k j); [lia|reflexivity]. }
    apply IH; [|now apply zerase_wf]. rewrite (zerase_length _ _ _ E), <- En. reflexivity.
Qed.

Section Proofs.
Context {D : Type} (RESERVED : D).
Notation nodes := (nodes D).
Notation ndata := (ndata D).
Implicit Types (s : nodes) (d : ndata).

(** * Identifier/position bijection *)
Definition ninv s : Prop := zmap_wf (npos s) /\
  (forall id p, zfind (npos s) id = Some p <->
                exists d, nth_error (ndatas s) p = Some d /\ nd_id d = id).

Lemma ninv_empty a l : ninv (empty_nodes a l).
Proof.
  split; [constructor|]. intros id p. cbn. split; [discriminate|].
  intros (d & H & _). destruct p; discriminate.
Qed.

Lemma ninv_same s s' : ninv s -> npos s' = npos s -> length (ndatas s') = length (ndatas s) ->
  (forall p d', nth_error (ndatas s') p = Some d' ->
     exists d, nth_error (ndatas s) p = Some d /\ nd_id d = nd_id d') -> ninv s'.
Proof.
  intros [W B] Hp HL H. split; [now rewrite Hp|]. intros id p. rewrite Hp, B. split.
  - intros (d & Hd & Hi). destruct (nth_error (ndatas s') p) as [d'|] eqn:E.
    + exists d'. split; [reflexivity|]. destruct (H _ _ E) as (d0 & H0 & H1). congruence.
    + apply nth_error_None in E. rewrite HL in E. apply nth_error_None in E. congruence.
  - intros (d' & Hd & Hi). destruct (H _ _ Hd) as (d0 & H0 & H1). exists d0. split; congruence.
Qed.

Lemma set_nth_ids (l : list ndata) p d d1 : nth_error l p = Some d -> nd_id d1 = nd_id d ->
  forall q d', nth_error (set_nth l p d1) q = Some d' -> exists e, nth_error l q = Some e /\ nd_id e = nd_id d'.
Proof.
  intros Hd Hi q d'. rewrite nth_error_set_nth. destruct (Nat.eqb_spec p q).
  - subst q. rewrite Hd. intros E. inversion E; subst. eauto.
  - intros E. eauto.
Qed.

(** What one addition under a chosen identifier does. *)
Lemma addNodeAs_spec s id x y z cp cd part : ninv s ->
  exists s' p, addNodeAs s id x y z cp cd part = Ok (s', p) /\ ninv s' /\
    findNodePosition s' id = Some p /\
    (forall j, j <> id -> findNodePosition s' j = findNodePosition s j) /\
    (findNodePosition s id = None -> p = length (ndatas s) /\ length (ndatas s') = S (length (ndatas s))) /\
    (forall q, findNodePosition s id = Some q -> p = q /\ length (ndatas s') = length (ndatas s)) /\
    (forall q, q <> p -> nth_error (ndatas s') q = nth_error (ndatas s) q) /\
    (exists d, nth_error (ndatas s') p = Some d /\ nd_id d = id /\
       nd_x d = x /\ nd_y d = y /\ nd_z d = z /\ nd_cp d = cp /\ nd_cd d = cd /\
       (forall d0, nth_error (ndatas s) p = Some d0 -> nd_dofs d = nd_dofs d0 /\ nd_part d = nd_part d0) /\
       (nth_error (ndatas s) p = None -> nd_dofs d = 0 /\ nd_part d = part)) /\
    auto_next s' = auto_next s /\ last_part s' = last_part s /\ main_part s' = main_part s /\
    parts_of s' = parts_of s /\ iface s' = iface s /\ unused s' = unused s.
Proof.
  intros [W B]. unfold addNodeAs, findNodePosition.
  destruct (zfind (npos s) id) as [p|] eqn:E.
  - destruct (proj1 (B _ _) E) as (d & Hd & Hi). rewrite Hd. eexists. exists p. split; [reflexivity|].
    cbn. assert (Hset : nth_error (set_nth (ndatas s) p (mkND (nd_id d) (nd_dofs d) x y z cp cd (nd_part d))) p
      = Some (mkND (nd_id d) (nd_dofs d) x y z cp cd (nd_part d)))
      by (rewrite nth_error_set_nth, Nat.eqb_refl, Hd; reflexivity).
    split; [|split; [exact E|split; [auto|split; [discriminate|split; [|split; [|split]]]]]].
    + eapply (ninv_same s); [split; assumption|reflexivity|cbn; apply set_nth_length|].
      cbn. eapply set_nth_ids; [exact Hd|reflexivity].
    + intros q Hq. inversion Hq; subst. split; [reflexivity|apply set_nth_length].
    + intros q Hq. rewrite nth_error_set_nth. destruct (Nat.eqb_spec p q); [congruence|reflexivity].
    + eexists. split; [exact Hset|]. cbn. repeat split; try assumption; try congruence.
    + repeat split.
  - assert (Hn : nth_error (ndatas s) (length (ndatas s)) = None) by (apply nth_error_None; lia).
    eexists. exists (length (ndatas s)). split; [reflexivity|]. cbn.
    assert (Hset : nth_error (ndatas s ++ [mkND id 0 x y z cp cd part]) (length (ndatas s))
       = Some (mkND id 0 x y z cp cd part)) by (rewrite nth_error_snoc, Nat.eqb_refl; reflexivity).
    split; [|split; [|split; [|split; [|split; [discriminate|split; [|split]]]]]].
    + split; cbn; [now apply zinsert_wf|]. intros j p. rewrite zfind_insert by assumption.
      rewrite nth_error_snoc. destruct (Z.eqb_spec id j).
      * subst j. split.
        -- intros H. inversion H; subst. rewrite Nat.eqb_refl. eexists. split; reflexivity.
        -- intros (d & Hd & Hi). destruct (Nat.eqb_spec (length (ndatas s)) p); [congruence|].
           exfalso. assert (zfind (npos s) id = Some p) by (apply B; eauto). congruence.
      * rewrite B. split.
        -- intros (d & Hd & Hi). exists d. split; [|exact Hi].
           destruct (Nat.eqb_spec (length (ndatas s)) p); [subst; congruence|exact Hd].
        -- intros (d & Hd & Hi). destruct (Nat.eqb_spec (length (ndatas s)) p); [|eauto].
           inversion Hd; subst. cbn in n. congruence.
    + rewrite zfind_insert by assumption. now rewrite Z.eqb_refl.
    + intros j Hj. rewrite zfind_insert by assumption. destruct (Z.eqb_spec id j); [congruence|reflexivity].
    + intros _. split; [reflexivity|]. rewrite app_length. cbn. lia.
    + intros q Hq. rewrite nth_error_snoc. destruct (Nat.eqb_spec (length (ndatas s)) q); [congruence|reflexivity].
    + eexists. split; [exact Hset|]. cbn. repeat split; congruence.
    + repeat split.
Qed.

Lemma main_node_part_frame s c : forall s' p, main_node_part s c = (s', p) ->
  ndatas s' = ndatas s /\ npos s' = npos s /\ auto_next s' = auto_next s /\ unused s' = unused s.
Proof.
  unfold main_node_part. intros s' p. destruct (c =? UNAVAILABLE_INT); [intros H; inversion H; subst; auto|].
  destruct (zfind (main_part s) c); intros H; inversion H; subst; cbn; auto.
Qed.

Lemma update_part_frame s pos d c m : nth_error (ndatas s) pos = Some d ->
  let s' := update_part s pos d c m in
  npos s' = npos s /\ auto_next s' = auto_next s /\ unused s' = unused s /\
  (ndatas s' = ndatas s \/ exists p, ndatas s' = set_nth (ndatas s) pos (with_part d p)).
Proof.
  intros Hd. unfold update_part. cbv zeta.
  destruct (nd_part d =? 0); [cbn; eauto 6|]. destruct (nd_part d =? m); [cbn; eauto 6|].
  destruct (smem _ c); [cbn; eauto 6|].
  destruct (iface_find _ _); cbn; eauto 6.
Qed.

(** What one use of a node does to the identifier tables and coordinates. *)
Lemma use_spec s id c : ninv s -> id <> AUTO_ID ->
  exists s' p, findOrReserveNode RESERVED s id c = Ok (s', p) /\ ninv s' /\
    findNodePosition s' id = Some p /\
    (forall j, j <> id -> findNodePosition s' j = findNodePosition s j) /\
    (findNodePosition s id = None -> p = length (ndatas s) /\ length (ndatas s') = S (length (ndatas s))) /\
    (forall q, findNodePosition s id = Some q -> p = q /\ length (ndatas s') = length (ndatas s)) /\
    (forall q, q <> p -> nth_error (ndatas s') q = nth_error (ndatas s) q) /\
    (forall d0, nth_error (ndatas s) p = Some d0 -> exists d, nth_error (ndatas s') p = Some d /\
       d = with_part d0 (nd_part d)) /\
    (nth_error (ndatas s) p = None -> exists d, nth_error (ndatas s') p = Some d /\
       d = mkND id 0 RESERVED RESERVED RESERVED 0 0 (nd_part d)) /\
    auto_next s' = auto_next s.
Proof.
  intros I Hid. unfold findOrReserveNode.
  destruct (main_node_part s c) as [s1 mp] eqn:E1.
  destruct (main_node_part_frame _ _ _ _ E1) as (F1 & F2 & F3 & F4).
  assert (I1 : ninv s1).
  { eapply (ninv_same s); [exact I|exact F2|now rewrite F1|]. rewrite F1. eauto. }
  unfold findNodePosition. rewrite F2.
  destruct (zfind (npos s) id) as [p|] eqn:E.
  - destruct I as [W B]. destruct (proj1 (B _ _) E) as (d & Hd & Hi).
    destruct (c =? UNAVAILABLE_INT).
    + exists s1, p. rewrite F1, F2. split; [reflexivity|]. split; [exact I1|]. split; [exact E|].
      split; [auto|]. split; [discriminate|]. split; [intros q Hq; inversion Hq; auto|].
      split; [auto|]. split; [|split; [congruence|exact F3]].
      intros d0 H0. exists d0. split; [exact H0|]. destruct d0; reflexivity.
    + rewrite F1, Hd. set (s2 := mkN _ _ _ _ _ _ _ (remove _ _ _)).
      assert (Hd2 : nth_error (ndatas s2) p = Some d) by (cbn; exact Hd).
      destruct (update_part_frame s2 p d c mp Hd2) as (G1 & G2 & G3 & G4).
      exists (update_part s2 p d c mp), p. split; [reflexivity|].
      assert (G4' : exists d', nth_error (ndatas (update_part s2 p d c mp)) p = Some d' /\
        d' = with_part d (nd_part d') /\
        (forall q, q <> p -> nth_error (ndatas (update_part s2 p d c mp)) q = nth_error (ndatas s) q) /\
        length (ndatas (update_part s2 p d c mp)) = length (ndatas s)).
      { destruct G4 as [G4|[m G4]]; rewrite G4; cbn.
        - exists d. split; [exact Hd|]. split; [destruct d; reflexivity|]. split; auto.
        - exists (with_part d m). rewrite set_nth_length, nth_error_set_nth, Nat.eqb_refl, Hd.
          split; [reflexivity|]. split; [reflexivity|]. split; [|reflexivity].
          intros q Hq. rewrite nth_error_set_nth. destruct (Nat.eqb_spec p q); [congruence|reflexivity]. }
      destruct G4' as (d' & K1 & K2 & K3 & K4).
      split.
      { eapply (ninv_same s); [split; assumption|rewrite G1; reflexivity|exact K4|].
        intros q e He. destruct (Nat.eq_dec q p) as [->|Hq].
        - rewrite K1 in He. inversion He; subst e. exists d. split; [exact Hd|]. rewrite K2. reflexivity.
        - rewrite K3 in He by exact Hq. eauto. }
      rewrite G1. change (npos s2) with (npos s).
      split; [exact E|]. split; [auto|]. split; [discriminate|].
      split; [intros q Hq; inversion Hq; subst; split; [reflexivity|exact K4]|]. split; [exact K3|].
      split; [|split; [congruence|rewrite G2; cbn; exact F3]].
      intros d0 H0. exists d'. split; [exact K1|]. congruence.
  - unfold addNode. destruct (Z.eqb_spec id AUTO_ID); [contradiction|].
    destruct (addNodeAs_spec s1 id RESERVED RESERVED RESERVED 0 0 mp I1)
      as (s2 & p & H1 & H2 & H3 & H4 & H5 & H6 & H7 & (d & H8 & H9 & H10 & H11 & H12 & H13 & H14 & H15 & H16) & H17 & H18).
    rewrite H1. cbn. eexists. exists p. split; [reflexivity|]. cbn.
    unfold findNodePosition in *. rewrite F2, F1 in *. destruct (H5 E) as [Hp HL]. subst p.
    assert (Hn : nth_error (ndatas s) (length (ndatas s)) = None) by (apply nth_error_None; lia).
    destruct H2 as [W2 B2].
    assert (Hpos : forall j, zfind (zinsert (npos s2) id (length (ndatas s))) j = zfind (npos s2) j).
    { intros j. rewrite zfind_insert by assumption. destruct (Z.eqb_spec id j); [subst; auto|reflexivity]. }
    split; [split; cbn; [now apply zinsert_wf|intros j q; rewrite Hpos; apply B2]|].
    rewrite Hpos. split; [exact H3|].
    split; [intros j Hj; rewrite Hpos; auto|]. split; [auto|]. split; [discriminate|].
    split; [exact H7|]. split; [congruence|]. split; [|congruence].
    intros _. exists d. split; [exact H8|]. destruct (H16 Hn). destruct d; cbn in *. subst. reflexivity.
Qed.

Lemma addNode_spec s id x y z cp cd : ninv s -> 
  exists s' p k, addNode s id x y z cp cd 0 = Ok (s', p) /\ ninv s' /\
    (id <> AUTO_ID -> k = id) /\
    (id = AUTO_ID -> findNodePosition s k = None /\ k <= auto_next s /\
        (forall j, k < j <= auto_next s -> findNodePosition s j <> None) /\ auto_next s' = k - 1) /\
    findNodePosition s' k = Some p /\
    (forall j, j <> k -> findNodePosition s' j = findNodePosition s j) /\
    (findNodePosition s k = None -> p = length (ndatas s) /\ length (ndatas s') = S (length (ndatas s))) /\
    (forall q, findNodePosition s k = Some q -> p = q /\ length (ndatas s') = length (ndatas s)) /\
    (forall q, q <> p -> nth_error (ndatas s') q = nth_error (ndatas s) q) /\
    (exists d, nth_error (ndatas s') p = Some d /\ nd_id d = k /\
       nd_x d = x /\ nd_y d = y /\ nd_z d = z /\ nd_cp d = cp /\ nd_cd d = cd /\
       (forall d0, nth_error (ndatas s) p = Some d0 -> nd_dofs d = nd_dofs d0 /\ nd_part d = nd_part d0) /\
       (nth_error (ndatas s) p = None -> nd_dofs d = 0 /\ nd_part d = 0)) /\
    last_part s' = last_part s /\ main_part s' = main_part s /\
    parts_of s' = parts_of s /\ iface s' = iface s /\ unused s' = unused s.
Proof.
  intros I. unfold addNode. destruct (Z.eqb_spec id AUTO_ID) as [Ha|Ha].
  - destruct (auto_pick_total (npos s) (auto_next s) (proj1 I)) as [k Hk].
    rewrite Hk. cbn [bind]. apply auto_pick_spec in Hk. destruct Hk as (K1 & K2 & K3 & K4).
    set (s1 := mkN (ndatas s) (npos s) (k - 1) (last_part s) (main_part s) (parts_of s) (iface s) (unused s)).
    assert (I1 : ninv s1) by exact I.
    destruct (addNodeAs_spec s1 k x y z cp cd 0 I1)
      as (s2 & p & H1 & H2 & H3 & H4 & H5 & H6 & H7 & H8 & H9 & H10 & H11 & H12 & H13 & H14).
    exists s2, p, k. split; [exact H1|]. split; [exact H2|]. split; [contradiction|].
    split; [intros _; repeat split; assumption|]. repeat (split; [assumption|]). assumption.
  - destruct (addNodeAs_spec s id x y z cp cd 0 I)
      as (s2 & p & H1 & H2 & H3 & H4 & H5 & H6 & H7 & H8 & H9 & H10 & H11 & H12 & H13 & H14).
    exists s2, p, id. split; [exact H1|]. split; [exact H2|]. split; [reflexivity|].
    split; [contradiction|]. repeat (split; [assumption|]). assumption.
Qed.

Lemma allow_spec s p a d : ninv s -> nth_error (ndatas s) p = Some d ->
  exists s', allowDOFS s p a = Ok s' /\ ninv s' /\ npos s' = npos s /\
    (forall q, q <> p -> nth_error (ndatas s') q = nth_error (ndatas s) q) /\
    nth_error (ndatas s') p = Some (mkND (nd_id d) (Z.lor (nd_dofs d) a) (nd_x d) (nd_y d) (nd_z d)
                              (nd_cp d) (nd_cd d) (nd_part d)) /\
    length (ndatas s') = length (ndatas s) /\
    last_part s' = last_part s /\ main_part s' = main_part s /\
    parts_of s' = parts_of s /\ iface s' = iface s /\ unused s' = unused s /\ auto_next s' = auto_next s.
Proof.
  intros I Hd. unfold allowDOFS. rewrite Hd. eexists. split; [reflexivity|]. split.
  - eapply (ninv_same s); [exact I|reflexivity|cbn; apply set_nth_length|]. cbn.
    eapply set_nth_ids; [exact Hd|reflexivity].
  - cbn. rewrite set_nth_length, nth_error_set_nth, Nat.eqb_refl, Hd. repeat split.
    intros q Hq. rewrite nth_error_set_nth. destruct (Nat.eqb_spec p q); [congruence|reflexivity].
Qed.

(** * Histories *)
(** No "use" of the reserved value AUTO_ID as an identifier; DOF bits only
    granted to known nodes. *)
Definition nop_ok s (o : nop D) : Prop :=
  match o with
  | Define _ _ _ _ _ _ => True
  | Use id _ => id <> AUTO_ID
  | Allow id _ => findNodePosition s id <> None
  end.

Lemma nstep_inv s o : ninv s -> nop_ok s o -> exists s', nstep RESERVED s o = Ok s' /\ ninv s' /\
  (forall j p, findNodePosition s j = Some p -> findNodePosition s' j = Some p).
Proof.
  intros I Ho. destruct o as [id x y z cp cd|id c|id a]; cbn in *.
  - destruct (addNode_spec s id x y z cp cd I) as (s' & p & k & H1 & H2 & H3 & H4 & H5 & H6 & H7 & H8 & _).
    rewrite H1. cbn. exists s'. split; [reflexivity|]. split; [exact H2|].
    intros j q Hj. destruct (Z.eq_dec j k) as [->|Hk]; [|rewrite H6 by exact Hk; exact Hj].
    destruct (H8 _ Hj). congruence.
  - destruct (use_spec s id c I Ho) as (s' & p & H1 & H2 & H3 & H4 & H5 & H6 & _).
    rewrite H1. cbn. exists s'. split; [reflexivity|]. split; [exact H2|].
    intros j q Hj. destruct (Z.eq_dec j id) as [->|Hk]; [|rewrite H4 by exact Hk; exact Hj].
    destruct (H6 _ Hj). congruence.
  - destruct (findNodePosition s id) as [p|] eqn:E; [|congruence].
    destruct (proj1 (proj2 I _ _) E) as (d & Hd & _).
    destruct (allow_spec s p a d I Hd) as (s' & H1 & H2 & H3 & _).
    exists s'. split; [exact H1|]. split; [exact H2|]. intros j q. unfold findNodePosition. now rewrite H3.
Qed.

Definition no_auto_use (h : list (nop D)) : Prop := forall id c, In (Use id c) h -> id <> AUTO_ID.

Lemma nstep_nop_ok s o s' : nstep RESERVED s o = Ok s' -> (forall id c, o = Use id c -> id <> AUTO_ID) -> nop_ok s o.
Proof.
  destruct o as [id x y z cp cd|id c|id a]; cbn; [auto| |].
  - intros _ H. eapply H. reflexivity.
  - destruct (findNodePosition s id); [discriminate|discriminate].
Qed.

Lemma nrun_inv h : forall s s', ninv s -> no_auto_use h -> nrun RESERVED s h = Ok s' -> ninv s' /\
  (forall j p, findNodePosition s j = Some p -> findNodePosition s' j = Some p).
Proof.
  induction h as [|o h IH]; intros s s' I Hn H; cbn in H.
  - inversion H; subst. auto.
  - destruct (nstep RESERVED s o) as [s1| | |] eqn:E; cbn in H; try discriminate.
    assert (Ho : nop_ok s o) by (eapply nstep_nop_ok; [exact E|]; intros id c ->; eapply Hn; left; reflexivity).
    destruct (nstep_inv s o I Ho) as (s1' & E1 & I1 & P1). rewrite E in E1. inversion E1; subst s1'.
    assert (Hn' : no_auto_use h) by (intros id c Hi; eapply Hn; right; exact Hi).
    destruct (IH s1 s' I1 Hn' H) as [I2 P2]. split; [exact I2|]. auto.
Qed.

(** * Attributes of one node along a history *)
Definition getNode s (id : Z) : option ndata :=
  match findNodePosition s id with Some p => nth_error (ndatas s) p | None => None end.

Lemma getNode_other s s' p k id : ninv s -> ninv s' -> id <> k ->
  findNodePosition s' k = Some p ->
  (forall j, j <> k -> findNodePosition s' j = findNodePosition s j) ->
  (forall q, q <> p -> nth_error (ndatas s') q = nth_error (ndatas s) q) ->
  getNode s' id = getNode s id.
Proof.
  intros I I' Hne Hk Hj Hq. unfold getNode. rewrite Hj by exact Hne.
  destruct (findNodePosition s id) as [q|] eqn:E; [|reflexivity].
  apply Hq. intros ->. rewrite <- (Hj id Hne) in E.
  apply (proj2 I') in E. apply (proj2 I') in Hk. destruct E as (d & E1 & E2), Hk as (d' & E3 & E4). congruence.
Qed.

(** The attributes a definition fixes. *)
Definition attrs d := (nd_x d, nd_y d, nd_z d, nd_cp d, nd_cd d).

(** What the attributes of node [id] must be: those of the last definition. *)
Definition spec_step (id : Z) (cur : option (D * D * D * Z * Z)) (o : nop D) :=
  match o with
  | Define k x y z cp cd => if k =? id then Some (x, y, z, cp, cd) else cur
  | _ => cur
  end.

Lemma nstep_attrs s o s' id d v : ninv s -> nop_ok s o -> nstep RESERVED s o = Ok s' ->
  getNode s id = Some d -> attrs d = v -> id <> AUTO_ID ->
  exists d', getNode s' id = Some d' /\ Some (attrs d') = spec_step id (Some v) o /\
    nd_dofs d' = (match o with Allow k a => if k =? id then Z.lor (nd_dofs d) a else nd_dofs d | _ => nd_dofs d end).
Proof.
  intros I Ho E Hd Hv Hid. 
  assert (Hpos : exists p, findNodePosition s id = Some p /\ nth_error (ndatas s) p = Some d).
  { unfold getNode in Hd. destruct (findNodePosition s id) as [p|]; [eauto|discriminate]. }
  destruct Hpos as (p0 & Hp0 & Hd0).
  destruct o as [k x y z cp cd|k c|k a]; cbn in *.
  - destruct (addNode_spec s k x y z cp cd I) as (s1 & p & k' & H1 & H2 & H3 & H4 & H5 & H6 & H7 & H8 & H9 & (e & G1 & G2 & G3 & G4 & G5 & G6 & G7 & G8 & G9) & _).
    rewrite H1 in E. cbn in E. injection E as E. subst s1.
    assert (Hkk : k' = id <-> k = id).
    { split; intros ->.
      - destruct (Z.eq_dec k AUTO_ID) as [->|Hk]; [|symmetry; auto]. destruct (H4 eq_refl) as (N & _). congruence.
      - auto. }
    destruct (Z.eqb_spec k id) as [Ek|Ek].
    + assert (Hkid : k' = id) by tauto. rewrite Hkid in *. destruct (H8 _ Hp0) as [-> _]. exists e.
      split; [unfold getNode; rewrite H5; exact G1|]. split; [unfold attrs; congruence|].
      destruct (G8 _ Hd0). congruence.
    + assert (Hne : id <> k') by (intros ->; tauto). exists d.
      split; [rewrite (getNode_other s s' p k' id I H2 Hne H5 H6 H9); exact Hd|]. split; congruence.
  - destruct (use_spec s k c I Ho) as (s1 & p & H1 & H2 & H3 & H4 & H5 & H6 & H7 & H8 & _).
    rewrite H1 in E. cbn in E. inversion E; subst s1.
    destruct (Z.eq_dec k id) as [->|Hne].
    + destruct (H6 _ Hp0) as [-> _]. destruct (H8 _ Hd0) as (e & G1 & G2). exists e.
      split; [unfold getNode; rewrite H3; exact G1|]. rewrite G2. cbn. unfold attrs in *. cbn. split; congruence.
    + exists d. split; [rewrite (getNode_other s s' p k id I H2 (not_eq_sym Hne) H3 H4 H7); exact Hd|].
      split; congruence.
  - destruct (findNodePosition s k) as [p|] eqn:Ek; [|discriminate].
    destruct (proj1 (proj2 I _ _) Ek) as (e & He & Hei).
    destruct (allow_spec s p a e I He) as (s1 & H1 & H2 & H3 & H4 & H5 & _).
    rewrite H1 in E. inversion E; subst s1.
    assert (HF : forall j, findNodePosition s' j = findNodePosition s j) by (intros j; unfold findNodePosition; now rewrite H3).
    destruct (Z.eqb_spec k id) as [->|Hne].
    + rewrite Hp0 in Ek. inversion Ek; subst p0. rewrite Hd0 in He. inversion He; subst e.
      eexists. split; [unfold getNode; rewrite HF, Hp0; exact H5|]. unfold attrs in *. cbn. split; congruence.
    + exists d. split; [|split; congruence].
      rewrite (getNode_other s s' p k id I H2 (not_eq_sym Hne)); auto. rewrite HF; exact Ek.
Qed.

Lemma nrun_attrs h : forall s s' id d v, ninv s -> no_auto_use h -> nrun RESERVED s h = Ok s' ->
  getNode s id = Some d -> attrs d = v -> id <> AUTO_ID ->
  exists d', getNode s' id = Some d' /\ Some (attrs d') = fold_left (spec_step id) h (Some v).
Proof.
  induction h as [|o h IH]; intros s s' id d v I Hn H Hd Hv Hid; cbn in H.
  - inversion H; subst. exists d. split; [exact Hd|reflexivity].
  - destruct (nstep RESERVED s o) as [s1| | |] eqn:E; cbn in H; try discriminate.
    assert (Ho : nop_ok s o) by (eapply nstep_nop_ok; [exact E|]; intros i c ->; eapply Hn; left; reflexivity).
    destruct (nstep_inv s o I Ho) as (s1' & E1 & I1 & P1). rewrite E in E1. inversion E1; subst s1'.
    assert (Hn' : no_auto_use h) by (intros i c Hi; eapply Hn; right; exact Hi).
    destruct (nstep_attrs s o s1 id d v I Ho E Hd Hv Hid) as (d1 & G1 & G2 & _).
    assert (exists w, attrs d1 = w) as [w Hw] by eauto.
    destruct (IH s1 s' id d1 w I1 Hn' H G1 Hw Hid) as (d' & K1 & K2).
    exists d'. split; [exact K1|]. rewrite K2. cbn [fold_left]. rewrite <- G2, Hw. reflexivity.
Qed.

End Proofs.
