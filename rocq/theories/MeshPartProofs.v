(** Node parts: which element sets use a node. *)
From Coq Require Import ZArith List Bool Lia.
From Verif Require Import Base ZMap MeshNodeModel MeshNodeProofs.
Import ListNotations.
Open Scope Z_scope.
Local Opaque AUTO_ID UNAVAILABLE_INT UNAVAILABLE_NODE.

Section Parts.
Context {D : Type} (RESERVED : D).
Notation nodes := (nodes D).
Notation ndata := (ndata D).
Implicit Types (s : nodes) (d : ndata).

(** Element set [c] uses node [id] in history [h]. *)
Definition used (h : list (nop D)) (id c : Z) : Prop := In (Use id c) h /\ c <> UNAVAILABLE_INT.

Record pcore (last : Z) (main : zmap Z) (parts : zmap zset) (ifc : list (zset * Z)) : Prop := {
  pc_main : zmap_wf main;
  pc_parts : zmap_wf parts;
  pc_last : 0 <= last;
  pc_range : forall p k, zfind parts p = Some k -> 0 < p <= last /\ zmap_wf k;
  pc_m : forall c p, zfind main c = Some p -> zfind parts p = Some [(c, tt)];
  pc_i : forall k p, iface_find ifc k = Some p -> zfind parts p = Some k;
  pc_c : forall p k, zfind parts p = Some k ->
     (exists c, k = [(c, tt)] /\ zfind main c = Some p) \/
     (iface_find ifc k = Some p /\ (2 <= length k)%nat) }.

Lemma pcore_inj last main parts ifc p q k : pcore last main parts ifc ->
  zfind parts p = Some k -> zfind parts q = Some k -> p = q.
Proof.
  intros C Hp Hq. destruct (pc_c _ _ _ _ C _ _ Hp) as [(c & E & M)|(E & L)];
  destruct (pc_c _ _ _ _ C _ _ Hq) as [(c' & E' & M')|(E' & L')]; try congruence; subst; cbn in *; try lia.

Qed.

Definition score s := pcore (last_part s) (main_part s) (parts_of s) (iface s).

Lemma main_node_part_core s c s' m : score s -> c <> UNAVAILABLE_INT -> main_node_part s c = (s', m) ->
  score s' /\ zfind (parts_of s') m = Some [(c, tt)] /\ 0 < m /\
  (forall p k, zfind (parts_of s) p = Some k -> zfind (parts_of s') p = Some k).
Proof.
  intros C Hc. unfold main_node_part. destruct (Z.eqb_spec c UNAVAILABLE_INT); [contradiction|].
  destruct (zfind (main_part s) c) as [p|] eqn:E; intros H; inversion H; subst; clear H.
  - pose proof (pc_m _ _ _ _ C _ _ E) as Hm. split; [exact C|]. split; [exact Hm|].
    split; [|auto]. destruct (pc_range _ _ _ _ C _ _ Hm). lia.
  - pose proof (pc_last _ _ _ _ C).
    assert (Hfresh : zfind (parts_of s) (last_part s + 1) = None).
    { destruct (zfind (parts_of s) (last_part s + 1)) eqn:F; [|reflexivity].
      destruct (pc_range _ _ _ _ C _ _ F). lia. }
    cbn. rewrite zfind_insert by apply (pc_parts _ _ _ _ C). rewrite Z.eqb_refl.
    split; [|split; [reflexivity|split; [lia|]]].
    + constructor; cbn.
      * apply zinsert_wf, (pc_main _ _ _ _ C).
      * apply zinsert_wf, (pc_parts _ _ _ _ C).
      * lia.
      * intros p k. rewrite zfind_insert by apply (pc_parts _ _ _ _ C).
        destruct (Z.eqb_spec (last_part s + 1) p).
        -- intros F. inversion F; subst. split; [lia|]. repeat constructor.
        -- intros F. destruct (pc_range _ _ _ _ C _ _ F). split; [lia|assumption].
      * intros c' p. rewrite zfind_insert by apply (pc_main _ _ _ _ C).
        rewrite zfind_insert by apply (pc_parts _ _ _ _ C).
        destruct (Z.eqb_spec c c').
        -- intros F. inversion F; subst. now rewrite Z.eqb_refl.
        -- intros F. pose proof (pc_m _ _ _ _ C _ _ F). destruct (Z.eqb_spec (last_part s + 1) p); [congruence|assumption].
      * intros k p F. pose proof (pc_i _ _ _ _ C _ _ F). rewrite zfind_insert by apply (pc_parts _ _ _ _ C).
        destruct (Z.eqb_spec (last_part s + 1) p); [congruence|assumption].
      * intros p k. rewrite zfind_insert by apply (pc_parts _ _ _ _ C).
        destruct (Z.eqb_spec (last_part s + 1) p).
        -- intros F. inversion F; subst. left. exists c. split; [reflexivity|].
           rewrite zfind_insert by apply (pc_main _ _ _ _ C). now rewrite Z.eqb_refl.
        -- intros F. destruct (pc_c _ _ _ _ C _ _ F) as [(c' & E1 & E2)|]; [left|right; assumption].
           exists c'. split; [exact E1|]. rewrite zfind_insert by apply (pc_main _ _ _ _ C).
           destruct (Z.eqb_spec c c'); [congruence|exact E2].
    + intros p k F. rewrite zfind_insert by apply (pc_parts _ _ _ _ C).
      destruct (Z.eqb_spec (last_part s + 1) p); [congruence|exact F].
Qed.

Lemma zinsert_length {A} (m : zmap A) k a : zfind m k = None -> length (zinsert m k a) = S (length m).
Proof.
  induction m as [|[k' a'] m IH]; cbn; [reflexivity|].
  destruct (Z.eqb_spec k' k); [discriminate|]. intros H.
  destruct (k <? k'); [reflexivity|]. destruct (Z.eqb_spec k k'); [congruence|]. cbn. now rewrite IH.
Qed.

(** One more user [c] of the node at [pos]. *)
Lemma update_part_core s pos d c m k : score s -> nth_error (ndatas s) pos = Some d ->
  zfind (parts_of s) m = Some [(c, tt)] -> 0 < m ->
  (nd_part d = 0 /\ k = [] \/ zfind (parts_of s) (nd_part d) = Some k) ->
  score (update_part s pos d c m) /\
  (forall p k0, zfind (parts_of s) p = Some k0 -> zfind (parts_of (update_part s pos d c m)) p = Some k0) /\
  exists d', nth_error (ndatas (update_part s pos d c m)) pos = Some d' /\
    zfind (parts_of (update_part s pos d c m)) (nd_part d') = Some (sinsert k c).
Proof.
  intros C Hd Hm Hm0 Hk. unfold update_part. cbv zeta.
  destruct (Z.eqb_spec (nd_part d) 0) as [E0|E0].
  - destruct Hk as [[_ ->]|Hk]; [|destruct (pc_range _ _ _ _ C _ _ Hk); lia].
    cbn. split; [exact C|]. split; [auto|]. rewrite nth_error_set_nth, Nat.eqb_refl, Hd.
    eexists. split; [reflexivity|]. cbn. exact Hm.
  - destruct Hk as [[? _]|Hk]; [contradiction|].
    destruct (Z.eqb_spec (nd_part d) m) as [Em|Em].
    + split; [exact C|]. split; [auto|]. exists d. split; [exact Hd|].
      rewrite Em in *. assert (k = [(c, tt)]) by congruence. subst k. rewrite Hm. f_equal.
      unfold sinsert. cbn. now rewrite Z.ltb_irrefl, Z.eqb_refl.
    + rewrite Hk. destruct (pc_range _ _ _ _ C _ _ Hk) as [Hr Wk].
      destruct (smem k c) eqn:Es.
      * split; [exact C|]. split; [auto|]. exists d. split; [exact Hd|]. rewrite Hk. f_equal.
        apply zset_ext; [assumption|apply zinsert_wf; assumption|].
        intros c'. rewrite smem_insert by assumption. destruct (Z.eqb_spec c c'); [subst; now rewrite Es|reflexivity].
      * destruct (iface_find (iface s) (sinsert k c)) as [p|] eqn:Ei; cbn.
        -- split; [exact C|]. split; [auto|]. rewrite nth_error_set_nth, Nat.eqb_refl, Hd.
           eexists. split; [reflexivity|]. cbn. apply (pc_i _ _ _ _ C _ _ Ei).
        -- pose proof (pc_last _ _ _ _ C).
           assert (Hfresh : zfind (parts_of s) (last_part s + 1) = None).
           { destruct (zfind (parts_of s) (last_part s + 1)) eqn:F; [|reflexivity].
             destruct (pc_range _ _ _ _ C _ _ F). lia. }
           assert (Hlen : (2 <= length (sinsert k c))%nat).
           { unfold sinsert. rewrite zinsert_length.
             - destruct k as [|? k]; [|cbn; lia]. exfalso.
               destruct (pc_c _ _ _ _ C _ _ Hk) as [(c' & E1 & _)|(_ & L)]; [discriminate|cbn in L; lia].
             - unfold smem in Es. destruct (zfind k c); [discriminate|reflexivity]. }
           split; [|split].
           ++ constructor; cbn.
              ** apply (pc_main _ _ _ _ C).
              ** apply zinsert_wf, (pc_parts _ _ _ _ C).
              ** lia.
              ** intros p k0. rewrite zfind_insert by apply (pc_parts _ _ _ _ C).
                 destruct (Z.eqb_spec (last_part s + 1) p).
                 --- intros F. inversion F; subst. split; [lia|]. now apply zinsert_wf.
                 --- intros F. destruct (pc_range _ _ _ _ C _ _ F). split; [lia|assumption].
              ** intros c' p F. pose proof (pc_m _ _ _ _ C _ _ F). rewrite zfind_insert by apply (pc_parts _ _ _ _ C).
                 destruct (Z.eqb_spec (last_part s + 1) p); [congruence|assumption].
              ** intros k0 p. destruct (zset_eqb (sinsert k c) k0) eqn:Eq.
                 --- apply zset_eqb_eq in Eq. intros F. inversion F; subst.
                     rewrite zfind_insert by apply (pc_parts _ _ _ _ C). now rewrite Z.eqb_refl.
                 --- intros F. pose proof (pc_i _ _ _ _ C _ _ F). rewrite zfind_insert by apply (pc_parts _ _ _ _ C).
                     destruct (Z.eqb_spec (last_part s + 1) p); [congruence|assumption].
              ** intros p k0. rewrite zfind_insert by apply (pc_parts _ _ _ _ C).
                 destruct (Z.eqb_spec (last_part s + 1) p).
                 --- intros F. inversion F; subst. right.
                     rewrite (proj2 (zset_eqb_eq _ _) eq_refl). auto.
                 --- intros F. destruct (pc_c _ _ _ _ C _ _ F) as [|(E1 & L)]; [left; assumption|right].
                     destruct (zset_eqb (sinsert k c) k0) eqn:Eq; [|auto].
                     apply zset_eqb_eq in Eq. subst k0. congruence.
           ++ intros p k0 F. rewrite zfind_insert by apply (pc_parts _ _ _ _ C).
              destruct (Z.eqb_spec (last_part s + 1) p); [congruence|exact F].
           ++ rewrite nth_error_set_nth, Nat.eqb_refl, Hd. eexists. split; [reflexivity|]. cbn.
              rewrite zfind_insert by apply (pc_parts _ _ _ _ C). now rewrite Z.eqb_refl.
Qed.

(** A node's recorded part denotes exactly its users; nobody uses an absent node. *)
Definition part_ok s d (U : Z -> Prop) : Prop :=
  (nd_part d = 0 /\ forall c, ~ U c) \/
  (exists k, zfind (parts_of s) (nd_part d) = Some k /\ forall c, smem k c = true <-> U c).

Definition pinv (h : list (nop D)) s : Prop :=
  ninv s /\ score s /\
  (forall id d, getNode s id = Some d -> part_ok s d (used h id)) /\
  (forall id, findNodePosition s id = None -> forall c, ~ used h id c).

Lemma pinv_empty a l : 0 <= l -> pinv [] (empty_nodes a l).
Proof.
  intros Hl. split; [apply ninv_empty|]. split.
  - constructor; cbn; try discriminate; try assumption; constructor.
  - split; [intros id d H; discriminate|]. intros id _ c [[] _].
Qed.

Lemma used_snoc h o id c : used (h ++ [o]) id c <-> used h id c \/ (o = Use id c /\ c <> UNAVAILABLE_INT).
Proof.
  unfold used. rewrite in_app_iff. cbn. split.
  - intros [[H|[H|[]]] Hc]; [left; auto|right; auto].
  - intros [[H Hc]|[-> Hc]]; auto.
Qed.

Lemma part_ok_ext s s' d d' U U' : part_ok s d U ->
  (forall p k0, zfind (parts_of s) p = Some k0 -> zfind (parts_of s') p = Some k0) ->
  nd_part d' = nd_part d -> (forall c, U c <-> U' c) -> part_ok s' d' U'.
Proof.
  intros [[H1 H2]|(k & H1 & H2)] P E HU; [left|right].
  - split; [congruence|]. intros c Hc. eapply H2, HU, Hc.
  - exists k. split; [rewrite E; auto|]. intros c. rewrite H2. apply HU.
Qed.

Lemma getNode_at s p d : ninv s -> nth_error (ndatas s) p = Some d -> getNode s (nd_id d) = Some d.
Proof.
  intros [W B] H. unfold getNode, findNodePosition. 
  rewrite (proj2 (B (nd_id d) p)) by eauto. exact H.
Qed.

Lemma score_eq s s' : score s -> last_part s' = last_part s -> main_part s' = main_part s ->
  parts_of s' = parts_of s -> iface s' = iface s -> score s'.
Proof. unfold score. congruence. Qed.

Lemma pinv_step h s o s' : pinv h s -> nop_ok s o -> nstep RESERVED s o = Ok s' -> pinv (h ++ [o]) s'.
Proof.
  intros (I & C & P & N) Ho E. destruct o as [k x y z cp cd|k c|k a]; cbn in E, Ho.
  - (* definition *)
    destruct (addNode_spec s k x y z cp cd I) as (s1 & p & k' & H1 & H2 & H3 & H4 & H5 & H6 & H7 & H8 & H9 & (e & G1 & G2 & G3 & G4 & G5 & G6 & G7 & G8 & G9) & L1 & L2 & L3 & L4 & L5).
    rewrite H1 in E. cbn in E. injection E as E. subst s1.
    assert (HU : forall id c, used h id c <-> used (h ++ [Define k x y z cp cd]) id c).
    { intros id c. rewrite used_snoc. split; [auto|]. intros [?|[? _]]; [assumption|discriminate]. }
    split; [exact H2|]. split; [eapply score_eq; eauto|]. split.
    + intros id d Hd. destruct (Z.eq_dec id k') as [->|Hne].
      * unfold getNode in Hd. rewrite H5 in Hd. assert (d = e) by congruence. subst d.
        destruct (nth_error (ndatas s) p) as [d0|] eqn:E0.
        -- destruct (G8 _ eq_refl) as [_ Gp].
           assert (Hid : nd_id d0 = k').
           { destruct (findNodePosition s k') as [q|] eqn:Eq.
             - destruct (H8 _ eq_refl) as [-> _]. apply (proj2 I) in Eq. destruct Eq as (d1 & F1 & F2). congruence.
             - destruct (H7 eq_refl) as [-> _]. exfalso.
               assert (nth_error (ndatas s) (length (ndatas s)) = None) by (apply nth_error_None; lia). congruence. }
           pose proof (getNode_at _ _ _ I E0) as Hg. rewrite Hid in Hg.
           eapply part_ok_ext; [exact (P _ _ Hg)|rewrite L3; auto|exact Gp|apply HU].
        -- left. destruct (G9 eq_refl) as [_ Gp]. split; [exact Gp|]. intros c Hc. apply HU in Hc.
           eapply N; [|exact Hc]. destruct (findNodePosition s k') as [q|] eqn:Eq; [|reflexivity].
           destruct (H8 _ eq_refl) as [-> _]. apply (proj2 I) in Eq. destruct Eq as (d1 & F1 & F2). congruence.
      * rewrite (getNode_other s s' p k' id I H2 Hne H5 H6 H9) in Hd.
        eapply part_ok_ext; [exact (P _ _ Hd)|rewrite L3; auto|reflexivity|apply HU].
    + intros id Hid c Hc. apply HU in Hc. eapply N; [|exact Hc].
      destruct (Z.eq_dec id k') as [->|Hne]; [congruence|]. now rewrite <- H6.
  - (* use *)
    destruct (use_spec RESERVED s k c I Ho) as (s1 & p & H1 & H2 & H3 & H4 & H5 & H6 & H7 & H8 & H9 & H10).
    rewrite H1 in E. cbn in E. injection E as E. subst s1.
    assert (HU : forall id c', used (h ++ [Use k c]) id c' <->
       used h id c' \/ (id = k /\ c' = c /\ c <> UNAVAILABLE_INT)).
    { intros id c'. rewrite used_snoc. split; intros [?|[A B]]; auto; [inversion A; subst; auto|].
      destruct B as [-> B]. subst. auto. }
    assert (Key : score s' /\
      (forall q k0, zfind (parts_of s) q = Some k0 -> zfind (parts_of s') q = Some k0) /\
      exists d', nth_error (ndatas s') p = Some d' /\ part_ok s' d' (used (h ++ [Use k c]) k)).
    { unfold findOrReserveNode in H1.
      destruct (main_node_part s c) as [s1 mp] eqn:E1.
      destruct (main_node_part_frame _ _ _ _ E1) as (F1 & F2 & F3 & F4).
      assert (I1 : ninv s1).
      { eapply (ninv_same s); [exact I|exact F2|now rewrite F1|]. rewrite F1. eauto. }
      unfold findNodePosition in H1. rewrite F2 in H1.
      destruct (zfind (npos s) k) as [q|] eqn:Ek.
      - destruct (proj1 (proj2 I _ _) Ek) as (d & Hd & Hi).
        assert (Hg : getNode s k = Some d) by (unfold getNode, findNodePosition; rewrite Ek; exact Hd).
        pose proof (P _ _ Hg) as Pd.
        destruct (Z.eqb_spec c UNAVAILABLE_INT) as [Ec|Ec].
        + injection H1 as -> ->. unfold main_node_part in E1. rewrite Ec, Z.eqb_refl in E1. injection E1 as -> _.
          split; [exact C|]. split; [auto|]. exists d. split; [exact Hd|].
          eapply part_ok_ext; [exact Pd|auto|reflexivity|]. intros c'. rewrite HU. split; [auto|].
          intros [?|(_ & _ & ?)]; [assumption|contradiction].
        + rewrite F1, Hd in H1.
          destruct (main_node_part_core s c s1 mp C Ec E1) as (C1 & M1 & M2 & M3).
          set (s2 := mkN _ _ _ _ _ _ _ (remove _ _ _)) in H1.
          injection H1 as H1 Hq. subst q.
          assert (Hk : exists kk, (nd_part d = 0 /\ kk = [] \/ zfind (parts_of s2) (nd_part d) = Some kk) /\
             zmap_wf kk /\ (forall c', smem kk c' = true <-> used h k c')).
          { destruct Pd as [[A B]|(kk & A & B)].
            - exists []. split; [auto|]. split; [constructor|]. intros c'. cbn. split; [discriminate|]. intros X. destruct (B _ X).
            - exists kk. split; [right; apply M3; exact A|]. split; [|exact B]. apply (pc_range _ _ _ _ C _ _ A). }
          destruct Hk as (kk & K1 & K2 & K3).
          destruct (update_part_core s2 p d c mp kk) as (Q1 & Q2 & d' & Q3 & Q4); auto.
          rewrite H1 in *. split; [exact Q1|].
          split; [intros q0 k0 Hq0; apply Q2, M3, Hq0|]. exists d'. split; [exact Q3|]. right. eexists.
          split; [exact Q4|]. intros c'. rewrite smem_insert by exact K2. rewrite HU, orb_true_iff, K3, Z.eqb_eq.
          split; [intros [->|?]; auto|intros [?|(_ & -> & _)]; auto].
      - unfold addNode in H1. destruct (Z.eqb_spec k AUTO_ID); [contradiction|].
        destruct (addNodeAs_spec s1 k RESERVED RESERVED RESERVED 0 0 mp I1)
          as (s2 & q & T1 & T2 & T3 & T4 & T5 & T6 & T7 & (d & T8 & T9 & T10 & T11 & T12 & T13 & T14 & T15 & T16) & U1 & U2 & U3 & U4 & U5 & U6).
        rewrite T1 in H1. cbn in H1. injection H1 as H1 Hq. subst q.
        assert (Hn : nth_error (ndatas s1) p = None).
        { unfold findNodePosition in T5. rewrite F2 in T5. destruct (T5 Ek) as [-> _]. apply nth_error_None. lia. }
        destruct (T16 Hn) as [_ Tp].
        destruct (Z.eqb_spec c UNAVAILABLE_INT) as [Ec|Ec].
        + unfold main_node_part in E1. rewrite Ec, Z.eqb_refl in E1. injection E1 as <- <-.
          split; [subst s'; eapply score_eq; [exact C|..]; cbn; assumption|].
          split; [subst s'; cbn; rewrite U4; auto|]. exists d. split; [subst s'; exact T8|]. left.
          split; [exact Tp|]. intros c' Hc'. apply HU in Hc'. destruct Hc' as [Hc'|(_ & _ & ?)]; [|contradiction].
          eapply N; [|exact Hc']. exact Ek.
        + destruct (main_node_part_core s c s1 mp C Ec E1) as (C1 & M1 & M2 & M3).
          split; [subst s'; eapply score_eq; [exact C1|..]; cbn; assumption|].
          split; [subst s'; cbn; rewrite U4; auto|]. exists d. split; [subst s'; exact T8|]. right.
          exists [(c, tt)]. split; [subst s'; cbn; rewrite U4, Tp; exact M1|].
          intros c'. rewrite HU. unfold smem. cbn. destruct (Z.eqb_spec c c').
          * subst. split; auto.
          * split; [discriminate|]. intros [X|(_ & ? & _)]; [|congruence]. exfalso. eapply N; [|exact X]. exact Ek. }
    destruct Key as (K1 & K2 & d' & K3 & K4).
    split; [exact H2|]. split; [exact K1|]. split.
    + intros id d Hd. destruct (Z.eq_dec id k) as [->|Hne].
      * unfold getNode in Hd. rewrite H3 in Hd. congruence.
      * rewrite (getNode_other s s' p k id I H2 Hne H3 H4 H7) in Hd.
        eapply part_ok_ext; [exact (P _ _ Hd)|exact K2|reflexivity|]. intros c'. rewrite HU.
        split; [auto|]. intros [?|(? & _)]; [assumption|contradiction].
    + intros id Hid c' Hc'. apply HU in Hc'. destruct (Z.eq_dec id k) as [->|Hne]; [congruence|].
      rewrite H4 in Hid by exact Hne. destruct Hc' as [Hc'|(? & _)]; [|contradiction]. exact (N _ Hid _ Hc').
  - (* granting degrees of freedom *)
    destruct (findNodePosition s k) as [p|] eqn:Ek; [|discriminate].
    destruct (proj1 (proj2 I _ _) Ek) as (e & He & Hei).
    destruct (allow_spec s p a e I He) as (s1 & H1 & H2 & H3 & H4 & H5 & H6 & L1 & L2 & L3 & L4 & L5 & L6).
    rewrite H1 in E. injection E as E. subst s1.
    assert (HF : forall j, findNodePosition s' j = findNodePosition s j) by (intros j; unfold findNodePosition; now rewrite H3).
    assert (HU : forall id c, used h id c <-> used (h ++ [Allow k a]) id c).
    { intros id c. rewrite used_snoc. split; [auto|]. intros [?|[? _]]; [assumption|discriminate]. }
    split; [exact H2|]. split; [eapply score_eq; eauto|]. split.
    + intros id d Hd. destruct (Z.eq_dec id k) as [->|Hne].
      * unfold getNode in Hd. rewrite HF, Ek, H5 in Hd. injection Hd as <-.
        assert (Hg : getNode s k = Some e) by (unfold getNode; rewrite Ek; exact He).
        eapply part_ok_ext; [exact (P _ _ Hg)|rewrite L3; auto|reflexivity|apply HU].
      * rewrite (getNode_other s s' p k id I H2 Hne) in Hd; auto; [|rewrite HF; exact Ek].
        eapply part_ok_ext; [exact (P _ _ Hd)|rewrite L3; auto|reflexivity|apply HU].
    + intros id Hid c Hc. apply HU in Hc. rewrite HF in Hid. exact (N _ Hid _ Hc).
Qed.

Lemma pinv_run h2 : forall h s s', pinv h s -> no_auto_use h2 -> nrun RESERVED s h2 = Ok s' -> pinv (h ++ h2) s'.
Proof.
  induction h2 as [|o h2 IH]; intros h s s' Pv Hn H; cbn in H.
  - injection H as <-. now rewrite app_nil_r.
  - destruct (nstep RESERVED s o) as [s1| | |] eqn:E; cbn in H; try discriminate.
    assert (Ho : nop_ok s o) by (eapply nstep_nop_ok; [exact E|]; intros i c ->; eapply Hn; left; reflexivity).
    assert (Hn' : no_auto_use h2) by (intros i c Hi; eapply Hn; right; exact Hi).
    replace (h ++ o :: h2) with ((h ++ [o]) ++ h2) by (rewrite <- app_assoc; reflexivity).
    eapply IH; [eapply pinv_step; eauto|exact Hn'|exact H].
Qed.

(** * Nodes recorded as "reserved but unused" *)
(** Node [id] would be dropped from the groups by the final clean-up. *)
Definition listed_unused s (id : Z) : Prop := exists p, findNodePosition s id = Some p /\ In p (unused s).

Lemma unused_step s o s' : ninv s -> nop_ok s o -> nstep RESERVED s o = Ok s' ->
  forall id p, findNodePosition s id = Some p -> In p (unused s') -> In p (unused s) /\
    (forall c, o = Use id c -> c = UNAVAILABLE_INT).
Proof.
  intros I Ho E id p Hp Hin. destruct o as [k x y z cp cd|k c|k a]; cbn in E, Ho.
  - destruct (addNode_spec s k x y z cp cd I) as (s1 & q & k' & H1 & H2 & H3 & H4 & H5 & H6 & H7 & H8 & H9 & _ & L1 & L2 & L3 & L4 & L5).
    rewrite H1 in E. cbn in E. injection E as E. subst s1. rewrite L5 in Hin. split; [exact Hin|discriminate].
  - unfold findOrReserveNode in E. destruct (main_node_part s c) as [s1 mp] eqn:E1.
    destruct (main_node_part_frame _ _ _ _ E1) as (F1 & F2 & F3 & F4).
    assert (I1 : ninv s1).
    { eapply (ninv_same s); [exact I|exact F2|now rewrite F1|]. rewrite F1. eauto. }
    unfold findNodePosition in *. rewrite F2 in E.
    destruct (zfind (npos s) k) as [q|] eqn:Ek.
    + destruct (proj1 (proj2 I _ _) Ek) as (d & Hd & Hi).
      destruct (Z.eqb_spec c UNAVAILABLE_INT) as [Ec|Ec].
      * cbn in E. injection E as <-. rewrite F4 in Hin. split; [exact Hin|]. intros c' X. congruence.
      * rewrite F1, Hd in E. cbn [bind] in E. injection E as E.
        set (s2 := mkN _ _ _ _ _ _ _ (remove _ _ _)) in E.
        assert (Hd2 : nth_error (ndatas s2) q = Some d) by exact Hd.
        destruct (update_part_frame s2 q d c mp Hd2) as (_ & _ & G3 & _).
        rewrite E in G3. rewrite G3 in Hin. cbn in Hin. apply in_remove in Hin. destruct Hin as [Hin Hne].
        rewrite F4 in Hin. split; [exact Hin|]. intros c' X. exfalso. injection X as -> _. congruence.
    + unfold addNode in E. destruct (Z.eqb_spec k AUTO_ID); [contradiction|].
      destruct (addNodeAs_spec s1 k RESERVED RESERVED RESERVED 0 0 mp I1)
          as (s2 & q & T1 & T2 & T3 & T4 & T5 & T6 & T7 & _ & U1 & U2 & U3 & U4 & U5 & U6).
      rewrite T1 in E. cbn in E. injection E as E. subst s'. cbn in Hin.
      unfold findNodePosition in T5. rewrite F2, F1 in T5. destruct (T5 Ek) as [-> _].
      assert (p <> length (ndatas s)).
      { apply (proj2 I) in Hp. destruct Hp as (d & Hd & _).
        assert (p < length (ndatas s))%nat by (apply nth_error_Some; congruence). lia. }
      destruct Hin as [Hin|Hin]; [congruence|]. rewrite U6, F4 in Hin. split; [exact Hin|].
      intros c' X. injection X as -> _. congruence.
  - destruct (findNodePosition s k) as [q|] eqn:Ek; [|discriminate].
    destruct (proj1 (proj2 I _ _) Ek) as (e & He & Hei).
    destruct (allow_spec s q a e I He) as (s1 & H1 & H2 & H3 & H4 & H5 & H6 & L1 & L2 & L3 & L4 & L5 & L6).
    rewrite H1 in E. injection E as E. subst s1. rewrite L5 in Hin. split; [exact Hin|discriminate].
Qed.

Lemma unused_run h : forall s s', ninv s -> no_auto_use h -> nrun RESERVED s h = Ok s' ->
  forall id p, findNodePosition s id = Some p -> In p (unused s') -> In p (unused s) /\
    (forall c, In (Use id c) h -> c = UNAVAILABLE_INT).
Proof.
  induction h as [|o h IH]; intros s s' I Hn H id p Hp Hin; cbn in H.
  - injection H as <-. split; [exact Hin|]. intros c [].
  - destruct (nstep RESERVED s o) as [s1| | |] eqn:E; cbn in H; try discriminate.
    assert (Ho : nop_ok s o) by (eapply nstep_nop_ok; [exact E|]; intros i c ->; eapply Hn; left; reflexivity).
    assert (Hn' : no_auto_use h) by (intros i c Hi; eapply Hn; right; exact Hi).
    destruct (nstep_inv RESERVED s o I Ho) as (s1' & E1 & I1 & P1). rewrite E in E1. injection E1 as <-.
    destruct (IH s1 s' I1 Hn' H id p (P1 _ _ Hp) Hin) as [A B].
    destruct (unused_step s o s1 I Ho E id p Hp A) as [A' B'].
    split; [exact A'|]. intros c [->|Hc]; [eapply B'; reflexivity|auto].
Qed.

End Parts.
