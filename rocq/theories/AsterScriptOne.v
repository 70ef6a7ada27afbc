(** * The whole command file: what follows each analysis, and the sequence of analyses *)
From Coq Require Import Ascii String ZArith List Bool Arith Lia.
From Verif Require Import Base DofModel TextModel AsterScriptModel AsterScriptProofs AsterScriptReady AsterScriptAnalysis AsterScriptNames.
Import ListNotations.
Open Scope Z_scope.
Open Scope list_scope.

Definition posty (n : name) : bool := existsb (Nat.eqb (tag n)) POST.

(** ** Layers of composites *)
Definition ldefs (i c l : Z) : list name := [Two CL c l; One LOCXX l; One LOCYY l; One LOCXY l; Three LLOC i c l; One TSAI l; Three LTSAI i c l].
Lemma layer_defs i c l : defs (fst (writeLayer i c l)) = ldefs i c l.
Proof. unfold writeLayer. cbn [fst]. rewrite !defs_app, !defs_cmd. reflexivity. Qed.
Lemma layers_same i c : forall n l, defs (fst (writeLayers i c l n)) = snd (writeLayers i c l n).
Proof. induction n as [|n IH]; intros l; [reflexivity|]. cbn [writeLayers]. rewrite seq_fst, seq_snd, defs_app, layer_defs, IH. reflexivity. Qed.
Lemma composites_same i : forall l c, defs (fst (writeComposites i c l)) = snd (writeComposites i c l).
Proof. induction l as [|n l IH]; intros c; [reflexivity|]. cbn [writeComposites]. now rewrite seq_fst, seq_snd, defs_app, layers_same, IH. Qed.
Definition last_num (n : name) : Z := match n with One _ l | Two _ _ l | Three _ _ _ l => l | _ => 0 end.
Definition layer_tags : list nat := map tag (ldefs 0 0 0).
Lemma ldefs_in i c l n : In n (ldefs i c l) -> last_num n = l /\ In (tag n) layer_tags /\ (0 <= i -> 0 <= c -> 0 <= l -> good n).
Proof. intros H. unfold ldefs in H. cbn in H. repeat (destruct H as [<-|H]; [repeat split; cbn; tauto|]). destruct H. Qed.
Lemma layers_in i c : forall n l x, In x (defs (fst (writeLayers i c l n))) -> l <= last_num x /\ In (tag x) layer_tags /\ (0 <= i -> 0 <= c -> 0 <= l -> good x).
Proof.
  induction n as [|n IH]; intros l x H; [destruct H|]. cbn [writeLayers] in H. rewrite seq_fst, defs_app, layer_defs in H. apply in_app_or in H. destruct H as [H|H].
  - destruct (ldefs_in _ _ _ _ H) as (A & B & C). repeat split; [lia|exact B|exact C].
  - destruct (IH _ _ H) as (A & B & C). repeat split; [lia|exact B|intros; apply C; lia].
Qed.
Lemma layers_nodup i c : forall n l, NoDup (defs (fst (writeLayers i c l n))).
Proof.
  induction n as [|n IH]; intros l; [constructor|]. cbn [writeLayers]. rewrite seq_fst, defs_app, layer_defs. apply NoDup_app3; [now apply tags_nodup|apply IH|].
  intros x X Y. destruct (ldefs_in _ _ _ _ X) as (A & _). destruct (layers_in _ _ _ _ _ Y) as (A' & _). lia.
Qed.
Lemma composites_in i : forall l c x, In x (defs (fst (writeComposites i c l))) -> In (tag x) layer_tags /\ (0 <= i -> 0 <= c -> good x).
Proof.
  induction l as [|n l IH]; intros c x H; [destruct H|]. cbn [writeComposites] in H. rewrite seq_fst, defs_app in H. apply in_app_or in H. destruct H as [H|H].
  - destruct (layers_in _ _ _ _ _ H) as (_ & B & C). split; [exact B|intros; apply C; lia].
  - destruct (IH _ _ H) as (B & C). split; [exact B|intros; apply C; lia].
Qed.
Lemma composites_none i : forall l c, filter (fun n => negb (Nat.eqb n 0)) l = [] -> defs (fst (writeComposites i c l)) = [].
Proof.
  induction l as [|n l IH]; intros c H; [reflexivity|]. cbn [filter] in H. destruct (Nat.eqb_spec n 0) as [->|]; [|discriminate H]. cbn [negb] in H.
  cbn [writeComposites]. rewrite seq_fst, defs_app, (IH _ H). reflexivity.
Qed.
Lemma composites_nodup i : forall l c, (length (filter (fun n => negb (Nat.eqb n 0)) l) <= 1)%nat -> NoDup (defs (fst (writeComposites i c l))).
Proof.
  induction l as [|n l IH]; intros c H; [constructor|]. cbn [filter] in H. cbn [writeComposites]. rewrite seq_fst, defs_app. destruct (Nat.eqb_spec n 0) as [->|N]; cbn [negb] in H.
  - cbn. apply IH, H.
  - cbn [length] in H. rewrite (composites_none i l (c + 1)); [rewrite app_nil_r; apply layers_nodup|]. destruct (filter _ l); [reflexivity|cbn in H; lia].
Qed.
Lemma layer_closed i c l (S : name -> Prop) : S (One RESU i) -> closed S (fst (writeLayer i c l)).
Proof.
  intros H. unfold writeLayer. cbn [fst]. rewrite <- ?app_assoc. do 4 (apply closed_cmd; [each|]). apply closed_cmd; [each|].
  cbn [app]. split; [here|]. apply closed_cmd; [each|]. apply closed_cmd; [each|]. cbn. split; [here|exact I].
Qed.
Lemma layers_closed i c : forall n l (S : name -> Prop), S (One RESU i) -> closed S (fst (writeLayers i c l n)).
Proof.
  induction n as [|n IH]; intros l S H; [exact I|]. cbn [writeLayers]. rewrite seq_fst. apply closed_app; [now apply layer_closed|]. apply IH. now left.
Qed.
Lemma composites_closed i : forall l c (S : name -> Prop), S (One RESU i) -> closed S (fst (writeComposites i c l)).
Proof.
  induction l as [|n l IH]; intros c S H; [exact I|]. cbn [writeComposites]. rewrite seq_fst. apply closed_app; [now apply layers_closed|]. apply IH. now left.
Qed.

(** ** What follows the commands of an analysis *)
Definition endefs (m : model) (a : analysis) : list name :=
  if is_static a then One CRESU (a_id a) :: (if m_beams m then [One TBLO (a_id a); One ULOC (a_id a)] else []) else [].
Lemma en_defs m a : defs (fst (writeEnergy m a)) = endefs m a.
Proof.
  unfold writeEnergy, endefs, when. destruct (is_static a); [|reflexivity]. rewrite !seq_fst. unfold writes, drops. cbn [fst app].
  destruct (m_beams m); rewrite ?seq_fst; cbn [fst nothing]; rewrite ?app_nil_r, !defs_app, !defs_uses, !defs_cmd; reflexivity.
Qed.
Lemma en_drops m a : snd (writeEnergy m a) = endefs m a.
Proof. unfold writeEnergy, endefs, when. destruct (is_static a); [|reflexivity]. destruct (m_beams m); reflexivity. Qed.
Lemma st_defs m a : defs (fst (writeStresses m a)) = [].
Proof.
  unfold writeStresses. rewrite seq_fst, defs_app. assert (X : defs (fst (when (calc_sigm m) (writes (map Use (One RESU (a_id a) :: Modmeca :: material m ++ [Cael]))))) = []).
  { destruct (calc_sigm m); [|reflexivity]. cbn [when writes fst]. apply defs_uses. }
  rewrite X. destruct (a_vm a); cbn [writes fst app]; [reflexivity|]. rewrite defs_flat. induction (List.seq 0 (m_vm m)); [reflexivity|exact IHl].
Qed.
Lemma st_drops m a : snd (writeStresses m a) = [].
Proof. unfold writeStresses. rewrite seq_snd. destruct (calc_sigm m), (a_vm a); reflexivity. Qed.
Lemma ast_defs m a : defs (fst (writeAssertions m a)) = [].
Proof. unfold writeAssertions. cbn [writes fst]. induction (a_asserts a); [reflexivity|exact IHl]. Qed.
Definition imdefs (a : analysis) : list name := [One RETB (a_id a); One UNIT (a_id a)].
Lemma im_defs m a : defs (fst (writeImpr m a)) = imdefs a.
Proof.
  unfold writeImpr. rewrite !seq_fst. unfold writes, drops. cbn [fst]. rewrite !defs_app.
  assert (E1 : forall b : bool, defs (if b then [Use (One RESU (a_id a))] else []) = []) by (intros []; reflexivity).
  assert (E2 : forall (b : bool) l1 l2, defs (if b then cmd (One RETB (a_id a)) l1 ++ [Use (One RETB (a_id a))] else cmd (One RETB (a_id a)) l2) = [One RETB (a_id a)]).
  { intros [] l1 l2; rewrite ?defs_app, defs_cmd; reflexivity. }
  rewrite E2, defs_cmd. destruct (a_kind a), (m_print m), (a_reuse a); reflexivity.
Qed.
Lemma im_drops m a : snd (writeImpr m a) = imdefs a.
Proof. reflexivity. Qed.

Definition postpart (m : model) (a : analysis) : part :=
  writeEnergy m a >> writeStresses m a >> writeComposites (a_id a) 1 (m_composites m) >> writeAssertions m a >> writeImpr m a >>
  when (negb (usedInNext m a) && negb (canBeReused m a)) (drops [One RESU (a_id a)]).
Definition podefs (m : model) (a : analysis) : list name := endefs m a ++ defs (fst (writeComposites (a_id a) 1 (m_composites m))) ++ imdefs a.
Lemma po_defs m a : defs (fst (postpart m a)) = podefs m a.
Proof. unfold postpart, podefs. rewrite !seq_fst, !defs_app, en_defs, st_defs, ast_defs, im_defs, when_drops. cbn [app defs flat_map]. now rewrite app_nil_r. Qed.
Lemma po_drops m a : snd (postpart m a) = podefs m a ++ if negb (usedInNext m a) && negb (canBeReused m a) then [One RESU (a_id a)] else [].
Proof.
  unfold postpart, podefs. rewrite !seq_snd, en_drops, st_drops, composites_same, im_drops. cbn [app writeAssertions writes snd]. rewrite <- !app_assoc.
  destruct (negb (usedInNext m a) && negb (canBeReused m a)); reflexivity.
Qed.
Lemma one_split m a : writeOne m a = (fst (writeAnalysis m a) ++ fst (postpart m a)) ++ map Del (snd (writeAnalysis m a) ++ snd (postpart m a)).
Proof. reflexivity. Qed.
Lemma po_in m a n : ready m -> 0 <= a_id a -> In n (podefs m a) -> good n /\ posty n = true.
Proof.
  intros R P H. unfold podefs in H. rewrite !in_app_iff in H. destruct H as [H|[H|H]].
  - unfold endefs in H. destruct (is_static a); [|destruct H]. destruct (m_beams m); cbn in H; repeat (destruct H as [<-|H]; [split; [exact P|reflexivity]|]); destruct H.
  - destruct (composites_in _ _ _ _ H) as [B C]. split; [apply C; [exact P|lia]|]. unfold posty. apply existsb_exists. exists (tag n). split; [|apply Nat.eqb_refl].
    clear -B. cbn in B |- *. tauto.
  - cbn in H. destruct H as [<-|[<-|[]]]; (split; [exact P|reflexivity]).
Qed.
Lemma po_nodup m a : ready m -> NoDup (podefs m a).
Proof.
  intros R. unfold podefs. assert (T : among layer_tags (defs (fst (writeComposites (a_id a) 1 (m_composites m))))).
  { apply Forall_forall. intros n H. now destruct (composites_in _ _ _ _ H). }
  apply nodup_insert.
  - apply tags_nodup. unfold endefs, imdefs. destruct (is_static a), (m_beams m); reflexivity.
  - apply composites_nodup, (rd_composites _ R).
  - apply (tags_apart _ _ layer_tags); [exact T|]. unfold endefs, imdefs. destruct (is_static a), (m_beams m); reflexivity.
Qed.

(** ** The state between analyses *)
Record inv (m : model) (done : list analysis) (S : name -> Prop) : Prop := {
  inv_base : base m S;
  inv_from : forall n, S n -> (In n (defs (preamble m)) \/ exists q, In q done /\ mine q n) /\ ~ transient n /\ posty n = false /\ good n;
  inv_prev : forall q, In q done -> usedInNext m q = true \/ canBeReused m q = true -> S (One RESU (a_id q));
  inv_kept : forall q, In q done -> canBeReused m q = true -> a_kind q = Modal -> forall x, In x [NDDL; RIGI; MASS; AMOR] -> S (One x (a_id q))
}.

(** ** The names before the analyses *)
Definition early (m : model) (n : name) : Prop :=
  match n with
  | Modmeca | Chmat | Cael => True
  | One p i => match p with LST | FCT => In i (map value_id (m_values m)) | BL | BLF | CN => In i (map cs_id (m_csets m)) | CHMEC | CHMEF => In i (map ls_id (m_lsets m)) | _ => False end
  | Two p i j => match p with GI | GMX | GMY | GMZ => In i (map cs_id (m_csets m)) /\ 1 <= j | _ => False end
  | _ => False
  end.
Definition gap_names (s : Z) (k : Z) (g : bool * bool * bool) : list name := defs (gap_defs s k g).
Lemma gap_in s k g n : In n (defs (gap_defs s k g)) -> exists p, n = Two p s k /\ (p = GI \/ p = GMX \/ p = GMY \/ p = GMZ).
Proof.
  destruct g as [[x y] z]. unfold gap_defs. intros H. destruct x, y; cbn in H; repeat (destruct H as [<-|H]; [eexists; split; [reflexivity|tauto]|]); destruct H.
Qed.
Lemma gap_one_nodup s k g : NoDup (defs (gap_defs s k g)).
Proof. apply tags_nodup. destruct g as [[[] []] z]; reflexivity. Qed.
Lemma gaps_in s : forall l k n, In n (defs (count_parts (gap_defs s) k l)) -> exists p j, n = Two p s j /\ k <= j /\ (p = GI \/ p = GMX \/ p = GMY \/ p = GMZ).
Proof.
  induction l as [|g l IH]; intros k n H; [destruct H|]. cbn [count_parts] in H. rewrite defs_app in H. apply in_app_or in H. destruct H as [H|H].
  - destruct (gap_in _ _ _ _ H) as (p & E & T). exists p, k. repeat split; [exact E|lia|exact T].
  - destruct (IH _ _ H) as (p & j & E & L & T). exists p, j. repeat split; [exact E|lia|exact T].
Qed.
Lemma gaps_nodup s : forall l k, NoDup (defs (count_parts (gap_defs s) k l)).
Proof.
  induction l as [|g l IH]; intros k; [constructor|]. cbn [count_parts]. rewrite defs_app. apply NoDup_app3; [apply gap_one_nodup|apply IH|].
  intros n H H'. destruct (gap_in _ _ _ _ H) as (p & -> & _). destruct (gaps_in _ _ _ _ H') as (p' & j & E & L & _). injection E as _ <-. lia.
Qed.
Lemma uses_defs s : forall l k, defs (count_parts (gap_uses s) k l) = [].
Proof. induction l as [|[[[] []] []] l IH]; intros k; [reflexivity|exact (IH _)..]. Qed.
Lemma contact_defs s : defs (writeContact s) = if cs_empty s || negb (cs_contacts s) then [] else flat_map (fun g => defs (count_parts (gap_defs (cs_id s)) 1 g)) (gaps s) ++ [One CN (cs_id s)].
Proof.
  unfold writeContact. destruct (cs_empty s || negb (cs_contacts s)); [reflexivity|]. rewrite !defs_app, !defs_flat. f_equal.
  assert (X : forall l, flat_map (fun x => defs (count_parts (gap_uses (cs_id s)) 1 x)) l = []) by (induction l as [|g l IH]; [reflexivity|cbn [flat_map]; now rewrite uses_defs]).
  rewrite X. reflexivity.
Qed.
Lemma contact_in s n : In n (defs (writeContact s)) -> n = One CN (cs_id s) \/ exists p j, n = Two p (cs_id s) j /\ 1 <= j /\ (p = GI \/ p = GMX \/ p = GMY \/ p = GMZ).
Proof.
  rewrite contact_defs. destruct (cs_empty s || negb (cs_contacts s)); [intros []|]. rewrite in_app_iff. intros [H|[<-|[]]]; [|now left]. right.
  apply in_flat_map in H. destruct H as (g & _ & H). exact (gaps_in _ _ _ _ H).
Qed.
Lemma pre_name m n : In n (defs (preamble m)) -> early m n.
Proof.
  rewrite pre_defs, !in_app_iff. intros [[<-|[]]|[H|[H|[H|[H|[H|H]]]]]].
  - exact I.
  - apply in_flat_map in H. destruct H as (v & V & H). apply (in_map value_id) in V. destruct v as [i []|i [] []|i|i]; cbn in H; try (destruct H; fail); destruct H as [<-|[]]; exact V.
  - destruct (m_materials m); [|destruct H]. destruct H as [<-|[]]. exact I.
  - destruct (m_elements m); [|destruct H]. destruct H as [<-|[]]. exact I.
  - apply in_flat_map in H. destruct H as (s & V & H). apply (in_map cs_id) in V. unfold writeConstraints, plain_name in H. destruct (cs_written s); [|destruct H].
    rewrite defs_cmd in H. destruct H as [<-|[]]. destruct (cs_functions s); exact V.
  - apply in_flat_map in H. destruct H as (s & V & H). apply (in_map ls_id) in V. unfold writeLoads, load_name in H. destruct (ls_written s); [|destruct H].
    rewrite defs_cmd in H. destruct H as [<-|[]]. destruct (ls_functions s); exact V.
  - apply in_flat_map in H. destruct H as (s & V & H). apply (in_map cs_id) in V. destruct (contact_in _ _ H) as [->|(p & j & -> & L & T)]; [exact V|].
    cbn. repeat (destruct T as [->|T]; [split; assumption|]). subst p. split; assumption.
Qed.
Section Early.
  Context (m : model) (R : ready m).
  Lemma positive i : In i (map a_id (m_analyses m) ++ map cs_id (m_csets m) ++ map ls_id (m_lsets m) ++ map value_id (m_values m) ++ flat_map step_value (m_analyses m)) -> 0 <= i.
  Proof. intros H. pose proof (rd_positive _ R) as F. rewrite Forall_forall in F. now apply F. Qed.
  Lemma early_good n : early m n -> good n /\ ~ transient n /\ posty n = false.
  Proof.
    intros E. destruct n as [| | | |i| |p i|p i j|p i j k]; cbn [early] in E; try (exfalso; exact E).
    - repeat split; auto.
    - repeat split; auto.
    - repeat split; auto.
    - assert (0 <= i) as G by (apply positive; rewrite !in_app_iff; destruct p; try (exfalso; exact E); tauto).
      destruct p; try (exfalso; exact E); (split; [exact G|split; [exact (fun x => x)|reflexivity]]).
    - assert (0 <= i /\ 1 <= j) as G by (destruct p; try (exfalso; exact E); (split; [apply positive; rewrite !in_app_iff; tauto|tauto])).
      destruct p; try (exfalso; exact E); (split; [split; lia|split; [exact (fun x => x)|reflexivity]]).
  Qed.
  Lemma early_not_mine n a : early m n -> In a (m_analyses m) -> ~ mine a n.
  Proof.
    intros E I M. destruct n as [| | | |i| |p i|p i j|p i j k]; cbn [early] in E; try (exfalso; exact E); cbn [mine] in M; try (exfalso; exact M).
    - destruct p; try (exfalso; exact E); cbn [analysis_prefix] in M; destruct M as [X M]; try discriminate X.
      pose proof (rd_values _ R) as N. assert (In i (flat_map step_value (m_analyses m))) as Y by (apply in_flat_map; now exists a).
      clear -N E Y. induction (map value_id (m_values m)) as [|v l IH]; [destruct E|]. cbn in N. inversion N as [|? ? N1 N2]; subst. destruct E as [->|E].
      + apply N1, in_or_app. now right.
      + now apply IH.
    - destruct p; try (exfalso; exact E); exact M.
  Qed.
  Lemma mine_apart done a rest q n : m_analyses m = done ++ a :: rest -> In q done -> mine q n -> mine a n -> False.
  Proof.
    intros E Q M M'. assert (D : a_id q <> a_id a).
    { pose proof (rd_analyses _ R) as N. rewrite E, map_app in N. intros X. clear -N Q X. apply in_split in Q. destruct Q as (l1 & l2 & ->).
      rewrite map_app, <- app_assoc in N. cbn [map] in N. apply NoDup_remove_2 in N. apply N. rewrite !in_app_iff. right. right. rewrite X. now left. }
    destruct n as [| | | |i| |p i|p i j|p i j k]; cbn [mine] in M, M'; try (exfalso; exact M); [| |congruence].
    - destruct (analysis_prefix p); [congruence|]. destruct M as [_ M]. destruct M' as [_ M'].
      pose proof (rd_values _ R) as N. rewrite E, flat_map_app in N. clear -N Q M M'.
      apply in_split in Q. destruct Q as (l1 & l2 & ->). rewrite flat_map_app, <- !app_assoc in N. cbn [flat_map] in N.
      apply in_split in M. destruct M as (u & v & M). rewrite M in N. rewrite <- !app_assoc in N. cbn [app] in N. rewrite 2!app_assoc in N. apply NoDup_remove_2 in N.
      apply N. rewrite !in_app_iff. right. right. right. left. exact M'.
    - destruct p; try (exfalso; exact M); congruence.
  Qed.
  Lemma pre_nodup : NoDup (defs (preamble m)).
  Proof.
    rewrite pre_defs.
    assert (J : forall ks1 ks2 l1 l2, among ks1 l1 -> among ks2 l2 -> forallb (fun k => negb (existsb (Nat.eqb k) ks2)) ks1 = true -> NoDup l1 -> NoDup l2 -> NoDup (l1 ++ l2) /\ among (ks1 ++ ks2) (l1 ++ l2)).
    { intros ks1 ks2 l1 l2 A1 A2 F N1 N2. unfold among in *. split.
      - apply NoDup_app3; [exact N1|exact N2|]. intros n H1 H2. rewrite Forall_forall in A1, A2. rewrite forallb_forall in F. specialize (F _ (A1 n H1)).
        apply negb_true_iff in F. rewrite <- not_true_iff_false in F. apply F, existsb_exists. exists (tag n). split; [apply A2, H2|apply Nat.eqb_refl].
      - apply Forall_app. split; (eapply Forall_impl; [|eassumption]); cbn; intros n H; rewrite in_app_iff; tauto. }
    assert (C6 : NoDup (flat_map (fun s => defs (writeContact s)) (m_csets m)) /\ among [56; 68; 69; 70; 71]%nat (flat_map (fun s => defs (writeContact s)) (m_csets m))).
    { split.
      - apply (NoDup_flat cs_id); [exact (rd_csets _ R)| |].
        + intros s I. rewrite contact_defs. destruct (cs_empty s || negb (cs_contacts s)); [constructor|]. pose proof (rd_gaps _ R) as G. rewrite Forall_forall in G. destruct (G s I) as [G1 _].
          apply NoDup_app3; [|repeat constructor; intros []|].
          * destruct (gaps s) as [|g [|g' l]]; [constructor| |cbn in G1; lia]. cbn [flat_map]. rewrite app_nil_r. apply gaps_nodup.
          * intros n H [<-|[]]. apply in_flat_map in H. destruct H as (g & _ & H). destruct (gaps_in _ _ _ _ H) as (p & j & X & _). discriminate X.
        + intros s s' n _ _ H H'. destruct (contact_in _ _ H) as [->|(p & j & -> & _)]; destruct (contact_in _ _ H') as [X|(p' & j' & X & _)]; try discriminate X; injection X; congruence.
      - apply Forall_forall. intros n H. apply in_flat_map in H. destruct H as (s & _ & H). destruct (contact_in _ _ H) as [->|(p & j & -> & _ & T)]; [cbn; tauto|].
        destruct T as [->|[->|[->| ->]]]; cbn; tauto. }
    assert (C5 : NoDup (flat_map (fun s => defs (writeLoads s)) (m_lsets m)) /\ among [57; 58]%nat (flat_map (fun s => defs (writeLoads s)) (m_lsets m))).
    { assert (X : forall s n, In n (defs (writeLoads s)) -> n = load_name s).
      { intros s n H. unfold writeLoads in H. destruct (ls_written s); [|destruct H]. rewrite defs_cmd in H. now destruct H as [<-|[]]. }
      split.
      - apply (NoDup_flat ls_id); [exact (rd_lsets _ R)| |].
        + intros s _. unfold writeLoads. destruct (ls_written s); [rewrite defs_cmd; repeat constructor; intros []|constructor].
        + intros s s' n _ _ H H'. apply X in H, H'. subst n. unfold load_name in H'. destruct (ls_functions s), (ls_functions s'); congruence.
      - apply Forall_forall. intros n H. apply in_flat_map in H. destruct H as (s & _ & H). apply X in H. subst n. unfold load_name. destruct (ls_functions s); cbn; tauto. }
    assert (C4 : NoDup (flat_map (fun s => defs (writeConstraints s)) (m_csets m)) /\ among [54; 55]%nat (flat_map (fun s => defs (writeConstraints s)) (m_csets m))).
    { assert (X : forall s n, In n (defs (writeConstraints s)) -> n = plain_name s).
      { intros s n H. unfold writeConstraints in H. destruct (cs_written s); [|destruct H]. rewrite defs_cmd in H. now destruct H as [<-|[]]. }
      split.
      - apply (NoDup_flat cs_id); [exact (rd_csets _ R)| |].
        + intros s _. unfold writeConstraints. destruct (cs_written s); [rewrite defs_cmd; repeat constructor; intros []|constructor].
        + intros s s' n _ _ H H'. apply X in H, H'. subst n. unfold plain_name in H'. destruct (cs_functions s), (cs_functions s'); congruence.
      - apply Forall_forall. intros n H. apply in_flat_map in H. destruct H as (s & _ & H). apply X in H. subst n. unfold plain_name. destruct (cs_functions s); cbn; tauto. }
    assert (C1 : NoDup (flat_map (fun v => defs (fst (writeValue v))) (m_values m)) /\ among [52; 53]%nat (flat_map (fun v => defs (fst (writeValue v))) (m_values m))).
    { assert (X : forall v n, In n (defs (fst (writeValue v))) -> n = One LST (value_id v) \/ n = One FCT (value_id v)).
      { intros [i []|i [] []|i|i] n H; cbn in H; try (destruct H; fail); destruct H as [<-|[]]; auto. }
      split.
      - apply (NoDup_flat value_id).
        + pose proof (rd_values _ R) as N. clear -N. induction (map value_id (m_values m)) as [|x l IH]; [constructor|]. cbn in N. inversion N as [|? ? N1 N2]; subst.
          constructor; [|now apply IH]. intros H. apply N1, in_or_app. now left.
        + intros v _. apply tags_nodup. destruct v as [i []|i [] []|i|i]; reflexivity.
        + intros s s' n _ _ H H'. destruct (X _ _ H) as [-> | ->]; destruct (X _ _ H') as [Y|Y]; congruence.
      - apply Forall_forall. intros n H. apply in_flat_map in H. destruct H as (s & _ & H). destruct (X _ _ H) as [-> | ->]; cbn; tauto. }
    assert (C2 : NoDup (if m_materials m then [Chmat] else []) /\ among [1%nat] (if m_materials m then [Chmat] else [])).
    { destruct (m_materials m); (split; [apply tags_nodup; reflexivity|repeat constructor]). }
    assert (C3 : NoDup (if m_elements m then [Cael] else []) /\ among [2%nat] (if m_elements m then [Cael] else [])).
    { destruct (m_elements m); (split; [apply tags_nodup; reflexivity|repeat constructor]). }
    destruct (J _ _ _ _ (proj2 C5) (proj2 C6) eq_refl (proj1 C5) (proj1 C6)) as [N5 A5].
    destruct (J _ _ _ _ (proj2 C4) A5 eq_refl (proj1 C4) N5) as [N4 A4].
    destruct (J _ _ _ _ (proj2 C3) A4 eq_refl (proj1 C3) N4) as [N3 A3].
    destruct (J _ _ _ _ (proj2 C2) A3 eq_refl (proj1 C2) N3) as [N2 A2].
    destruct (J _ _ _ _ (proj2 C1) A2 eq_refl (proj1 C1) N2) as [N1 A1].
    assert (A0 : among [0%nat] [Modmeca]) by (repeat constructor).
    destruct (J _ _ _ _ A0 A1 eq_refl ltac:(repeat constructor; intros []) N1) as [N0 _]. exact N0.
  Qed.
  Lemma gap_uses_closed s : forall l k (S : name -> Prop), (forall x y z, In (x, y, z) l -> z = true -> y = true) -> (forall n, In n (defs (count_parts (gap_defs s) k l)) -> S n) -> closed S (count_parts (gap_uses s) k l).
  Proof.
    induction l as [|[[x y] z] l IH]; intros k S G H; [exact I|]. cbn [count_parts] in *. apply closed_app.
    - assert (Q : forall n, In n (defs (gap_defs s k (x, y, z))) -> S n) by (intros n N; apply H; rewrite defs_app, in_app_iff; now left).
      pose proof (G x y z ltac:(now left)) as GZ. destruct x, y, z; cbn; repeat split; try (apply Q; cbn; tauto); exfalso; discriminate (GZ eq_refl).
    - apply (closed_mono _ S); [intros n N; now left|]. apply IH; [intros; eapply G; [right; eassumption|assumption]|]. intros n N. apply H. rewrite defs_app, in_app_iff. now right.
  Qed.
  Lemma only_defs : forall l (S : name -> Prop), (forall e, In e l -> exists n, e = Def n) -> closed S l.
  Proof.
    induction l as [|e l IH]; intros S H; [exact I|]. destruct (H e (or_introl eq_refl)) as (n & ->). cbn. apply IH. intros e E. apply H. now right.
  Qed.
  Lemma gap_defs_only s : forall l k e, In e (count_parts (gap_defs s) k l) -> exists n, e = Def n.
  Proof.
    induction l as [|[[x y] z] l IH]; intros k e H; [destruct H|]. cbn [count_parts] in H. apply in_app_or in H. destruct H as [H|H]; [|exact (IH _ _ H)].
    destruct x, y; cbn in H; repeat (destruct H as [<-|H]; [eexists; reflexivity|]); destruct H.
  Qed.
  Lemma pre_closed : closed (fun _ => False) (preamble m).
  Proof.
    unfold preamble. cbn [app closed]. set (S0 := add Modmeca (fun _ => False)). assert (M0 : S0 Modmeca) by (now left).
    assert (K : forall r (S : name -> Prop) l, S Modmeca -> closed S l -> (forall S' : name -> Prop, S' Modmeca -> closed S' r) -> closed S (l ++ r)).
    { intros r S l HM HL HR. apply closed_app; [exact HL|]. apply HR. now left. }
    apply K; [exact M0| |intros S1 M1; apply K; [exact M1| |intros S2 M2; apply K; [exact M2| |intros S3 M3; apply K; [exact M3| |intros S4 M4; apply K; [exact M4| |intros S5 M5]]]]].
    - apply closed_flat. intros v _. destruct v as [i []|i [] []|i|i]; exact I.
    - destruct (m_materials m); exact I.
    - destruct (m_elements m); [|exact I]. apply closed_cmd'. now constructor.
    - apply closed_flat. intros s _. unfold writeConstraints. destruct (cs_written s); [|exact I]. apply closed_cmd'. now constructor.
    - apply closed_flat. intros s _. unfold writeLoads. destruct (ls_written s); [|exact I]. apply closed_cmd'. now constructor.
    - apply closed_flat. intros s I. unfold writeContact. destruct (cs_empty s || negb (cs_contacts s)); [exact Logic.I|]. pose proof (rd_gaps _ R) as G. rewrite Forall_forall in G. destruct (G s I) as [_ G2].
      apply closed_app; [apply only_defs; intros e E; apply in_flat_map in E; destruct E as (g & _ & E); exact (gap_defs_only _ _ _ _ E)|].
      cbn [app closed]. split; [now left|]. apply closed_app; [|exact Logic.I]. apply closed_flat. intros g GI. apply gap_uses_closed.
      + intros x y z H Z. exact (G2 g x y z GI H Z).
      + intros n H. right. rewrite defs_flat. apply in_flat_map. now exists g.
  Qed.
  Lemma pre_valid : validN good (fun _ => False) (preamble m) /\ inv m [] (after (fun _ => False) (preamble m)).
  Proof.
    assert (BA := body_after _ _ pre_closed). split.
    - apply body_valid; [exact pre_closed|exact pre_nodup|]. intros n H. split; [exact (fun x => x)|]. now apply early_good, pre_name.
    - constructor.
      + intros n H. apply BA. now right.
      + intros n H. apply BA in H. destruct H as [[]|H]. destruct (early_good n (pre_name _ _ H)) as (G & T & P). repeat split; [now left|exact T|exact P|exact G].
      + intros q [].
      + intros q [].
  Qed.
End Early.

(** ** One analysis keeps the state *)
Section One.
  Context (m : model) (R : ready m) (done : list analysis) (a : analysis) (rest : list analysis) (E : m_analyses m = done ++ a :: rest).
  Context (S : name -> Prop) (V : inv m done S).
  Lemma here_in : In a (m_analyses m).
  Proof. rewrite E. apply in_or_app. right. now left. Qed.
  Lemma id_pos : 0 <= a_id a.
  Proof. apply (positive m R). rewrite !in_app_iff. left. apply in_map, here_in. Qed.
  Lemma main_here : main_ok m a S (writeAnalysis m a).
  Proof.
    pose proof (rd_each _ R done a rest E) as A. pose proof id_pos as P. pose proof (inv_base _ _ _ V) as B. pose proof (inv_prev _ _ _ V) as Prev. pose proof (inv_kept _ _ _ V) as Kept.
    assert (Sp : exists rest, m_analyses m = done ++ a :: rest) by (now exists rest).
    destruct (a_kind a) as [subs| |p v|s f| | |r d f|s] eqn:K.
    - now apply (combination_ok m S B R done a A P Prev Sp subs).
    - now apply (static_ok m S B R done a A P).
    - now apply (nonlinear_ok m S B R done a A P Prev Sp p v).
    - now apply (direct_ok m S B R done a A P s f).
    - now apply (modal_ok m S B R done a A P).
    - exfalso. destruct A as (_ & _ & _ & _ & _ & KR). unfold kind_ready in KR. now rewrite K in KR.
    - now apply (modalfreq_ok m S B R done a A P Prev Kept Sp r d f).
    - now apply (buckling_ok m S B R done a A P Prev Sp s).
  Qed.
  Let S1 := fun n => S n \/ In n (defs (fst (writeAnalysis m a))).
  Lemma resu_here : S1 (One RESU (a_id a)).
  Proof. right. exact (proj1 (mo_resu _ _ _ _ main_here)). Qed.
  Lemma old n : S n -> S1 n. Proof. now left. Qed.
  Lemma post_closed : closed S1 (fst (postpart m a)).
  Proof.
    pose proof (inv_base _ _ _ V) as B. pose proof resu_here as HR.
    assert (M : S1 Modmeca) by (apply old; now apply (pre_modmeca m S B)). assert (C : S1 Cael) by (apply old; now apply (pre_cael m S B R)).
    assert (MT : Forall S1 (material m)) by (apply (Forall_weak S); [exact old|now apply pre_material]).
    destruct (rd_each _ R done a rest E) as (_ & _ & OUT & AS & RE & KR).
    unfold postpart. rewrite !seq_fst. apply closed_app.
    { unfold writeEnergy, when. destruct (is_static a); [|exact I]. rewrite !seq_fst. unfold writes, drops. cbn [fst app]. rewrite <- !app_assoc.
      apply closed_app; [apply closed_uses'; each; exact MT|]. rewrite ?app_assoc, <- ?app_assoc. apply closed_cmd; [constructor; [now left|constructor]|]. cbn [app]. split; [now left|].
      destruct (m_beams m); [|exact I]. rewrite !seq_fst. cbn [fst]. rewrite app_nil_r. apply closed_cmd; [constructor; [right; now left|constructor]|]. apply closed_cmd; [constructor|].
      apply closed_uses'. each. }
    assert (W : forall n, S1 n -> S1 n \/ In n (defs (fst (writeEnergy m a)))) by (intros; now left).
    apply (closed_mono _ S1); [exact W|]. clear W. apply closed_app.
    { unfold writeStresses. rewrite seq_fst. apply closed_app.
      - destruct (calc_sigm m); [|exact I]. cbn [when writes fst]. apply closed_uses'. each. exact MT.
      - apply (closed_mono _ S1); [intros; now left|]. destruct (a_vm a); cbn [writes fst]; [apply closed_uses'; each|]. apply closed_flat. intros _ _. apply closed_uses'; each. }
    apply (closed_mono _ S1); [intros; now left|]. apply closed_app; [now apply composites_closed|].
    apply (closed_mono _ S1); [intros; now left|]. apply closed_app.
    { unfold writeAssertions. cbn [writes fst]. assert (AN : forall f, In f (a_asserts a) -> S1 (assertion_name m a f)).
      { intros f F. unfold assertion_name. destruct f; [|exact HR]. specialize (AS F). destruct (a_kind a) eqn:K; try (exfalso; exact AS).
        - rewrite RE. exact HR.
        - unfold kind_ready in KR. rewrite K in KR. destruct (a_reuse a) as [b|] eqn:RU.
          + destruct KR as ((q & Q & <- & QK) & _). rewrite (find_done m R done a ltac:(now exists rest) _ q Q eq_refl), QK. apply old. apply (inv_prev _ _ _ V q Q). right.
            apply (reuse_kept m R done a ltac:(now exists rest) q Q RU).
          + pose proof (mo_modes _ _ _ _ main_here) as MM. rewrite K in MM. right. exact (proj2 (MM RU)).
        - rewrite RE. exact HR. }
      revert AN. induction (a_asserts a) as [|f l IH]; intros AN; [exact I|]. cbn [map closed]. split; [apply AN; now left|]. apply IH; [intros; apply AS; now right|intros; apply AN; now right]. }
    apply (closed_mono _ S1); [intros; now left|]. rewrite when_drops, app_nil_r. unfold writeImpr. rewrite !seq_fst. unfold writes, drops. cbn [fst]. rewrite app_nil_r.
    assert (MOH : match a_kind a with ModalFreq _ _ _ => a_reuse a = None -> S1 (One MO (a_id a)) | _ => True end).
    { pose proof (mo_modes _ _ _ _ main_here) as MM. destruct (a_kind a); try exact I. intros N. right. exact (proj1 (MM N)). }
    apply closed_app; [destruct (a_kind a), (m_print m); cbn; tauto|]. apply (closed_mono _ S1); [intros; now left|].
    apply closed_app; [destruct (a_kind a), (a_reuse a); cbn; tauto|]. apply (closed_mono _ S1); [intros; now left|].
    assert (LS : Forall S1 (map (One LST) (a_outputs a))).
    { apply Forall_forall. intros n H. apply in_map_iff in H. destruct H as (o & <- & H). apply old. apply (pre_list m S B). now apply OUT. }
    apply closed_app.
    { destruct (a_disp a).
      - apply closed_cmd; [constructor; [exact HR|exact LS]|]. cbn. split; [now left|exact I].
      - apply closed_cmd'. destruct (a_kind a), (a_reuse a); first [apply Forall_nil|apply Forall_cons; [first [exact HR|now apply MOH]|apply Forall_nil]]. }
    apply closed_cmd; [constructor|]. cbn [map closed]. repeat split; [|now left]. right. right.
    destruct (a_disp a); rewrite ?defs_app, defs_cmd, ?in_app_iff; cbn; tauto.
  Qed.
  Lemma transient_fresh n : transient n -> ~ S n.
  Proof. intros T H. now destruct (inv_from _ _ _ V n H) as (_ & X & _). Qed.
  Lemma mine_fresh n : mine a n -> ~ S n.
  Proof.
    intros M H. destruct (inv_from _ _ _ V n H) as ([X|(q & Q & X)] & _).
    - exact (early_not_mine m R n a (pre_name _ _ X) here_in M).
    - exact (mine_apart m R done a rest q n E Q X M).
  Qed.
  Lemma main_fresh n : In n (defs (fst (writeAnalysis m a))) -> ~ S n.
  Proof. intros H. destruct (mo_mine _ _ _ _ main_here n H) as ([X|[X _]] & _); [now apply mine_fresh|now apply transient_fresh]. Qed.
  Lemma post_fresh n : In n (podefs m a) -> ~ S1 n.
  Proof.
    intros H. destruct (po_in m a n R id_pos H) as [_ T]. intros [X|X].
    - destruct (inv_from _ _ _ V n X) as (_ & _ & Y & _). congruence.
    - destruct (mo_mine _ _ _ _ main_here n X) as (_ & _ & Y). unfold posty in T. congruence.
  Qed.
  Let D := snd (writeAnalysis m a) ++ snd (postpart m a).
  Lemma one_unit : validN good S (writeOne m a) /\ forall n, after S (writeOne m a) n <-> (S n \/ In n (defs (fst (writeAnalysis m a)) ++ podefs m a)) /\ ~ In n D.
  Proof.
    rewrite one_split. pose proof main_here as MH. rewrite <- po_defs, <- defs_app. apply unit_valid.
    - apply closed_app; [apply MH|exact post_closed].
    - rewrite defs_app, po_defs. apply NoDup_app3; [apply MH|now apply po_nodup|]. intros n H H'. apply (post_fresh n H'). now right.
    - intros n H. rewrite defs_app, po_defs in H. apply in_app_or in H. destruct H as [H|H].
      + split; [now apply main_fresh|]. now destruct (mo_mine _ _ _ _ MH n H) as (_ & G & _).
      + split; [intros X; apply (post_fresh n H); now left|]. now destruct (po_in m a n R id_pos H).
    - try unfold D. rewrite po_drops. apply NoDup_app3; [apply MH| |].
      + apply NoDup_app3; [now apply po_nodup| |].
        * destruct (_ && _); repeat constructor. intros [].
        * intros n H X. destruct (_ && _); [|destruct X]. destruct X as [<-|[]]. apply (post_fresh _ H). exact resu_here.
      + intros n H X. apply in_app_or in X. destruct X as [X|X].
        * apply (post_fresh _ X). right. now apply (mo_incl _ _ _ _ MH).
        * destruct (_ && _); [|destruct X]. destruct X as [<-|[]]. exact (proj2 (mo_resu _ _ _ _ MH) H).
    - intros n H. rewrite defs_app, po_defs, in_app_iff. try unfold D in H. rewrite po_drops, !in_app_iff in H. destruct H as [H|[H|H]].
      + left. now apply (mo_incl _ _ _ _ MH).
      + now right.
      + destruct (_ && _); [|destruct H]. destruct H as [<-|[]]. left. exact (proj1 (mo_resu _ _ _ _ MH)).
  Qed.
  Lemma drop_fresh n : In n D -> ~ S n.
  Proof.
    intros H. unfold D in H. rewrite po_drops, !in_app_iff in H. destruct H as [H|[H|H]].
    - apply main_fresh. now apply (mo_incl _ _ _ _ main_here).
    - intros X. apply (post_fresh _ H). now left.
    - destruct (_ && _); [|destruct H]. destruct H as [<-|[]]. apply main_fresh. exact (proj1 (mo_resu _ _ _ _ main_here)).
  Qed.
  Lemma one_inv : inv m (done ++ [a]) (after S (writeOne m a)).
  Proof.
    pose proof (proj2 one_unit) as AF. pose proof main_here as MH.
    assert (KS : forall n, S n -> after S (writeOne m a) n) by (intros n H; apply AF; split; [now left|intros X; exact (drop_fresh n X H)]).
    assert (KM : forall n, In n (defs (fst (writeAnalysis m a))) -> ~ In n (snd (writeAnalysis m a)) -> (n = One RESU (a_id a) -> usedInNext m a = true \/ canBeReused m a = true) -> after S (writeOne m a) n).
    { intros n H ND HRS. apply AF. split; [right; apply in_or_app; now left|]. intros X. unfold D in X. rewrite po_drops, !in_app_iff in X. destruct X as [X|[X|X]]; [exact (ND X)| |].
      - apply (post_fresh _ X). now right.
      - destruct (negb (usedInNext m a) && negb (canBeReused m a)) eqn:Q; [|destruct X]. destruct X as [<-|[]]. apply andb_true_iff in Q. rewrite !negb_true_iff in Q. destruct (HRS eq_refl); destruct Q; congruence. }
    constructor.
    - intros n H. apply KS. now apply (inv_base _ _ _ V).
    - intros n H. apply AF in H. destruct H as [[H|H] ND].
      + destruct (inv_from _ _ _ V n H) as ([X|(q & Q & X)] & T & PO & G); (split; [|repeat split; assumption]); [now left|]. right. exists q. split; [apply in_or_app; now left|exact X].
      + apply in_app_or in H. destruct H as [H|H].
        * destruct (mo_mine _ _ _ _ MH n H) as ([X|[_ X]] & G & PO).
          -- repeat split; [right; exists a; split; [apply in_or_app; right; now left|exact X]| |exact PO|exact G]. clear -X. destruct n as [| | | |i| |p i|p i j|p i j k]; cbn in *; auto; destruct p; cbn in *; auto; destruct X; discriminate.
          -- exfalso. apply ND. unfold D. apply in_or_app. now left.
        * exfalso. apply ND. unfold D. rewrite po_drops, !in_app_iff. right. now left.
    - intros q Q U. apply in_app_or in Q. destruct Q as [Q|[<-|[]]]; [apply KS; now apply (inv_prev _ _ _ V)|]. apply KM; [exact (proj1 (mo_resu _ _ _ _ MH))|exact (proj2 (mo_resu _ _ _ _ MH))|auto].
    - intros q Q U K x X. apply in_app_or in Q. destruct Q as [Q|[<-|[]]]; [apply KS; now apply (inv_kept _ _ _ V)|].
      destruct (mo_kept _ _ _ _ MH U K x X) as [X1 X2]. apply KM; [exact X1|exact X2|auto].
  Qed.
End One.

Lemma analyses_valid m (R : ready m) : forall rest done (S : name -> Prop), m_analyses m = done ++ rest -> inv m done S -> validN good S (flat_map (writeOne m) rest).
Proof.
  induction rest as [|a rest IH]; intros done S E V; [exact I|]. cbn [flat_map]. apply valid_app; [exact (proj1 (one_unit m R done a rest E S V))|].
  apply (IH (done ++ [a])); [rewrite <- app_assoc; exact E|]. now apply (one_inv m R done a rest E S V).
Qed.
Theorem comm_accepted m : ready m -> accepted (writeComm m).
Proof.
  intros R. assert (V : validN good (fun _ => False) (writeComm m)).
  { destruct (pre_valid m R) as [V1 V2]. apply valid_app; [exact V1|]. now apply (analyses_valid m R (m_analyses m) []). }
  intros before e rest E. assert (Sm : same (fun _ => False) []) by (split; [intros n []|intros t []]).
  pose proof (valid_accepted _ _ _ Sm V before e rest E) as H. destruct e; exact H.
Qed.
