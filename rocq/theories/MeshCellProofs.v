(** Lemmas about the cell storage. *)
From Coq Require Import ZArith List Bool Lia.
From Verif Require Import Base ZMap MeshNodeModel MeshNodeProofs MeshCellModel.
Import ListNotations.
Open Scope Z_scope.
Local Opaque AUTO_ID UNAVAILABLE_INT UNAVAILABLE_NODE.

Lemma mapM_nth {A B} (f : A -> outcome B) l r : mapM f l = Ok r ->
  length r = length l /\ forall i a, nth_error l i = Some a -> exists b, nth_error r i = Some b /\ f a = Ok b.
Proof.
  revert r. induction l as [|a l IH]; intros r; cbn.
  - intros H. inversion H; subst. split; [reflexivity|]. intros [|i]; discriminate.
  - destruct (f a) as [b| | |] eqn:E; cbn; try discriminate.
    destruct (mapM f l) as [bs| | |] eqn:E2; cbn; try discriminate.
    intros H. inversion H; subst. destruct (IH _ eq_refl) as [L N]. split; [cbn; congruence|].
    intros [|i] a' Ha; cbn in *; [inversion Ha; subst; eauto|eauto].
Qed.

Lemma mapM_ext {A B} (f g : A -> outcome B) l r : mapM f l = Ok r ->
  (forall a b, In a l -> f a = Ok b -> g a = Ok b) -> mapM g l = Ok r.
Proof.
  revert r. induction l as [|a l IH]; intros r; cbn; [auto|].
  destruct (f a) as [b| | |] eqn:E; cbn; try discriminate.
  destruct (mapM f l) as [bs| | |] eqn:E2; cbn; try discriminate.
  intros H Hg. rewrite (Hg a b) by auto. cbn. rewrite (IH bs eq_refl) by auto. exact H.
Qed.

Lemma mapM_total {A B} (f : A -> outcome B) l : (forall a, In a l -> exists b, f a = Ok b) ->
  exists r, mapM f l = Ok r.
Proof.
  induction l as [|a l IH]; intros H; cbn; [eauto|].
  destruct (H a (or_introl eq_refl)) as [b ->]. cbn. destruct IH as [r ->]; [intros x Hx; apply H; now right|].
  cbn. eauto.
Qed.

Lemma slice_app {A} (l l' : list A) i n r : slice l i n = Some r -> slice (l ++ l') i n = Some r.
Proof.
  unfold slice. destruct (Nat.leb_spec (i + n) (length l)); [|discriminate]. intros E. inversion E; subst.
  rewrite app_length. destruct (Nat.leb_spec (i + n) (length l + length l')); [|lia]. f_equal.
  rewrite skipn_app, firstn_app. rewrite skipn_length.
  replace (n - (length l - i))%nat with 0%nat by lia. cbn. now rewrite app_nil_r.
Qed.

Lemma slice_last {A} (l l' : list A) : slice (l ++ l') (length l) (length l') = Some l'.
Proof.
  unfold slice. rewrite app_length, Nat.leb_refl. f_equal.
  rewrite skipn_app, skipn_all2 by lia. rewrite Nat.sub_diag. cbn. now rewrite firstn_all.
Qed.

Lemma slice_in {A} (l : list A) i n r a : slice l i n = Some r -> In a r -> In a l.
Proof.
  unfold slice. destruct (Nat.leb (i + n) (length l)); [|discriminate]. intros E Ha. inversion E; subst.
  rewrite <- (firstn_skipn i l). apply in_or_app. right.
  rewrite <- (firstn_skipn n (skipn i l)). apply in_or_app. now left.
Qed.

Lemma slice_some {A} (l : list A) i n : (i + n <= length l)%nat -> exists r, slice l i n = Some r /\ length r = n.
Proof.
  intros H. unfold slice. destruct (Nat.leb_spec (i + n) (length l)); [|lia]. eexists. split; [reflexivity|].
  rewrite firstn_length, skipn_length. lia.
Qed.

Section Proofs.
Context {D : Type} (RESERVED zero : D).
Notation nodes := (nodes D).
Notation mesh := (mesh D).
Notation reserve_all := (reserve_all RESERVED).
Notation addCell := (addCell RESERVED zero).
Notation mstep := (mstep RESERVED zero).
Notation mrun := (mrun RESERVED zero).
Implicit Types (m : mesh) (s : nodes).

(** Node identities only grow. *)
Definition nle s s' : Prop := ninv s' /\ forall p id, findNodeId s p = Ok id -> findNodeId s' p = Ok id.

Lemma nle_of_pos s s' : ninv s -> ninv s' ->
  (forall j p, findNodePosition s j = Some p -> findNodePosition s' j = Some p) -> nle s s'.
Proof.
  intros I I' H. split; [exact I'|]. intros p id. unfold findNodeId.
  destruct (nth_error (ndatas s) p) as [d|] eqn:E; [|discriminate]. intros X. injection X as <-.
  assert (P : findNodePosition s (nd_id d) = Some p) by (apply (proj2 I); eauto).
  apply H in P. apply (proj2 I') in P. destruct P as (d' & E1 & E2). now rewrite E1, E2.
Qed.

Lemma nle_trans s1 s2 s3 : nle s1 s2 -> nle s2 s3 -> nle s1 s3.
Proof. intros [_ A] [I B]. split; auto. Qed.

Lemma reserve_all_spec ids : forall s part, ninv s -> (forall i, In i ids -> i <> AUTO_ID) ->
  exists s' ps, reserve_all s ids part = Ok (s', ps) /\ nle s s' /\ length ps = length ids /\
    mapM (findNodeId s') ps = Ok ids /\
    (forall j p, findNodePosition s j = Some p -> findNodePosition s' j = Some p).
Proof.
  induction ids as [|i ids IH]; intros s part I Hids; cbn.
  - exists s, []. repeat split; auto; try apply I.
  - destruct (use_spec RESERVED s i part I (Hids i (or_introl eq_refl))) as (s1 & p & H1 & H2 & H3 & H4 & H5 & H6 & _).
    rewrite H1. cbn [bind].
    destruct (IH s1 part H2) as (s2 & ps & E & L & Hl & Hm & Hs); [intros j Hj; apply Hids; now right|].
    rewrite E. cbn [bind]. exists s2, (p :: ps). split; [reflexivity|].
    assert (Hpos : forall j q, findNodePosition s j = Some q -> findNodePosition s1 j = Some q).
    { intros j q Hj. destruct (Z.eq_dec j i) as [->|Hne]; [destruct (H6 _ Hj); congruence|now rewrite H4]. }
    split; [eapply nle_trans; [apply (nle_of_pos s s1 I H2 Hpos)|exact L]|]. split; [cbn; congruence|].
    split; [|auto]. cbn. apply Hs in H3. destruct L as [I2 _]. apply (proj2 I2) in H3.
    destruct H3 as (d & E1 & E2). unfold findNodeId at 1. rewrite E1. cbn. rewrite Hm. cbn. now rewrite E2.
Qed.

Definition aux_len (t : ctype) (n : nat) : nat := match dimension t with 3%nat => 0%nat | _ => n end.

Record cinv m : Prop := {
  ci_nodes : ninv (mnodes m);
  ci_wf : zmap_wf (cposById m);
  ci_conn : forall t, length (conn m t) = (numNodes t * length (byType m t))%nat;
  ci_aux : forall t, length (caux m t) = aux_len t (length (byType m t));
  ci_data : forall pos d, nth_error (cdatas m) pos = Some d ->
     nth_error (byType m (cd_type d)) (cd_tpos d) = Some pos;
  ci_type : forall t i pos, nth_error (byType m t) i = Some pos ->
     exists d, nth_error (cdatas m) pos = Some d /\ cd_type d = t /\ cd_tpos d = i;
  ci_node : forall t p, In p (conn m t) -> exists id, findNodeId (mnodes m) p = Ok id;
  ci_id : forall id pos, zfind (cposById m) id = Some pos ->
     exists d, nth_error (cdatas m) pos = Some d /\ cd_id d = id }.

Lemma cinv_empty a l c tr : cinv (empty_mesh a l c tr).
Proof.
  constructor; cbn; try discriminate; try contradiction.
  - apply ninv_empty.
  - constructor.
  - intros t. now rewrite Nat.mul_0_r.
  - intros t. unfold aux_len. destruct (dimension t) as [|[|[|[|]]]]; reflexivity.
  - intros [|pos] d; discriminate.
  - intros t [|i] pos; discriminate.
Qed.

Lemma cinv_nodes m s : cinv m -> nle (mnodes m) s -> cinv (with_nodes m s).
Proof.
  intros I [I2 L]. destruct I. constructor; cbn; auto.
  intros t p Hp. destruct (ci_node0 t p Hp) as [id E]. eauto.
Qed.

(** A cell that can be read stays readable with the same content. *)
Lemma findCell_ok m pos d : cinv m -> nth_error (cdatas m) pos = Some d ->
  exists c ps, findCell m pos = Ok c /\ c_id c = cd_id d /\ c_type c = cd_type d /\ c_pos c = pos /\
    c_elem c = cd_elem d /\ c_cs c = cd_cs d /\ c_nodePos c = ps /\
    slice (conn m (cd_type d)) (cd_tpos d * numNodes (cd_type d)) (numNodes (cd_type d)) = Some ps /\
    mapM (findNodeId (mnodes m)) ps = Ok (c_nodeIds c) /\ length (c_nodeIds c) = numNodes (cd_type d) /\
    (dimension (cd_type d) = 2%nat -> c_offset c = nth_error (caux m (cd_type d)) (cd_tpos d)).
Proof.
  intros I Hd. pose proof (ci_data _ I _ _ Hd) as Ht.
  assert (Hlt : (cd_tpos d < length (byType m (cd_type d)))%nat) by (apply nth_error_Some; congruence).
  set (t := cd_type d) in *. set (i := cd_tpos d) in *.
  destruct (slice_some (conn m t) (i * numNodes t) (numNodes t)) as (ps & Es & Lps).
  { rewrite (ci_conn _ I). nia. }
  destruct (mapM_total (findNodeId (mnodes m)) ps) as [ids Eids].
  { intros p Hp. eapply (ci_node _ I). eapply slice_in; eauto. }
  destruct (mapM_nth _ _ _ Eids) as [Lids _].
  unfold findCell. rewrite Hd. fold t. fold i. rewrite Es, Eids. cbn [bind].
  pose proof (ci_aux _ I t) as Ha. unfold aux_len in Ha.
  destruct (dimension t) as [|[|[|[|n]]]] eqn:Ed.
  all: try (destruct (nth_error (caux m t) i) eqn:Ex; [|apply nth_error_None in Ex; lia]; cbn [bind]).
  all: eexists; exists ps; split; [reflexivity|]; cbn; repeat split; try congruence; try discriminate.
Qed.

Lemma addCell_spec m id t ids v cs e off : cinv m -> length ids = numNodes t -> t <> POLY 0 ->
  (forall i, In i ids -> i <> AUTO_ID) ->
  trace m = false \/ ((id = AUTO_ID \/ findCellPosition m id = None) /\ NoDup ids) ->
  exists m' cid ps, addCell m id t ids v cs e off = Ok (m', length (cdatas m)) /\ cinv m' /\
    (id <> AUTO_ID -> cid = id) /\
    (id = AUTO_ID -> findCellPosition m cid = None /\ cid <= cauto m) /\
    findCellPosition m' cid = Some (length (cdatas m)) /\
    (forall j, j <> cid -> findCellPosition m' j = findCellPosition m j) /\
    cdatas m' = cdatas m ++ [mkCD cid t v cs e (length (byType m t))] /\
    nle (mnodes m) (mnodes m') /\
    (forall t', conn m' t' = conn m t' ++ (if ctype_eq_dec t t' then ps else [])) /\
    (forall t', byType m' t' = byType m t' ++ (if ctype_eq_dec t t' then [length (cdatas m)] else [])) /\
    (forall t', exists x, caux m' t' = caux m t' ++ x) /\
    (dimension t = 2%nat -> caux m' t = caux m t ++ [off]) /\
    mapM (findNodeId (mnodes m')) ps = Ok ids /\ length ps = numNodes t /\
    (forall j p, findNodePosition (mnodes m) j = Some p -> findNodePosition (mnodes m') j = Some p) /\
    trace m' = trace m.
Proof.
  intros I Hlen Ht Hids Htr. unfold MeshCellModel.addCell.
  assert (Hpick : exists cid nauto, (if id =? AUTO_ID then auto_pick (S (length (cposById m))) (cposById m) (cauto m)
                      else Ok (id, cauto m)) = Ok (cid, nauto) /\
      (id <> AUTO_ID -> cid = id) /\ (id = AUTO_ID -> findCellPosition m cid = None /\ cid <= cauto m)).
  { destruct (Z.eqb_spec id AUTO_ID) as [Ea|Ea].
    - destruct (auto_pick_total (cposById m) (cauto m) (ci_wf _ I)) as [k Hk]. exists k, (k - 1).
      split; [exact Hk|]. split; [contradiction|]. intros _. apply auto_pick_spec in Hk. unfold findCellPosition.
      destruct Hk as (K1 & K2 & _). auto.
    - exists id, (cauto m). split; [reflexivity|]. split; [reflexivity|contradiction]. }
  destruct Hpick as (cid & nauto & -> & Hc1 & Hc2). cbn [bind].
  assert (Hnum : numNodes t <> 0%nat) by (destruct t as [ | | | | | | | | | | | | | | | | | | | | |[|n]]; cbn; congruence).
  destruct (Nat.eqb_spec (numNodes t) 0); [contradiction|].
  assert (Hchk : trace m && negb (conn_checks m cid t ids true) = false).
  { destruct (trace m) eqn:Etr; [|reflexivity]. cbn. apply negb_false_iff. unfold conn_checks.
    destruct Htr as [?|[Htr Hnd]]; [discriminate|].
    rewrite nodup_fixed_point by exact Hnd. rewrite Nat.eqb_refl.
    assert (zfind (cposById m) cid = None) as ->.
    { destruct Htr as [?|?]; [apply Hc2; assumption|].
      destruct (Z.eq_dec id AUTO_ID) as [?|Hne]; [apply Hc2; assumption|]. rewrite (Hc1 Hne). assumption. }
    rewrite Hlen, Nat.eqb_refl, orb_true_r. reflexivity. }
  rewrite Hchk.
  destruct (reserve_all_spec ids (mnodes m) e (ci_nodes _ I) Hids) as (ns & ps & E & L & Lp & Em & Hst).
  rewrite E. cbn [bind]. eexists. exists cid, ps. split; [reflexivity|].
  set (aux := match dimension t with 0%nat | 1%nat => [zero] | 2%nat => [off] | _ => [] end).
  assert (Hpush : forall A (f : tmap A) t' l, tpush f t l t' = f t' ++ (if ctype_eq_dec t t' then l else [])).
  { intros A f t' l. unfold tpush. destruct (ctype_eq_dec t t'); [reflexivity|now rewrite app_nil_r]. }
  split; [|cbn].
  - destruct I. constructor; cbn; try (intros; rewrite ?Hpush in *).
    + apply L.
    + now apply zinsert_wf.
    + rewrite !app_length, ci_conn0. destruct (ctype_eq_dec t t0); [subst t0; rewrite Lp, Hlen; cbn; lia|cbn; lia].
    + rewrite !app_length, ci_aux0. subst aux. unfold aux_len.
      destruct (ctype_eq_dec t t0) as [<-|]; [|cbn; destruct (dimension t0) as [|[|[|[|]]]]; lia].
      destruct (dimension t) as [|[|[|[|k]]]] eqn:Ed; cbn; try lia.
      destruct t; cbn in Ed; lia.
    + rewrite nth_error_snoc in H. destruct (Nat.eqb_spec (length (cdatas m)) pos).
      * injection H as <-. cbn. destruct (ctype_eq_dec t t); [|congruence].
        subst. rewrite nth_error_snoc, Nat.eqb_refl. reflexivity.
      * specialize (ci_data0 _ _ H).
        assert (cd_tpos d < length (byType m (cd_type d)))%nat by (apply nth_error_Some; congruence).
        rewrite nth_error_app1 by assumption. exact ci_data0.
    + destruct (ctype_eq_dec t t0) as [<-|Hne].
      * rewrite nth_error_snoc in H. destruct (Nat.eqb_spec (length (byType m t)) i).
        -- injection H as <-. eexists. rewrite nth_error_snoc, Nat.eqb_refl. split; [reflexivity|]. cbn. auto.
        -- destruct (ci_type0 _ _ _ H) as (d & H1 & H2). exists d. split; [|exact H2].
           rewrite nth_error_app1; [exact H1|]. apply nth_error_Some. congruence.
      * rewrite app_nil_r in H. destruct (ci_type0 _ _ _ H) as (d & H1 & H2). exists d. split; [|exact H2].
        rewrite nth_error_app1; [exact H1|]. apply nth_error_Some. congruence.
    + apply in_app_or in H. destruct H as [H|H].
      * destruct (ci_node0 _ _ H) as [j Hj]. exists j. apply L. exact Hj.
      * destruct (ctype_eq_dec t t0); [|contradiction]. apply In_nth_error in H. destruct H as [i Hi].
        destruct (mapM_nth _ _ _ Em) as [_ N]. destruct (N _ _ Hi) as (b & _ & Hb). eauto.
    + rewrite zfind_insert in H by assumption. destruct (Z.eqb_spec cid id0).
      * injection H as <-. eexists. rewrite nth_error_snoc, Nat.eqb_refl. split; [reflexivity|]. exact e0.
      * destruct (ci_id0 _ _ H) as (d & H1 & H2). exists d. split; [|exact H2].
        rewrite nth_error_app1; [exact H1|]. apply nth_error_Some. congruence.
  - split; [exact Hc1|]. split; [exact Hc2|]. unfold findCellPosition. cbn.
    split; [rewrite zfind_insert by apply (ci_wf _ I); now rewrite Z.eqb_refl|].
    split; [intros j Hj; rewrite zfind_insert by apply (ci_wf _ I); destruct (Z.eqb_spec cid j); [congruence|reflexivity]|].
    split; [reflexivity|]. split; [exact L|]. split; [intros; apply Hpush|]. split; [intros; apply Hpush|].
    split; [intros t'; eexists; apply Hpush|].
    split; [intros Ed; rewrite Hpush; destruct (ctype_eq_dec t t); [|congruence]; subst aux; now rewrite Ed|].
    split; [exact Em|]. split; [congruence|]. auto.
Qed.

(** Operations with a connectivity of the right length and legal numbers. *)
Definition mop_ok m (o : mop D) : Prop :=
  match o with
  | MNode o => nop_ok (mnodes m) o
  | MCell id t ids _ _ _ _ => length ids = numNodes t /\ t <> POLY 0 /\ (forall i, In i ids -> i <> AUTO_ID) /\
      (trace m = false \/ ((id = AUTO_ID \/ findCellPosition m id = None) /\ NoDup ids))
  | MAssign p _ => (p < length (cdatas m))%nat
  end.

(** [m'] extends [m]: the data of old cells are the same up to the element
    number, connectivities and offsets are prefixes. *)
Definition mext m m' : Prop :=
  nle (mnodes m) (mnodes m') /\
  (forall pos d, nth_error (cdatas m) pos = Some d -> exists d', nth_error (cdatas m') pos = Some d' /\
     cd_id d' = cd_id d /\ cd_type d' = cd_type d /\ cd_cs d' = cd_cs d /\ cd_tpos d' = cd_tpos d) /\
  (forall t, exists x, conn m' t = conn m t ++ x) /\
  (forall t, exists x, caux m' t = caux m t ++ x) /\
  (forall j p, findNodePosition (mnodes m) j = Some p -> findNodePosition (mnodes m') j = Some p).

Lemma mext_findCell m m' pos c : cinv m -> cinv m' -> mext m m' -> findCell m pos = Ok c ->
  exists c', findCell m' pos = Ok c' /\ c_id c' = c_id c /\ c_type c' = c_type c /\ c_nodeIds c' = c_nodeIds c /\
    c_pos c' = c_pos c /\ c_nodePos c' = c_nodePos c /\ c_cs c' = c_cs c /\
    (dimension (c_type c) = 2%nat -> c_offset c' = c_offset c).
Proof.
  intros I I' (L & Hd & Hc & Ha & _) H.
  destruct (nth_error (cdatas m) pos) as [d|] eqn:E; [|unfold findCell in H; rewrite E in H; discriminate].
  destruct (findCell_ok m pos d I E) as (c0 & ps & E0 & A1 & A2 & A3 & A4 & A5 & A6 & A7 & A8 & A9 & A10).
  assert (c0 = c) by congruence. subst c0.
  destruct (Hd _ _ E) as (d' & E' & D1 & D2 & D3 & D4).
  destruct (findCell_ok m' pos d' I' E') as (c' & ps' & E0' & B1 & B2 & B3 & B4 & B5 & B6 & B7 & B8 & B9 & B10).
  exists c'. split; [exact E0'|]. rewrite D2, D4 in *.
  destruct (Hc (cd_type d)) as [x Hx]. rewrite Hx in B7. rewrite (slice_app _ x _ _ _ A7) in B7. injection B7 as <-.
  assert (Hids : mapM (findNodeId (mnodes m')) ps = Ok (c_nodeIds c)) by (eapply mapM_ext; [exact A8|intros; apply L; assumption]).
  rewrite B8 in Hids. injection Hids as Hids.
  repeat (split; [congruence|]). intros Hdim. rewrite A2 in Hdim. rewrite (B10 Hdim), (A10 Hdim).
  destruct (Ha (cd_type d)) as [y Hy]. rewrite Hy. apply nth_error_app1.
  pose proof (ci_aux _ I (cd_type d)) as HL. unfold aux_len in HL. rewrite Hdim in HL. rewrite HL.
  apply nth_error_Some. rewrite (ci_data _ I _ _ E). discriminate.
Qed.

Lemma mext_refl m : cinv m -> mext m m.
Proof.
  intros I. split; [split; [apply I|auto]|]. split; [eauto 8|]. split; [|split; [|auto]]; intros t; exists []; now rewrite app_nil_r.
Qed.

Lemma mext_trans m1 m2 m3 : mext m1 m2 -> mext m2 m3 -> mext m1 m3.
Proof.
  intros (A1 & A2 & A3 & A4 & A5) (B1 & B2 & B3 & B4 & B5). split; [eapply nle_trans; eauto|]. split.
  - intros pos d H. destruct (A2 _ _ H) as (d1 & H1 & E1 & E2 & E3 & E4).
    destruct (B2 _ _ H1) as (d2 & H2 & F1 & F2 & F3 & F4). exists d2. repeat split; congruence.
  - split; [|split; [|auto]]; intros t.
    + destruct (A3 t) as [x Hx], (B3 t) as [y Hy]. exists (x ++ y). now rewrite Hy, Hx, app_assoc.
    + destruct (A4 t) as [x Hx], (B4 t) as [y Hy]. exists (x ++ y). now rewrite Hy, Hx, app_assoc.
Qed.

Lemma assign_spec m p e : cinv m -> (p < length (cdatas m))%nat -> exists m', assignElementId m p e = Ok m' /\ cinv m' /\ mext m m' /\
   cposById m' = cposById m /\ trace m' = trace m /\ byType m' = byType m /\ length (cdatas m') = length (cdatas m) /\
   exists d, nth_error (cdatas m) p = Some d /\
     cdatas m' = set_nth (cdatas m) p (mkCD (cd_id d) (cd_type d) (cd_virtual d) (cd_cs d) e (cd_tpos d)).
Proof.
  intros I Hp. unfold assignElementId. destruct (nth_error (cdatas m) p) as [d|] eqn:E; [|apply nth_error_None in E; lia].
  set (d1 := mkCD (cd_id d) (cd_type d) (cd_virtual d) (cd_cs d) e (cd_tpos d)).
  assert (Hset : forall q, nth_error (set_nth (cdatas m) p d1) q = if Nat.eqb p q then Some d1 else nth_error (cdatas m) q)
    by (intros q; rewrite nth_error_set_nth, E; reflexivity).
  eexists. split; [reflexivity|]. split; [|split].
  - destruct I. constructor; cbn; auto.
    + intros pos d'. rewrite Hset. destruct (Nat.eqb_spec p pos); [|auto]. intros X. injection X as <-. subst p.
      cbn. apply ci_data0. exact E.
    + intros t i pos H. destruct (ci_type0 _ _ _ H) as (d' & H1 & H2 & H3). rewrite Hset.
      destruct (Nat.eqb_spec p pos); [|eauto]. subst p. exists d1. assert (d' = d) by congruence. subst d'. auto.
    + intros id pos H. destruct (ci_id0 _ _ H) as (d' & H1 & H2). rewrite Hset.
      destruct (Nat.eqb_spec p pos); [|eauto]. subst p. exists d1. assert (d' = d) by congruence. subst d'. auto.
  - split; [split; [apply I|auto]|]. split; [|split; [|split; [|auto]]]; try (intros t; exists []; now rewrite app_nil_r).
    intros pos d' H. cbn. rewrite Hset. destruct (Nat.eqb_spec p pos).
    + subst. exists d1. assert (d' = d) by congruence. subst d'. cbn. auto.
    + exists d'. auto.
  - cbn. rewrite set_nth_length. repeat split; eauto.
Qed.

Lemma mstep_spec m o : cinv m -> mop_ok m o -> exists m', mstep m o = Ok m' /\ cinv m' /\ mext m m' /\ trace m' = trace m.
Proof.
  intros I Ho. destruct o as [o|id t ids v cs e off|p e]; cbn [MeshCellModel.mstep].
  - destruct (nstep_inv RESERVED (mnodes m) o (ci_nodes _ I) Ho) as (s' & E & I' & P). rewrite E. cbn.
    pose proof (nle_of_pos _ _ (ci_nodes _ I) I' P) as L.
    exists (with_nodes m s'). split; [reflexivity|]. split; [now apply cinv_nodes|]. split; [|reflexivity].
    split; [exact L|]. split; [eauto 8|]. split; [|split; [|exact P]]; intros t; exists []; now rewrite app_nil_r.
  - destruct Ho as (H1 & H2 & H3 & H4).
    destruct (addCell_spec m id t ids v cs e off I H1 H2 H3 H4) as
      (m' & cid & ps & E & I' & _ & _ & _ & _ & Hd & L & Hc & _ & Ha & _ & _ & _ & Hpos & Htr).
    rewrite E. cbn. exists m'. split; [reflexivity|]. split; [exact I'|]. split; [|exact Htr].
    split; [exact L|]. split; [|split; [eauto|split; [exact Ha|exact Hpos]]].
    intros pos d Hp. exists d. rewrite Hd, nth_error_app1; [auto|]. apply nth_error_Some. congruence.
  - cbn in Ho. destruct (assign_spec m p e I Ho) as (m' & E & I' & X & _ & Ht & _). eauto.
Qed.

Fixpoint mops_ok m (h : list (mop D)) : Prop :=
  match h with
  | [] => True
  | o :: r => mop_ok m o /\ forall m', mstep m o = Ok m' -> mops_ok m' r
  end.

Lemma mrun_spec h : forall m, cinv m -> mops_ok m h -> exists m', mrun m h = Ok m' /\ cinv m' /\ mext m m' /\ trace m' = trace m.
Proof.
  induction h as [|o h IH]; intros m I H.
  - exists m. cbn. split; [reflexivity|]. split; [exact I|]. split; [now apply mext_refl|reflexivity].
  - destruct H as [Ho Hr]. destruct (mstep_spec m o I Ho) as (m1 & E & I1 & X1 & T1).
    destruct (IH m1 I1 (Hr _ E)) as (m2 & E2 & I2 & X2 & T2). exists m2. cbn. rewrite E. cbn.
    split; [exact E2|]. split; [exact I2|]. split; [eapply mext_trans; eauto|congruence].
Qed.

(** Number registered at a position never changes; the position registered for
    an identifier is that of the last cell added with it. *)
Lemma mops_ok_app h1 : forall m h2, mops_ok m (h1 ++ h2) -> mops_ok m h1 /\ forall m', mrun m h1 = Ok m' -> mops_ok m' h2.
Proof.
  induction h1 as [|o h1 IH]; intros m h2 H; cbn in *.
  - split; [exact Logic.I|]. intros m' E. inversion E; subst. exact H.
  - destruct H as [Ho Hr]. split.
    + split; [exact Ho|]. intros m' E. apply (IH m' h2). auto.
    + intros m' E. destruct (mstep m o) as [m1| | |] eqn:E1; cbn in E; try discriminate.
      eapply (IH m1 h2); [auto|exact E].
Qed.

(** Element numbers: unchanged unless reassigned. *)
Lemma mstep_elem m o m' pos d : cinv m -> mop_ok m o -> mstep m o = Ok m' -> nth_error (cdatas m) pos = Some d ->
  (forall e, o <> MAssign pos e) -> nth_error (cdatas m') pos = Some d.
Proof.
  intros I Ho E Hd Hne. destruct o as [o|id t ids v cs e off|p e]; cbn [MeshCellModel.mstep] in E.
  - destruct (nstep RESERVED (mnodes m) o) as [s| | |]; cbn in E; try discriminate. injection E as <-. exact Hd.
  - destruct Ho as (H1 & H2 & H3 & H4).
    destruct (addCell_spec m id t ids v cs e off I H1 H2 H3 H4) as
      (m2 & cid & ps & E2 & I' & _ & _ & _ & _ & Hdd & _).
    rewrite E2 in E. cbn in E. injection E as <-. rewrite Hdd, nth_error_app1; [exact Hd|]. apply nth_error_Some. congruence.
  - cbn in Ho. destruct (assign_spec m p e I Ho) as (m2 & E2 & _ & _ & _ & _ & _ & _ & d0 & Hd0 & Hs).
    assert (m2 = m') by congruence. subst. rewrite Hs, nth_error_set_nth.
    destruct (Nat.eqb_spec p pos); [subst; exfalso; eapply Hne; reflexivity|exact Hd].
Qed.

Lemma mrun_elem h : forall m m' pos d, cinv m -> mops_ok m h -> mrun m h = Ok m' -> nth_error (cdatas m) pos = Some d ->
  (forall e, ~ In (MAssign pos e) h) -> nth_error (cdatas m') pos = Some d.
Proof.
  induction h as [|o h IH]; intros m m' pos d I H E Hd Hne; cbn in E.
  - injection E as <-. exact Hd.
  - destruct H as [Ho Hr]. destruct (mstep_spec m o I Ho) as (m1 & E1 & I1 & _). rewrite E1 in E. cbn in E.
    apply (IH m1 m' pos d I1 (Hr _ E1) E).
    + apply (mstep_elem m o m1 pos d I Ho E1 Hd). intros e ->. eapply Hne. left. reflexivity.
    + intros e Hin. eapply Hne. right. exact Hin.
Qed.

(** Cell numbers keep their position until reused. *)
Lemma mstep_cpos m o m' id pos : cinv m -> mop_ok m o -> mstep m o = Ok m' -> findCellPosition m id = Some pos ->
  (forall t ids v cs e off, o <> MCell id t ids v cs e off) -> id <> AUTO_ID -> findCellPosition m' id = Some pos.
Proof.
  intros I Ho E Hd Hne Hid. destruct o as [o|k t ids v cs e off|p e]; cbn [MeshCellModel.mstep] in E.
  - destruct (nstep RESERVED (mnodes m) o) as [s| | |]; cbn in E; try discriminate. injection E as <-. exact Hd.
  - destruct Ho as (H1 & H2 & H3 & H4).
    destruct (addCell_spec m k t ids v cs e off I H1 H2 H3 H4) as
      (m2 & cid & ps & E2 & I' & C1 & C2 & _ & C3 & _).
    rewrite E2 in E. cbn in E. injection E as <-. rewrite C3; [exact Hd|]. intros ->.
    destruct (Z.eq_dec k AUTO_ID) as [->|Hk]; [destruct (C2 eq_refl); congruence|]. rewrite (C1 Hk) in *.
    eapply Hne. reflexivity.
  - cbn in Ho. destruct (assign_spec m p e I Ho) as (m2 & E2 & _ & _ & C & _).
    assert (m2 = m') by congruence. subst. unfold findCellPosition. now rewrite C.
Qed.

Lemma mrun_cpos h : forall m m' id pos, cinv m -> mops_ok m h -> mrun m h = Ok m' -> findCellPosition m id = Some pos ->
  (forall t ids v cs e off, ~ In (MCell id t ids v cs e off) h) -> id <> AUTO_ID -> findCellPosition m' id = Some pos.
Proof.
  induction h as [|o h IH]; intros m m' id pos I H E Hd Hne Hid; cbn in E.
  - injection E as <-. exact Hd.
  - destruct H as [Ho Hr]. destruct (mstep_spec m o I Ho) as (m1 & E1 & I1 & _). rewrite E1 in E. cbn in E.
    apply (IH m1 m' id pos I1 (Hr _ E1) E); [| |exact Hid].
    + apply (mstep_cpos m o m1 id pos I Ho E1 Hd); [|exact Hid]. intros t ids v cs e off ->. eapply Hne. left. reflexivity.
    + intros t ids v cs e off Hin. eapply Hne. right. exact Hin.
Qed.

(** What a call must satisfy, apart from having been accepted: connectivity of
    the right length (checked by the code at TRACE level) and no reference to
    a node by the reserved number AUTO_ID. *)
Definition good_op (tr : bool) (o : mop D) : Prop :=
  match o with
  | MNode (Use id _) => id <> AUTO_ID
  | MNode _ => True
  | MCell _ t ids _ _ _ _ => (tr = false -> length ids = numNodes t) /\ (forall i, In i ids -> i <> AUTO_ID)
  | MAssign _ _ => True
  end.

Lemma nodup_length_NoDup (l : list Z) : length (nodup Z.eq_dec l) = length l -> NoDup l.
Proof.
  intros H. apply NoDup_incl_NoDup with (l := nodup Z.eq_dec l).
  - apply NoDup_nodup.
  - lia.
  - intros x Hx. now apply nodup_In in Hx.
Qed.

Lemma mop_ok_of_success m o m' : good_op (trace m) o -> mstep m o = Ok m' -> mop_ok m o.
Proof.
  intros Hg E. destruct o as [o|id t ids v cs e off|p e]; cbn [MeshCellModel.mstep] in E.
  - destruct (nstep RESERVED (mnodes m) o) as [s| | |] eqn:En; cbn in E; try discriminate.
    cbn. eapply nstep_nop_ok; [exact En|]. intros id c ->. exact Hg.
  - unfold MeshCellModel.addCell in E. cbn in Hg. destruct Hg as [Hl Ha].
    destruct (if id =? AUTO_ID then _ else _) as [[cid na]| | |] eqn:Ep; cbn [bind] in E; try discriminate.
    destruct (Nat.eqb_spec (numNodes t) 0) as [E0|E0]; [discriminate|].
    destruct (trace m && negb (conn_checks m cid t ids true)) eqn:Ec; [discriminate|].
    assert (Ht : t <> POLY 0) by (intros ->; cbn in E0; congruence).
    cbn. destruct (trace m) eqn:Et; [|repeat split; auto].
    cbn in Ec. apply negb_false_iff in Ec. unfold conn_checks in Ec.
    apply andb_true_iff in Ec. destruct Ec as [Ec E3]. apply andb_true_iff in Ec. destruct Ec as [E1 E2].
    apply Nat.eqb_eq in E1. apply nodup_length_NoDup in E1.
    apply orb_true_iff in E3. rewrite !Nat.eqb_eq in E3.
    split; [destruct E3; congruence|]. split; [exact Ht|]. split; [exact Ha|]. right. split; [|exact E1].
    destruct (Z.eqb_spec id AUTO_ID) as [Ea|Ea]; [left; exact Ea|right]. injection Ep as <- _.
    unfold findCellPosition. destruct (zfind (cposById m) id); [discriminate|reflexivity].
  - cbn. unfold assignElementId in E. destruct (nth_error (cdatas m) p) eqn:Ed; [|discriminate].
    apply nth_error_Some. congruence.
Qed.

Lemma mops_ok_of_success h : forall m m', cinv m -> (forall o, In o h -> good_op (trace m) o) -> mrun m h = Ok m' -> mops_ok m h.
Proof.
  induction h as [|o h IH]; intros m m' I Hg E; cbn in *; [exact Logic.I|].
  destruct (mstep m o) as [m1| | |] eqn:E1; cbn in E; try discriminate.
  assert (Ho : mop_ok m o) by (eapply mop_ok_of_success; eauto).
  split; [exact Ho|]. intros m2 Em2. injection Em2 as <-.
  destruct (mstep_spec m o I Ho) as (m2 & E2 & I2 & _ & T2). rewrite E1 in E2. injection E2 as <-.
  eapply IH; [exact I2| |exact E]. rewrite T2. intros; apply Hg; auto.
Qed.

End Proofs.
