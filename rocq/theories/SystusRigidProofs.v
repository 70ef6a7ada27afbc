(** Lemmas about the preparation of the rigid elements of a Systus file. *)
From Coq Require Import ZArith List Bool Lia.
From Verif Require Import Base ZMap MeshNodeModel MeshNodeProofs MeshCellModel MeshCellProofs SystusRigidModel.
Import ListNotations.
Open Scope Z_scope.

Section Rigid.
Context {D : Type} (RESERVED : D).
Notation mesh := (mesh D).
Implicit Types (m : mesh).
Notation updateCell := (updateCell RESERVED).
Notation cellStep := (cellStep RESERVED).
Notation cellLoop := (cellLoop RESERVED).
Notation setLoop := (setLoop RESERVED).

(** The node of a number. *)
Definition node m (id : Z) : option (ndata D) := getNode (mnodes m) id.

(** Nothing that could be read is lost. *)
Definition ext m m' : Prop :=
  cinv m' /\ trace m' = trace m /\
  (forall id d, node m id = Some d -> node m' id = Some d) /\
  (forall pos c, findCell m pos = Ok c -> findCell m' pos = Ok c) /\
  (forall id, findCellPosition m id <> None -> findCellPosition m' id <> None) /\
  (length (cdatas m) <= length (cdatas m'))%nat.

Lemma ext_refl m : cinv m -> ext m m.
Proof. intros I. repeat split; auto; apply I. Qed.

Lemma ext_trans m1 m2 m3 : ext m1 m2 -> ext m2 m3 -> ext m1 m3.
Proof.
  intros (A1 & A2 & A3 & A4 & A5 & A6) (B1 & B2 & B3 & B4 & B5 & B6).
  split; [exact B1|]. split; [congruence|]. split; [auto|]. split; [auto|]. split; [auto|lia].
Qed.

Lemma node_in m id d : cinv m -> node m id = Some d ->
  exists p, findNodePosition (mnodes m) id = Some p /\ nth_error (ndatas (mnodes m)) p = Some d /\ nd_id d = id.
Proof.
  intros I. unfold node, getNode. destruct (findNodePosition (mnodes m) id) as [p|] eqn:E; [|discriminate].
  intros H. exists p. split; [reflexivity|]. split; [exact H|].
  apply (proj2 (ci_nodes _ I)) in E. destruct E as (d' & E1 & E2). congruence.
Qed.

Lemma in_node m p d : cinv m -> nth_error (ndatas (mnodes m)) p = Some d -> node m (nd_id d) = Some d.
Proof.
  intros I H. unfold node, getNode.
  assert (findNodePosition (mnodes m) (nd_id d) = Some p) as -> by (apply (proj2 (ci_nodes _ I)); eauto). exact H.
Qed.

Lemma findCell_mono m m' pos c : (exists x, cdatas m' = cdatas m ++ x) ->
  (forall t, exists x, conn m' t = conn m t ++ x) -> (forall t, exists x, caux m' t = caux m t ++ x) ->
  (forall p i, findNodeId (mnodes m) p = Ok i -> findNodeId (mnodes m') p = Ok i) ->
  findCell m pos = Ok c -> findCell m' pos = Ok c.
Proof.
  intros [x Hx] Hc Ha Hn. unfold findCell. rewrite Hx.
  destruct (nth_error (cdatas m) pos) as [d|] eqn:E; [|discriminate].
  rewrite nth_error_app1 by (apply nth_error_Some; congruence). rewrite E.
  destruct (Hc (cd_type d)) as [y Hy]. destruct (Ha (cd_type d)) as [w Hw]. rewrite Hy, Hw.
  destruct (slice (conn m (cd_type d)) _ _) as [ps|] eqn:Es; [|discriminate]. rewrite (slice_app _ _ _ _ _ Es).
  destruct (mapM (findNodeId (mnodes m)) ps) as [ids| | |] eqn:Em; cbn [bind]; try discriminate.
  rewrite (mapM_ext _ (findNodeId (mnodes m')) _ _ Em) by (intros; auto). cbn [bind].
  destruct (nth_error (caux m (cd_type d)) (cd_tpos d)) as [o|] eqn:Eo.
  - rewrite nth_error_app1 by (apply nth_error_Some; congruence). now rewrite Eo.
  - destruct (dimension (cd_type d)) as [|[|[|[|n]]]]; cbn [bind]; try discriminate. auto.
Qed.

(** [i] is a new node at the place of [d]. *)
Definition clone m m' (d : ndata D) (cd i : Z) : Prop :=
  node m i = None /\ exists d', node m' i = Some d' /\
    nd_x d' = nd_x d /\ nd_y d' = nd_y d /\ nd_z d' = nd_z d /\ nd_cp d' = nd_cp d /\ nd_cd d' = cd.

Lemma clone_left m0 m m' d cd i : ext m0 m -> clone m m' d cd i -> clone m0 m' d cd i.
Proof.
  intros (_ & _ & E & _) [H1 H2]. split; [|exact H2]. destruct (node m0 i) eqn:X; [|reflexivity].
  apply E in X. congruence.
Qed.

Lemma clone_right m m' m'' d cd i : ext m' m'' -> clone m m' d cd i -> clone m m'' d cd i.
Proof. intros (_ & _ & E & _) (H1 & d' & H2 & H3). split; [exact H1|]. exists d'. auto. Qed.

Lemma clone_known m m' d cd i : clone m m' d cd i -> node m' i <> None.
Proof. intros (_ & d' & H & _). congruence. Qed.

Lemma cloneNode_spec m d cd : cinv m -> exists m' i, cloneNode m d cd = Ok (m', i) /\ ext m m' /\
  clone m m' d cd i /\ (forall j, j <> i -> node m' j = node m j) /\ cdatas m' = cdatas m.
Proof.
  intros I. unfold cloneNode.
  destruct (addNode_spec (mnodes m) AUTO_ID (nd_x d) (nd_y d) (nd_z d) (nd_cp d) cd (ci_nodes _ I))
    as (s & p & k & E & I' & _ & K & Hk & Ho & Hn & _ & Hd & (d' & E1 & E2 & E3 & E4 & E5 & E6 & E7 & _) & _).
  rewrite E. cbn [bind]. destruct (K eq_refl) as (Kn & _). destruct (Hn Kn) as [Hp Hlen].
  unfold findNodeId. rewrite E1. cbn [bind]. eexists. exists (nd_id d'). split; [reflexivity|].
  assert (Hold : forall j q, findNodePosition (mnodes m) j = Some q -> findNodePosition s j = Some q).
  { intros j q Hj. rewrite Ho; [exact Hj|]. intros ->. congruence. }
  pose proof (nle_of_pos _ _ (ci_nodes _ I) I' Hold) as L.
  assert (Hnode : forall j, j <> k -> node (with_nodes m s) j = node m j).
  { intros j Hj. unfold node, getNode. cbn. rewrite (Ho _ Hj).
    destruct (findNodePosition (mnodes m) j) as [q|] eqn:Ej; [|reflexivity]. apply Hd. subst p.
    apply (proj2 (ci_nodes _ I)) in Ej. destruct Ej as (dj & Ej & _).
    assert (q < length (ndatas (mnodes m)))%nat by (apply nth_error_Some; congruence). lia. }
  assert (Hnone : node m k = None) by (unfold node, getNode; now rewrite Kn).
  split.
  - split; [now apply cinv_nodes|]. split; [reflexivity|]. split.
    + intros id e He. rewrite Hnode; [exact He|]. intros ->. congruence.
    + split; [|split; [auto|cbn; lia]]. intros pos c Hc. eapply findCell_mono; [..|exact Hc]; cbn.
      * exists []. now rewrite app_nil_r.
      * intros t. exists []. now rewrite app_nil_r.
      * intros t. exists []. now rewrite app_nil_r.
      * apply L.
  - rewrite E2. split; [split; [exact Hnone|]|split; [exact Hnode|reflexivity]].
    exists d'. unfold node, getNode. cbn. rewrite Hk. auto 8.
Qed.

(** Nodes that exist are found without touching the mesh. *)
Lemma reserve_known ids : forall (s : nodes D), ninv s -> (forall i, In i ids -> findNodePosition s i <> None) ->
  exists ps, reserve_all RESERVED s ids UNAVAILABLE_INT = Ok (s, ps) /\ length ps = length ids /\
    mapM (findNodeId s) ps = Ok ids.
Proof.
  induction ids as [|i ids IH]; intros s I H; cbn [reserve_all].
  - exists []. auto.
  - unfold findOrReserveNode, main_node_part. rewrite Z.eqb_refl.
    destruct (findNodePosition s i) as [p|] eqn:E; [|exfalso; apply (H i (or_introl eq_refl)); exact E].
    cbn [bind]. destruct (IH s I) as (ps & -> & L & M); [intros j Hj; apply H; now right|].
    cbn [bind]. exists (p :: ps). split; [reflexivity|]. split; [cbn; congruence|].
    apply (proj2 I) in E. destruct E as (d & E1 & E2). cbn. unfold findNodeId at 1. rewrite E1. cbn [bind].
    rewrite M. cbn. now rewrite E2.
Qed.

Lemma updateCell_spec m id n ids : cinv m -> id <> AUTO_ID -> findCellPosition m id <> None ->
  (3 <= n)%nat -> length ids = n -> (forall i, In i ids -> node m i <> None) ->
  (trace m = true -> NoDup ids) ->
  exists m', updateCell m id (POLY n) ids true 0 INT_MAX = Ok (m', length (cdatas m)) /\ ext m m' /\
    (exists c, findCell m' (length (cdatas m)) = Ok c /\ c_id c = id /\ c_nodeIds c = ids) /\
    (forall i, node m' i = node m i) /\ length (cdatas m') = S (length (cdatas m)).
Proof.
  intros I Hid Hpos Hn Hl Hk Hnd. unfold MeshCellModel.updateCell.
  destruct (Z.eqb_spec id AUTO_ID); [contradiction|].
  destruct (findCellPosition m id) as [op|] eqn:Ep; [|contradiction].
  assert (trace m && negb (conn_checks m id (POLY n) ids false) = false) as ->.
  { destruct (trace m) eqn:Et; [|reflexivity]. cbn. apply negb_false_iff. unfold conn_checks.
    rewrite nodup_fixed_point by auto. cbn [numNodes]. rewrite Hl, !Nat.eqb_refl, orb_true_r. reflexivity. }
  destruct (reserve_known ids (mnodes m) (ci_nodes _ I)) as (ps & -> & Lp & Em).
  { intros i Hi X. apply (Hk i Hi). unfold node, getNode. now rewrite X. }
  cbn [bind]. eexists. split; [reflexivity|].
  assert (Hnum : numNodes (POLY n) = n) by reflexivity.
  assert (Hdim : dimension (POLY n) = 3%nat) by reflexivity.
  remember (POLY n) as t eqn:Ht. clear Ht.
  assert (Hpush : forall A (f : tmap A) t' l, tpush f t l t' = f t' ++ (if ctype_eq_dec t t' then l else [])).
  { intros A f t' l. unfold tpush. destruct (ctype_eq_dec t t'); [reflexivity|now rewrite app_nil_r]. }
  match goal with |- ext m ?x /\ _ => set (m' := x) end.
  assert (Hc : cinv m').
  { destruct I. constructor; cbn; try (intros; rewrite ?Hpush in *).
    + exact ci_nodes.
    + now apply zinsert_wf.
    + rewrite !app_length, ci_conn. destruct (ctype_eq_dec t t0); [subst t0; rewrite Lp, Hl, Hnum; cbn; lia|cbn; lia].
    + rewrite ?app_length, ci_aux. unfold aux_len.
      destruct (ctype_eq_dec t t0) as [<-|]; [now rewrite Hdim|cbn; rewrite ?Nat.add_0_r; reflexivity].
    + rewrite nth_error_snoc in H. destruct (Nat.eqb_spec (length (cdatas m)) pos).
      * injection H as <-. cbn. destruct (ctype_eq_dec t t); [|congruence].
        subst pos. rewrite nth_error_snoc, Nat.eqb_refl. reflexivity.
      * specialize (ci_data _ _ H).
        assert (cd_tpos d < length (byType m (cd_type d)))%nat by (apply nth_error_Some; congruence).
        rewrite nth_error_app1 by assumption. exact ci_data.
    + destruct (ctype_eq_dec t t0) as [<-|Hne].
      * rewrite nth_error_snoc in H. destruct (Nat.eqb_spec (length (byType m t)) i).
        -- injection H as <-. eexists. rewrite nth_error_snoc, Nat.eqb_refl. split; [reflexivity|]. cbn. auto.
        -- destruct (ci_type _ _ _ H) as (d & H1 & H2). exists d. split; [|exact H2].
           rewrite nth_error_app1; [exact H1|]. apply nth_error_Some. congruence.
      * rewrite app_nil_r in H. destruct (ci_type _ _ _ H) as (d & H1 & H2). exists d. split; [|exact H2].
        rewrite nth_error_app1; [exact H1|]. apply nth_error_Some. congruence.
    + apply in_app_or in H. destruct H as [H|H]; [eauto|].
      destruct (ctype_eq_dec t t0); [|contradiction]. apply In_nth_error in H. destruct H as [i Hi].
      destruct (mapM_nth _ _ _ Em) as [_ N]. destruct (N _ _ Hi) as (b & _ & Hb). eauto.
    + rewrite zfind_insert in H by assumption. destruct (Z.eqb_spec id id0).
      * injection H as <-. eexists. rewrite nth_error_snoc, Nat.eqb_refl. split; [reflexivity|]. exact e.
      * destruct (ci_id _ _ H) as (d & H1 & H2). exists d. split; [|exact H2].
        rewrite nth_error_app1; [exact H1|]. apply nth_error_Some. congruence. }
  split; [|split; [|split; [reflexivity|subst m'; cbn; rewrite app_length; cbn; lia]]].
  - split; [exact Hc|]. split; [reflexivity|]. split; [auto|]. split; [|split].
    + intros pos c Hf. eapply findCell_mono; [..|exact Hf]; subst m'; cbn; auto.
      * eauto.
      * intros t'. eexists. apply Hpush.
      * intros t'. exists []. now rewrite app_nil_r.
    + intros j Hj. unfold findCellPosition in *. subst m'. cbn. rewrite zfind_insert by apply (ci_wf _ I).
      destruct (id =? j); [discriminate|exact Hj].
    + subst m'. cbn. rewrite app_length. lia.
  - destruct (findCell_ok m' (length (cdatas m)) (mkCD id t true 0 INT_MAX (length (byType m t))) Hc) as
      (c & ps' & F & F1 & F2 & _ & _ & _ & _ & F7 & F8 & _).
    { subst m'. cbn. now rewrite nth_error_snoc, Nat.eqb_refl. }
    exists c. split; [exact F|]. split; [exact F1|].
    cbn [cd_type cd_tpos] in F7. subst m'. cbn [conn mnodes] in F7, F8. rewrite Hpush in F7.
    destruct (ctype_eq_dec t t); [|congruence].
    assert (Hs : slice (conn m t ++ ps) (length (byType m t) * numNodes t) (numNodes t) = Some ps).
    { replace (length (byType m t) * numNodes t)%nat with (length (conn m t)) by (rewrite (ci_conn _ I); lia).
      replace (numNodes t) with (length ps) by congruence. apply slice_last. }
    rewrite Hs in F7. injection F7 as <-. congruence.
Qed.

(** ** One cell *)

Definition own_index (k : rkind) (lag : bool) : option nat :=
  match k with
  | KRbar => if lag then Some 1%nat else None
  | KRbe3 => None
  | KLmpc => Some 0%nat
  end.

Definition shape (k : rkind) (master : Z) (ids : list Z) : Prop :=
  match k with
  | KLmpc => (2 <= length ids <= 19)%nat
  | _ => exists s, ids = [master; s]
  end.

Definition goodCell m (k : rkind) (master : Z) (pos : nat) : Prop :=
  exists c, findCell m pos = Ok c /\ c_id c <> AUTO_ID /\ findCellPosition m (c_id c) <> None /\
    shape k master (c_nodeIds c) /\ (trace m = true -> NoDup (c_nodeIds c)).

Lemma goodCell_ext m m' k master pos : ext m m' -> goodCell m k master pos -> goodCell m' k master pos.
Proof.
  intros (_ & T & _ & C & P & _) (c & H1 & H2 & H3 & H4 & H5). exists c. rewrite T. auto 6.
Qed.

Lemma findCell_nodes m pos c : cinv m -> findCell m pos = Ok c ->
  mapM (findNodeId (mnodes m)) (c_nodePos c) = Ok (c_nodeIds c) /\ forall i, In i (c_nodeIds c) -> node m i <> None.
Proof.
  intros I H. destruct (nth_error (cdatas m) pos) as [d|] eqn:E; [|unfold findCell in H; rewrite E in H; discriminate].
  destruct (findCell_ok m pos d I E) as (c0 & ps & E0 & _ & _ & _ & _ & _ & A6 & _ & A8 & _).
  assert (c0 = c) by congruence. subst c0. rewrite A6. split; [exact A8|].
  clear E0 H A6. revert A8. generalize (c_nodeIds c). induction ps as [|p ps IH]; intros ids; cbn.
  - intros X. injection X as <-. contradiction.
  - unfold findNodeId at 1. destruct (nth_error (ndatas (mnodes m)) p) as [dp|] eqn:Ep; cbn [bind]; [|discriminate].
    destruct (mapM (findNodeId (mnodes m)) ps) as [r| | |] eqn:Er; cbn [bind]; try discriminate.
    intros X. injection X as <-. intros i [<-|Hi]; [|eapply IH; eauto]. rewrite (in_node _ _ _ I Ep). discriminate.
Qed.

(** The new nodes of a cell of a set. *)
Definition lagOf m m' (own : option nat) (c : cell D) (lg : list Z) : Prop :=
  match own with
  | None => lg = []
  | Some i => exists n d l, nth_error (c_nodeIds c) i = Some n /\ node m n = Some d /\ lg = [l] /\ clone m m' d 0 l
  end.

Definition cellDone m m' (own : option nat) (sh : list Z) (p q : nat) : Prop :=
  exists c c' lg, findCell m p = Ok c /\ findCell m' q = Ok c' /\
    (c_id c' = c_id c /\ forall n, In n lg -> ~ In n sh) /\
    c_nodeIds c' = c_nodeIds c ++ sh ++ lg /\ lagOf m m' own c lg.

Definition shared_len (k : rkind) (d3 : bool) : nat :=
  match k with
  | KRbar => if d3 then 1 else 0
  | KRbe3 => if d3 then 3 else 1
  | KLmpc => 0
  end%nat.

Lemma retype_spec strict d3 lag k master ids sh lg : shape k master ids -> length sh = shared_len k d3 ->
  length lg = match own_index k lag with Some _ => 1%nat | None => 0%nat end ->
  (sh ++ lg = [] /\ retype strict k (length (ids ++ sh ++ lg)) = Ok None) \/
  (3 <= length (ids ++ sh ++ lg))%nat /\
    retype strict k (length (ids ++ sh ++ lg)) = Ok (Some (POLY (length (ids ++ sh ++ lg)))).
Proof.
  intros Hs Hl Hg. rewrite !app_length, Hl, Hg.
  destruct k; cbn [shape own_index shared_len] in *.
  - destruct Hs as [s ->]. destruct d3, lag; cbn.
    + right. split; [lia|reflexivity].
    + right. split; [lia|reflexivity].
    + right. split; [lia|reflexivity].
    + left. split; [|reflexivity]. destruct sh; [|discriminate]. destruct lg; [reflexivity|discriminate].
  - destruct Hs as [s ->]. destruct d3; cbn; right; split; (lia || reflexivity).
  - right. split; [lia|]. unfold retype, polyType.
    assert (3 <= length ids + (0 + 1) <= 20)%nat as HH by lia.
    remember (length ids + (0 + 1))%nat as n eqn:En. clear En. destruct n as [|[|[|n]]]; try lia.
    assert ((Nat.leb 3 (S (S (S n))) && Nat.leb (S (S (S n))) 20)%bool = true) as ->.
    { apply andb_true_iff. split; apply Nat.leb_le; lia. }
    reflexivity.
Qed.

(** A node of [m'] that [m] does not have. *)
Definition fresh m i := node m i = None.

Lemma cellStep_spec strict d3 lag k master sh m pos : cinv m -> goodCell m k master pos ->
  length sh = shared_len k d3 -> NoDup sh -> (forall i, In i sh -> node m i <> None) ->
  (forall i c, In i sh -> findCell m pos = Ok c -> ~ In i (c_nodeIds c)) ->
  exists m' q, cellStep strict k master sh (own_index k lag) m pos = Ok (m', q) /\ ext m m' /\
    cellDone m m' (own_index k lag) sh pos (match q with Some q => q | None => pos end) /\
    (q = None <-> sh = [] /\ own_index k lag = None) /\
    (forall q', q = Some q' -> (length (cdatas m) <= q' < length (cdatas m'))%nat).
Proof.
  intros I (c & Fc & Hid & Hpos & Hs & Hnd) Hl Nsh Hsh Hdis. unfold SystusRigidModel.cellStep. rewrite Fc. cbn [bind].
  assert (wellShaped k master (c_nodeIds c) = true) as ->.
  { destruct k; [|  |reflexivity]; destruct Hs as [s ->]; cbn; apply Z.eqb_refl. }
  rewrite andb_false_r.
  destruct (findCell_nodes m pos c I Fc) as [Hm Hn].
  assert (Hown : exists m1 lg, match own_index k lag with
      | None => Ok (m, [])
      | Some i => match nth_error (c_nodePos c) i with
                  | None => UB
                  | Some p => do d <- nodeAt m (Some p); do (m, l) <- cloneNode m d 0; Ok (m, [l])
                  end
      end = Ok (m1, lg) /\ ext m m1 /\ lagOf m m1 (own_index k lag) c lg /\ cdatas m1 = cdatas m /\
      length lg = match own_index k lag with Some _ => 1%nat | None => 0%nat end /\
      (forall i, In i lg -> node m i = None) /\ NoDup lg).
  { destruct (own_index k lag) as [i|] eqn:Eo.
    - assert (Hi : (i < length (c_nodeIds c))%nat).
      { destruct k; cbn in Eo; [destruct lag; [|discriminate]|discriminate|]; injection Eo as <-.
        - destruct Hs as [s ->]. cbn. lia.
        - cbn in Hs. lia. }
      destruct (mapM_nth _ _ _ Hm) as [L N].
      destruct (nth_error (c_nodePos c) i) as [p|] eqn:Ep; [|apply nth_error_None in Ep; lia].
      destruct (N _ _ Ep) as (n & En & Fn). unfold findNodeId in Fn. cbn [nodeAt].
      destruct (nth_error (ndatas (mnodes m)) p) as [d|] eqn:Ed; [|discriminate]. injection Fn as <-. cbn [bind].
      destruct (cloneNode_spec m d 0 I) as (m1 & l & -> & E1 & C1 & _ & Hcd). cbn [bind].
      exists m1, [l]. split; [reflexivity|]. split; [exact E1|].
      split; [exists (nd_id d), d, l; split; [exact En|split; [apply (in_node _ _ _ I Ed)|auto]]|].
      split; [exact Hcd|]. split; [reflexivity|]. split; [intros j [<-|[]]; apply C1|]. constructor; [easy|constructor].
    - exists m, []. split; [reflexivity|]. split; [now apply ext_refl|]. repeat split; try easy. constructor. }
  destruct Hown as (m1 & lg & -> & E1 & Hlag & Hcd & Hlg & Hnew & Nlg). cbn [bind].
  destruct (retype_spec strict d3 lag k master _ sh lg Hs Hl Hlg) as [[Hnil ->]|[Hge ->]]; cbn [bind].
  - exists m1, None. split; [reflexivity|]. split; [exact E1|]. apply app_eq_nil in Hnil. destruct Hnil as [-> ->].
    split; [|split; [|discriminate]].
    + exists c, c, []. split; [exact Fc|]. split; [apply E1; exact Fc|]. cbn. rewrite app_nil_r. intuition.
    + split; [|reflexivity]. intros _. split; [reflexivity|]. destruct (own_index k lag) as [oi|]; [discriminate|reflexivity].
  - destruct E1 as (I1 & T1 & N1 & C1 & P1 & L1).
    assert (Hlk : forall i, In i lg -> node m1 i <> None).
    { intros i Hi. destruct (own_index k lag) as [j|]; cbn in Hlag; [|subst lg; contradiction].
      destruct Hlag as (n & d & l & _ & _ & -> & Hc). destruct Hi as [<-|[]]. eapply clone_known; eauto. }
    assert (Hmono : forall i, node m i <> None -> node m1 i <> None).
    { intros i Hi. destruct (node m i) as [d|] eqn:Ei; [|contradiction]. rewrite (N1 _ _ Ei). discriminate. }
    destruct (updateCell_spec m1 (c_id c) (length (c_nodeIds c ++ sh ++ lg)) (c_nodeIds c ++ sh ++ lg) I1 Hid)
      as (m2 & -> & E2 & (c' & F & F1 & F2) & Hsame & L2); auto.
    { intros i Hi. apply in_app_or in Hi. destruct Hi as [Hi|Hi]; [auto|].
      apply in_app_or in Hi. destruct Hi as [Hi|Hi]; auto. }
    { rewrite T1. intros Tr. specialize (Hnd Tr).
      assert (Happ : forall (a b : list Z), NoDup a -> NoDup b -> (forall x, In x a -> ~ In x b) -> NoDup (a ++ b)).
      { intros a b. induction a as [|x a IHa]; intros Na Nb Hab; [exact Nb|]. cbn. inversion Na; subst. constructor.
        - intros X. apply in_app_or in X. destruct X as [X|X]; [contradiction|]. apply (Hab x (or_introl eq_refl) X).
        - apply IHa; auto. intros y Hy. apply Hab. now right. }
      apply Happ; [exact Hnd| |].
      - apply Happ; auto. intros x Hx Hx2. apply (Hsh x Hx). now apply Hnew.
      - intros x Hx Hx2. apply in_app_or in Hx2. destruct Hx2 as [Hx2|Hx2].
        + eapply Hdis; eauto.
        + apply (Hn x Hx). now apply Hnew. }
    cbn [bind]. exists m2, (Some (length (cdatas m1))). split; [reflexivity|].
    assert (E12 : ext m m2) by (eapply ext_trans; [|exact E2]; repeat split; auto; apply I1).
    split; [exact E12|]. split; [|split].
    + exists c, c', lg. split; [exact Fc|]. split; [exact F|].
      split; [split; [exact F1|intros n Hx Hx2; apply (Hsh n Hx2); now apply Hnew]|]. split; [exact F2|].
      destruct (own_index k lag) as [j|]; cbn in *; [|exact Hlag].
      destruct Hlag as (n & d & l & A1 & A2 & A3 & A4). exists n, d, l. split; [exact A1|]. split; [exact A2|].
      split; [exact A3|]. exact (clone_right _ _ _ _ _ _ E2 A4).
    + split; [discriminate|]. intros [-> Ho]. rewrite Ho in Hlg. destruct lg; [|discriminate].
      rewrite !app_nil_r in Hge. destruct k; cbn in *; try discriminate; try (destruct d3; discriminate).
      destruct Hs as [s Hs]. rewrite Hs in Hge. cbn in Hge. lia.
    + intros q' X. injection X as <-. rewrite Hcd in *. lia.
Qed.

(** ** The cells of a set *)

Definition knownCells m sh (l : list nat) : Prop :=
  forall p c i, In p l -> findCell m p = Ok c -> In i sh -> ~ In i (c_nodeIds c).

(** New nodes of two cells of the set are different, except the shared ones. *)
Definition ownApart m m' sh (qs : list (nat * nat)) : Prop :=
  forall p1 q1 p2 q2 c1 c2 n, In (p1, q1) qs -> In (p2, q2) qs -> findCell m' q1 = Ok c1 -> findCell m' q2 = Ok c2 ->
    node m n = None -> In n (c_nodeIds c1) -> In n (c_nodeIds c2) -> In n sh \/ (p1, q1) = (p2, q2).

Lemma cellDone_right m m' m'' own sh p q : ext m' m'' -> cellDone m m' own sh p q -> cellDone m m'' own sh p q.
Proof.
  intros E (c & c' & lg & A1 & A2 & A3 & A4 & A5). exists c, c', lg. split; [exact A1|].
  split; [apply E; exact A2|]. split; [exact A3|]. split; [exact A4|]. unfold lagOf in *.
  destruct own as [oi|]; [|exact A5]. destruct A5 as (n0 & d & l & B1 & B2 & B3 & B4). exists n0, d, l.
  split; [exact B1|]. split; [exact B2|]. split; [exact B3|]. exact (clone_right _ _ _ _ _ _ E B4).
Qed.

Lemma cellDone_left m0 m m' own sh p q c : cinv m0 -> ext m0 m -> findCell m0 p = Ok c ->
  cellDone m m' own sh p q -> cellDone m0 m' own sh p q.
Proof.
  intros I E F (c1 & c' & lg & A1 & A2 & A3 & A4 & A5).
  assert (c1 = c) by (destruct E as (_ & _ & _ & E & _); rewrite (E _ _ F) in A1; congruence). subst c1.
  exists c, c', lg. split; [exact F|]. split; [exact A2|]. split; [exact A3|]. split; [exact A4|].
  unfold lagOf in *. destruct own as [oi|]; [|exact A5]. destruct A5 as (n0 & d & l & B1 & B2 & B3 & B4). exists n0, d, l.
  split; [exact B1|]. split; [|split; [exact B3|]].
  - destruct (findCell_nodes _ _ _ I F) as [_ Hn]. specialize (Hn _ (nth_error_In _ _ B1)).
    destruct (node m0 n0) as [d0|] eqn:E0; [|contradiction]. destruct E as (_ & _ & E & _).
    rewrite (E _ _ E0) in B2. congruence.
  - exact (clone_left _ _ _ _ _ _ E B4).
Qed.

(** The nodes of a finished cell are those of the old one, the shared ones, or
    nodes that did not exist. *)
Lemma cellDone_nodes m m' own sh p q c' n : cinv m -> cellDone m m' own sh p q -> findCell m' q = Ok c' ->
  In n (c_nodeIds c') -> node m n <> None \/ In n sh \/ (node m n = None /\ node m' n <> None).
Proof.
  intros I (c & c1 & lg & A1 & A2 & A3 & A4 & A5) F Hn. assert (c1 = c') by congruence. subst c1.
  rewrite A4 in Hn. apply in_app_or in Hn. destruct Hn as [Hn|Hn].
  - left. destruct (findCell_nodes _ _ _ I A1) as [_ H]. auto.
  - apply in_app_or in Hn. destruct Hn as [Hn|Hn]; [auto|]. right. right. unfold lagOf in A5.
    destruct own as [oi|]; [|subst lg; contradiction]. destruct A5 as (n0 & d & l & B1 & B2 & -> & B4).
    destruct Hn as [<-|[]]. split; [apply B4|eapply clone_known; eauto].
Qed.

Definition image (p : nat) (u : list (nat * nat)) : option nat :=
  match find (fun e => Nat.eqb (fst e) p) u with Some e => Some (snd e) | None => None end.

Lemma cellLoop_spec strict d3 lag k master sh l : forall m, cinv m -> (forall p, In p l -> goodCell m k master p) ->
  length sh = shared_len k d3 -> NoDup sh -> (forall i, In i sh -> node m i <> None) -> knownCells m sh l ->
  exists m' u, cellLoop strict k master sh (own_index k lag) m l = Ok (m', u) /\ ext m m' /\
    (sh = [] /\ own_index k lag = None -> u = []) /\
    (~ (sh = [] /\ own_index k lag = None) -> map fst u = l) /\
    (forall p q, In (p, q) u -> cellDone m m' (own_index k lag) sh p q /\
                               (length (cdatas m) <= q < length (cdatas m'))%nat) /\
    ownApart m m' sh u.
Proof.
  induction l as [|p l IH]; intros m I Hg Hl Nsh Hsh Hk; cbn [SystusRigidModel.cellLoop].
  - exists m, []. split; [reflexivity|]. split; [now apply ext_refl|]. split; [auto|]. split; [auto|].
    split; [contradiction|]. intros p1 q1 p2 q2 c1 c2 n [].
  - destruct (cellStep_spec strict d3 lag k master sh m p I (Hg p (or_introl eq_refl)) Hl Nsh Hsh) as
      (m1 & q & -> & E1 & C1 & Hq & Hr); [intros i c Hi Hc; eapply Hk; eauto; now left|]. cbn [bind].
    destruct (IH m1) as (m2 & u & -> & E2 & U1 & U2 & U3 & U4); auto.
    { apply E1. }
    { intros p' Hp'. eapply goodCell_ext; [exact E1|]. apply Hg. now right. }
    { intros i Hi X. specialize (Hsh i Hi). destruct (node m i) as [d|] eqn:Ei; [|contradiction].
      destruct E1 as (_ & _ & E1 & _). rewrite (E1 _ _ Ei) in X. discriminate. }
    { intros p' c i Hp' Hc Hi. destruct (Hg p' (or_intror Hp')) as (c0 & F0 & _).
      destruct E1 as (_ & _ & _ & E1 & _). rewrite (E1 _ _ F0) in Hc. injection Hc as <-.
      eapply Hk; eauto. now right. }
    cbn [bind]. exists m2, (match q with Some q => (p, q) :: u | None => u end). split; [reflexivity|].
    assert (E12 : ext m m2) by (eapply ext_trans; eauto). split; [exact E12|].
    assert (Hlift : forall p' q', In (p', q') u -> cellDone m m2 (own_index k lag) sh p' q' /\
                        (length (cdatas m) <= q' < length (cdatas m2))%nat).
    { intros p' q' Hu. destruct (U3 _ _ Hu) as [D1 D2].
      destruct (Hg p') as (c0 & F0 & _).
      { right. assert (Hne : ~ (sh = [] /\ own_index k lag = None)) by (intros X; rewrite (U1 X) in Hu; contradiction).
        rewrite <- (U2 Hne). apply in_map_iff. exists (p', q'). auto. }
      split; [exact (cellDone_left _ _ _ _ _ _ _ _ I E1 F0 D1)|]. destruct E1 as (_ & _ & _ & _ & _ & E1). lia. }
    destruct q as [q|].
    + assert (Hne : ~ (sh = [] /\ own_index k lag = None)) by (intros X; apply Hq in X; discriminate).
      split; [contradiction|]. split; [intros _; cbn; now rewrite (U2 Hne)|]. split.
      * intros p' q' [X|Hu]; [|auto]. injection X as <- <-. split; [exact (cellDone_right _ _ _ _ _ _ _ E2 C1)|].
        specialize (Hr _ eq_refl). destruct E2 as (_ & _ & _ & _ & _ & E2). lia.
      * assert (Hfirst : forall p' q' c1 c2 n, In (p', q') u -> findCell m2 q = Ok c1 -> findCell m2 q' = Ok c2 ->
                   node m n = None -> In n (c_nodeIds c1) -> In n (c_nodeIds c2) -> In n sh).
        { intros p' q' c1 c2 n Hu F1 F2 Hn H1 H2. destruct (U3 _ _ Hu) as [D1 _].
          assert (Hcell : exists c, findCell m1 q = Ok c).
          { destruct C1 as (x & c & lg & _ & Hc & _). eauto. }
          destruct Hcell as [c Hc]. assert (c = c1) by (destruct E2 as (_ & _ & _ & E2 & _); rewrite (E2 _ _ Hc) in F1; congruence).
          subst c. destruct (cellDone_nodes _ _ _ _ _ _ _ _ I C1 Hc H1) as [X|[X|[_ X]]]; [congruence|exact X|].
          assert (I1 : cinv m1) by apply E1.
          destruct D1 as (y & y' & lg & B1 & B2 & B3 & B4 & B5). assert (y' = c2) by congruence. subst y'.
          rewrite B4 in H2. apply in_app_or in H2. destruct H2 as [H2|H2].
          - destruct (Hg p') as (c0 & F0 & _).
            { right. rewrite <- (U2 Hne). apply in_map_iff. exists (p', q'). auto. }
            assert (c0 = y) by (destruct E1 as (_ & _ & _ & E1 & _); rewrite (E1 _ _ F0) in B1; congruence). subst c0.
            destruct (findCell_nodes _ _ _ I F0) as [_ K]. specialize (K _ H2). congruence.
          - apply in_app_or in H2. destruct H2 as [H2|H2]; [exact H2|]. unfold lagOf in B5.
            destruct (own_index k lag) as [oi|]; [|subst lg; contradiction].
            destruct B5 as (n0 & d & l0 & _ & _ & -> & [B6 _]). destruct H2 as [<-|[]]. congruence. }
        intros p1 q1 p2 q2 c1 c2 n [X1|H1] [X2|H2] F1 F2 Hn G1 G2.
        -- right. congruence.
        -- injection X1 as <- <-. left. eapply (Hfirst p2 q2 c1 c2); eauto.
        -- injection X2 as <- <-. left. eapply (Hfirst p1 q1 c2 c1); eauto.
        -- destruct (node m1 n) as [d|] eqn:En; [|eapply U4; eauto].
           exfalso.
           assert (Hcase : forall p' q' c' , In (p', q') u -> findCell m2 q' = Ok c' -> In n (c_nodeIds c') -> In n sh).
           { intros p' q' c' Hu F G. destruct (U3 _ _ Hu) as [(y & y' & lg & B1 & B2 & B3 & B4 & B5) _].
             assert (y' = c') by congruence. subst y'. rewrite B4 in G. apply in_app_or in G. destruct G as [G|G].
             - destruct (Hg p') as (c0 & F0 & _).
               { right. rewrite <- (U2 Hne). apply in_map_iff. exists (p', q'). auto. }
               assert (c0 = y) by (destruct E1 as (_ & _ & _ & E1 & _); rewrite (E1 _ _ F0) in B1; congruence). subst c0.
               destruct (findCell_nodes _ _ _ I F0) as [_ K]. specialize (K _ G). congruence.
             - apply in_app_or in G. destruct G as [G|G]; [exact G|]. unfold lagOf in B5.
               destruct (own_index k lag) as [oi|]; [|subst lg; contradiction].
               destruct B5 as (n0 & d0 & l0 & _ & _ & -> & [B6 _]). destruct G as [<-|[]]. congruence. }
           specialize (Hcase _ _ _ H1 F1 G1). apply (Hsh _ Hcase). exact Hn.
    + assert (Hno : sh = [] /\ own_index k lag = None) by (apply Hq; reflexivity).
      split; [auto|]. split; [contradiction|]. split; [exact Hlift|]. rewrite (U1 Hno).
      intros p1 q1 p2 q2 c1 c2 n [].
Qed.

Lemma padd_in l p q : In q (padd l p) <-> q = p \/ In q l.
Proof.
  induction l as [|x l IH]; cbn [padd].
  - cbn. intuition.
  - destruct (Nat.eqb_spec p x) as [->|Hne].
    + cbn. intuition.
    + destruct (Nat.ltb p x); cbn [In]; [intuition|]. rewrite IH. intuition.
Qed.

Lemma premove_in l p q : In q (premove l p) <-> q <> p /\ In q l.
Proof.
  unfold premove. rewrite filter_In. destruct (Nat.eqb_spec p q); cbn; intuition congruence.
Qed.

Lemma swapCells_in u : forall l q, (forall a b c d, In (a, b) u -> In (c, d) u -> a <> d) ->
  (In q (swapCells l u) <-> (In q l /\ ~ In q (map fst u)) \/ In q (map snd u)).
Proof.
  unfold swapCells. induction u as [|[a b] u IH]; intros l q H; cbn; [intuition|].
  rewrite IH by (intros x y z w H1 H2; apply (H x y z w); now right).
  rewrite padd_in, premove_in.
  assert (~ In b (map fst u)).
  { intros X. apply in_map_iff in X. destruct X as ([x y] & E & Hx). cbn in E. subst x.
    apply (H b y a b); [now right|now left|reflexivity]. }
  intuition (subst; auto).
Qed.

(** ** A set *)

Definition goodSet m (k : rkind) (s : rset) : Prop :=
  (k <> KLmpc -> node m (rs_master s) <> None) /\ forall p, In p (rs_cells s) -> goodCell m k (rs_master s) p.

Lemma goodSet_ext m m' k s : ext m m' -> goodSet m k s -> goodSet m' k s.
Proof.
  intros E [H1 H2]. split.
  - intros Hk X. specialize (H1 Hk). destruct (node m (rs_master s)) as [d|] eqn:Ed; [|contradiction].
    destruct E as (_ & _ & E & _). rewrite (E _ _ Ed) in X. discriminate.
  - intros p Hp. eapply goodCell_ext; eauto.
Qed.

Definition sharedOK m m' (k : rkind) (d3 : bool) (master : Z) (sh : list Z) : Prop :=
  match k with
  | KRbar => exists d, node m master = Some d /\
      if d3 then exists r, sh = [r] /\ clone m m' d (nd_cd d) r else sh = []
  | KRbe3 => exists d l, node m master = Some d /\ clone m m' d 0 l /\
      if d3 then exists r lr, sh = [r; l; lr] /\ NoDup sh /\ clone m m' d (nd_cd d) r /\ clone m m' d 0 lr
      else sh = [l]
  | KLmpc => sh = []
  end.

Definition own_of (k : rkind) (lag : bool) : option nat :=
  match k with
  | KRbar => if lag then Some 1%nat else None
  | KRbe3 => None
  | KLmpc => if lag then Some 0%nat else None
  end.

Definition cellsDone lag m m' (k : rkind) (sh : list Z) (s s' : rset) : Prop :=
  rs_master s' = rs_master s /\
  (forall p, In p (rs_cells s) -> exists q, In q (rs_cells s') /\ cellDone m m' (own_of k lag) sh p q) /\
  (forall q, In q (rs_cells s') -> exists p, In p (rs_cells s) /\ cellDone m m' (own_of k lag) sh p q) /\
  (forall q1 q2 c1 c2 n, In q1 (rs_cells s') -> In q2 (rs_cells s') -> findCell m' q1 = Ok c1 ->
     findCell m' q2 = Ok c2 -> node m n = None -> In n (c_nodeIds c1) -> In n (c_nodeIds c2) ->
     In n sh \/ q1 = q2).

Lemma finish strict d3 lag k m m1 s sh : cinv m -> ext m m1 -> goodSet m k s -> length sh = shared_len k d3 ->
  NoDup sh -> (forall i, In i sh -> node m i = None /\ node m1 i <> None) -> own_of k lag = own_index k lag ->
  exists m' u, cellLoop strict k (rs_master s) sh (own_index k lag) m1 (rs_cells s) = Ok (m', u) /\ ext m1 m' /\
    cellsDone lag m m' k sh s (mkRS (rs_master s) (swapCells (rs_cells s) u)).
Proof.
  intros I E1 [_ Hg] Hl Nsh Hsh Hown.
  destruct (cellLoop_spec strict d3 lag k (rs_master s) sh (rs_cells s) m1) as (m' & u & EL & E2 & U1 & U2 & U3 & U4); auto.
  { apply E1. }
  { intros p Hp. eapply goodCell_ext; eauto. }
  { intros i Hi. apply Hsh, Hi. }
  { intros p c i Hp Fc Hi X. destruct (Hg p Hp) as (c0 & F0 & _).
    assert (c0 = c) by (destruct E1 as (_ & _ & _ & E1 & _); rewrite (E1 _ _ F0) in Fc; congruence). subst c0.
    destruct (findCell_nodes _ _ _ I F0) as [_ K]. apply (K _ X). apply Hsh, Hi. }
  exists m', u. split; [exact EL|]. split; [exact E2|].
  assert (E12 : ext m m') by exact (ext_trans _ _ _ E1 E2).
  assert (Hdec : (sh = [] /\ own_index k lag = None) \/ ~ (sh = [] /\ own_index k lag = None)).
  { destruct sh; [|right; intros [X _]; discriminate]. destruct (own_index k lag); [right; intros [_ X]; discriminate|auto]. }
  unfold cellsDone. rewrite Hown. cbn [rs_master rs_cells]. destruct Hdec as [Hno|Hne].
  - rewrite (U1 Hno). cbn [swapCells fold_left]. destruct Hno as [-> Ho]. rewrite Ho.
    assert (Hid : forall p, In p (rs_cells s) -> cellDone m m' None [] p p).
    { intros p Hp. destruct (Hg p Hp) as (c & F & _). exists c, c, []. split; [exact F|]. split; [apply E12, F|].
      cbn. rewrite app_nil_r. intuition. }
    split; [reflexivity|]. split; [eauto|]. split; [eauto|]. intros q1 q2 c1 c2 n H1 H2 F1 F2 Hn G1 G2. exfalso.
    destruct (Hid _ H1) as (c & c' & lg & A1 & A2 & _ & A4 & ->). assert (c' = c1) by congruence. subst c'.
    rewrite A4 in G1. cbn in G1. rewrite app_nil_r in G1. destruct (findCell_nodes _ _ _ I A1) as [_ K]. apply (K _ G1 Hn).
  - specialize (U2 Hne).
    assert (Hbig : forall a b, In (a, b) u -> (a < length (cdatas m1))%nat /\ (length (cdatas m1) <= b)%nat).
    { intros a b Hab. split; [|apply (U3 _ _ Hab)].
      assert (In a (rs_cells s)) as Ha by (rewrite <- U2; apply in_map_iff; exists (a, b); auto).
      destruct (Hg a Ha) as (c & F & _). destruct E1 as (_ & _ & _ & E1 & _). apply E1 in F. unfold findCell in F.
      destruct (nth_error (cdatas m1) a) eqn:En; [|discriminate]. apply nth_error_Some. congruence. }
    assert (Hin : forall q, In q (swapCells (rs_cells s) u) <-> exists p, In p (rs_cells s) /\ In (p, q) u).
    { intros q. rewrite swapCells_in.
      - rewrite U2. split.
        + intros [[X Y]|X]; [contradiction|]. apply in_map_iff in X. destruct X as ([p q'] & E & Hp). cbn in E. subst q'.
          exists p. split; [|exact Hp]. rewrite <- U2. apply in_map_iff. exists (p, q). auto.
        + intros (p & _ & Hp). right. apply in_map_iff. exists (p, q). auto.
      - intros a b c d H1 H2 ->. destruct (Hbig _ _ H1), (Hbig _ _ H2). lia. }
    assert (Hdone : forall p q, In p (rs_cells s) -> In (p, q) u -> cellDone m m' (own_index k lag) sh p q).
    { intros p q Hp Hu. destruct (Hg p Hp) as (c & F & _). destruct (U3 _ _ Hu) as [X _].
      exact (cellDone_left _ _ _ _ _ _ _ _ I E1 F X). }
    split; [reflexivity|]. split; [|split].
    + intros p Hp. assert (In p (map fst u)) as X by (rewrite U2; exact Hp). apply in_map_iff in X.
      destruct X as ([p' q] & E & Hu). cbn in E. subst p'. exists q. split; [apply Hin; eauto|auto].
    + intros q Hq. apply Hin in Hq. destruct Hq as (p & Hp & Hu). eauto.
    + intros q1 q2 c1 c2 n H1 H2 F1 F2 Hn G1 G2. apply Hin in H1, H2. destruct H1 as (p1 & P1 & H1), H2 as (p2 & P2 & H2).
      destruct (node m1 n) as [d|] eqn:En.
      * left. destruct (Hdone _ _ P1 H1) as (c & c' & lg & A1 & A2 & _ & A4 & A5). assert (c' = c1) by congruence. subst c'.
        rewrite A4 in G1. apply in_app_or in G1. destruct G1 as [G1|G1].
        -- exfalso. destruct (findCell_nodes _ _ _ I A1) as [_ K]. apply (K _ G1 Hn).
        -- apply in_app_or in G1. destruct G1 as [G1|G1]; [exact G1|]. exfalso.
           destruct (U3 _ _ H1) as [(c3 & c4 & lg' & B1 & B2 & _ & B4 & B5) _].
           assert (c4 = c1) by congruence. subst c4.
           assert (c3 = c) by (destruct E1 as (_ & _ & _ & E1 & _); rewrite (E1 _ _ A1) in B1; congruence). subst c3.
           assert (lg' = lg) by (rewrite A4 in B4; apply app_inv_head in B4; apply app_inv_head in B4; congruence). subst lg'.
           unfold lagOf in B5. destruct (own_index k lag) as [oi|]; [|subst lg; contradiction].
           destruct B5 as (n0 & d0 & l0 & _ & _ & -> & [B6 _]). destruct G1 as [<-|[]]. congruence.
      * destruct (U4 _ _ _ _ _ _ _ H1 H2 F1 F2 En G1 G2) as [X|X]; [auto|right; congruence].
Qed.

Lemma nodeAt_node m id d : node m id = Some d -> nodeAt m (findNodePosition (mnodes m) id) = Ok d.
Proof.
  unfold node, getNode. destruct (findNodePosition (mnodes m) id); [|discriminate]. cbn. now intros ->.
Qed.

Lemma ext_known m m' i : ext m m' -> node m i <> None -> node m' i <> None.
Proof.
  intros (_ & _ & E & _) H. destruct (node m i) as [d|] eqn:Ed; [|contradiction]. rewrite (E _ _ Ed). discriminate.
Qed.

Definition rotsAfter (k : rkind) (d3 : bool) (rots : zmap Z) (master : Z) (sh : list Z) : zmap Z :=
  match k with KLmpc => rots | _ => if d3 then zinsert rots master (hd 0 sh) else rots end.

Lemma oneSet_spec strict d3 lag k m rots s : cinv m -> goodSet m k s ->
  exists m' s' sh, oneSet RESERVED strict d3 lag k m rots s = Ok (m', rotsAfter k d3 rots (rs_master s) sh, s') /\
    ext m m' /\ sharedOK m m' k d3 (rs_master s) sh /\ cellsDone lag m m' k sh s s' /\
    (forall i, In i sh -> node m i = None /\ node m' i <> None).
Proof.
  intros I G. pose proof G as [Hm _]. destruct k; cbn [oneSet rotsAfter].
  - unfold rbarSet. destruct (node m (rs_master s)) as [d|] eqn:Ed; [|exfalso; now apply Hm].
    rewrite (nodeAt_node _ _ _ Ed). cbn [bind].
    assert (nd_id d = rs_master s) as Hid by (destruct (node_in _ _ _ I Ed) as (p & _ & _ & X); exact X).
    destruct d3; cbn [bind].
    + destruct (cloneNode_spec m d (nd_cd d) I) as (m1 & r & -> & E1 & C1 & _). cbn [bind].
      destruct (finish strict true lag KRbar m m1 s [r] I E1 G eq_refl) as (m2 & u & EL & E2 & CD).
      { constructor; [easy|constructor]. }
      { intros i [<-|[]]. split; [apply C1|eapply clone_known; eauto]. }
      { reflexivity. }
      cbn [own_index] in EL. rewrite EL. cbn [bind]. rewrite Hid.
      exists m2. eexists. exists [r]. split; [reflexivity|]. split; [exact (ext_trans _ _ _ E1 E2)|].
      split; [exists d; split; [exact Ed|]; exists r; split; [reflexivity|exact (clone_right _ _ _ _ _ _ E2 C1)]|].
      split; [exact CD|]. intros i [<-|[]]. split; [apply C1|]. eapply ext_known; [exact E2|]. eapply clone_known; eauto.
    + destruct (finish strict false lag KRbar m m s [] I (ext_refl _ I) G eq_refl) as (m2 & u & EL & E2 & CD).
      { constructor. } { intros i []. } { reflexivity. }
      cbn [own_index] in EL. rewrite EL. cbn [bind].
      exists m2. eexists. exists []. split; [reflexivity|]. split; [exact E2|]. split; [exists d; auto|]. split; [exact CD|].
      intros i [].
  - unfold rbe3Set. destruct (node m (rs_master s)) as [d|] eqn:Ed; [|exfalso; now apply Hm].
    rewrite (nodeAt_node _ _ _ Ed). cbn [bind].
    assert (nd_id d = rs_master s) as Hid by (destruct (node_in _ _ _ I Ed) as (p & _ & _ & X); exact X).
    destruct (cloneNode_spec m d 0 I) as (m1 & l & -> & E1 & C1 & _). cbn [bind].
    destruct d3; cbn [bind].
    + assert (I1 : cinv m1) by apply E1.
      destruct (cloneNode_spec m1 d (nd_cd d) I1) as (m2 & r & -> & E2 & C2 & _). cbn [bind].
      assert (I2 : cinv m2) by apply E2.
      destruct (cloneNode_spec m2 d 0 I2) as (m3 & lr & -> & E3 & C3 & _). cbn [bind].
      assert (K1 : node m1 l <> None) by (eapply clone_known; eauto).
      assert (K2 : node m2 r <> None) by (eapply clone_known; eauto).
      assert (K3 : node m3 lr <> None) by (eapply clone_known; eauto).
      assert (E12 : ext m m2) by exact (ext_trans _ _ _ E1 E2).
      assert (E13 : ext m m3) by exact (ext_trans _ _ _ E12 E3).
      assert (N2 : node m r = None) by (apply (clone_left _ _ _ _ _ _ E1 C2)).
      assert (N3 : node m lr = None) by (apply (clone_left _ _ _ _ _ _ E12 C3)).
      assert (ND : NoDup [r; l; lr]).
      { assert (r <> l) by (intros ->; destruct C2; congruence).
        assert (r <> lr) by (intros ->; destruct C3; congruence).
        assert (l <> lr) by (intros ->; destruct C3 as [C3 _]; apply (ext_known _ _ _ E2 K1 C3)).
        constructor; [cbn; intuition|]. constructor; [cbn; intuition|]. constructor; [easy|constructor]. }
      destruct (finish strict true lag KRbe3 m m3 s [r; l; lr] I E13 G eq_refl ND) as (m4 & u & EL & E4 & CD).
      { intros i [<-|[<-|[<-|[]]]].
        - split; [exact N2|]. exact (ext_known _ _ _ E3 K2).
        - split; [apply C1|]. exact (ext_known _ _ _ E3 (ext_known _ _ _ E2 K1)).
        - split; [exact N3|exact K3]. }
      { reflexivity. }
      cbn [own_index] in EL. rewrite EL. cbn [bind]. rewrite Hid.
      exists m4. eexists. exists [r; l; lr]. split; [reflexivity|]. split; [exact (ext_trans _ _ _ E13 E4)|].
      assert (E24 : ext m2 m4) by exact (ext_trans _ _ _ E3 E4).
      assert (E14 : ext m1 m4) by exact (ext_trans _ _ _ E2 E24).
      split; [|split; [exact CD|]].
      * exists d, l. split; [exact Ed|]. split; [exact (clone_right _ _ _ _ _ _ E14 C1)|].
        exists r, lr. split; [reflexivity|]. split; [exact ND|].
        split; [exact (clone_right _ _ _ _ _ _ E24 (clone_left _ _ _ _ _ _ E1 C2))|].
        exact (clone_right _ _ _ _ _ _ E4 (clone_left _ _ _ _ _ _ E12 C3)).
      * intros i [<-|[<-|[<-|[]]]].
        -- split; [exact N2|]. exact (ext_known _ _ _ E24 K2).
        -- split; [apply C1|]. exact (ext_known _ _ _ E14 K1).
        -- split; [exact N3|]. exact (ext_known _ _ _ E4 K3).
    + destruct (finish strict false lag KRbe3 m m1 s [l] I E1 G eq_refl) as (m2 & u & EL & E2 & CD).
      { constructor; [easy|constructor]. }
      { intros i [<-|[]]. split; [apply C1|eapply clone_known; eauto]. }
      { reflexivity. }
      cbn [own_index] in EL. rewrite EL. cbn [bind].
      exists m2. eexists. exists [l]. split; [reflexivity|]. split; [exact (ext_trans _ _ _ E1 E2)|].
      split; [exists d, l; split; [exact Ed|]; split; [exact (clone_right _ _ _ _ _ _ E2 C1)|reflexivity]|].
      split; [exact CD|]. intros i [<-|[]]. split; [apply C1|]. eapply ext_known; [exact E2|]. eapply clone_known; eauto.
  - unfold lmpcSet. destruct lag.
    + destruct (finish strict d3 true KLmpc m m s [] I (ext_refl _ I) G eq_refl) as (m2 & u & EL & E2 & CD).
      { constructor. } { intros i []. } { reflexivity. }
      cbn [own_index] in EL. rewrite EL. cbn [bind].
      exists m2. eexists. exists []. split; [reflexivity|]. split; [exact E2|]. split; [reflexivity|]. split; [exact CD|].
      intros i [].
    + exists m, s, []. split; [reflexivity|]. split; [now apply ext_refl|]. split; [reflexivity|].
      split; [|intros i []].
      assert (Hid : forall p, In p (rs_cells s) -> cellDone m m None [] p p).
      { intros p Hp. destruct (proj2 G p Hp) as (c & F & _). exists c, c, []. split; [exact F|]. split; [exact F|].
        cbn. rewrite app_nil_r. intuition. }
      split; [reflexivity|]. split; [cbn; eauto|]. split; [cbn; eauto|].
      intros q1 q2 c1 c2 n H1 H2 F1 F2 Hn G1 G2. exfalso.
      destruct (findCell_nodes _ _ _ I F1) as [_ K]. apply (K _ G1 Hn).
Qed.

(** ** All sets *)

Definition setDone d3 lag m m' (e e' : rkind * rset) (sh : list Z) : Prop :=
  fst e' = fst e /\ sharedOK m m' (fst e) d3 (rs_master (snd e)) sh /\ cellsDone lag m m' (fst e) sh (snd e) (snd e').

Lemma sharedOK_move m0 m m' m'' k d3 master sh : ext m0 m -> ext m' m'' ->
  (k <> KLmpc -> node m0 master <> None) ->
  sharedOK m m' k d3 master sh -> sharedOK m0 m'' k d3 master sh.
Proof.
  intros E1 E2 Hm.
  assert (Hn : forall d, node m master = Some d -> k <> KLmpc -> node m0 master = Some d).
  { intros d Hd Hk. specialize (Hm Hk). destruct (node m0 master) as [d0|] eqn:E; [|contradiction].
    destruct E1 as (_ & _ & E1 & _). rewrite (E1 _ _ E) in Hd. congruence. }
  assert (Hc : forall d cd i, clone m m' d cd i -> clone m0 m'' d cd i)
    by (intros d cd i H; exact (clone_right _ _ _ _ _ _ E2 (clone_left _ _ _ _ _ _ E1 H))).
  destruct k; cbn; [| |auto].
  - intros (d & H1 & H2). exists d. split; [apply Hn; [exact H1|discriminate]|].
    destruct d3; [|exact H2]. destruct H2 as (r & -> & H2). exists r. auto.
  - intros (d & l & H1 & H2 & H3). exists d, l. split; [apply Hn; [exact H1|discriminate]|]. split; [auto|].
    destruct d3; [|exact H3]. destruct H3 as (r & lr & A1 & A2 & A3 & A4). exists r, lr. auto.
Qed.

Lemma cellsDone_right lag m m' m'' k sh s s' : ext m' m'' -> cellsDone lag m m' k sh s s' -> cellsDone lag m m'' k sh s s'.
Proof.
  intros E (H1 & H2 & H3 & H4). split; [exact H1|]. split; [|split].
  - intros p Hp. destruct (H2 p Hp) as (q & Hq & C). exists q. split; [exact Hq|]. exact (cellDone_right _ _ _ _ _ _ _ E C).
  - intros q Hq. destruct (H3 q Hq) as (p & Hp & C). exists p. split; [exact Hp|]. exact (cellDone_right _ _ _ _ _ _ _ E C).
  - intros q1 q2 c1 c2 n Q1 Q2 F1 F2.
    assert (Hf : forall q c, In q (rs_cells s') -> findCell m'' q = Ok c -> findCell m' q = Ok c).
    { intros q c Hq F. destruct (H3 q Hq) as (p & _ & (x & c' & lg & _ & F' & _)).
      destruct E as (_ & _ & _ & E & _). rewrite (E _ _ F') in F. congruence. }
    apply (H4 q1 q2 c1 c2 n); auto.
Qed.

Lemma cellsDone_left lag m0 m m' k sh s s' : cinv m0 -> ext m0 m -> goodSet m0 k s -> (forall i, In i sh -> node m i = None) ->
  cellsDone lag m m' k sh s s' -> cellsDone lag m0 m' k sh s s'.
Proof.
  intros I E [_ G] Hsh (H1 & H2 & H3 & H4). split; [exact H1|]. split; [|split].
  - intros p Hp. destruct (H2 p Hp) as (q & Hq & C). exists q. split; [exact Hq|].
    destruct (G p Hp) as (c & F & _). exact (cellDone_left _ _ _ _ _ _ _ _ I E F C).
  - intros q Hq. destruct (H3 q Hq) as (p & Hp & C). exists p. split; [exact Hp|].
    destruct (G p Hp) as (c & F & _). exact (cellDone_left _ _ _ _ _ _ _ _ I E F C).
  - intros q1 q2 c1 c2 n Q1 Q2 F1 F2 Hn G1 G2. destruct (node m n) as [d|] eqn:En; [|eapply H4; eauto].
    exfalso. destruct (H3 q1 Q1) as (p & Hp & (c & c' & lg & A1 & A2 & _ & A4 & A5)).
    assert (c' = c1) by congruence. subst c'. destruct (G p Hp) as (c0 & F0 & _).
    assert (c0 = c) by (destruct E as (_ & _ & _ & E & _); rewrite (E _ _ F0) in A1; congruence). subst c0.
    rewrite A4 in G1. apply in_app_or in G1. destruct G1 as [G1|G1].
    + destruct (findCell_nodes _ _ _ I F0) as [_ K]. apply (K _ G1 Hn).
    + apply in_app_or in G1. destruct G1 as [G1|G1]; [specialize (Hsh _ G1); congruence|]. unfold lagOf in A5.
      destruct (own_of k lag) as [oi|]; [|subst lg; contradiction].
      destruct A5 as (n0 & d0 & l0 & _ & _ & -> & [B6 _]). destruct G1 as [<-|[]]. congruence.
Qed.

(** The sets [e'] and [f'] have no new node in common. *)
Definition setsApart m m' (e' f' : rkind * rset) : Prop :=
  forall q1 q2 c1 c2 n, In q1 (rs_cells (snd e')) -> In q2 (rs_cells (snd f')) -> findCell m' q1 = Ok c1 ->
    findCell m' q2 = Ok c2 -> In n (c_nodeIds c1) -> In n (c_nodeIds c2) -> node m n <> None.

Definition rotsAll d3 (l : list (rkind * rset)) (shs : list (list Z)) (rots : zmap Z) : zmap Z :=
  fold_left (fun r '(e, sh) => rotsAfter (fst e) d3 r (rs_master (snd e)) sh) (combine l shs) rots.

Lemma setLoop_spec strict d3 lag l : forall m rots, cinv m -> (forall e, In e l -> goodSet m (fst e) (snd e)) ->
  exists m' l' shs, setLoop strict d3 lag m rots l = Ok (m', rotsAll d3 l shs rots, l') /\ ext m m' /\
    length l' = length l /\ length shs = length l /\
    (forall i e e' sh, nth_error l i = Some e -> nth_error l' i = Some e' -> nth_error shs i = Some sh ->
       setDone d3 lag m m' e e' sh /\ forall n, In n sh -> node m n = None) /\
    (forall i j e' f', nth_error l' i = Some e' -> nth_error l' j = Some f' -> i <> j -> setsApart m m' e' f').
Proof.
  induction l as [|[k s] l IH]; intros m rots I Hg; cbn [SystusRigidModel.setLoop].
  - exists m, [], []. split; [reflexivity|]. split; [now apply ext_refl|]. split; [reflexivity|]. split; [reflexivity|].
    split; intros [|i]; discriminate.
  - pose proof (Hg _ (or_introl eq_refl)) as G. cbn [fst snd] in G.
    destruct (oneSet_spec strict d3 lag k m rots s I G) as (m1 & s' & sh & -> & E1 & S1 & C1 & N1). cbn [bind].
    destruct (IH m1 (rotsAfter k d3 rots (rs_master s) sh)) as (m2 & l' & shs & -> & E2 & L1 & L2 & R & A); [apply E1| |].
    { intros e He. eapply goodSet_ext; [exact E1|]. apply Hg. now right. }
    cbn [bind]. exists m2, ((k, s') :: l'), (sh :: shs). split; [reflexivity|].
    assert (E12 : ext m m2) by exact (ext_trans _ _ _ E1 E2). split; [exact E12|].
    split; [cbn; congruence|]. split; [cbn; congruence|].
    assert (Hrest : forall i e e' sh', nth_error l i = Some e -> nth_error l' i = Some e' -> nth_error shs i = Some sh' ->
       setDone d3 lag m m2 e e' sh' /\ forall n, In n sh' -> node m n = None).
    { intros i e e' sh' H1 H2 H3. destruct (R _ _ _ _ H1 H2 H3) as [(F1 & F2 & F3) F4].
      assert (Ge : goodSet m (fst e) (snd e)) by (apply Hg; right; eapply nth_error_In; eauto). split.
      - split; [exact F1|]. split.
        + eapply sharedOK_move; [exact E1|apply ext_refl; apply E2|apply Ge|exact F2].
        + exact (cellsDone_left _ _ _ _ _ _ _ _ I E1 Ge F4 F3).
      - intros n Hn. specialize (F4 _ Hn). destruct (node m n) as [d|] eqn:En; [|reflexivity].
        destruct E1 as (_ & _ & E1 & _). rewrite (E1 _ _ En) in F4. discriminate. }
    split.
    + intros [|i] e e' sh' H1 H2 H3; cbn in H1, H2, H3; [|eauto].
      injection H1 as <-. injection H2 as <-. injection H3 as <-. split.
      * split; [reflexivity|]. cbn [fst snd]. split.
        -- eapply sharedOK_move; [apply ext_refl, I|exact E2|apply G|exact S1].
        -- exact (cellsDone_right _ _ _ _ _ _ _ _ E2 C1).
      * intros n Hn. apply N1, Hn.
    + assert (Hhead : forall j f', nth_error l' j = Some f' -> setsApart m m2 (k, s') f').
      { intros j f' Hj q1 q2 c1 c2 n Q1 Q2 F1 F2 G1 G2 Hn. cbn [snd] in Q1.
        assert (Hj1 : (j < length l)%nat) by (rewrite <- L1; apply nth_error_Some; congruence).
        destruct (nth_error l j) as [f|] eqn:Ef; [|apply nth_error_None in Ef; lia].
        destruct (nth_error shs j) as [shj|] eqn:Es; [|apply nth_error_None in Es; lia].
        destruct (R _ _ _ _ Ef Hj Es) as [(_ & _ & D1) D2].
        (* the first set's node exists once the first set is done *)
        assert (K1 : node m1 n <> None).
        { destruct C1 as (_ & _ & C1 & _). destruct (C1 q1 Q1) as (p & Hp & Cp).
          destruct Cp as (c & c' & lg & A1 & A2 & A3 & A4 & A5).
          assert (c' = c1) by (destruct E2 as (_ & _ & _ & E2 & _); rewrite (E2 _ _ A2) in F1; congruence). subst c'.
          rewrite A4 in G1. apply in_app_or in G1. destruct G1 as [G1|G1].
          - destruct (findCell_nodes _ _ _ I A1) as [_ K]. exact (ext_known _ _ _ E1 (K _ G1)).
          - apply in_app_or in G1. destruct G1 as [G1|G1]; [apply N1, G1|]. unfold lagOf in A5.
            destruct (own_of k lag) as [oi|]; [|subst lg; contradiction].
            destruct A5 as (n0 & d0 & l0 & _ & _ & -> & B6). destruct G1 as [<-|[]]. eapply clone_known; eauto. }
        destruct D1 as (_ & _ & D1 & _). destruct (D1 q2 Q2) as (p & Hp & (c & c' & lg & A1 & A2 & A3 & A4 & A5)).
        assert (c' = c2) by congruence. subst c'. rewrite A4 in G2. apply in_app_or in G2. destruct G2 as [G2|G2].
        - assert (Gf : goodSet m (fst f) (snd f)) by (apply Hg; right; eapply nth_error_In; eauto).
          destruct (proj2 Gf p Hp) as (c0 & F0 & _).
          assert (c0 = c) by (destruct E1 as (_ & _ & _ & E1 & _); rewrite (E1 _ _ F0) in A1; congruence). subst c0.
          destruct (findCell_nodes _ _ _ I F0) as [_ K]. apply (K _ G2 Hn).
        - apply in_app_or in G2. destruct G2 as [G2|G2]; [apply K1, D2, G2|]. unfold lagOf in A5.
          destruct (own_of (fst f) lag) as [oi|]; [|subst lg; contradiction].
          destruct A5 as (n0 & d0 & l0 & _ & _ & -> & [B6 _]). destruct G2 as [<-|[]]. apply K1, B6. }
      intros [|i] [|j] e' f' H1 H2 Hne; cbn in H1, H2.
      * contradiction.
      * injection H1 as <-. eapply Hhead; eauto.
      * injection H2 as <-. intros q1 q2 c1 c2 n Q1 Q2 F1 F2 G1 G2. eapply (Hhead i e' H1 q2 q1 c2 c1); eauto.
      * pose proof (A i j e' f' H1 H2) as X. intros q1 q2 c1 c2 n Q1 Q2 F1 F2 G1 G2 Hn.
        assert (Hi1 : (i < length l)%nat) by (rewrite <- L1; apply nth_error_Some; congruence).
        destruct (nth_error l i) as [f|] eqn:Ef; [|apply nth_error_None in Ef; lia].
        destruct (nth_error shs i) as [shj|] eqn:Es; [|apply nth_error_None in Es; lia].
        destruct (R _ _ _ _ Ef H1 Es) as [(_ & _ & D1) D2].
        destruct D1 as (_ & _ & D1 & _). destruct (D1 q1 Q1) as (p & Hp & (c & c' & lg & A1 & A2 & A3 & A4 & A5)).
        assert (c' = c1) by congruence. subst c'.
        assert (K1 : node m1 n = None).
        { pose proof G1 as G1'. rewrite A4 in G1'. apply in_app_or in G1'. destruct G1' as [G3|G3].
          - assert (Gf : goodSet m (fst f) (snd f)) by (apply Hg; right; eapply nth_error_In; eauto).
            destruct (proj2 Gf p Hp) as (c0 & F0 & _).
            assert (c0 = c) by (destruct E1 as (_ & _ & _ & E1 & _); rewrite (E1 _ _ F0) in A1; congruence). subst c0.
            destruct (findCell_nodes _ _ _ I F0) as [_ K]. exfalso. apply (K _ G3 Hn).
          - apply in_app_or in G3. destruct G3 as [G3|G3]; [apply D2, G3|]. unfold lagOf in A5.
            destruct (own_of (fst f) lag) as [oi|]; [|subst lg; contradiction].
            destruct A5 as (n0 & d0 & l0 & _ & _ & -> & [B6 _]). destruct G3 as [<-|[]]. exact B6. }
        refine (X _ q1 q2 c1 c2 n Q1 Q2 F1 F2 G1 G2 K1). congruence.
Qed.

(** ** The map of rotation nodes *)

Lemma rotsAll_wf d3 l : forall shs rots, zmap_wf rots -> zmap_wf (rotsAll d3 l shs rots).
Proof.
  induction l as [|[k s] l IH]; intros [|sh shs] rots W; cbn; auto. apply IH.
  unfold rotsAfter. cbn. destruct k, d3; auto; now apply zinsert_wf.
Qed.

Lemma rotsAll_other d3 l : forall shs rots id, zmap_wf rots ->
  (forall e, In e l -> fst e <> KLmpc -> rs_master (snd e) <> id) ->
  zfind (rotsAll d3 l shs rots) id = zfind rots id.
Proof.
  induction l as [|[k s] l IH]; intros [|sh shs] rots id W H; cbn; auto.
  assert (W' : zmap_wf (rotsAfter k d3 rots (rs_master s) sh)).
  { unfold rotsAfter. destruct k, d3; auto; now apply zinsert_wf. }
  change (zfind (rotsAll d3 l shs (rotsAfter k d3 rots (rs_master s) sh)) id = zfind rots id).
  rewrite IH; [|exact W'|intros e He; apply H; now right].
  specialize (H (k, s) (or_introl eq_refl)). cbn in H. unfold rotsAfter.
  destruct k, d3; try reflexivity; rewrite zfind_insert by exact W;
    (destruct (Z.eqb_spec (rs_master s) id); [exfalso; apply H; [discriminate|assumption]|reflexivity]).
Qed.

Lemma rotsAll_at d3 l : forall shs rots i e sh, zmap_wf rots -> nth_error l i = Some e -> nth_error shs i = Some sh ->
  d3 = true -> fst e <> KLmpc ->
  (forall j f, (i < j)%nat -> nth_error l j = Some f -> fst f <> KLmpc -> rs_master (snd f) <> rs_master (snd e)) ->
  zfind (rotsAll d3 l shs rots) (rs_master (snd e)) = Some (hd 0 sh).
Proof.
  induction l as [|[k s] l IH]; intros [|sh0 shs] rots [|i] e sh W H1 H2 Hd Hk Hl; try discriminate; cbn in H1, H2.
  - injection H1 as <-. injection H2 as <-. cbn [fst snd] in *.
    change (zfind (rotsAll d3 l shs (rotsAfter k d3 rots (rs_master s) sh0)) (rs_master s) = Some (hd 0 sh0)).
    assert (rotsAfter k d3 rots (rs_master s) sh0 = zinsert rots (rs_master s) (hd 0 sh0)) as ->.
    { unfold rotsAfter. rewrite Hd. destruct k; [reflexivity|reflexivity|contradiction]. }
    rewrite rotsAll_other.
    + rewrite zfind_insert by exact W. now rewrite Z.eqb_refl.
    + now apply zinsert_wf.
    + intros f Hf. apply In_nth_error in Hf. destruct Hf as [j Hj]. apply (Hl (S j) f); [lia|exact Hj].
  - change (zfind (rotsAll d3 l shs (rotsAfter k d3 rots (rs_master s) sh0)) (rs_master (snd e)) = Some (hd 0 sh)).
    eapply IH; eauto.
    + unfold rotsAfter. destruct k, d3; auto; now apply zinsert_wf.
    + intros j f Hj. apply (Hl (S j) f). lia.
Qed.
End Rigid.
