(** Lemmas about the virtual point elements. *)
From Coq Require Import Ascii String ZArith List Bool Arith Lia.
From Verif Require Import Base ZMap DofModel DofProofs AnalysisModel MeshNodeModel MeshNodeProofs MeshCellModel MeshCellProofs MeshGroupModel MeshGroupProofs SegmentModel SegmentProofs ContactSurfModel ContactSurfProofs VirtualModel.
Import ListNotations.
Open Scope Z_scope.
Open Scope list_scope.

(** ** Degrees of freedom *)

(** What an analysis acts on at a node. *)
Definition acts (b : boundary) (p : nat) (x : dof) : Prop := member x (find_boundary b (Z.of_nat p)).
(** Some analysis acts on a degree of freedom the node has not. *)
Definition lacking (analyses : list boundary) (p : nat) (nd : dofs) (x : dof) : Prop :=
  exists b, In b analyses /\ acts b p x /\ ~ member x nd.
Definition codes (analyses : list boundary) : Prop := forall b p, In b analyses -> is_set (find_boundary b p).

Lemma sub_set s t : is_set s -> is_set (dofs_sub s t).
Proof. intros. unfold dofs_sub. now apply land_set. Qed.

Lemma missing_spec analyses p nd : is_set nd -> codes analyses ->
  is_set (missing analyses p nd) /\ forall x, member x (missing analyses p nd) <-> lacking analyses p nd x.
Proof.
  intros N C. unfold missing.
  assert (Gen : forall l acc, (forall b, In b l -> In b analyses) -> is_set acc ->
    let r := fold_left (fun acc b => let r := find_boundary b (Z.of_nat p) in if containsAll nd r then acc else dofs_add acc (dofs_sub r nd)) l acc in
    is_set r /\ forall x, member x r <-> member x acc \/ lacking l p nd x).
  { induction l as [|b l IH]; intros acc Hl A; cbn [fold_left].
    - split; [exact A|]. intros x. split; [now left|]. intros [H|(b & [] & _)]. exact H.
    - cbv zeta. set (r := find_boundary b (Z.of_nat p)). assert (Hr : is_set r) by (apply C, Hl; now left).
      destruct (containsAll nd r) eqn:E.
      + destruct (IH acc (fun b' H => Hl b' (or_intror H)) A) as [I1 I2]. split; [exact I1|]. intros x. rewrite I2.
        split; [intros [H|(b' & H1 & H2)]; [now left|right; exists b'; split; [now right|exact H2]]|].
        intros [H|(b' & [<- |H1] & H2 & H3)]; [now left| |right; now exists b'].
        exfalso. apply H3. apply (proj1 (containsAll_iff nd r N Hr) E). exact H2.
      + destruct (IH (dofs_add acc (dofs_sub r nd)) (fun b' H => Hl b' (or_intror H))) as [I1 I2].
        { unfold dofs_add. apply lor_set; [exact A|now apply sub_set]. }
        split; [exact I1|]. intros x. rewrite I2, member_add, member_sub.
        split; [intros [[H|[H1 H2]]|(b' & H1 & H2)]; [now left|right; exists b; split; [now left|split; [exact H1|exact H2]]|right; exists b'; split; [now right|exact H2]]|].
        intros [H|(b' & [<- |H1] & H2 & H3)]; [now left; left|left; right; now split|right; now exists b']. }
  destruct (Gen analyses NO_DOFS (fun b H => H)) as [G1 G2]; [unfold is_set, NO_DOFS; lia|].
  split; [exact G1|]. intros x. rewrite G2. split; [intros [H|H]; [|exact H]|now right].
  exfalso. unfold member, NO_DOFS in H. rewrite Z.bits_0 in H. discriminate.
Qed.

Lemma empty_iff s : is_set s -> s = NO_DOFS <-> forall x, ~ member x s.
Proof.
  intros H. split.
  - intros -> x X. unfold member, NO_DOFS in X. rewrite Z.bits_0 in X. discriminate.
  - intros A. apply set_ext; [exact H|unfold is_set, NO_DOFS; lia|]. intros d. split; [intros X; now destruct (A d)|].
    intros X. unfold member, NO_DOFS in X. rewrite Z.bits_0 in X. discriminate.
Qed.
Lemma member_all x : member x ALL_DOFS.
Proof. destruct x; reflexivity. Qed.
Lemma member_translations x : member x TRANSLATIONS <-> isRotation x = false.
Proof. destruct x; split; intros H; try reflexivity; discriminate. Qed.
Lemma member_rotations x : member x ROTATIONS <-> isRotation x = true.
Proof. destruct x; split; intros H; try reflexivity; discriminate. Qed.

(** What the pass gives to a node. *)
Definition granted (analyses : list boundary) (p : nat) (nd : dofs) : dofs :=
  let miss := missing analyses p nd in
  if miss =? NO_DOFS then NO_DOFS else if containsAnyOf miss ROTATIONS then ALL_DOFS else TRANSLATIONS.
(** The part of it that no analysis asked for. *)
Definition unasked (analyses : list boundary) (p : nat) (nd : dofs) : dofs :=
  dofs_sub (dofs_sub (granted analyses p nd) nd) (missing analyses p nd).

Lemma granted_spec analyses p nd x : is_set nd -> codes analyses ->
  member x (granted analyses p nd) <-> (exists y, lacking analyses p nd y /\ isRotation y = true) \/ (exists y, lacking analyses p nd y) /\ isRotation x = false.
Proof.
  intros N C. destruct (missing_spec analyses p nd N C) as [S M]. unfold granted. cbv zeta.
  destruct (Z.eqb_spec (missing analyses p nd) NO_DOFS) as [E|E].
  - rewrite (empty_iff _ S) in E. split.
    + intros X. unfold member, NO_DOFS in X. rewrite Z.bits_0 in X. discriminate.
    + intros [(y & H & _)|((y & H) & _)]; exfalso; apply (E y), M, H.
  - assert (Ex : exists y, lacking analyses p nd y).
    { destruct (iterate_spec (missing analyses p nd)) as [].
      destruct (containsAnyOf (missing analyses p nd) ALL_DOFS) eqn:A.
      - apply (containsAnyOf_iff _ _ S) in A. destruct A as (y & A & _). exists y. now apply M.
      - exfalso. apply E. apply (empty_iff _ S). intros y Y.
        assert (containsAnyOf (missing analyses p nd) ALL_DOFS = true) by (apply (containsAnyOf_iff _ _ S); exists y; split; [exact Y|apply member_all]). congruence. }
    destruct (containsAnyOf (missing analyses p nd) ROTATIONS) eqn:A.
    + apply (containsAnyOf_iff _ _ S) in A. destruct A as (y & A & B). split; [|intros _; apply member_all].
      intros _. left. exists y. split; [now apply M|now apply member_rotations].
    + rewrite member_translations. split; [intros H; right; now split|]. intros [(y & H1 & H2)|[_ H]]; [|exact H].
      exfalso. assert (containsAnyOf (missing analyses p nd) ROTATIONS = true) by (apply (containsAnyOf_iff _ _ S); exists y; split; [now apply M|now apply member_rotations]). congruence.
Qed.

(** The constraints of one node. *)
Lemma block_spec nd added p : is_set nd -> is_set added -> forall analyses i, codes analyses -> forall k q x,
  (exists e, In (k, q, e) (block analyses i p nd added) /\ member x e) <->
  (exists j b, k = (i + j)%nat /\ nth_error analyses j = Some b /\ q = p /\ (exists y, acts b p y /\ ~ member y nd) /\
     member x added /\ ~ acts b p x /\ ~ member x nd).
Proof.
  intros N A. induction analyses as [|b l IH]; intros i C k q x.
  - split; [intros (e & [] & _)|]. intros (j & b & _ & H & _). now destruct j.
  - cbn [block]. set (r := find_boundary b (Z.of_nat p)).
    assert (Hr : is_set r) by (apply C; now left).
    assert (C' : codes l) by (intros b' p' H; apply C; now right).
    assert (Head : (exists e, In (k, q, e) (if containsAll nd r then [] else let extra := dofs_sub (dofs_sub added r) nd in if extra =? NO_DOFS then [] else [(i, p, extra)]) /\ member x e) <->
      (k = i /\ q = p /\ (exists y, acts b p y /\ ~ member y nd) /\ member x added /\ ~ acts b p x /\ ~ member x nd)).
    { destruct (containsAll nd r) eqn:E.
      - split; [intros (e & [] & _)|]. intros (_ & _ & (y & H1 & H2) & _). exfalso. apply H2. now apply (proj1 (containsAll_iff nd r N Hr) E).
      - assert (Ex : exists y, acts b p y /\ ~ member y nd).
        { destruct (containsAnyOf (dofs_sub r nd) ALL_DOFS) eqn:F.
          - apply containsAnyOf_iff in F; [|now apply sub_set]. destruct F as (y & F & _). rewrite member_sub in F. exists y. exact F.
          - exfalso. assert (containsAll nd r = true); [|congruence]. apply (containsAll_iff nd r N Hr). intros y Hy.
            destruct (contains nd y) eqn:G; [now apply contains_iff|]. exfalso.
            assert (containsAnyOf (dofs_sub r nd) ALL_DOFS = true); [|congruence]. apply containsAnyOf_iff; [now apply sub_set|].
            exists y. split; [|apply member_all]. rewrite member_sub. split; [exact Hy|]. intros X. apply contains_iff in X. congruence. }
        cbv zeta. set (extra := dofs_sub (dofs_sub added r) nd).
        assert (Hx : is_set extra) by (unfold extra; apply sub_set; now apply sub_set).
        assert (Mx : member x extra <-> member x added /\ ~ acts b p x /\ ~ member x nd).
        { unfold extra. rewrite !member_sub. unfold acts. fold r. tauto. }
        destruct (Z.eqb_spec extra NO_DOFS) as [G|G].
        + split; [intros (e & [] & _)|]. intros (_ & _ & _ & H). exfalso. apply (proj1 (empty_iff _ Hx) G x). now apply Mx.
        + split.
          * intros (e & [H|[]] & H2). injection H as <- <- <-. split; [reflexivity|]. split; [reflexivity|]. split; [exact Ex|]. now apply Mx.
          * intros (-> & -> & _ & H). exists extra. split; [now left|]. now apply Mx. }
    split.
    + intros (e & H & M). apply in_app_iff in H. destruct H as [H|H].
      * destruct (proj1 Head (ex_intro _ e (conj H M))) as (-> & B). exists 0%nat, b. split; [lia|]. split; [reflexivity|exact B].
      * destruct (proj1 (IH (S i) C' k q x) (ex_intro _ e (conj H M))) as (j & b' & -> & B1 & B2). exists (S j), b'. split; [lia|]. split; [exact B1|exact B2].
    + intros ([|j] & b' & -> & B1 & B2).
      * cbn in B1. injection B1 as <-. destruct (proj2 Head) as (e & H & M); [rewrite Nat.add_0_r; split; [reflexivity|exact B2]|].
        exists e. split; [apply in_app_iff; now left|exact M].
      * destruct (proj2 (IH (S i) C' (i + S j)%nat q x)) as (e & H & M); [exists j, b'; split; [lia|]; split; [exact B1|exact B2]|].
        exists e. split; [apply in_app_iff; now right|exact M].
Qed.

(** ** The mesh *)
Section P.
Context {D : Type} (R z : D).
Notation mesh := (mesh D).
Notation vstate := (vstate D).

Definition dofs_at (m : mesh) (p : nat) : dofs := match nth_error (ndatas (mnodes m)) p with Some d => nd_dofs d | None => NO_DOFS end.
Definition same_node (d d' : ndata D) : Prop :=
  nd_id d' = nd_id d /\ nd_x d' = nd_x d /\ nd_y d' = nd_y d /\ nd_z d' = nd_z d /\ nd_cp d' = nd_cp d /\ nd_cd d' = nd_cd d.
(** The nodes are the same but for the degrees of freedom, which gain [g]. *)
Definition gains (m m' : mesh) (g : nat -> dofs) : Prop :=
  length (ndatas (mnodes m')) = length (ndatas (mnodes m)) /\
  forall q d, nth_error (ndatas (mnodes m)) q = Some d -> exists d', nth_error (ndatas (mnodes m')) q = Some d' /\ same_node d d' /\ nd_dofs d' = Z.lor (nd_dofs d) (g q).
Lemma gains_trans a b c f g h : gains a b f -> gains b c g -> (forall q, h q = Z.lor (f q) (g q)) -> gains a c h.
Proof.
  intros [L1 A] [L2 B] H. split; [congruence|]. intros q d E. destruct (A q d E) as (d1 & E1 & (S1 & S2 & S3 & S4 & S5 & S6) & N1).
  destruct (B q d1 E1) as (d2 & E2 & (T1 & T2 & T3 & T4 & T5 & T6) & N2). exists d2. split; [exact E2|]. split; [repeat split; congruence|].
  rewrite N2, N1, H. now rewrite Z.lor_assoc.
Qed.
Lemma gains_none m : gains m m (fun _ => NO_DOFS).
Proof.
  split; [reflexivity|]. intros q d E. exists d. split; [exact E|]. split; [repeat split; reflexivity|]. now rewrite Z.lor_0_r.
Qed.
Lemma gains_dofs m m' g q d : gains m m' g -> nth_error (ndatas (mnodes m)) q = Some d -> dofs_at m' q = Z.lor (dofs_at m q) (g q).
Proof. intros [_ A] E. destruct (A q d E) as (d' & E' & _ & N). unfold dofs_at. now rewrite E, E'. Qed.

Definition point (id : Z) : ctype * list Z := (POINT1, [id]).

Lemma allow_mesh m p s d : cinv m -> nth_error (ndatas (mnodes m)) p = Some d ->
  exists m', allow m p s = Ok m' /\ cinv m' /\ mext m m' /\ trace m' = trace m /\ cdatas m' = cdatas m /\
    gains m m' (fun q => if Nat.eqb q p then s else NO_DOFS).
Proof.
  intros I E. unfold allow. destruct (allow_spec (mnodes m) p s d (ci_nodes _ I) E) as (ns & A & N & Np & B1 & B2 & L & _). rewrite A. cbn [bind].
  assert (Hn : nle (mnodes m) ns).
  { apply nle_of_pos; [apply I|exact N|]. unfold findNodePosition. now rewrite Np. }
  exists (with_nodes m ns). split; [reflexivity|]. pose proof (cinv_nodes m ns I Hn) as I'. split; [exact I'|]. split; [|split; [reflexivity|split; [reflexivity|]]].
  - split; [exact Hn|]. split; [intros q x Hx; exists x; cbn; auto|]. split; [intros t; exists []; cbn; now rewrite app_nil_r|]. split; [intros t; exists []; cbn; now rewrite app_nil_r|].
    cbn. unfold findNodePosition. now rewrite Np.
  - split; [exact L|]. intros q x Hx. cbn [with_nodes mnodes]. destruct (Nat.eqb_spec q p) as [->|Ne].
    + rewrite B2. assert (x = d) by congruence. subst x. eexists. split; [reflexivity|]. split; [repeat split; reflexivity|reflexivity].
    + rewrite (B1 q Ne). exists x. split; [exact Hx|]. split; [repeat split; reflexivity|]. now rewrite Z.lor_0_r.
Qed.

Lemma add_point_spec m gs h id p g : cinv m -> ginv gs -> id <> AUTO_ID -> findNodePosition (mnodes m) id = Some p -> nth_error (heap gs) h = Some g ->
  exists m' gs', add_point R z m gs h id = Ok (m', gs') /\ cinv m' /\ mext m m' /\ trace m' = trace m /\ ginv gs' /\
    length (cdatas m') = S (length (cdatas m)) /\ covers m' (length (cdatas m)) (point id) /\
    (exists c, findCell m' (length (cdatas m)) = Ok c /\ nth_error (cdatas m') (length (cdatas m)) <> None) /\
    gains m m' (fun _ => NO_DOFS) /\ (forall n, findGroup gs' n = findGroup gs n) /\
    (exists g', nth_error (heap gs') h = Some g' /\ g_name g' = g_name g /\ g_kind g' = g_kind g /\ (forall q, In q (g_pos g') <-> In q (g_pos g) \/ q = length (cdatas m))) /\
    (forall k x, k <> h -> nth_error (heap gs) k = Some x -> nth_error (heap gs') k = Some x).
Proof.
  intros I G Ni Np Hg. unfold add_point.
  assert (So : sound (trace m) (point id)).
  { split; [reflexivity|]. split; [discriminate|]. split; [constructor; [exact Ni|constructor]|]. right. constructor; [intros []|constructor]. }
  destruct (addCell_auto R z m POINT1 [id] I So) as (m' & E & I' & X & T & L & Cv & Po). rewrite E. cbn [bind fst snd].
  destruct (groupAdd_spec gs h (length (cdatas m)) G) as [G' H'].
  exists m', (groupAdd gs h (length (cdatas m))). split; [reflexivity|]. split; [exact I'|]. split; [exact X|]. split; [exact T|]. split; [exact G'|]. split; [exact L|]. split; [exact Cv|].
  split; [destruct Cv as (c & Fc & _); exists c; split; [exact Fc|apply nth_error_Some; lia]|]. split; [|split; [reflexivity|split]].
  - clear - E I Ni Np. unfold addCell in E. cbn [reserve_all] in E.
    destruct (auto_pick (S (length (cposById m))) (cposById m) (cauto m)) as [[cid na]| | |]; try discriminate E. cbn [Z.eqb] in E.
    change (AUTO_ID =? AUTO_ID) with true in E. cbn [bind] in E. cbn [numNodes Nat.eqb] in E.
    destruct (trace m && negb (conn_checks m cid POINT1 [id] true)); [discriminate E|].
    destruct (use_spec R (mnodes m) id NO_CELL (ci_nodes _ I) Ni) as (s1 & p1 & U & _ & _ & _ & _ & U1 & U2 & U3 & _).
    rewrite U in E. cbn [bind] in E. injection E as <-. cbn [mnodes].
    destruct (U1 p Np) as [-> Le]. split; [exact Le|]. intros q d Hd. destruct (Nat.eq_dec q p) as [->|Ne].
    + destruct (U3 d Hd) as (d' & H1 & H2). exists d'. split; [exact H1|]. rewrite H2. cbn. split; [repeat split; reflexivity|]. now rewrite Z.lor_0_r.
    + exists d. cbn [mnodes]. rewrite (U2 q Ne). split; [exact Hd|]. split; [repeat split; reflexivity|]. now rewrite Z.lor_0_r.
  - destruct (H' h g Hg) as (g' & A1 & A2 & A3 & _ & A4). exists g'. split; [exact A1|]. split; [exact A2|]. split; [exact A3|]. intros q. rewrite A4. tauto.
  - intros k x Hk Hx. cbn [groupAdd heap]. rewrite upd_nth, Hx. destruct (Nat.eqb_spec h k); [congruence|reflexivity].
Qed.

(** The group of a name: absent, or holding one point on each node of a list. *)
Definition holder (m : mesh) (gs : groups) (o : option nat) (name : string) (l : list Z) : Prop :=
  match o with
  | None => l = [] /\ findGroup gs name = None
  | Some h => l <> [] /\ findGroup gs name = Some h /\ exists g ps, nth_error (heap gs) h = Some g /\ g_kind g = CellG /\
      NoDup ps /\ (forall q, In q (g_pos g) <-> In q ps) /\ (forall q, In q ps -> (q < length (cdatas m))%nat) /\ Forall2 (covers m) ps (map point l)
  end.

(** A node gets its point; [other] is the other group. *)
Lemma extend m gs o name l m0 gs0 h id p other oname ol :
  name <> ""%string -> name <> oname -> cinv m -> ginv gs -> id <> AUTO_ID -> findNodePosition (mnodes m) id = Some p ->
  holder m gs o name l -> holder m gs other oname ol ->
  with_group o name gs = Ok (gs0, h) -> cinv m0 -> mext m m0 -> trace m0 = trace m -> cdatas m0 = cdatas m ->
  exists m' gs', add_point R z m0 gs0 h id = Ok (m', gs') /\ cinv m' /\ mext m0 m' /\ trace m' = trace m /\ ginv gs' /\
    gains m0 m' (fun _ => NO_DOFS) /\ length (cdatas m') = S (length (cdatas m)) /\
    holder m' gs' (Some h) name (l ++ [id]) /\ holder m' gs' other oname ol /\
    (forall n k x, n <> name -> findGroup gs n = Some k -> nth_error (heap gs) k = Some x -> findGroup gs' n = Some k /\ nth_error (heap gs') k = Some x) /\
    (forall n, n <> name -> findGroup gs n = None -> findGroup gs' n = None).
Proof.
  intros Ne No I G Ni Np Ho Hq W I0 X0 T0 C0.
  assert (Np0 : findNodePosition (mnodes m0) id = Some p) by now apply X0.
  assert (St : exists g ps, ginv gs0 /\ findGroup gs0 name = Some h /\ nth_error (heap gs0) h = Some g /\ g_kind g = CellG /\ NoDup ps /\ (forall q, In q (g_pos g) <-> In q ps) /\
     (forall q, In q ps -> (q < length (cdatas m))%nat) /\ Forall2 (covers m) ps (map point l) /\
     (forall n k x, n <> name -> findGroup gs n = Some k -> nth_error (heap gs) k = Some x -> k <> h /\ findGroup gs0 n = Some k /\ nth_error (heap gs0) k = Some x) /\
     (forall n, n <> name -> findGroup gs n = None -> findGroup gs0 n = None)).
  { destruct o as [h0|]; cbn [with_group] in W.
    - injection W as <- <-. destruct Ho as (_ & F & g & ps & A1 & A2 & A3 & A4 & A5 & A6). exists g, ps. split; [exact G|]. split; [exact F|]. split; [exact A1|]. split; [exact A2|]. split; [exact A3|]. split; [exact A4|]. split; [exact A5|]. split; [exact A6|].
      split; [|auto]. intros n k x Hn Fn Hx. split; [|now split]. intros ->. destruct (gi_name _ G _ _ Fn) as (g1 & B1 & B2). destruct (gi_name _ G _ _ F) as (g2 & B3 & B4). congruence.
    - destruct Ho as [-> F]. destruct (create_kept gs name G Ne F) as (gs' & h' & E & G' & Hh & K & N & g & A1 & A2 & A3 & A4).
      rewrite E in W. injection W as <- <-. exists g, []. split; [exact G'|]. split; [now rewrite N, String.eqb_refl|]. split; [exact A1|]. split; [exact A2|]. split; [constructor|]. split; [now rewrite A3|].
      split; [intros q []|]. split; [constructor|]. split.
      + intros n k x Hn Fn Hx. split; [|now apply K]. assert ((k < length (heap gs))%nat) by (apply nth_error_Some; congruence). lia.
      + intros n Hn Fn. rewrite N. destruct (String.eqb_spec name n); [congruence|exact Fn]. }
  destruct St as (g & ps & G0 & F0 & A1 & A2 & A3 & A4 & A5 & A6 & A7 & A8).
  destruct (add_point_spec m0 gs0 h id p g I0 G0 Ni Np0 A1) as (m' & gs' & E & I' & X' & T' & G' & L' & Cv & _ & Gn & Fn & (g' & B1 & B2 & B3 & B4) & B5).
  rewrite C0 in *. exists m', gs'. split; [exact E|]. split; [exact I'|]. split; [exact X'|]. split; [congruence|]. split; [exact G'|]. split; [exact Gn|]. split; [exact L'|].
  assert (Xm : mext m m') by (eapply mext_trans; eauto).
  assert (Kp : forall n k x, n <> name -> findGroup gs n = Some k -> nth_error (heap gs) k = Some x -> findGroup gs' n = Some k /\ nth_error (heap gs') k = Some x).
  { intros n k x Hn F Hx. destruct (A7 n k x Hn F Hx) as (K1 & K2 & K3). split; [now rewrite Fn|]. now apply B5. }
  split; [|split; [|split; [exact Kp|]]].
  - cbn [holder]. split; [now destruct l|]. split; [now rewrite Fn|]. exists g', (ps ++ [length (cdatas m)]). split; [exact B1|]. split; [congruence|].
    split; [|split; [|split]].
    + apply NoDup_Add with (a := length (cdatas m)) (l := ps); [pose proof (Add_app (length (cdatas m)) ps []) as Q; rewrite app_nil_r in Q; exact Q|].
      split; [exact A3|]. intros H. apply A5 in H. lia.
    + intros q. rewrite B4, A4, in_app_iff. cbn. intuition congruence.
    + intros q H. rewrite L'. apply in_app_iff in H. destruct H as [H|[<- |[]]]; [apply A5 in H; lia|lia].
    + rewrite map_app. apply Forall2_app; [|repeat constructor; exact Cv]. eapply forall2_weaken; [|exact A6]. intros q y. now apply covers_ext.
  - destruct other as [h'|]; cbn [holder] in *.
    + destruct Hq as (Q1 & Q2 & g1 & ps1 & C1 & C2 & C3 & C4 & C5 & C6). destruct (Kp oname h' g1 (not_eq_sym No) Q2 C1) as [K1 K2].
      split; [exact Q1|]. split; [exact K1|]. exists g1, ps1. split; [exact K2|]. split; [exact C2|]. split; [exact C3|]. split; [exact C4|]. split; [intros q H; apply C5 in H; lia|].
      eapply forall2_weaken; [|exact C6]. intros q y. now apply covers_ext.
    + destruct Hq as [Q1 Q2]. split; [exact Q1|]. rewrite Fn. apply A8; [now apply not_eq_sym|exact Q2].
  - intros n Hn F. rewrite Fn. now apply A8.
Qed.

Lemma holder_mesh m m' gs o name l : cinv m -> cinv m' -> mext m m' -> (length (cdatas m) <= length (cdatas m'))%nat -> holder m gs o name l -> holder m' gs o name l.
Proof.
  intros I I' X L. destruct o as [h|]; cbn [holder]; [|auto]. intros (A & B & g & ps & C1 & C2 & C3 & C4 & C5 & C6).
  split; [exact A|]. split; [exact B|]. exists g, ps. split; [exact C1|]. split; [exact C2|]. split; [exact C3|]. split; [exact C4|]. split; [intros q H; apply C5 in H; lia|].
  eapply forall2_weaken; [|exact C6]. intros q y. now apply covers_ext.
Qed.

Variable analyses : list boundary.

(** The nodes of a list that get a point with rotations, or without. *)
Definition turned (f : nat -> dofs) (p : nat) : bool := negb (missing analyses p (f p) =? NO_DOFS) && containsAnyOf (missing analyses p (f p)) ROTATIONS.
Definition shifted (f : nat -> dofs) (p : nat) : bool := negb (missing analyses p (f p) =? NO_DOFS) && negb (containsAnyOf (missing analyses p (f p)) ROTATIONS).
Definition chosen (c : (nat -> dofs) -> nat -> bool) (f : nat -> dofs) (l : list (Z * nat)) : list Z := map fst (filter (fun ip => c f (snd ip)) l).
Definition blocks (f : nat -> dofs) (l : list (Z * nat)) : list (nat * nat * dofs) :=
  flat_map (fun ip => block analyses 0 (snd ip) (f (snd ip)) (unasked analyses (snd ip) (f (snd ip)))) l.
Definition gift (f : nat -> dofs) (l : list (Z * nat)) (q : nat) : dofs :=
  if existsb (Nat.eqb q) (map snd l) then granted analyses q (f q) else NO_DOFS.

Definition TR := "VDiscrTR"%string.
Definition TT := "VDiscrT"%string.

Lemma unasked_none p nd : missing analyses p nd = NO_DOFS -> unasked analyses p nd = NO_DOFS.
Proof. intros E. unfold unasked, granted. now rewrite E. Qed.

Lemma visit_spec (s : vstate) id p d a b : cinv (v_mesh s) -> ginv (v_groups s) -> id <> AUTO_ID -> findNodePosition (mnodes (v_mesh s)) id = Some p ->
  nth_error (ndatas (mnodes (v_mesh s))) p = Some d ->
  holder (v_mesh s) (v_groups s) (v_tr s) TR a -> holder (v_mesh s) (v_groups s) (v_t s) TT b ->
  exists s', visit R z analyses s (id, p) = Ok s' /\ cinv (v_mesh s') /\ mext (v_mesh s) (v_mesh s') /\ trace (v_mesh s') = trace (v_mesh s) /\ ginv (v_groups s') /\
    gains (v_mesh s) (v_mesh s') (fun q => if Nat.eqb q p then granted analyses p (nd_dofs d) else NO_DOFS) /\
    holder (v_mesh s') (v_groups s') (v_tr s') TR (a ++ chosen turned (dofs_at (v_mesh s)) [(id, p)]) /\
    holder (v_mesh s') (v_groups s') (v_t s') TT (b ++ chosen shifted (dofs_at (v_mesh s)) [(id, p)]) /\
    v_spc s' = v_spc s ++ blocks (dofs_at (v_mesh s)) [(id, p)] /\
    (forall n k x, n <> TR -> n <> TT -> findGroup (v_groups s) n = Some k -> nth_error (heap (v_groups s)) k = Some x -> findGroup (v_groups s') n = Some k /\ nth_error (heap (v_groups s')) k = Some x) /\
    (forall n, n <> TR -> n <> TT -> findGroup (v_groups s) n = None -> findGroup (v_groups s') n = None) /\
    length (cdatas (v_mesh s')) = (length (cdatas (v_mesh s)) + (if (missing analyses p (nd_dofs d) =? NO_DOFS)%Z then 0 else 1))%nat.
Proof.
  intros I G Ni Np Hd Ha Hb. unfold visit. cbn [snd]. rewrite Hd. cbv zeta.
  assert (Ed : dofs_at (v_mesh s) p = nd_dofs d) by (unfold dofs_at; now rewrite Hd).
  assert (Ei : nd_id d = id).
  { pose proof (proj1 (proj2 (ci_nodes _ I) id p) Np) as (d' & H1 & H2). congruence. }
  unfold chosen, blocks. cbn [filter map fst snd flat_map]. unfold turned, shifted. rewrite Ed, app_nil_r.
  destruct (Z.eqb_spec (missing analyses p (nd_dofs d)) NO_DOFS) as [E|E]; cbn [negb andb].
  - exists (mkV (v_mesh s) (v_groups s) (v_tr s) (v_t s) (v_spc s ++ block analyses 0 p (nd_dofs d) NO_DOFS)). cbn [v_mesh v_groups v_tr v_t v_spc].
    split; [reflexivity|]. split; [exact I|]. split; [now apply mext_refl|]. split; [reflexivity|]. split; [exact G|]. split.
    { replace (granted analyses p (nd_dofs d)) with NO_DOFS by (unfold granted; now rewrite E).
      split; [reflexivity|]. intros q x Hx. exists x. split; [exact Hx|]. split; [repeat split; reflexivity|]. destruct (Nat.eqb q p); now rewrite Z.lor_0_r. }
    cbn [map]. rewrite !app_nil_r. split; [exact Ha|]. split; [exact Hb|]. split; [now rewrite (unasked_none _ _ E)|]. split; [auto|]. split; [auto|]. lia.
  - destruct (containsAnyOf (missing analyses p (nd_dofs d)) ROTATIONS) eqn:Er; cbn [negb map fst].
    + assert (Eg : granted analyses p (nd_dofs d) = ALL_DOFS) by (unfold granted; rewrite Er; destruct (Z.eqb_spec (missing analyses p (nd_dofs d)) NO_DOFS); [congruence|reflexivity]).
      assert (Wg : exists g, with_group (v_tr s) TR (v_groups s) = Ok g).
      { destruct (v_tr s); cbn [with_group]; [eauto|]. destruct Ha as [_ F]. destruct (create_kept (v_groups s) TR G ltac:(discriminate) F) as (gs' & h' & E' & _). eauto. }
      destruct Wg as ([gs0 h] & Wg). change "VDiscrTR"%string with TR. rewrite Wg. cbn [bind fst snd].
      destruct (allow_mesh (v_mesh s) p ALL_DOFS d I Hd) as (m0 & Ea & I0 & X0 & T0 & C0 & Gn). rewrite Ea. cbn [bind].
      destruct (extend (v_mesh s) (v_groups s) (v_tr s) TR a m0 gs0 h id p (v_t s) TT b) as (m' & gs' & E' & I' & X' & T' & G' & Gn' & L' & H1 & H2 & H3 & H4); auto; try discriminate.
      rewrite Ei, E'. cbn [bind fst snd]. eexists. split; [reflexivity|]. cbn [v_mesh v_groups v_tr v_t v_spc].
      split; [exact I'|]. split; [eapply mext_trans; eauto|]. split; [exact T'|]. split; [exact G'|]. split.
      { rewrite Eg. eapply gains_trans; [exact Gn|exact Gn'|]. intros q. now rewrite Z.lor_0_r. }
      split; [exact H1|]. rewrite app_nil_r. split; [exact H2|]. split; [unfold unasked; now rewrite Eg|]. split; [intros n k x N1 N2; now apply H3|]. split; [intros n N1 N2; now apply H4|]. lia.
    + assert (Eg : granted analyses p (nd_dofs d) = TRANSLATIONS) by (unfold granted; rewrite Er; destruct (Z.eqb_spec (missing analyses p (nd_dofs d)) NO_DOFS); [congruence|reflexivity]).
      assert (Wg : exists g, with_group (v_t s) TT (v_groups s) = Ok g).
      { destruct (v_t s); cbn [with_group]; [eauto|]. destruct Hb as [_ F]. destruct (create_kept (v_groups s) TT G ltac:(discriminate) F) as (gs' & h' & E' & _). eauto. }
      destruct Wg as ([gs0 h] & Wg). change "VDiscrT"%string with TT. rewrite Wg. cbn [bind fst snd].
      destruct (extend (v_mesh s) (v_groups s) (v_t s) TT b (v_mesh s) gs0 h id p (v_tr s) TR a) as (m' & gs' & E' & I' & X' & T' & G' & Gn' & L' & H1 & H2 & H3 & H4); auto; try discriminate.
      { now apply mext_refl. }
      rewrite Ei, E'. cbn [bind fst snd]. destruct Gn' as [Ln Gn'].
      destruct (Gn' p d Hd) as (d' & Hd' & _).
      destruct (allow_mesh m' p TRANSLATIONS d' I' Hd') as (m2 & Ea & I2 & X2 & T2 & C2 & Gn2). rewrite Ea. cbn [bind].
      eexists. split; [reflexivity|]. cbn [v_mesh v_groups v_tr v_t v_spc].
      split; [exact I2|]. split; [eapply mext_trans; eauto|]. split; [congruence|]. split; [exact G'|]. split.
      { rewrite Eg. eapply gains_trans; [split; [exact Ln|exact Gn']|exact Gn2|]. reflexivity. }
      rewrite app_nil_r. split; [eapply holder_mesh; [exact I'|exact I2|exact X2|rewrite C2; lia|exact H2]|]. split; [eapply holder_mesh; [exact I'|exact I2|exact X2|rewrite C2; lia|exact H1]|].
      split; [unfold unasked; now rewrite Eg|]. split; [intros n k x N1 N2; now apply H3|]. split; [intros n N1 N2; now apply H4|]. rewrite C2. lia.
Qed.

Lemma generate_from l : forall (s : vstate) a b, cinv (v_mesh s) -> ginv (v_groups s) ->
  (forall id p, In (id, p) l -> id <> AUTO_ID /\ findNodePosition (mnodes (v_mesh s)) id = Some p) -> NoDup (map snd l) ->
  holder (v_mesh s) (v_groups s) (v_tr s) TR a -> holder (v_mesh s) (v_groups s) (v_t s) TT b ->
  exists s', foldM (visit R z analyses) l s = Ok s' /\ cinv (v_mesh s') /\ mext (v_mesh s) (v_mesh s') /\ trace (v_mesh s') = trace (v_mesh s) /\ ginv (v_groups s') /\
    gains (v_mesh s) (v_mesh s') (gift (dofs_at (v_mesh s)) l) /\
    holder (v_mesh s') (v_groups s') (v_tr s') TR (a ++ chosen turned (dofs_at (v_mesh s)) l) /\
    holder (v_mesh s') (v_groups s') (v_t s') TT (b ++ chosen shifted (dofs_at (v_mesh s)) l) /\
    v_spc s' = v_spc s ++ blocks (dofs_at (v_mesh s)) l /\
    (forall n k x, n <> TR -> n <> TT -> findGroup (v_groups s) n = Some k -> nth_error (heap (v_groups s)) k = Some x -> findGroup (v_groups s') n = Some k /\ nth_error (heap (v_groups s')) k = Some x) /\
    (forall n, n <> TR -> n <> TT -> findGroup (v_groups s) n = None -> findGroup (v_groups s') n = None) /\
    length (cdatas (v_mesh s')) = (length (cdatas (v_mesh s)) + length (chosen turned (dofs_at (v_mesh s)) l) + length (chosen shifted (dofs_at (v_mesh s)) l))%nat.
Proof.
  induction l as [|[id p] l IH]; intros s a b I G P N Ha Hb.
  - exists s. unfold chosen, blocks. cbn. rewrite !app_nil_r. split; [reflexivity|]. split; [exact I|]. split; [now apply mext_refl|]. split; [reflexivity|]. split; [exact G|].
    split; [apply gains_none|]. split; [exact Ha|]. split; [exact Hb|]. split; [reflexivity|]. split; [auto|]. split; [auto|]. lia.
  - destruct (P id p (or_introl eq_refl)) as [Ni Np]. destruct (proj1 (proj2 (ci_nodes _ I) id p) Np) as (d & Hd & _).
    destruct (visit_spec s id p d a b I G Ni Np Hd Ha Hb) as (s1 & E1 & I1 & X1 & T1 & G1 & Gn1 & A1 & B1 & S1 & K1 & Q1 & L1).
    cbn [map snd] in N. inversion N as [|u v Nin N']; subst.
    assert (P' : forall id' p', In (id', p') l -> id' <> AUTO_ID /\ findNodePosition (mnodes (v_mesh s1)) id' = Some p').
    { intros id' p' H. destruct (P id' p' (or_intror H)) as [U1 U2]. split; [exact U1|]. now apply X1. }
    destruct (IH s1 _ _ I1 G1 P' N' A1 B1) as (s' & E2 & I2 & X2 & T2 & G2 & Gn2 & A2 & B2 & S2 & K2 & Q2 & L2).
    assert (Same : forall q, In q (map snd l) -> dofs_at (v_mesh s1) q = dofs_at (v_mesh s) q).
    { intros q Hq. assert (Hn : q <> p) by (intros ->; contradiction). apply in_map_iff in Hq. destruct Hq as ([id' p'] & <- & Hq). cbn [snd] in *.
      destruct (P id' p' (or_intror Hq)) as [_ U]. destruct (proj1 (proj2 (ci_nodes _ I) id' p') U) as (d' & Hd' & _).
      rewrite (gains_dofs _ _ _ _ _ Gn1 Hd'). destruct (Nat.eqb_spec p' p); [contradiction|]. now rewrite Z.lor_0_r. }
    assert (Ch : forall c, (forall f g q, f q = g q -> c f q = c g q) -> chosen c (dofs_at (v_mesh s1)) l = chosen c (dofs_at (v_mesh s)) l).
    { intros c Hc. unfold chosen. f_equal. clear - Same Hc. induction l as [|[i q] l IH]; [reflexivity|]. cbn [filter snd].
      rewrite (Hc _ _ q (Same q (or_introl eq_refl))), IH; [reflexivity|]. intros q' H. apply Same. now right. }
    assert (Bl : blocks (dofs_at (v_mesh s1)) l = blocks (dofs_at (v_mesh s)) l).
    { unfold blocks. clear - Same. induction l as [|[i q] l IH]; [reflexivity|]. cbn [flat_map snd].
      rewrite (Same q (or_introl eq_refl)), IH; [reflexivity|]. intros q' H. apply Same. now right. }
    assert (Ct : chosen turned (dofs_at (v_mesh s1)) l = chosen turned (dofs_at (v_mesh s)) l) by (apply Ch; intros f g q H; unfold turned; now rewrite H).
    assert (Cs : chosen shifted (dofs_at (v_mesh s1)) l = chosen shifted (dofs_at (v_mesh s)) l) by (apply Ch; intros f g q H; unfold shifted; now rewrite H).
    rewrite Ct in A2, L2. rewrite Cs in B2, L2. rewrite Bl in S2.
    assert (Sp : forall c f, chosen c f ((id, p) :: l) = chosen c f [(id, p)] ++ chosen c f l).
    { intros c f. unfold chosen. cbn [filter snd]. destruct (c f p); reflexivity. }
    cbn [foldM]. rewrite E1. cbn [bind]. exists s'. split; [exact E2|]. split; [exact I2|]. split; [eapply mext_trans; eauto|]. split; [congruence|]. split; [exact G2|]. split; [|split; [|split; [|split; [|split; [|split]]]]].
    + eapply gains_trans; [exact Gn1|exact Gn2|]. intros q. unfold gift. cbn [map snd existsb].
      destruct (Nat.eqb_spec q p) as [->|Ne]; cbn [orb].
      * assert (Ex : existsb (Nat.eqb p) (map snd l) = false).
        { destruct (existsb (Nat.eqb p) (map snd l)) eqn:Ex; [|reflexivity]. apply existsb_exists in Ex. destruct Ex as (y & H1 & H2). apply Nat.eqb_eq in H2. subst y. contradiction. }
        rewrite Ex. unfold dofs_at. rewrite Hd. now rewrite Z.lor_0_r.
      * destruct (existsb (Nat.eqb q) (map snd l)) eqn:Ex; [|reflexivity]. rewrite Same; [reflexivity|].
        apply existsb_exists in Ex. destruct Ex as (y & H1 & H2). apply Nat.eqb_eq in H2. now subst y.
    + rewrite Sp, app_assoc. exact A2.
    + rewrite Sp, app_assoc. exact B2.
    + rewrite S2, S1, <- app_assoc. f_equal. unfold blocks. cbn [flat_map]. now rewrite app_nil_r.
    + intros n k x U1 U2 U3 U4. destruct (K1 n k x U1 U2 U3 U4). now apply K2.
    + intros n U1 U2 U3. apply Q2; auto.
    + rewrite L2, L1, !Sp, !app_length. unfold chosen, turned, shifted. cbn [filter snd]. unfold dofs_at. rewrite Hd.
      destruct (missing analyses p (nd_dofs d) =? NO_DOFS); cbn [negb andb map length]; [lia|]. destruct (containsAnyOf (missing analyses p (nd_dofs d)) ROTATIONS); cbn [negb map length]; lia.
Qed.

End P.
