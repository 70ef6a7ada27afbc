(** Properties C14 and C15: cells of a mesh. *)
From Coq Require Import ZArith List Bool Lia.
From Verif Require Import Base ZMap MeshNodeModel MeshNodeProofs MeshCellModel MeshCellProofs.
Import ListNotations.
Open Scope Z_scope.

(** Mesh [m] results from the calls [h], all accepted, in a mesh whose
    connectivity checks are on ([tr = true]) or off.  When they are off the
    callers must provide connectivities of the right length ([good_op]). *)
Definition mbuilt {D} (R z : D) (tr : bool) (h : list (mop D)) (m : mesh D) : Prop :=
  (forall o, In o h -> good_op tr o) /\ exists a l c, mrun R z (empty_mesh a l c tr) h = Ok m.

Lemma mbuilt_inv {D} (R z : D) tr h m : mbuilt R z tr h m -> cinv m /\ trace m = tr.
Proof.
  intros (Hg & a & l & c & E).
  pose proof (cinv_empty (D := D) a l c tr) as I0.
  assert (Ho : mops_ok R z (empty_mesh a l c tr) h) by (eapply mops_ok_of_success; eauto).
  destruct (mrun_spec R z h _ I0 Ho) as (m' & E' & I & _ & T). assert (m' = m) by congruence. subst. auto.
Qed.

Lemma mbuilt_app {D} (R z : D) tr h1 h2 m : mbuilt R z tr (h1 ++ h2) m ->
  exists m1, mbuilt R z tr h1 m1 /\ mrun R z m1 h2 = Ok m /\ mops_ok R z m1 h2.
Proof.
  intros (Hg & a & l & c & E). unfold mrun in E. rewrite foldM_app in E.
  destruct (foldM (mstep R z) h1 (empty_mesh a l c tr)) as [m1| | |] eqn:E1; cbn in E; try discriminate.
  assert (B1 : mbuilt R z tr h1 m1).
  { split; [intros; apply Hg, in_or_app; auto|]. exists a, l, c. exact E1. }
  destruct (mbuilt_inv _ _ _ _ _ B1) as [I T].
  exists m1. split; [exact B1|]. split; [exact E|].
  eapply mops_ok_of_success; [exact I| |exact E]. rewrite T. intros; apply Hg, in_or_app; auto.
Qed.

(** ** C14: cells read back as they were added *)

(** Whatever was done before and after, the cell at the returned position has
    the type, node numbers in order, coordinate system and (2D) offset given,
    and its number and element number as long as the latter is not reassigned. *)
Theorem C14_read_back : forall D (R z : D) tr h1 h2 m id t ids v cs e off,
  mbuilt R z tr (h1 ++ MCell id t ids v cs e off :: h2) m ->
  exists m1 m2 pos c, mbuilt R z tr h1 m1 /\ addCell R z m1 id t ids v cs e off = Ok (m2, pos) /\
    findCell m pos = Ok c /\ c_type c = t /\ c_nodeIds c = ids /\ c_cs c = cs /\ c_pos c = pos /\
    (id <> AUTO_ID -> c_id c = id) /\
    (id = AUTO_ID -> findCellPosition m1 (c_id c) = None) /\
    (dimension t = 2%nat -> c_offset c = Some off) /\
    ((forall e', ~ In (MAssign pos e') h2) -> c_elem c = e).
Proof.
  intros D R z tr h1 h2 m id t ids v cs e off B.
  destruct (mbuilt_app _ _ _ _ _ _ B) as (m1 & B1 & E & Ho).
  destruct (mbuilt_inv _ _ _ _ _ B1) as [I1 T1].
  destruct Ho as [(H1 & H2 & H3 & H4) Hr].
  destruct (addCell_spec R z m1 id t ids v cs e off I1 H1 H2 H3 H4) as
    (m2 & cid & ps & E2 & I2 & C1 & C2 & C3 & C4 & Cd & L & Cc & Cb & Ca & Co & Cm & Cl & _).
  set (pos := length (cdatas m1)) in *.
  assert (Es : mstep R z m1 (MCell id t ids v cs e off) = Ok m2) by (cbn [mstep]; rewrite E2; reflexivity).
  unfold mrun in E. cbn [foldM] in E. rewrite Es in E. cbn [bind] in E.
  specialize (Hr m2 Es).
  destruct (mrun_spec R z h2 m2 I2 Hr) as (m3 & E3 & I3 & X3 & _). assert (m3 = m) by (unfold mrun in E3; congruence). subst m3.
  set (d := mkCD cid t v cs e (length (byType m1 t))).
  assert (Hd : nth_error (cdatas m2) pos = Some d) by (rewrite Cd, nth_error_snoc; unfold pos; now rewrite Nat.eqb_refl).
  destruct (findCell_ok m2 pos d I2 Hd) as (c2 & ps2 & F1 & F2 & F3 & F4 & F5 & F6 & F7 & F8 & F9 & F10 & F11).
  assert (Hps : ps2 = ps).
  { cbn in F8. rewrite Cc in F8. destruct (ctype_eq_dec t t); [|congruence].
    assert (Hs : (length (byType m1 t) * numNodes t)%nat = length (conn m1 t)) by (rewrite (ci_conn _ I1); lia).
    rewrite Hs, <- Cl, slice_last in F8. congruence. }
  subst ps2.
  destruct (mext_findCell m2 m pos c2 I2 I3 X3 F1) as (c & K1 & K2 & K3 & K4 & K5 & K6 & K7 & K8).
  exists m1, m2, pos, c. split; [exact B1|]. split; [exact E2|]. split; [exact K1|].
  split; [rewrite K3, F3; reflexivity|]. split; [rewrite K4; congruence|].
  split; [rewrite K7, F6; reflexivity|]. split; [congruence|].
  split; [intros Hid; rewrite K2, F2; cbn; auto|].
  split; [intros Hid; rewrite K2, F2; cbn; now apply C2|].
  split.
  - intros Hdim. rewrite F3 in K8. rewrite (K8 Hdim), (F11 Hdim). cbn. rewrite (Co Hdim), nth_error_snoc.
    pose proof (ci_aux _ I1 t) as Hl. unfold aux_len in Hl. rewrite Hdim in Hl. rewrite Hl, Nat.eqb_refl. reflexivity.
  - intros Hna. pose proof (mrun_elem R z h2 m2 m pos d I2 Hr E3 Hd Hna) as Hd'.
    destruct (findCell_ok m pos d I3 Hd') as (c' & ? & G1 & _ & _ & _ & G5 & _). assert (c' = c) by congruence. subst. rewrite G5. reflexivity.
Qed.

(** Looking a cell number up gives the position of the last cell added under it. *)
Theorem C14_lookup_by_number : forall D (R z : D) tr h1 h2 m id t ids v cs e off, id <> AUTO_ID ->
  mbuilt R z tr (h1 ++ MCell id t ids v cs e off :: h2) m ->
  (forall t' ids' v' cs' e' off', ~ In (MCell id t' ids' v' cs' e' off') h2) ->
  exists c pos, findCellPosition m id = Some pos /\ findCell m pos = Ok c /\ c_id c = id /\ c_type c = t /\ c_nodeIds c = ids.
Proof.
  intros D R z tr h1 h2 m id t ids v cs e off Hid B Hno.
  destruct (C14_read_back _ _ _ _ _ _ _ _ _ _ _ _ _ _ B) as (m1 & m2 & pos & c & B1 & E2 & F & F1 & F2 & _ & _ & F3 & _).
  exists c, pos. split; [|auto].
  destruct (mbuilt_app _ _ _ _ _ _ B) as (m1' & B1' & E & Ho).
  assert (Es : mstep R z m1 (MCell id t ids v cs e off) = Ok m2) by (cbn [mstep]; rewrite E2; reflexivity).
  destruct (mbuilt_inv _ _ _ _ _ B1') as [I1 T1].
  pose proof Ho as [(H1 & H2 & H3 & H4) Hr].
  destruct (addCell_spec R z m1' id t ids v cs e off I1 H1 H2 H3 H4) as
    (m2' & cid & ps & E2' & I2 & C1 & C2 & C3 & _).
  (* the position is the same number in every run: number of cells so far *)
  assert (Hlen : pos = length (cdatas m1')).
  { assert (forall h a l c tr (mm : mesh D), mrun R z (empty_mesh a l c tr) h = Ok mm ->
       length (cdatas mm) = length (filter (fun o => match o with MCell _ _ _ _ _ _ _ => true | _ => false end) h)) as Hcount.
    { clear. intros h a l c tr.
      assert (forall (m0 mm : mesh D), mrun R z m0 h = Ok mm -> length (cdatas mm) =
        (length (cdatas m0) + length (filter (fun o => match o with MCell _ _ _ _ _ _ _ => true | _ => false end) h))%nat) as HH.
      { induction h as [|o h IH]; intros m0 mm E; cbn in E; [injection E as <-; cbn; lia|].
        destruct (mstep R z m0 o) as [m1| | |] eqn:E1; cbn in E; try discriminate. rewrite (IH _ _ E).
        destruct o as [o|id t ids v cs e off|p e]; cbn [mstep] in E1.
        - destruct (nstep R (mnodes m0) o); cbn in E1; try discriminate. injection E1 as <-. reflexivity.
        - unfold addCell in E1. destruct (if id =? AUTO_ID then _ else _) as [[cid na]| | |]; cbn [bind] in E1; try discriminate.
          destruct (Nat.eqb (numNodes t) 0); [discriminate|]. destruct (_ && _); [discriminate|].
          destruct (reserve_all R (mnodes m0) ids e) as [[ns ps]| | |]; cbn in E1; try discriminate.
          injection E1 as <-. cbn. rewrite app_length. cbn. lia.
        - unfold assignElementId in E1. destruct (nth_error (cdatas m0) p); [|discriminate]. injection E1 as <-.
          cbn. rewrite set_nth_length. reflexivity. }
      intros mm E. rewrite (HH _ _ E). reflexivity. }
    destruct B1 as (_ & a & l & c0 & R1), B1' as (_ & a' & l' & c0' & R1').
    rewrite (Hcount _ _ _ _ _ _ R1').
    unfold addCell in E2. destruct (if id =? AUTO_ID then _ else _) as [[cid' na]| | |]; cbn [bind] in E2; try discriminate.
    destruct (Nat.eqb (numNodes t) 0); [discriminate|]. destruct (_ && _); [discriminate|].
    destruct (reserve_all R (mnodes m1) ids e) as [[ns ps']| | |]; cbn in E2; try discriminate.
    injection E2 as _ <-. apply (Hcount _ _ _ _ _ _ R1). }
  rewrite Hlen. assert (Es' : mstep R z m1' (MCell id t ids v cs e off) = Ok m2') by (cbn [mstep]; rewrite E2'; reflexivity).
  unfold mrun in E. cbn [foldM] in E. rewrite Es' in E. cbn [bind] in E.
  rewrite (C1 Hid) in C3. eapply (mrun_cpos R z h2 m2' m id); eauto.
Qed.

(** Iterating over the cells of a type succeeds and visits each stored cell of
    that type exactly once, in the order of addition. *)
Theorem C14_iteration : forall D (R z : D) tr h m t, mbuilt R z tr h m ->
  exists cs, iterateCells m t = Ok cs /\ length cs = countCellsOf m t /\
    (forall c, In c cs -> c_type c = t /\ findCell m (c_pos c) = Ok c) /\
    (forall pos c, findCell m pos = Ok c -> c_type c = t -> exists! i, nth_error cs i = Some c).
Proof.
  intros D R z tr h m t B. destruct (mbuilt_inv _ _ _ _ _ B) as [I _]. unfold iterateCells, countCellsOf.
  assert (Hf : forall i pos, nth_error (byType m t) i = Some pos ->
    exists c, findCell m pos = Ok c /\ c_type c = t /\ c_pos c = pos /\ c_tpos c = i).
  { intros i pos Hp. destruct (ci_type _ I _ _ _ Hp) as (d & Hd & Ht & Hi).
    destruct (findCell_ok m pos d I Hd) as (c & ps & E & A1 & A2 & A3 & _). exists c.
    split; [exact E|]. split; [congruence|]. split; [exact A3|].
    unfold findCell in E. rewrite Hd in E. destruct (slice _ _ _); [|discriminate].
    destruct (mapM _ _); cbn [bind] in E; try discriminate.
    match type of E with bind ?x _ = _ => destruct x; cbn in E; try discriminate end.
    injection E as <-. exact Hi. }
  destruct (mapM_total (findCell m) (byType m t)) as [cs E].
  { intros pos Hp. apply In_nth_error in Hp. destruct Hp as [i Hi]. destruct (Hf _ _ Hi) as (c & Ec & _). eauto. }
  exists cs. destruct (mapM_nth _ _ _ E) as [Hl Hn]. split; [exact E|]. split; [exact Hl|]. split.
  - intros c Hc. apply In_nth_error in Hc. destruct Hc as [i Hi].
    destruct (nth_error (byType m t) i) as [pos|] eqn:Ep.
    + destruct (Hn _ _ Ep) as (c' & Hc' & Ec'). assert (c' = c) by congruence. subst c'.
      destruct (Hf _ _ Ep) as (c'' & Ec & A & A' & _). assert (c'' = c) by congruence. subst c''.
      split; [exact A|]. now rewrite A'.
    + apply nth_error_None in Ep. assert (nth_error cs i <> None) as X by congruence. apply nth_error_Some in X. lia.
  - intros pos c Ec Ht.
    assert (exists d, nth_error (cdatas m) pos = Some d) as [d Hd].
    { unfold findCell in Ec. destruct (nth_error (cdatas m) pos); [eauto|discriminate]. }
    assert (Hdt : cd_type d = t).
    { destruct (findCell_ok m pos d I Hd) as (c' & ps & E' & A1 & A2 & _). congruence. }
    pose proof (ci_data _ I _ _ Hd) as Hp. rewrite Hdt in Hp.
    destruct (Hn _ _ Hp) as (c' & Hc' & Ec'). assert (c' = c) by congruence. subst c'.
    exists (cd_tpos d). split; [exact Hc'|].
    intros j Hj. destruct (nth_error (byType m t) j) as [pj|] eqn:Ej.
    + destruct (Hn _ _ Ej) as (cj & Hcj & Ecj). assert (cj = c) by congruence. subst cj.
      destruct (Hf _ _ Ej) as (cj & E1 & E2 & E3 & E4). assert (cj = c) by congruence. subst cj.
      destruct (Hf _ _ Hp) as (ck & F1 & F2 & F3 & F4). assert (ck = c) by congruence. subst ck. congruence.
    + apply nth_error_None in Ej. assert (nth_error cs j <> None) as X by congruence. apply nth_error_Some in X. lia.
Qed.

Ltac good_tac := cbn [good_op]; solve [exact Logic.I | split; [intros _; reflexivity|];
  intros i Hi; cbn [In] in Hi; intros Hx; vm_compute in Hx; subst; intuition discriminate].
Definition C14_h : list (mop Z) :=
  [MNode (Define 1 0 0 0 0 0); MNode (Define 2 1 0 0 0 0); MCell 10 SEG2 [1; 2] false 0 100 0;
   MCell AUTO_ID TRI3 [2; 3; 1] false 0 200 7; MCell 11 SEG2 [3; 4] false 5 100 0; MAssign 0 300].
Example C14_case : exists m, mbuilt (-1) 0 false C14_h m /\
  (exists c, findCell m 1 = Ok c /\ c_nodeIds c = [2; 3; 1] /\ c_id c = 9999999 /\ c_offset c = Some 7) /\
  (exists c, findCell m 2 = Ok c /\ c_nodeIds c = [3; 4]) /\
  (exists c, findCell m 0 = Ok c /\ c_elem c = 300).
Proof.
  eexists. split.
  - split; [|exists 9999999, 0, 9999999; vm_compute; reflexivity].
    unfold C14_h. cbn [In]. intros o H. repeat (destruct H as [<-|H]; [good_tac|]). destruct H.
  - vm_compute. split; [eexists; split; [reflexivity|]; auto|]. split; eexists; split; reflexivity.
Qed.

(** A cell declared virtual is read back as not virtual. *)
Theorem C14_virtual_flag_refuted : exists m m1 pos c,
  addCell (-1) 0 m 10 SEG2 [1; 2] true 0 100 0 = Ok (m1, pos) /\ findCell m1 pos = Ok c /\ c_virtual c = false.
Proof. exists (empty_mesh 9999999 0 9999999 false). do 3 eexists. vm_compute. auto. Qed.

(** Two cells may be given the same number (checks off); the mesh then reports
    one cell while iteration visits two. *)
Theorem C14_cell_count_refuted : exists (h : list (mop Z)) m, mbuilt (-1) 0 false h m /\
  countCells m = 1%nat /\ countCellsOf m SEG2 = 2%nat.
Proof.
  exists [MCell 10 SEG2 [1; 2] false 0 100 0; MCell 10 SEG2 [2; 3] false 0 100 0]. eexists. split.
  - split; [|exists 9999999, 0, 9999999; vm_compute; reflexivity].
    cbn [In]. intros o H. repeat (destruct H as [<-|H]; [good_tac|]). destruct H.
  - vm_compute. auto.
Qed.

(** Replacing the connectivity of a bar cell (updateCell) makes it unreadable:
    the next read is out of bounds. *)
Theorem C14_update_cell_refuted : exists (m m1 m2 : mesh Z) p1 p2,
  addCell (-1) 0 m 10 SEG2 [1; 2] false 0 100 0 = Ok (m1, p1) /\
  updateCell (-1) m1 10 SEG2 [2; 3] false 0 100 = Ok (m2, p2) /\
  findCellPosition m2 10 = Some p2 /\ findCell m2 p2 = UB.
Proof. exists (empty_mesh 9999999 0 9999999 false). do 4 eexists. vm_compute. auto. Qed.
Print Assumptions C14_read_back.
Print Assumptions C14_lookup_by_number.
Print Assumptions C14_iteration.

(** ** C15: a malformed cell cannot corrupt others *)

(** With the checks on, a cell is accepted only with a connectivity of the
    right length, without repeated node, and a number not in use; whatever
    calls were accepted, every cell reads back (no assumption on lengths). *)
Theorem C15_checked_mesh_partial : forall D (R z : D) h m id t ids v cs e off,
  (forall i, In i ids -> i <> AUTO_ID) -> mbuilt R z true h m -> id <> AUTO_ID -> t <> POLY 0 ->
  ((exists m' pos, addCell R z m id t ids v cs e off = Ok (m', pos) /\ mbuilt R z true (h ++ [MCell id t ids v cs e off]) m')
     <-> length ids = numNodes t /\ NoDup ids /\ findCellPosition m id = None) /\
  (~ (length ids = numNodes t /\ NoDup ids /\ findCellPosition m id = None) ->
      addCell R z m id t ids v cs e off = Throw) /\
  (forall pos, (pos < length (cdatas m))%nat -> exists c, findCell m pos = Ok c).
Proof.
  intros D R z h m id t ids v cs e off Hi B Hid Ht. destruct (mbuilt_inv _ _ _ _ _ B) as [I T].
  assert (Hiff : (exists m' pos, addCell R z m id t ids v cs e off = Ok (m', pos)) -> 
     length ids = numNodes t /\ NoDup ids /\ findCellPosition m id = None).
  { intros (m' & pos & E).
    assert (Ho : mop_ok m (MCell id t ids v cs e off)).
    { eapply (mop_ok_of_success R z) with (m' := m'); [rewrite T; split; [discriminate|exact Hi]|].
      cbn [mstep]. rewrite E. reflexivity. }
    destruct Ho as (H1 & _ & _ & [H|[H3 H4]]); [congruence|]. destruct H3; [contradiction|]. auto. }
  split; [split|split].
  - intros (m' & pos & E & _). eauto.
  - intros (H1 & H2 & H3).
    destruct (addCell_spec R z m id t ids v cs e off I H1 Ht Hi) as (m' & cid & ps & E & _); [right; auto|].
    exists m'. eexists. split; [exact E|]. destruct B as (Hg & a & l & c & Em). split.
    + intros o Ho. apply in_app_or in Ho. destruct Ho as [Ho|[<-|[]]]; [auto|]. split; [discriminate|exact Hi].
    + exists a, l, c. unfold mrun in *. rewrite foldM_app, Em. cbn [bind foldM mstep]. rewrite E. reflexivity.
  - intros Hno. unfold addCell. destruct (Z.eqb_spec id AUTO_ID); [contradiction|]. cbn [bind].
    destruct (Nat.eqb (numNodes t) 0); [reflexivity|]. rewrite T. cbn [andb].
    destruct (conn_checks m id t ids true) eqn:Ec; [exfalso|reflexivity].
    apply Hno. unfold conn_checks in Ec.
    apply andb_true_iff in Ec. destruct Ec as [Ec E3]. apply andb_true_iff in Ec. destruct Ec as [E1 E2].
    apply Nat.eqb_eq in E1. apply nodup_length_NoDup in E1.
    apply orb_true_iff in E3. rewrite !Nat.eqb_eq in E3.
    assert (numNodes t <> 0%nat) by (destruct t as [ | | | | | | | | | | | | | | | | | | | | |[|k]]; cbn; congruence).
    split; [destruct E3; congruence|]. split; [exact E1|].
    unfold findCellPosition. destruct (zfind (cposById m) id); [discriminate|reflexivity].
  - intros pos Hp. apply nth_error_Some in Hp. destruct (nth_error (cdatas m) pos) as [d|] eqn:E; [|congruence].
    destruct (findCell_ok m pos d I E) as (c & ps & Ec & _). eauto.
Qed.

Example C15_case : mbuilt (-1) 0 true [] (empty_mesh (D := Z) 9999999 0 9999999 true) /\
  addCell (-1) 0 (empty_mesh (D := Z) 9999999 0 9999999 true) 10 SEG2 [1] false 0 100 0 = Throw.
Proof. split; [split; [intros o []|do 3 eexists; reflexivity]|reflexivity]. Qed.

(** With the checks off (the default), one bar cell given a single node makes
    the mesh hand out the nodes [4;5] for the cell added with nodes [3;4]. *)
Theorem C15_malformed_cell_refuted : exists (m0 m1 m2 m3 : mesh Z) p1 p2 p3 c,
  addCell (-1) 0 m0 10 SEG2 [1] false 0 100 0 = Ok (m1, p1) /\
  addCell (-1) 0 m1 11 SEG2 [3; 4] false 0 100 0 = Ok (m2, p2) /\
  addCell (-1) 0 m2 12 SEG2 [5; 6] false 0 100 0 = Ok (m3, p3) /\
  findCell m3 p2 = Ok c /\ c_id c = 11 /\ c_nodeIds c = [4; 5] /\ findCell m3 p3 = UB.
Proof. exists (empty_mesh 9999999 0 9999999 false). do 7 eexists. vm_compute. auto 10. Qed.
Print Assumptions C15_checked_mesh_partial.
