(** C115: virtual point elements give the nodes the degrees of freedom their boundary
    conditions act on. *)
From Coq Require Import Ascii String ZArith List Bool Arith Lia.
From Verif Require Import Base ZMap DofModel DofProofs AnalysisModel MeshNodeModel MeshNodeProofs MeshCellModel MeshCellProofs PropertiesMeshCells MeshGroupModel MeshGroupProofs PropertiesMeshGroups SegmentModel SegmentProofs ContactSurfModel ContactSurfProofs VirtualModel VirtualProofs.
Import ListNotations.
Open Scope Z_scope.
Open Scope list_scope.

(** ** Specification *)
(** A node of the mesh: its number, its position and what is stored for it. *)
Definition a_node {D} (m : mesh D) (id : Z) (p : nat) (d : ndata D) : Prop :=
  findNodePosition (mnodes m) id = Some p /\ nth_error (ndatas (mnodes m)) p = Some d.
(** Some boundary condition acts on a degree of freedom that the node has not. *)
Definition wants (analyses : list boundary) (p : nat) {D} (d : ndata D) (x : dof) : Prop :=
  exists b, In b analyses /\ member x (find_boundary b (Z.of_nat p)) /\ ~ member x (nd_dofs d).
(** What the pass starts from. *)
Record ready {D} (R z : D) (analyses : list boundary) (m : mesh D) (gs : groups) : Prop := {
  r_mesh : exists tr h, mbuilt R z tr h m;
  r_groups : gbuilt gs;
  r_names : findGroup gs "VDiscrTR" = None /\ findGroup gs "VDiscrT" = None;
  r_nodes : forall id p d, a_node m id p d -> id <> AUTO_ID /\ is_set (nd_dofs d);
  r_boundary : forall b p, In b analyses -> is_set (find_boundary b p) }.

(** ** What the pass does *)
Section Pass.
Context {D : Type} (R z : D) (analyses : list boundary) (m : mesh D) (gs : groups).
Hypothesis Rd : ready R z analyses m gs.

Lemma m_inv : cinv m.
Proof. destruct (r_mesh _ _ _ _ _ Rd) as (tr & h & B). now destruct (mbuilt_inv _ _ _ _ _ B). Qed.
Lemma pos_inj : NoDup (map fst (npos (mnodes m))) /\ NoDup (map snd (npos (mnodes m))).
Proof.
  destruct (ci_nodes _ m_inv) as [W B].
  assert (F : NoDup (map fst (npos (mnodes m)))).
  { clear B. induction W as [|[k p] l S IH Hf]; cbn [map fst]; constructor; [|exact IH]. intros H. apply in_map_iff in H. destruct H as ([k' p'] & E & H). cbn in E. subst k'.
    rewrite Forall_forall in Hf. specialize (Hf _ H). cbn in Hf. lia. }
  split; [exact F|].
  assert (J : forall i j p, In (i, p) (npos (mnodes m)) -> In (j, p) (npos (mnodes m)) -> i = j).
  { intros i j p H1 H2. apply (in_zfind _ _ _ W) in H1. apply (in_zfind _ _ _ W) in H2. apply B in H1. apply B in H2. destruct H1 as (d1 & A1 & A2), H2 as (d2 & A3 & A4). congruence. }
  clear W B. induction (npos (mnodes m)) as [|[i p] l IH]; cbn [map fst snd] in *; constructor.
  - intros H. apply in_map_iff in H. destruct H as ([j q] & E & H). cbn in E. subst q.
    assert (i = j) by (apply (J i j p); [now left|now right]). subst j. inversion F as [|u v N1 N2]; subst. apply N1. apply in_map_iff. now exists (i, p).
  - inversion F as [|u v N1 N2]; subst. apply IH; [assumption|]. intros a b q U1 U2. apply (J a b q); now right.
Qed.
Lemma in_pos id p : In (id, p) (npos (mnodes m)) <-> exists d, a_node m id p d.
Proof.
  destruct (ci_nodes _ m_inv) as [W B]. split.
  - intros H. apply (in_zfind _ _ _ W) in H. destruct (proj1 (B id p) H) as (d & A & _). exists d. now split.
  - intros (d & H & _). now apply zfind_in.
Qed.
Lemma pass : exists s', generate R z analyses m gs = Ok s' /\ cinv (v_mesh s') /\ mext m (v_mesh s') /\ trace (v_mesh s') = trace m /\ ginv (v_groups s') /\
    gains m (v_mesh s') (gift analyses (dofs_at m) (npos (mnodes m))) /\
    holder (v_mesh s') (v_groups s') (v_tr s') TR (chosen (turned analyses) (dofs_at m) (npos (mnodes m))) /\
    holder (v_mesh s') (v_groups s') (v_t s') TT (chosen (shifted analyses) (dofs_at m) (npos (mnodes m))) /\
    v_spc s' = blocks analyses (dofs_at m) (npos (mnodes m)) /\
    (forall n k x, n <> TR -> n <> TT -> findGroup gs n = Some k -> nth_error (heap gs) k = Some x -> findGroup (v_groups s') n = Some k /\ nth_error (heap (v_groups s')) k = Some x) /\
    (forall n, n <> TR -> n <> TT -> findGroup gs n = None -> findGroup (v_groups s') n = None) /\
    length (cdatas (v_mesh s')) = (length (cdatas m) + length (chosen (turned analyses) (dofs_at m) (npos (mnodes m))) + length (chosen (shifted analyses) (dofs_at m) (npos (mnodes m))))%nat.
Proof.
  destruct (r_names _ _ _ _ _ Rd) as [N1 N2]. unfold generate.
  apply (generate_from R z analyses (npos (mnodes m)) (mkV m gs None None []) [] []); cbn [v_mesh v_groups v_tr v_t].
  - exact m_inv.
  - apply gbuilt_inv, Rd.
  - intros id p H. apply in_pos in H. destruct H as (d & H). split; [now destruct (r_nodes _ _ _ _ _ Rd id p d H)|apply H].
  - apply pos_inj.
  - split; [reflexivity|exact N1].
  - split; [reflexivity|exact N2].
Qed.
Lemma at_node id p d : a_node m id p d -> dofs_at m p = nd_dofs d /\ is_set (nd_dofs d).
Proof. intros H. destruct (r_nodes _ _ _ _ _ Rd id p d H) as [_ S]. destruct H as [_ H]. unfold dofs_at. rewrite H. now split. Qed.
End Pass.

(** Every node keeps its number, its coordinates and its degrees of freedom.  A node lacking a
    rotation gets all six degrees of freedom, one lacking a translation only gets the three
    translations, and no other node changes. *)
Theorem C115_nodes : forall D (R z : D) analyses m gs, ready R z analyses m gs ->
  exists s', generate R z analyses m gs = Ok s' /\ length (ndatas (mnodes (v_mesh s'))) = length (ndatas (mnodes m)) /\
    forall id p d, a_node m id p d -> exists d', a_node (v_mesh s') id p d' /\ same_node d d' /\
      forall x, member x (nd_dofs d') <-> member x (nd_dofs d) \/
        (exists y, wants analyses p d y /\ isRotation y = true) \/ (exists y, wants analyses p d y) /\ isRotation x = false.
Proof.
  intros D R z analyses m gs Rd. destruct (pass R z analyses m gs Rd) as (s' & E & I & X & T & G & [L Gn] & _).
  exists s'. split; [exact E|]. split; [exact L|]. intros id p d H. destruct (at_node _ _ _ _ _ Rd id p d H) as [Ed S].
  destruct (Gn p d (proj2 H)) as (d' & H' & Sm & Nd). exists d'. split; [split; [apply X; apply H|exact H']|]. split; [exact Sm|].
  intros x. rewrite Nd. fold (dofs_add (nd_dofs d) (gift analyses (dofs_at m) (npos (mnodes m)) p)). rewrite member_add.
  unfold gift. replace (existsb (Nat.eqb p) (map snd (npos (mnodes m)))) with true.
  - rewrite Ed, granted_spec; [reflexivity|exact S|]. intros b q Hb. now apply (r_boundary _ _ _ _ _ Rd).
  - symmetry. apply existsb_exists. exists p. split; [|apply Nat.eqb_refl]. apply in_map_iff. exists (id, p). split; [reflexivity|]. apply (in_pos _ _ _ _ _ Rd). now exists d.
Qed.

(** After the pass every boundary condition acts on degrees of freedom that its node has. *)
Theorem C115_required : forall D (R z : D) analyses m gs, ready R z analyses m gs ->
  exists s', generate R z analyses m gs = Ok s' /\ forall b id p d' x, In b analyses -> findNodePosition (mnodes m) id = Some p ->
    nth_error (ndatas (mnodes (v_mesh s'))) p = Some d' -> member x (find_boundary b (Z.of_nat p)) -> member x (nd_dofs d').
Proof.
  intros D R z analyses m gs Rd. destruct (C115_nodes D R z analyses m gs Rd) as (s' & E & _ & A). exists s'. split; [exact E|].
  intros b id p d' x Hb Hp Hd' Hx. pose proof (m_inv R z analyses m gs Rd) as I. destruct (proj1 (proj2 (ci_nodes _ I) id p) Hp) as (d & Hd & _).
  destruct (A id p d (conj Hp Hd)) as (d2 & [_ H2] & _ & M). assert (d2 = d') by congruence. subst d2. apply M.
  destruct (contains (nd_dofs d) x) eqn:C; [left; now apply contains_iff|right].
  assert (W : wants analyses p d x). { exists b. split; [exact Hb|]. split; [exact Hx|]. intros H. apply contains_iff in H. congruence. }
  destruct (isRotation x) eqn:Rx; [left; now exists x|right; split; [now exists x|reflexivity]].
Qed.

(** One virtual point is made for each node lacking something, and put in one of two groups:
    VDiscrTR for the nodes lacking a rotation, VDiscrT for the others.  A group without points
    is not made; the cells and the other groups stay. *)
Theorem C115_points : forall D (R z : D) analyses m gs, ready R z analyses m gs ->
  exists s' turned shifted, generate R z analyses m gs = Ok s' /\ NoDup turned /\ NoDup shifted /\
    (forall id, In id turned <-> exists p d y, a_node m id p d /\ wants analyses p d y /\ isRotation y = true) /\
    (forall id, In id shifted <-> exists p d, a_node m id p d /\ (exists y, wants analyses p d y) /\ forall y, wants analyses p d y -> isRotation y = false) /\
    (turned <> [] -> cover (v_mesh s', v_groups s') "VDiscrTR" (map (fun id => (POINT1, [id])) turned)) /\ (turned = [] -> findGroup (v_groups s') "VDiscrTR" = None) /\
    (shifted <> [] -> cover (v_mesh s', v_groups s') "VDiscrT" (map (fun id => (POINT1, [id])) shifted)) /\ (shifted = [] -> findGroup (v_groups s') "VDiscrT" = None) /\
    cinv (v_mesh s') /\ mext m (v_mesh s') /\ length (cdatas (v_mesh s')) = (length (cdatas m) + length turned + length shifted)%nat /\
    (forall n k x, n <> "VDiscrTR"%string -> n <> "VDiscrT"%string -> findGroup gs n = Some k -> nth_error (heap gs) k = Some x ->
       findGroup (v_groups s') n = Some k /\ nth_error (heap (v_groups s')) k = Some x) /\
    (forall n, n <> "VDiscrTR"%string -> n <> "VDiscrT"%string -> findGroup gs n = None -> findGroup (v_groups s') n = None).
Proof.
  intros D R z analyses m gs Rd. destruct (pass R z analyses m gs Rd) as (s' & E & I & X & T & G & Gn & H1 & H2 & _ & K & Q & L).
  set (l := npos (mnodes m)) in *.
  exists s', (chosen (turned analyses) (dofs_at m) l), (chosen (shifted analyses) (dofs_at m) l).
  assert (Nd : forall c, NoDup (chosen c (dofs_at m) l)).
  { intros c. unfold chosen. destruct (pos_inj R z analyses m gs Rd) as [F _]. fold l in F. clear - F. induction l as [|[i p] l IH]; cbn [filter snd map]; [constructor|].
    cbn [map fst] in F. inversion F as [|u v N1 N2]; subst. destruct (c (dofs_at m) p); cbn [map fst]; [constructor; [|now apply IH]|now apply IH].
    intros H. apply N1. apply in_map_iff in H. destruct H as (y & Hy & H). apply filter_In in H. apply in_map_iff. exists y. now split. }
  assert (Ch : forall c id, In id (chosen c (dofs_at m) l) <-> exists p d, a_node m id p d /\ c (dofs_at m) p = true).
  { intros c id. unfold chosen. rewrite in_map_iff. split.
    - intros ([i p] & Ei & H). cbn in Ei. subst i. apply filter_In in H. destruct H as [H C]. apply (in_pos _ _ _ _ _ Rd) in H. destruct H as (d & H). now exists p, d.
    - intros (p & d & H & C). exists (id, p). split; [reflexivity|]. apply filter_In. split; [|exact C]. apply (in_pos _ _ _ _ _ Rd). now exists d. }
  assert (Mi : forall id p d, a_node m id p d -> is_set (missing analyses p (dofs_at m p)) /\ (forall y, member y (missing analyses p (dofs_at m p)) <-> wants analyses p d y)).
  { intros id p d H. destruct (at_node _ _ _ _ _ Rd id p d H) as [Ed S]. rewrite Ed. apply missing_spec; [exact S|]. intros b q Hb. now apply (r_boundary _ _ _ _ _ Rd). }
  assert (Cov : forall o name x, holder (v_mesh s') (v_groups s') o name x -> (x <> [] -> cover (v_mesh s', v_groups s') name (map (fun id => (POINT1, [id])) x)) /\ (x = [] -> findGroup (v_groups s') name = None)).
  { intros [h|] name x; cbn [holder].
    - intros (A & B & g & ps & C1 & C2 & C3 & C4 & C5 & C6). split; [|contradiction]. intros _. exists h, g, ps. auto 10.
    - intros [-> F]. split; [contradiction|auto]. }
  split; [exact E|]. split; [apply Nd|]. split; [apply Nd|]. split; [|split].
  - intros id. rewrite Ch. split.
    + intros (p & d & H & C). destruct (Mi id p d H) as [S M]. unfold turned in C. apply andb_true_iff in C. destruct C as [_ C]. apply (containsAnyOf_iff _ _ S) in C.
      destruct C as (y & C1 & C2). exists p, d, y. split; [exact H|]. split; [now apply M|now apply member_rotations].
    + intros (p & d & y & H & W & Ry). destruct (Mi id p d H) as [S M]. exists p, d. split; [exact H|]. unfold turned. apply andb_true_iff. split.
      * apply negb_true_iff, Z.eqb_neq. intros E0. apply (proj1 (empty_iff _ S) E0 y). now apply M.
      * apply (containsAnyOf_iff _ _ S). exists y. split; [now apply M|now apply member_rotations].
  - intros id. rewrite Ch. split.
    + intros (p & d & H & C). destruct (Mi id p d H) as [S M]. unfold shifted in C. apply andb_true_iff in C. destruct C as [C0 C]. apply negb_true_iff in C. apply negb_true_iff, Z.eqb_neq in C0.
      exists p, d. split; [exact H|]. split.
      * destruct (containsAnyOf (missing analyses p (dofs_at m p)) ALL_DOFS) eqn:A.
        -- apply (containsAnyOf_iff _ _ S) in A. destruct A as (y & A & _). exists y. now apply M.
        -- exfalso. apply C0. apply (empty_iff _ S). intros y Y. assert (containsAnyOf (missing analyses p (dofs_at m p)) ALL_DOFS = true) by (apply (containsAnyOf_iff _ _ S); exists y; split; [exact Y|apply member_all]). congruence.
      * intros y W. destruct (isRotation y) eqn:Ry; [|reflexivity]. exfalso.
        assert (containsAnyOf (missing analyses p (dofs_at m p)) ROTATIONS = true) by (apply (containsAnyOf_iff _ _ S); exists y; split; [now apply M|now apply member_rotations]). congruence.
    + intros (p & d & H & (y & W) & A). destruct (Mi id p d H) as [S M]. exists p, d. split; [exact H|]. unfold shifted. apply andb_true_iff. split.
      * apply negb_true_iff, Z.eqb_neq. intros E0. apply (proj1 (empty_iff _ S) E0 y). now apply M.
      * apply negb_true_iff. destruct (containsAnyOf (missing analyses p (dofs_at m p)) ROTATIONS) eqn:C; [|reflexivity]. apply (containsAnyOf_iff _ _ S) in C.
        destruct C as (u & C1 & C2). apply M in C1. apply A in C1. apply member_rotations in C2. congruence.
  - destruct (Cov _ _ _ H1) as [A1 A2]. destruct (Cov _ _ _ H2) as [A3 A4]. unfold TR, TT in *. split; [exact A1|]. split; [exact A2|]. split; [exact A3|]. split; [exact A4|].
    split; [exact I|]. split; [exact X|]. split; [exact L|]. split; [exact K|exact Q].
Qed.

(** What is blocked, exactly: for an analysis acting on something its node had not, the degrees
    of freedom that the node gets and that no analysis lacked. *)
Theorem C115_blocked : forall D (R z : D) analyses m gs, ready R z analyses m gs ->
  exists s', generate R z analyses m gs = Ok s' /\ forall i p x, (exists e, In (i, p, e) (v_spc s') /\ member x e) <->
    exists id d d' b, a_node m id p d /\ a_node (v_mesh s') id p d' /\ nth_error analyses i = Some b /\
      (exists y, member y (find_boundary b (Z.of_nat p)) /\ ~ member y (nd_dofs d)) /\
      member x (nd_dofs d') /\ ~ member x (nd_dofs d) /\ ~ wants analyses p d x.
Proof.
  intros D R z analyses m gs Rd. destruct (C115_nodes D R z analyses m gs Rd) as (s0 & E0 & _ & A). destruct (pass R z analyses m gs Rd) as (s' & E & _ & _ & _ & _ & _ & _ & _ & Sp & _).
  assert (s0 = s') by congruence. subst s0. exists s'. split; [exact E|]. intros i p x. rewrite Sp.
  assert (Cd : codes analyses) by (intros b q Hb; now apply (r_boundary _ _ _ _ _ Rd)).
  assert (One : forall id d, a_node m id p d -> (exists e, In (i, p, e) (block analyses 0 p (nd_dofs d) (unasked analyses p (nd_dofs d))) /\ member x e) <->
     exists d' b, a_node (v_mesh s') id p d' /\ nth_error analyses i = Some b /\ (exists y, member y (find_boundary b (Z.of_nat p)) /\ ~ member y (nd_dofs d)) /\
      member x (nd_dofs d') /\ ~ member x (nd_dofs d) /\ ~ wants analyses p d x).
  { intros id d H. destruct (at_node _ _ _ _ _ Rd id p d H) as [_ S]. destruct (A id p d H) as (d' & H' & _ & M).
    destruct (missing_spec analyses p (nd_dofs d) S Cd) as [Sm Mm].
    assert (Sg : is_set (granted analyses p (nd_dofs d))). { unfold granted. cbv zeta. destruct (missing analyses p (nd_dofs d) =? NO_DOFS); [unfold is_set, NO_DOFS; lia|]. destruct (containsAnyOf (missing analyses p (nd_dofs d)) ROTATIONS); vm_compute; intuition discriminate. }
    assert (Su : is_set (unasked analyses p (nd_dofs d))). { unfold unasked. apply sub_set. now apply sub_set. }
    rewrite (block_spec (nd_dofs d) (unasked analyses p (nd_dofs d)) p S Su analyses 0 Cd i p x).
    assert (Mu : member x (unasked analyses p (nd_dofs d)) <-> member x (nd_dofs d') /\ ~ member x (nd_dofs d) /\ ~ wants analyses p d x).
    { unfold unasked. rewrite !member_sub, Mm, (granted_spec analyses p (nd_dofs d) x S Cd), M. unfold wants, lacking, acts. tauto. }
    setoid_rewrite Mu. split.
    - intros (j & b & -> & Hb & _ & Ex & (U1 & U2 & U3) & _). exists d', b. split; [exact H'|]. split; [exact Hb|]. split; [exact Ex|]. now split.
    - intros (d2 & b & H2 & Hb & Ex & U1 & U2 & U3). assert (d2 = d') by (destruct H', H2; congruence). subst d2.
      exists i, b. split; [reflexivity|]. split; [exact Hb|]. split; [reflexivity|]. split; [exact Ex|]. split; [now split|]. split; [|exact U2].
      intros Ac. apply U3. exists b. split; [eapply nth_error_In; eauto|]. split; [exact Ac|exact U2]. }
  split.
  - intros (e & He & Hx). unfold blocks in He. apply in_flat_map in He. destruct He as ([id q] & Hq & He). cbn [snd] in He.
    assert (q = p). { clear - He. revert He. generalize (unasked analyses q (dofs_at m q)) as added. intros added. generalize 0%nat as k. induction analyses as [|b l IH]; intros k; cbn [block]; [intros []|]. rewrite in_app_iff. intros [H|H]; [|now apply (IH (S k))].
      destruct (containsAll (dofs_at m q) (find_boundary b (Z.of_nat q))); [destruct H|]. cbv zeta in H. destruct (_ =? NO_DOFS); [destruct H|]. destruct H as [H|[]]. congruence. }
    subst q. apply (in_pos _ _ _ _ _ Rd) in Hq. destruct Hq as (d & Hd). destruct (at_node _ _ _ _ _ Rd id p d Hd) as [Ed _]. rewrite Ed in He.
    destruct (proj1 (One id d Hd)) as (d' & b & B); [exists e; now split|]. exists id, d, d', b. now split.
  - intros (id & d & d' & b & Hd & B). destruct (proj2 (One id d Hd)) as (e & He & Hx); [now exists d', b|]. exists e. split; [|exact Hx].
    destruct (at_node _ _ _ _ _ Rd id p d Hd) as [Ed _]. unfold blocks. apply in_flat_map. exists (id, p). split; [apply (in_pos _ _ _ _ _ Rd); now exists d|]. cbn [snd]. now rewrite Ed.
Qed.

(** No constraint blocks a degree of freedom that the node had, or that some boundary
    condition of some analysis acts on. *)
Theorem C115_never_blocked : forall D (R z : D) analyses m gs, ready R z analyses m gs ->
  exists s', generate R z analyses m gs = Ok s' /\ forall i p e x id d b, In (i, p, e) (v_spc s') -> member x e -> a_node m id p d -> In b analyses ->
    ~ member x (nd_dofs d) /\ ~ member x (find_boundary b (Z.of_nat p)).
Proof.
  intros D R z analyses m gs Rd. destruct (C115_blocked D R z analyses m gs Rd) as (s' & E & A). exists s'. split; [exact E|].
  intros i p e x id d b He Hx Hd Hb. destruct (proj1 (A i p x)) as (id' & d0 & d' & b' & H1 & _ & _ & _ & _ & H2 & H3); [exists e; now split|].
  assert (d0 = d) by (destruct H1, Hd; congruence). subst d0. split; [exact H2|]. intros Ac. apply H3. exists b. now split.
Qed.

(** An analysis is left no free degree of freedom by the pass, when it lacks something at the
    node and the other analyses act there on nothing more than it does.
    Missing: the other analyses, which C115_free_refuted shows to be left some. *)
Theorem C115_settled_partial : forall D (R z : D) analyses m gs, ready R z analyses m gs ->
  exists s', generate R z analyses m gs = Ok s' /\ forall i b id p d d' x, nth_error analyses i = Some b -> a_node m id p d -> a_node (v_mesh s') id p d' ->
    (exists y, member y (find_boundary b (Z.of_nat p)) /\ ~ member y (nd_dofs d)) ->
    (forall b' y, In b' analyses -> member y (find_boundary b' (Z.of_nat p)) -> member y (nd_dofs d) \/ member y (find_boundary b (Z.of_nat p))) ->
    member x (nd_dofs d') -> ~ member x (nd_dofs d) ->
    member x (find_boundary b (Z.of_nat p)) \/ exists e, In (i, p, e) (v_spc s') /\ member x e.
Proof.
  intros D R z analyses m gs Rd. destruct (C115_blocked D R z analyses m gs Rd) as (s' & E & A). exists s'. split; [exact E|].
  intros i b id p d d' x Hb Hd Hd' Ex Al X1 X2.
  destruct (contains (find_boundary b (Z.of_nat p)) x) eqn:C; [left; now apply contains_iff|right].
  apply A. exists id, d, d', b. split; [exact Hd|]. split; [exact Hd'|]. split; [exact Hb|]. split; [exact Ex|]. split; [exact X1|]. split; [exact X2|].
  intros (b' & H1 & H2 & H3). destruct (Al b' x H1 H2) as [H4|H4]; [contradiction|]. apply contains_iff in H4. congruence.
Qed.

(** ** The elements *)
(** The virtual elements have diagonal matrices, carry rotations in the first group and none in the second, and their
    stiffness is zero. *)
Theorem C115_elements : forall V (vzero : V) (is_zero : V -> bool),
  exists a b, virtual_matrix vzero is_zero ALL_DOFS = Ok a /\ virtual_matrix vzero is_zero TRANSLATIONS = Ok b /\
    mtype a = DIAGONAL /\ mtype b = DIAGONAL /\ hasRotations a = true /\ hasRotations b = false /\
    (forall x, comp_find (comps a) (x, x) = Some vzero) /\ (forall x, comp_find (comps b) (x, x) = if isRotation x then None else Some vzero) /\
    forall x y, findComponent vzero a x y = vzero /\ findComponent vzero b x y = vzero.
Proof.
  intros V vzero is_zero. eexists _, _. split; [vm_compute; reflexivity|]. split; [vm_compute; reflexivity|]. do 4 (split; [reflexivity|]).
  split; [intros []; reflexivity|]. split; [intros []; reflexivity|]. intros [] []; split; reflexivity.
Qed.

(** ** A free degree of freedom *)
Definition C115_h : list (mop Z) := [MNode (Define 7 0 0 0 0 0); MNode (Define 9 5 0 0 0 0); MNode (Define 8 5 3 0 0 0); MCell 1 SEG2 [7; 9] false 0 100 0;
  MNode (Allow 7 TRANSLATIONS); MNode (Allow 9 TRANSLATIONS)].
Definition C115_m : mesh Z := match mrun (-1) 0 (empty_mesh 9999999 0 9999999 true) C115_h with Ok m => m | _ => empty_mesh 0 0 0 true end.
(** The first analysis acts on a rotation of node 7 and a translation of node 8, the second on
    another rotation of node 7, the third on a translation that node 7 has. *)
Definition C115_analyses : list boundary := [[(0, dof_code RX); (2, dof_code DX)]; [(0, dof_code RY)]; [(0, dof_code DX)]].
Lemma C115_ready : ready (-1) 0 C115_analyses C115_m (empty_groups 0).
Proof.
  constructor.
  - exists true, C115_h. split; [intros o Ho; cbn in Ho; repeat (destruct Ho as [<-|Ho]; [good_tac|]); destruct Ho|exists 9999999, 0, 9999999; vm_compute; reflexivity].
  - exists 0, []. reflexivity.
  - split; reflexivity.
  - intros id p d [H1 H2]. unfold findNodePosition in H1. apply zfind_in in H1. vm_compute in H1.
    repeat (destruct H1 as [H1|H1]; [injection H1 as <- <-; vm_compute in H2; injection H2 as <-; split; [discriminate|vm_compute; split; [discriminate|reflexivity]]|]). destruct H1.
  - intros b p Hb. cbn in Hb. destruct Hb as [<- |[<- |[<- |[]]]]; cbn [find_boundary zfind]; unfold find_boundary; cbn [zfind];
      repeat match goal with |- context [if ?x =? ?y then _ else _] => destruct (x =? y) end; vm_compute; split; try discriminate; reflexivity.
Qed.

(** With these analyses, a degree of freedom given by the pass, with a zero stiffness, is neither
    acted on nor blocked in an analysis: one that another analysis lacked, and all of them in an
    analysis that lacked nothing. *)
Theorem C115_free_refuted : exists (m : mesh Z) gs analyses s' id p d d' b1 b2 b3, ready (-1) 0 analyses m gs /\ generate (-1) 0 analyses m gs = Ok s' /\
  a_node m id p d /\ a_node (v_mesh s') id p d' /\ analyses = [b1; b2; b3] /\
  (member RY (nd_dofs d') /\ ~ member RY (nd_dofs d) /\ ~ member RY (find_boundary b1 (Z.of_nat p)) /\ ~ exists e, In (0%nat, p, e) (v_spc s') /\ member RY e) /\
  (member RZ (nd_dofs d') /\ ~ member RZ (nd_dofs d) /\ ~ member RZ (find_boundary b3 (Z.of_nat p)) /\ ~ exists e, In (2%nat, p, e) (v_spc s') /\ member RZ e).
Proof.
  destruct (generate (-1) 0 C115_analyses C115_m (empty_groups 0)) as [s'| | |] eqn:E; [|vm_compute in E; discriminate..].
  vm_compute in E. injection E as E. exists C115_m, (empty_groups 0), C115_analyses, s', 7, 0%nat.
  eexists _, _, _, _, _. split; [exact C115_ready|]. split; [vm_compute; now rewrite E|]. split; [split; vm_compute; reflexivity|]. split; [rewrite <- E; split; vm_compute; reflexivity|].
  split; [reflexivity|]. rewrite <- E. cbn [v_spc]. split; (split; [reflexivity|]; split; [vm_compute; discriminate|]; split; [vm_compute; discriminate|]);
    intros (e & He & Hx); cbn [In] in He; repeat (destruct He as [He|He]; [try discriminate He; injection He as <-; vm_compute in Hx; discriminate|]); exact He.
Qed.

(** Node 7 gets all six, node 8 the translations, node 9 nothing; two constraints on node 7, one on node 8. *)
Example C115_case : ready (-1) 0 C115_analyses C115_m (empty_groups 0) /\
  exists s', generate (-1) 0 C115_analyses C115_m (empty_groups 0) = Ok s' /\ map (fun d => (nd_id d, nd_dofs d)) (ndatas (mnodes (v_mesh s'))) = [(7, 63); (9, 7); (8, 7)] /\
    v_spc s' = [(0%nat, 0%nat, 32); (1%nat, 0%nat, 32); (0%nat, 2%nat, 6)] /\ length (cdatas (v_mesh s')) = 3%nat.
Proof. split; [exact C115_ready|]. eexists. split; [vm_compute; reflexivity|]. vm_compute. repeat split. Qed.
Print Assumptions C115_nodes.
Print Assumptions C115_required.
Print Assumptions C115_points.
Print Assumptions C115_blocked.
Print Assumptions C115_never_blocked.
Print Assumptions C115_settled_partial.
Print Assumptions C115_elements.
Print Assumptions C115_free_refuted.
