(** C110: point elements turned into segments, and the segments of slide contacts. *)
From Coq Require Import Ascii String ZArith List Bool Arith Lia.
From Verif Require Import Base ZMap TextModel DofModel DofProofs PropertiesDof MeshNodeModel MeshNodeProofs MeshCellModel MeshCellProofs PropertiesMeshCells MeshGroupModel MeshGroupProofs PropertiesMeshGroups SegmentModel SegmentProofs.
Import ListNotations.
Open Scope Z_scope.

(** ** The specification *)

(** The group of that name has one cell for each pair of the list, a segment from the
    one to the other. *)
Definition group_of_segments {D} (s : state D) (name : string) (l : list (Z * Z)) : Prop :=
  exists h g ps, findGroup (snd s) name = Some h /\ nth_error (heap (snd s)) h = Some g /\ g_kind g = CellG /\
    NoDup ps /\ (forall q, In q (g_pos g) <-> In q ps) /\
    Forall2 (fun p ab => exists c, findCell (fst s) p = Ok c /\ c_type c = SEG2 /\ c_nodeIds c = [fst ab; snd ab]) ps l.
(** What was there is there: nodes, cells and groups. *)
Definition all_kept {D} (s s' : state D) : Prop :=
  (forall p i, findNodeId (mnodes (fst s)) p = Ok i -> findNodeId (mnodes (fst s')) p = Ok i) /\
  (forall p c, findCell (fst s) p = Ok c -> exists c', findCell (fst s') p = Ok c' /\ c_type c' = c_type c /\ c_nodeIds c' = c_nodeIds c) /\
  (forall n h g, findGroup (snd s) n = Some h -> nth_error (heap (snd s)) h = Some g ->
     findGroup (snd s') n = Some h /\ nth_error (heap (snd s')) h = Some g).
(** The same matrix, entry by entry. *)
Definition same_matrix {V} (vzero : V) (a b : dofmatrix V) : Prop := forall d1 d2, findComponent vzero a d1 d2 = findComponent vzero b d1 d2.
(** A point as it is made: its matrices are of its type, its nodes are nodes of the mesh. *)
Definition proper_point {D V} (m : mesh D) (p : point V) (ids : list Z) : Prop :=
  mtype (p_stiffness p) = p_type p /\ mtype (p_mass p) = p_type p /\ mtype (p_damping p) = p_type p /\ 0 <= p_id p /\
  Forall2 (fun q i => findNodeId (mnodes m) q = Ok i /\ i <> AUTO_ID) (p_nodes p) ids.
(** Consecutive members of a list. *)
Definition next_to (l : list Z) (ps : list (Z * Z)) : Prop :=
  S (length ps) = length l /\ forall i ab, nth_error ps i = Some ab -> nth_error l i = Some (fst ab) /\ nth_error l (S i) = Some (snd ab).

(** ** Steps *)
Lemma kept_all {D} (s s' : state D) : cinv (fst s) -> kept s s' -> all_kept s s'.
Proof.
  intros I (A1 & A2 & _ & _ & A5). split; [exact (proj2 (proj1 A2))|]. split; [|exact A5].
  intros p c F. destruct (mext_findCell _ _ p c I A1 A2 F) as (c' & F' & _ & T' & N' & _). exists c'. split; [exact F'|]. split; congruence.
Qed.

Section Matrix.
Context {V : Type} (vzero : V) (is_zero : V -> bool).
Lemma foldM_writes (l : list (dof * dof)) (f : dof -> dof -> V) : forall m,
  foldM (fun r k => addComponent is_zero r (fst k) (snd k) (f (fst k) (snd k))) l m = writes is_zero m (map (fun k => (fst k, snd k, f (fst k) (snd k))) l).
Proof. induction l as [|[a b] l IH]; intros m; [reflexivity|]. cbn [foldM map writes fst snd]. destruct (addComponent is_zero m a b (f a b)) as [x| | |]; cbn [bind]; [apply IH|reflexivity..]. Qed.
Lemma copy_matrix_spec m : is_zero vzero = true -> exists r, copy_matrix vzero is_zero (mtype m) m = Ok r /\ same_matrix vzero r m.
Proof.
  intros Hz. unfold copy_matrix. rewrite foldM_writes.
  set (h := map _ _).
  destruct (C04_writes_accepted V is_zero (mtype m) h) as [r E].
  { intros T a1 a2 v H N. unfold h in H. apply in_map_iff in H as ([x y] & H & _). cbn [fst snd] in H. injection H as <- <- <-.
    unfold findComponent. rewrite T. destruct (dof_eqb x y) eqn:X; [apply dof_eqb_spec in X; congruence|exact Hz]. }
  exists r. split; [exact E|]. intros d1 d2.
  destruct (matrix_type_eqb (mtype m) DIAGONAL && negb (dof_eqb d1 d2)) eqn:Off.
  - apply andb_true_iff in Off as [T N]. assert (T' : mtype m = DIAGONAL) by (destruct (mtype m); (reflexivity || discriminate)).
    rewrite T' in E. assert (Nd : d1 <> d2) by (intros ->; rewrite dof_eqb_refl in N; discriminate).
    rewrite (proj1 (C04_diagonal_off V vzero is_zero h r d1 d2 E Nd)). unfold findComponent. rewrite T'. apply negb_true_iff in N. rewrite N. reflexivity.
  - rewrite (C04_read_last_write V vzero is_zero (mtype m) h r E).
    + assert (Sy : forall a b, same_cellb (mtype m) a b d1 d2 = true -> findComponent vzero m a b = findComponent vzero m d1 d2).
      { intros a b H. apply (proj1 (same_cellb_spec vzero is_zero _ _ _ _ _)) in H. destruct H as [[-> ->]|(T & -> & ->)]; [reflexivity|]. unfold findComponent. rewrite T. cbn. now destruct d1, d2. }
      assert (G : forall l c, (c = findComponent vzero m d1 d2 \/ exists k, In k l /\ same_cellb (mtype m) (fst k) (snd k) d1 d2 = true) ->
        fold_left (fun cur w => let '(a1, a2, v) := w in if same_cellb (mtype m) a1 a2 d1 d2 then v else cur) (map (fun k => (fst k, snd k, findComponent vzero m (fst k) (snd k))) l) c = findComponent vzero m d1 d2).
      { induction l as [|k l IH]; intros c H; cbn [map fold_left]; [destruct H as [H|(k & [] & _)]; exact H|]. apply IH.
        destruct (same_cellb (mtype m) (fst k) (snd k) d1 d2) eqn:X; [left; now apply Sy|]. destruct H as [H|(k' & [<- |H] & Y)]; [now left|congruence|right; eauto]. }
      unfold last_written, h. apply G. right. exists (d1, d2). split.
      * apply in_prod; [destruct d1|destruct d2]; cbn; tauto.
      * apply (proj2 (same_cellb_spec vzero is_zero _ _ _ _ _)). left. now split.
    + intros T. rewrite T in Off. cbn in Off. apply negb_false_iff, dof_eqb_spec in Off. exact Off.
Qed.
End Matrix.

Section Steps.
Context {D V : Type} (R z : D) (vzero : V) (is_zero : V -> bool).

(** A new group filled at once. *)
Lemma make_group (s : state D) name l : cinv (fst s) -> ginv (snd s) -> Forall (fine (trace (fst s))) l -> name <> ""%string -> findGroup (snd s) name = None ->
  exists g s', createGroup (snd s) CellG name NO_ORIGINAL = Ok g /\ add_segments R z (snd g) l (fst s, fst g) = Ok s' /\ kept s s' /\ chain s' name l /\
    (forall n, n <> name -> findGroup (snd s') n = findGroup (snd s) n).
Proof.
  intros I G F Ne Fr. destruct (create_kept (snd s) name G Ne Fr) as (gs & h & E & G' & Hh & K & N & g & Hg & Kg & Pg & _).
  destruct (fill_group R z (fst s, gs) name h g l) as (s' & A & C & I' & X & T & G2 & N2 & H2); cbn [fst snd]; auto.
  { now rewrite N, String.eqb_refl. }
  exists (gs, h), s'. cbn [fst snd] in *. split; [exact E|]. split; [exact A|]. split; [|split; [exact C|]].
  - split; [exact I'|]. split; [exact X|]. split; [exact T|]. split; [exact G2|]. intros n k x B1 B2. destruct (K n k x B1 B2) as [K1 K2].
    split; [now rewrite N2|]. apply H2; [|exact K2]. assert (L : (k < length (heap (snd s)))%nat) by (apply nth_error_Some; congruence). lia.
  - intros n Hn. rewrite N2, N. destruct (String.eqb_spec name n); [congruence|reflexivity].
Qed.

Definition twice (ids : list Z) : list (Z * Z) := map (fun i => (i, i)) ids.
Lemma ids_read (m : mesh D) ns ids : Forall2 (fun q i => findNodeId (mnodes m) q = Ok i /\ i <> AUTO_ID) ns ids -> mapM (findNodeId (mnodes m)) ns = Ok ids.
Proof. induction 1 as [|q i ns ids [H _] F IH]; [reflexivity|]. cbn [mapM]. rewrite H. cbn [bind]. now rewrite IH. Qed.

Lemma convert_point_spec (p : point V) (s : state D) ids : is_zero vzero = true -> cinv (fst s) -> ginv (snd s) -> trace (fst s) = false ->
  proper_point (fst s) p ids -> findGroup (snd s) (numbered "DIS0D1D_" (p_id p)) = None ->
  exists s' g, convert_point R z vzero is_zero p s = Ok (s', g) /\ kept s s' /\ chain s' (numbered "DIS0D1D_" (p_id p)) (twice ids) /\
    (forall n, n <> numbered "DIS0D1D_" (p_id p) -> findGroup (snd s') n = findGroup (snd s) n) /\
    s_type g = p_type p /\ same_matrix vzero (s_stiffness g) (p_stiffness p) /\ same_matrix vzero (s_mass g) (p_mass p) /\ same_matrix vzero (s_damping g) (p_damping p) /\ s_cells g = [].
Proof.
  intros Hz I G T (P1 & P2 & P3 & P4 & P5) Fr. unfold convert_point.
  destruct (copy_matrix_spec vzero is_zero (p_stiffness p) Hz) as (k & Ek & Sk). destruct (copy_matrix_spec vzero is_zero (p_mass p) Hz) as (m & Em & Sm).
  destruct (copy_matrix_spec vzero is_zero (p_damping p) Hz) as (c & Ec & Sc). rewrite P1 in Ek. rewrite P2 in Em. rewrite P3 in Ec. rewrite Ek. cbn [bind]. rewrite Em. cbn [bind]. rewrite Ec. cbn [bind].
  destruct (make_group s (numbered "DIS0D1D_" (p_id p)) (twice ids) I G) as (g & s' & E1 & E2 & K & C & N); [|discriminate|exact Fr|].
  { rewrite T. unfold twice. clear - P5. induction P5 as [|q i ns l [_ H] F IH]; cbn [map]; constructor; [|exact IH]. split; [now left|]. now split. }
  rewrite E1. cbn [bind]. rewrite (ids_read _ _ _ P5). cbn [bind]. fold (twice ids). rewrite E2. cbn [bind].
  eexists s', _. split; [reflexivity|]. cbn [s_type s_stiffness s_mass s_damping s_cells]. now repeat (split; [assumption || reflexivity|]).
Qed.

Definition kind_of (p : point V) (g : segment V) : Prop :=
  s_type g = p_type p /\ same_matrix vzero (s_stiffness g) (p_stiffness p) /\ same_matrix vzero (s_mass g) (p_mass p) /\ same_matrix vzero (s_damping g) (p_damping p).
Definition converted (l : list (point V)) := filter (fun p => negb (p_empty p)) l.

Lemma proper_kept (s s' : state D) p ids : kept s s' -> proper_point (fst s) p ids -> proper_point (V := V) (fst s') p ids.
Proof.
  intros (_ & X & _) (P1 & P2 & P3 & P4 & P5). split; [exact P1|]. split; [exact P2|]. split; [exact P3|]. split; [exact P4|].
  eapply forall2_weaken; [|exact P5]. intros q i [A B]. split; [exact (proj2 (proj1 X) q i A)|exact B].
Qed.

Lemma convert_points_spec : is_zero vzero = true -> forall (l : list (point V)) (nodes : point V -> list Z) (s : state D), cinv (fst s) -> ginv (snd s) -> trace (fst s) = false ->
  (forall p, In p (converted l) -> proper_point (fst s) p (nodes p) /\ findGroup (snd s) (numbered "DIS0D1D_" (p_id p)) = None) -> NoDup (map p_id (converted l)) ->
  exists s' gs, convert_points R z vzero is_zero l s = Ok (s', filter p_empty l, gs) /\ kept s s' /\
    Forall2 kind_of (converted l) gs /\ Forall (fun g => s_cells g = []) gs /\
    (forall p, In p (converted l) -> chain s' (numbered "DIS0D1D_" (p_id p)) (twice (nodes p))) /\
    (forall n, (forall p, In p (converted l) -> n <> numbered "DIS0D1D_" (p_id p)) -> findGroup (snd s') n = findGroup (snd s) n).
Proof.
  intros Hz. induction l as [|p l IH]; intros nodes s I G T P N.
  - exists s, []. cbn. split; [reflexivity|]. split; [now apply kept_refl|]. split; [constructor|]. split; [constructor|]. split; [intros p []|reflexivity].
  - cbn [convert_points converted filter] in *. destruct (p_empty p) eqn:E; cbn [negb] in *.
    + destruct (IH nodes s I G T P N) as (s' & gs & E1 & R1). rewrite E1. cbn [bind fst snd]. exists s', gs. split; [reflexivity|exact R1].
    + destruct (P p (or_introl eq_refl)) as [Pp Fp]. destruct (convert_point_spec p s (nodes p) Hz I G T Pp Fp) as (s1 & g & E1 & K1 & C1 & N1 & M1 & M2 & M3 & M4 & M5).
      pose proof K1 as (I1 & X1 & T1 & G1 & _). cbn [map] in N. inversion N as [|a b Nin N']; subst.
      destruct (IH nodes s1 I1 G1) as (s' & gs & E2 & K2 & F2 & Fc & C2 & N2).
      { congruence. }
      { intros q Hq. destruct (P q (or_intror Hq)) as [Pq Fq]. split; [eapply proper_kept; eauto|]. rewrite N1; [exact Fq|]. intros X.
        apply numbered_inj in X; [|exact (proj1 (proj2 (proj2 (proj2 Pq))))|exact (proj1 (proj2 (proj2 (proj2 Pp))))]. apply Nin. rewrite <- X. apply in_map. exact Hq. }
      { exact N'. }
      rewrite E1. cbn [bind fst snd]. rewrite E2. cbn [bind fst snd]. exists s', (g :: gs). split; [reflexivity|].
      split; [eapply kept_trans; eauto|]. split; [constructor; [now repeat split|exact F2]|]. split; [now constructor|]. split.
      * intros q [<- |Hq]; [eapply chain_kept; eauto|now apply C2].
      * intros n Hn. rewrite N2, N1; [reflexivity|apply Hn; now left|intros q Hq; apply Hn; now right].
Qed.

(** *** Slide contacts *)
Lemma consecutive_next l : l <> [] -> next_to l (consecutive l).
Proof.
  induction l as [|a l IH]; [congruence|]. intros _. destruct l as [|b l]; [split; [reflexivity|]; intros [|i] ab X; discriminate X|].
  destruct (IH ltac:(discriminate)) as [L H]. split; [cbn [consecutive length] in *; lia|]. intros [|i] ab E.
  - injection E as <-. split; reflexivity.
  - cbn [consecutive nth_error] in E. now apply (H i ab).
Qed.
Lemma consecutive_fine tr l : Forall (fun i => i <> AUTO_ID) l -> (tr = false \/ forall i a b, nth_error l i = Some a -> nth_error l (S i) = Some b -> a <> b) -> Forall (fine tr) (consecutive l).
Proof.
  induction l as [|a l IH]; intros A H; [constructor|]. destruct l as [|b l]; [constructor|]. cbn [consecutive]. inversion A as [|x y A1 A2]; subst. inversion A2; subst. constructor.
  - split; [|now split]. destruct H as [H|H]; [now left|right]. cbn [fst snd]. exact (H 0%nat a b eq_refl eq_refl).
  - apply IH; [exact A2|]. destruct H as [H|H]; [now left|right]. intros i u v U W. exact (H (S i) u v U W).
Qed.

Definition line_ok (tr : bool) (l : list Z) : Prop := l <> [] /\ Forall (fun i => i <> AUTO_ID) l /\ (tr = false \/ forall i a b, nth_error l i = Some a -> nth_error l (S i) = Some b -> a <> b).
Definition mname (c : slide) := numbered "SLIDE_M_" (l_id c).
Definition sname (c : slide) := numbered "SLIDE_S_" (l_id c).
Lemma names_differ c c' : mname c <> sname c'.
Proof. intros X. discriminate X. Qed.

Lemma bound_slide_spec (c : slide) (s : state D) ml sl : cinv (fst s) -> ginv (snd s) -> l_master c = Some ml -> l_slave c = Some sl ->
  line_ok (trace (fst s)) ml -> line_ok (trace (fst s)) sl -> findGroup (snd s) (mname c) = None -> findGroup (snd s) (sname c) = None ->
  exists s', bound_slide R z c s = Ok s' /\ kept s s' /\ chain s' (mname c) (consecutive ml) /\ chain s' (sname c) (consecutive sl) /\
    (forall n, n <> mname c -> n <> sname c -> findGroup (snd s') n = findGroup (snd s) n).
Proof.
  intros I G Em Es (M1 & M2 & M3) (S1 & S2 & S3) Fm Fs. unfold bound_slide. fold (mname c) (sname c).
  destruct (create_kept (snd s) (mname c) G ltac:(discriminate) Fm) as (g1 & h1 & E1 & G1 & Hh1 & K1 & N1 & o1 & Ho1 & Kd1 & Po1 & L1).
  destruct (create_kept g1 (sname c) G1 ltac:(discriminate)) as (g2 & h2 & E2 & G2 & Hh2 & K2 & N2 & o2 & Ho2 & Kd2 & Po2 & L2).
  { rewrite N1. destruct (String.eqb_spec (mname c) (sname c)) as [X|_]; [exfalso; exact (names_differ c c X)|exact Fs]. }
  rewrite E1. cbn [bind fst snd]. rewrite E2. cbn [bind fst snd]. rewrite Em. cbn [bind]. unfold pairs_of at 1. destruct ml as [|m0 ml]; [congruence|]. cbn [bind].
  assert (F1 : findGroup g1 (mname c) = Some h1) by now rewrite N1, String.eqb_refl.
  destruct (K2 _ _ _ F1 Ho1) as [F12 Ho12].
  destruct (fill_group R z (fst s, g2) (mname c) h1 o1 (consecutive (m0 :: ml))) as (s1 & A1 & C1 & I1 & X1 & T1 & G3 & N3 & H3); cbn [fst snd]; auto.
  { now apply consecutive_fine. }
  cbn [fst snd] in *. rewrite A1. cbn [bind]. rewrite Es. cbn [bind]. unfold pairs_of. destruct sl as [|s0 sl]; [congruence|]. cbn [bind].
  assert (Hne : h2 <> h1) by lia.
  destruct (fill_group R z s1 (sname c) h2 o2 (consecutive (s0 :: sl))) as (s2 & A2 & C2 & I2 & X2 & T2 & G4 & N4 & H4); auto.
  { rewrite T1. now apply consecutive_fine. }
  { now rewrite N3, N2, String.eqb_refl. }
  exists s2. split; [exact A2|]. split; [|split; [|split; [exact C2|]]].
  - split; [exact I2|]. split; [eapply mext_trans; eauto|]. split; [congruence|]. split; [exact G4|]. intros n k x B1 B2.
    destruct (K1 n k x B1 B2) as [U1 U2]. destruct (K2 n k x U1 U2) as [W1 W2]. split; [now rewrite N4, N3|].
    assert (L : (k < length (heap (snd s)))%nat) by (apply nth_error_Some; congruence). apply H4; [lia|]. apply H3; [lia|exact W2].
  - destruct C1 as (h & g & ps & Q1 & Q2 & Q3 & Q4 & Q5 & Q6).
    assert (h = h1) by (rewrite N3, F12 in Q1; congruence). subst h.
    exists h1, g, ps. split; [now rewrite N4|]. split; [apply H4; [lia|exact Q2]|]. split; [exact Q3|]. split; [exact Q4|]. split; [exact Q5|].
    eapply forall2_weaken; [|exact Q6]. intros p ab. now apply joins_ext.
  - intros n Na Nb. rewrite N4, N3, N2, N1. destruct (String.eqb_spec (sname c) n); [congruence|]. destruct (String.eqb_spec (mname c) n); [congruence|]. reflexivity.
Qed.

Lemma bound_slides_spec : forall (l : list slide) (lines : slide -> list Z * list Z) (s : state D), cinv (fst s) -> ginv (snd s) ->
  (forall c, In c l -> 0 <= l_id c /\ l_master c = Some (fst (lines c)) /\ l_slave c = Some (snd (lines c)) /\ line_ok (trace (fst s)) (fst (lines c)) /\ line_ok (trace (fst s)) (snd (lines c)) /\
     findGroup (snd s) (mname c) = None /\ findGroup (snd s) (sname c) = None) -> NoDup (map l_id l) ->
  exists s', bound_slides R z l s = Ok s' /\ kept s s' /\
    forall c, In c l -> chain s' (mname c) (consecutive (fst (lines c))) /\ chain s' (sname c) (consecutive (snd (lines c))).
Proof.
  induction l as [|c l IH]; intros lines s I G P N.
  - exists s. split; [reflexivity|]. split; [now apply kept_refl|]. intros c [].
  - destruct (P c (or_introl eq_refl)) as (P0 & P1 & P2 & P3 & P4 & P5 & P6).
    destruct (bound_slide_spec c s _ _ I G P1 P2 P3 P4 P5 P6) as (s1 & E1 & K1 & C1 & C2 & N1). pose proof K1 as (I1 & X1 & T1 & G1 & _).
    cbn [map] in N. inversion N as [|a b Nin N']; subst. destruct (IH lines s1 I1 G1) as (s' & E2 & K2 & C3).
    { intros d Hd. destruct (P d (or_intror Hd)) as (Q0 & Q1 & Q2 & Q3 & Q4 & Q5 & Q6). rewrite T1. repeat (split; [assumption|]).
      assert (Ne : l_id d <> l_id c) by (intros X; apply Nin; rewrite <- X; now apply in_map).
      split; rewrite N1; try assumption; try (apply names_differ); try (intros X; symmetry in X; exact (names_differ _ _ X)); intros X; apply Ne; eapply numbered_inj; eauto. }
    { exact N'. }
    unfold bound_slides in *. cbn [foldM]. rewrite E1. cbn [bind]. exists s'. split; [exact E2|]. split; [eapply kept_trans; eauto|].
    intros d [<- |Hd]; [|now apply C3]. split; eapply chain_kept; eauto.
Qed.
End Steps.

(** ** C110 *)

(** Every point that is not empty gives a segment with its matrices, and a group of one
    segment from each of its nodes to itself; the others stay; nothing else changes. *)
Theorem C110_points : forall D V (R z : D) (vzero : V) is_zero hist m gs (l : list (point V)) (nodes : point V -> list Z),
  mbuilt R z false hist m -> gbuilt gs -> is_zero vzero = true ->
  (forall p, In p l -> p_empty p = false -> proper_point m p (nodes p) /\ findGroup gs (numbered "DIS0D1D_" (p_id p)) = None) ->
  NoDup (map p_id (filter (fun p => negb (p_empty p)) l)) ->
  exists s' segs, convert_points R z vzero is_zero l (m, gs) = Ok (s', filter p_empty l, segs) /\
    Forall2 (fun p g => s_type g = p_type p /\ same_matrix vzero (s_stiffness g) (p_stiffness p) /\ same_matrix vzero (s_mass g) (p_mass p) /\ same_matrix vzero (s_damping g) (p_damping p))
      (filter (fun p => negb (p_empty p)) l) segs /\
    (forall p, In p l -> p_empty p = false -> group_of_segments s' (numbered "DIS0D1D_" (p_id p)) (map (fun i => (i, i)) (nodes p))) /\
    all_kept (m, gs) s'.
Proof.
  intros D V R z vzero is_zero hist m gs l nodes B Gb Hz P N. destruct (mbuilt_inv _ _ _ _ _ B) as [I T]. apply gbuilt_inv in Gb.
  assert (W : forall p, In p (converted l) <-> In p l /\ p_empty p = false) by (intros p; unfold converted; rewrite filter_In, negb_true_iff; tauto).
  destruct (convert_points_spec R z vzero is_zero Hz l nodes (m, gs) I Gb T) as (s' & segs & E & K & F & _ & C & _).
  { intros p Hp. apply W in Hp as [Hp He]. exact (P p Hp He). } { exact N. }
  exists s', segs. split; [exact E|]. split; [exact F|]. split; [|now apply kept_all]. intros p Hp He. apply C, W. now split.
Qed.

(** None of the segments holds a cell: the groups are attached to nothing, and the
    matrices of the points are lost. *)
Theorem C110_lost_refuted : forall D V (R z : D) (vzero : V) is_zero l s s' rest segs,
  convert_points R z vzero is_zero l s = Ok (s', rest, segs) -> length segs = length (filter (fun p : point V => negb (p_empty p)) l) /\ forall g, In g segs -> s_cells g = [].
Proof.
  intros D V R z vzero is_zero. induction l as [|p l IH]; intros s s' rest segs E.
  - cbn in E. injection E as <- <- <-. split; [reflexivity|]. intros g [].
  - cbn [convert_points] in E. cbn [filter]. destruct (p_empty p); cbn [negb].
    + destruct (convert_points R z vzero is_zero l s) as [[[a b] c]| | |] eqn:X; cbn [bind fst snd] in E; try discriminate E. injection E as <- <- <-. exact (IH _ _ _ _ X).
    + destruct (convert_point R z vzero is_zero p s) as [[s1 g1]| | |] eqn:Y; cbn [bind fst snd] in E; try discriminate E.
      destruct (convert_points R z vzero is_zero l s1) as [[[a b] c]| | |] eqn:X; cbn [bind fst snd] in E; try discriminate E. injection E as <- <- <-.
      destruct (IH _ _ _ _ X) as [L H]. split; [cbn [length]; lia|]. intros g [<- |Hg]; [|exact (H g Hg)]. unfold convert_point in Y.
      repeat match type of Y with bind ?x _ = _ => destruct x; cbn [bind] in Y; try discriminate Y end. now injection Y as _ <-.
Qed.

(** Each slide contact gets two groups, of the segments between consecutive nodes of
    its two lines. *)
Theorem C110_slides : forall D (R z : D) tr hist m gs (l : list slide) (lines : slide -> list Z * list Z),
  mbuilt R z tr hist m -> gbuilt gs ->
  (forall c, In c l -> 0 <= l_id c /\ l_master c = Some (fst (lines c)) /\ l_slave c = Some (snd (lines c)) /\
     findGroup gs (numbered "SLIDE_M_" (l_id c)) = None /\ findGroup gs (numbered "SLIDE_S_" (l_id c)) = None /\
     forall line, line = fst (lines c) \/ line = snd (lines c) -> line <> [] /\ Forall (fun i => i <> AUTO_ID) line /\
       (tr = true -> forall i a b, nth_error line i = Some a -> nth_error line (S i) = Some b -> a <> b)) ->
  NoDup (map l_id l) ->
  exists s', bound_slides R z l (m, gs) = Ok s' /\ all_kept (m, gs) s' /\
    forall c, In c l -> exists pm ps, next_to (fst (lines c)) pm /\ next_to (snd (lines c)) ps /\
      group_of_segments s' (numbered "SLIDE_M_" (l_id c)) pm /\ group_of_segments s' (numbered "SLIDE_S_" (l_id c)) ps.
Proof.
  intros D R z tr hist m gs l lines B Gb P N. destruct (mbuilt_inv _ _ _ _ _ B) as [I T]. apply gbuilt_inv in Gb.
  destruct (bound_slides_spec R z l lines (m, gs) I Gb) as (s' & E & K & C).
  { intros c Hc. destruct (P c Hc) as (P0 & P1 & P2 & P3 & P4 & P5). repeat (split; [assumption|]). cbn [fst]. rewrite T.
    assert (Q : forall line, line = fst (lines c) \/ line = snd (lines c) -> line_ok tr line).
    { intros line Hl. destruct (P5 line Hl) as (A1 & A2 & A3). split; [exact A1|]. split; [exact A2|]. destruct tr; [right; now apply A3|now left]. }
    split; [apply Q; now left|]. split; [apply Q; now right|]. now split. }
  { exact N. }
  exists s'. split; [exact E|]. split; [now apply kept_all|]. intros c Hc. destruct (C c Hc) as [C1 C2]. destruct (P c Hc) as (_ & _ & _ & _ & _ & P5).
  exists (consecutive (fst (lines c))), (consecutive (snd (lines c))).
  split; [apply consecutive_next, (P5 _ (or_introl eq_refl))|]. split; [apply consecutive_next, (P5 _ (or_intror eq_refl))|]. now split.
Qed.

(** ** Refuted *)

(** Two points of one number, such as the original number of one and the automatic
    number of the other: the second group is refused, and the conversion stops. *)
Theorem C110_clash_refuted : forall D V (R z : D) (vzero : V) is_zero hist m gs (p q : point V) np,
  mbuilt R z false hist m -> gbuilt gs -> is_zero vzero = true -> proper_point m p np ->
  mtype (p_stiffness q) = p_type q -> mtype (p_mass q) = p_type q -> mtype (p_damping q) = p_type q ->
  p_empty p = false -> p_empty q = false -> p_id p = p_id q -> findGroup gs (numbered "DIS0D1D_" (p_id p)) = None ->
  convert_points R z vzero is_zero [p; q] (m, gs) = Throw.
Proof.
  intros D V R z vzero is_zero hist m gs p q np B Gb Hz Pp Q1 Q2 Q3 Ep Eq Id Fr. destruct (mbuilt_inv _ _ _ _ _ B) as [I T]. apply gbuilt_inv in Gb.
  destruct (convert_point_spec R z vzero is_zero p (m, gs) np Hz I Gb T Pp Fr) as (s1 & g & E1 & _ & (h & o & _ & F & _) & _).
  cbn [convert_points]. rewrite Ep, Eq, E1. cbn [bind fst snd]. unfold convert_point.
  destruct (copy_matrix_spec vzero is_zero (p_stiffness q) Hz) as (k & Ek & _). destruct (copy_matrix_spec vzero is_zero (p_mass q) Hz) as (w & Ew & _).
  destruct (copy_matrix_spec vzero is_zero (p_damping q) Hz) as (c & Ec & _). rewrite Q1 in Ek. rewrite Q2 in Ew. rewrite Q3 in Ec. rewrite Ek. cbn [bind]. rewrite Ew. cbn [bind]. rewrite Ec. cbn [bind].
  rewrite <- Id. unfold createGroup. rewrite F. destruct (String.eqb_spec (numbered "DIS0D1D_" (p_id p)) ""); reflexivity.
Qed.
(** A slide contact whose line is missing, or has no node, is read where there is nothing. *)
Theorem C110_line_refuted : forall D (R z : D) c m gs, ginv gs -> l_master c = None \/ l_master c = Some [] ->
  findGroup gs (numbered "SLIDE_M_" (l_id c)) = None -> findGroup gs (numbered "SLIDE_S_" (l_id c)) = None -> bound_slide R z c (m, gs) = UB.
Proof.
  intros D R z c m gs G H Fm Fs. unfold bound_slide. cbn [fst snd]. fold (mname c) in *. fold (sname c) in *.
  destruct (create_kept gs (mname c) G ltac:(discriminate) Fm) as (g1 & h1 & E1 & G1 & _ & _ & N1 & _).
  destruct (create_kept g1 (sname c) G1 ltac:(discriminate)) as (g2 & h2 & E2 & _).
  { rewrite N1. destruct (String.eqb_spec (mname c) (sname c)) as [X|_]; [exfalso; exact (names_differ c c X)|exact Fs]. }
  rewrite E1. cbn [bind fst snd]. rewrite E2. cbn [bind]. destruct H as [-> | ->]; reflexivity.
Qed.

(** ** Examples *)
Definition C110_h : list (mop Z) :=
  [MNode (Define 10 0 0 0 0 0); MNode (Define 20 5 0 0 0 0); MNode (Define 30 5 7 0 0 0); MCell 1 SEG2 [10; 20] false 0 100 0].
Definition C110_p : point Z := mkPoint 7 SYMMETRIC (mkMatrix SYMMETRIC [((DX, DX), 4); ((DX, RY), 3)]) (newMatrix SYMMETRIC) (newMatrix SYMMETRIC) false [0%nat; 2%nat].
Definition C110_q : point Z := mkPoint 8 DIAGONAL (newMatrix DIAGONAL) (newMatrix DIAGONAL) (newMatrix DIAGONAL) true [].
Definition C110_gs : groups := match grun (empty_groups 0) [GCreate CellG "BAR" 4; GAdd 0 0%nat] with Ok g => g | _ => empty_groups 0 end.
Definition C110_nodes (p : point Z) : list Z := if p_id p =? 7 then [10; 30] else [].
Definition C110_s : slide := mkSlide 3 (Some [10; 20; 30]) (Some [30; 10]).
(** A mesh, a group, a point on two nodes, an empty one and a contact. *)
Example C110_case : exists m, mbuilt (-1) 0 false C110_h m /\ gbuilt C110_gs /\
  (forall p, In p [C110_p; C110_q] -> p_empty p = false -> proper_point m p (C110_nodes p) /\ findGroup C110_gs (numbered "DIS0D1D_" (p_id p)) = None) /\
  NoDup (map p_id (filter (fun p => negb (p_empty p)) [C110_p; C110_q])) /\
  (exists m' gs' g, convert_points (-1) 0 0 (Z.eqb 0) [C110_p; C110_q] (m, C110_gs) = Ok ((m', gs'), [C110_q], [g]) /\ findComponent 0 (s_stiffness g) RY DX = 3 /\ length (cdatas m') = 3%nat) /\
  (forall line, line = [10; 20; 30] \/ line = [30; 10] -> line <> [] /\ Forall (fun i => i <> AUTO_ID) line) /\
  findGroup C110_gs (numbered "SLIDE_M_" 3) = None /\
  exists m' gs', bound_slides (-1) 0 [C110_s] (m, C110_gs) = Ok (m', gs') /\ length (cdatas m') = 4%nat.
Proof.
  destruct (mrun (-1) 0 (empty_mesh 9999999 0 9999999 false) C110_h) as [m| | |] eqn:E; [|vm_compute in E; discriminate..].
  exists m. split; [split; [intros o Ho; cbn in Ho;
    repeat (destruct Ho as [<-|Ho]; [good_tac|]); destruct Ho|exists 9999999, 0, 9999999; exact E]|].
  vm_compute in E. injection E as <-. split; [exists 0, [GCreate CellG "BAR" 4; GAdd 0 0%nat]; vm_compute; reflexivity|].
  split.
  { intros p [<- |[<- |[]]] He; [|discriminate He]. split; [|vm_compute; reflexivity]. repeat (split; [reflexivity|]). split; [cbn; lia|].
    repeat (constructor; [split; [vm_compute; reflexivity|vm_compute; discriminate]|]). constructor. }
  split; [cbn; constructor; [intros []|constructor]|].
  split; [eexists _, _, _; vm_compute; repeat split; reflexivity|]. split.
  { intros line [-> | ->]; (split; [discriminate|]); repeat (constructor; [vm_compute; discriminate|]); constructor. }
  split; [vm_compute; reflexivity|]. eexists _, _. vm_compute. split; reflexivity.
Qed.
(** At the TRACE level a segment from a node to itself is refused: no point can be converted. *)
Theorem C110_trace_refuted : exists m, mbuilt (D := Z) (-1) 0 true C110_h m /\ gbuilt C110_gs /\ proper_point m C110_p (C110_nodes C110_p) /\
  convert_points (-1) 0 0 (Z.eqb 0) [C110_p] (m, C110_gs) = Throw.
Proof.
  destruct (mrun (-1) 0 (empty_mesh 9999999 0 9999999 true) C110_h) as [m| | |] eqn:E; [|vm_compute in E; discriminate..].
  exists m. split; [split; [intros o Ho; cbn in Ho; repeat (destruct Ho as [<-|Ho]; [|]); try destruct Ho; cbn [good_op]; try exact Logic.I|exists 9999999, 0, 9999999; exact E]|].
  { split; [discriminate|]. intros i Hi X. vm_compute in X. subst. cbn in Hi. intuition discriminate. }
  vm_compute in E. injection E as <-. split; [exists 0, [GCreate CellG "BAR" 4; GAdd 0 0%nat]; vm_compute; reflexivity|]. split; [|vm_compute; reflexivity].
  repeat (split; [reflexivity|]). split; [cbn; lia|]. repeat (constructor; [split; [vm_compute; reflexivity|vm_compute; discriminate]|]). constructor.
Qed.

Print Assumptions C110_points.
Print Assumptions C110_lost_refuted.
Print Assumptions C110_slides.
Print Assumptions C110_clash_refuted.
Print Assumptions C110_line_refuted.
Print Assumptions C110_trace_refuted.
