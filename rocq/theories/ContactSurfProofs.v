(** Lemmas about groups of cells added to a mesh. *)
From Coq Require Import Ascii String ZArith List Bool Arith Lia.
From Verif Require Import Base ZMap TextModel TokenizerModel CardModel LoadCardModel DofModel MeshNodeModel MeshNodeProofs MeshCellModel MeshCellProofs MeshGroupModel MeshGroupProofs AsterScriptNames FaceModel OptistructModel SegmentModel SegmentProofs ContactSurfModel.
Import ListNotations.
Open Scope Z_scope.
Open Scope list_scope.

Section P.
Context {D : Type} (R z : D).
Notation addCell := (addCell R z).
Notation add_cells := (add_cells R z).

(** A cell that addCell accepts. *)
Definition sound (tr : bool) (x : ctype * list Z) : Prop :=
  length (snd x) = numNodes (fst x) /\ fst x <> POLY 0 /\ Forall (fun i => i <> AUTO_ID) (snd x) /\ (tr = false \/ NoDup (snd x)).

(** A position is a cell of that type over those nodes. *)
Definition covers (m : mesh D) (p : nat) (x : ctype * list Z) : Prop :=
  exists c, findCell m p = Ok c /\ c_type c = fst x /\ c_nodeIds c = snd x.
Lemma covers_ext m m' p x : cinv m -> cinv m' -> mext m m' -> covers m p x -> covers m' p x.
Proof.
  intros I I' X (c & F & T & N). destruct (mext_findCell m m' p c I I' X F) as (c' & F' & _ & T' & N' & _). exists c'. split; [exact F'|]. split; congruence.
Qed.

Lemma addCell_auto m t ids : cinv m -> sound (trace m) (t, ids) ->
  exists m', addCell m AUTO_ID t ids true 0 NO_CELL z = Ok (m', length (cdatas m)) /\ cinv m' /\ mext m m' /\ trace m' = trace m /\
    length (cdatas m') = S (length (cdatas m)) /\ covers m' (length (cdatas m)) (t, ids) /\
    (forall j p, findCellPosition m j = Some p -> findCellPosition m' j = Some p).
Proof.
  intros I (A & B & C & T). cbn [fst snd] in *.
  assert (H4 : trace m = false \/ (AUTO_ID = AUTO_ID \/ findCellPosition m AUTO_ID = None) /\ NoDup ids).
  { destruct T as [T|T]; [now left|right]. split; [now left|exact T]. }
  assert (H3 : forall i, In i ids -> i <> AUTO_ID) by (rewrite Forall_forall in C; exact C).
  destruct (addCell_spec R z m AUTO_ID t ids true 0 NO_CELL z I A B H3 H4) as
    (m2 & cid & ps & E2 & I2 & C1 & C2 & C3 & C4 & Cd & L & Cc & Cb & Ca & Co & Cm & Cl & Cp & Ct).
  set (pos := length (cdatas m)) in *.
  set (d := mkCD cid t true 0 NO_CELL (length (byType m t))).
  assert (Hd : nth_error (cdatas m2) pos = Some d) by (rewrite Cd, nth_error_snoc; unfold pos; now rewrite Nat.eqb_refl).
  destruct (findCell_ok m2 pos d I2 Hd) as (c2 & ps2 & F1 & F2 & F3 & F4 & F5 & F6 & F7 & F8 & F9 & F10 & F11).
  assert (Hps : ps2 = ps).
  { cbn [cd_type cd_tpos d] in F8. rewrite Cc in F8. destruct (ctype_eq_dec t t); [|congruence].
    assert (Hs : (length (byType m t) * numNodes t)%nat = length (conn m t)) by (rewrite (ci_conn _ I); lia).
    rewrite Hs, <- Cl, slice_last in F8. congruence. }
  subst ps2. exists m2. split; [exact E2|]. split; [exact I2|]. split.
  - split; [exact L|]. split; [|split; [eauto|split; [exact Ca|exact Cp]]].
    intros p x Hp. exists x. rewrite Cd, nth_error_app1; [auto|]. apply nth_error_Some. congruence.
  - split; [exact Ct|]. split; [rewrite Cd, app_length; cbn; unfold pos; lia|]. split; [exists c2; cbn [fst snd]; split; [exact F1|]; split; [exact F3|congruence]|].
    intros j p Hj. rewrite C4; [exact Hj|]. destruct (C2 eq_refl) as [X _]. intros ->. congruence.
Qed.

Lemma add_cells_spec h : forall l s, cinv (fst s) -> ginv (snd s) -> Forall (sound (trace (fst s))) l ->
  exists s', add_cells h l s = Ok s' /\ cinv (fst s') /\ mext (fst s) (fst s') /\ trace (fst s') = trace (fst s) /\ ginv (snd s') /\
    (forall n, findGroup (snd s') n = findGroup (snd s) n) /\ length (heap (snd s')) = length (heap (snd s)) /\
    (forall k g, nth_error (heap (snd s)) k = Some g -> exists g', nth_error (heap (snd s')) k = Some g' /\ g_name g' = g_name g /\ g_kind g' = g_kind g /\
       (forall q, In q (g_pos g') <-> In q (g_pos g) \/ k = h /\ In q (seq (length (cdatas (fst s))) (length l))) /\ (k <> h -> g' = g)) /\
    Forall2 (covers (fst s')) (seq (length (cdatas (fst s))) (length l)) l.
Proof.
  induction l as [|[t ids] l IH]; intros [m gs] I G F; cbn [fst snd] in *.
  - exists (m, gs). cbn [ContactSurfModel.add_cells fst snd length seq]. split; [reflexivity|]. split; [exact I|]. split; [now apply mext_refl|]. split; [reflexivity|]. split; [exact G|].
    split; [reflexivity|]. split; [reflexivity|]. split; [|constructor]. intros k g Hg. exists g. split; [exact Hg|]. split; [reflexivity|]. split; [reflexivity|]. split; [|reflexivity].
    intros q. cbn. tauto.
  - inversion F as [|x y F1 F4]; subst.
    destruct (addCell_auto m t ids I F1) as (m1 & E & I1 & X1 & T1 & L1 & Cv & _).
    destruct (groupAdd_spec gs h (length (cdatas m)) G) as [G1 H1].
    destruct (IH (m1, groupAdd gs h (length (cdatas m))) I1 G1) as (s' & E' & I' & X' & T' & G' & N' & L' & H' & J').
    { cbn [fst]. rewrite T1. exact F4. }
    cbn [fst snd] in *. cbn [ContactSurfModel.add_cells fst snd]. rewrite E. cbn [bind fst snd].
    exists s'. split; [exact E'|]. split; [exact I'|]. split; [eapply mext_trans; eauto|]. split; [congruence|]. split; [exact G'|].
    split; [intros n; rewrite N'; reflexivity|]. split; [rewrite L'; cbn; apply upd_length|]. split.
    + intros k g Hg. destruct (H1 k g Hg) as (g1 & Hg1 & A1 & A2 & _ & A3). destruct (H' k g1 Hg1) as (g2 & Hg2 & B1 & B2 & B3 & B4).
      exists g2. split; [exact Hg2|]. split; [congruence|]. split; [congruence|]. split.
      * intros q. rewrite B3, A3, L1. cbn [length seq In]. intuition congruence.
      * intros N. rewrite (B4 N). cbn [groupAdd heap] in Hg1. rewrite upd_nth, Hg in Hg1. destruct (Nat.eqb_spec h k); [congruence|]. cbn in Hg1. congruence.
    + cbn [length seq]. constructor; [|rewrite L1 in J'; exact J']. eapply covers_ext; [exact I1|exact I'|exact X'|exact Cv].
Qed.

(** A cell group that holds exactly one cell for each member of a list. *)
Definition cover (s : state D) (name : string) (l : list (ctype * list Z)) : Prop :=
  exists h g ps, findGroup (snd s) name = Some h /\ nth_error (heap (snd s)) h = Some g /\ g_kind g = CellG /\
    NoDup ps /\ (forall q, In q (g_pos g) <-> In q ps) /\ Forall2 (covers (fst s)) ps l.
Lemma cover_kept s s' name l : cinv (fst s) -> kept s s' -> cover s name l -> cover s' name l.
Proof.
  intros I (A1 & A2 & _ & _ & A5) (h & g & ps & F & H & K & N & P & J). destruct (A5 name h g F H) as [F' H'].
  exists h, g, ps. split; [exact F'|]. split; [exact H'|]. split; [exact K|]. split; [exact N|]. split; [exact P|].
  eapply forall2_weaken; [|exact J]. intros p ab. now apply covers_ext.
Qed.

(** Adding cells to a group that is still empty. *)
Lemma fill_cells s name h g l : cinv (fst s) -> ginv (snd s) -> Forall (sound (trace (fst s))) l ->
  findGroup (snd s) name = Some h -> nth_error (heap (snd s)) h = Some g -> g_kind g = CellG -> g_pos g = [] ->
  exists s', add_cells h l s = Ok s' /\ cover s' name l /\ cinv (fst s') /\ mext (fst s) (fst s') /\ trace (fst s') = trace (fst s) /\ ginv (snd s') /\
    (forall n, findGroup (snd s') n = findGroup (snd s) n) /\
    (forall k x, k <> h -> nth_error (heap (snd s)) k = Some x -> nth_error (heap (snd s')) k = Some x).
Proof.
  intros I G F N H K P.
  destruct (add_cells_spec h l s I G F) as (s' & E & I' & X & T & G' & N' & _ & H' & J).
  exists s'. split; [exact E|]. destruct (H' h g H) as (g' & Hg' & _ & Kg & Pg & _). split.
  - exists h, g', (seq (length (cdatas (fst s))) (length l)). split; [now rewrite N'|]. split; [exact Hg'|]. split; [congruence|]. split; [apply seq_NoDup|]. split; [|exact J].
    intros q. rewrite Pg, P. cbn. tauto.
  - split; [exact I'|]. split; [exact X|]. split; [exact T|]. split; [exact G'|]. split; [exact N'|].
    intros k x Hk Hx. destruct (H' k x Hx) as (x' & Hx' & _ & _ & _ & S). now rewrite <- (S Hk).
Qed.

(** ** Surface contacts *)
Definition mname (c : bsconp) := numbered "SURFCONT_M_" (b_id c).
Definition sname (c : bsconp) := numbered "SURFCONT_S_" (b_id c).
Lemma names_differ c c' : mname c <> sname c'.
Proof. intros X. discriminate X. Qed.

Lemma bound_surface_spec surfaces (c : bsconp) (s : state D) ml sl mp sp : cinv (fst s) -> ginv (snd s) -> surfaces (b_master c) = Some ml -> surfaces (b_slave c) = Some sl ->
  patches ml = Ok mp -> patches sl = Ok sp -> Forall (sound (trace (fst s))) mp -> Forall (sound (trace (fst s))) sp ->
  findGroup (snd s) (mname c) = None -> findGroup (snd s) (sname c) = None ->
  exists s', bound_surface R z surfaces c s = Ok s' /\ kept s s' /\ cover s' (mname c) mp /\ cover s' (sname c) sp /\
    (forall n, n <> mname c -> n <> sname c -> findGroup (snd s') n = findGroup (snd s) n).
Proof.
  intros I G Em Es Pm Ps Sm Ss Fm Fs. unfold bound_surface. fold (mname c) (sname c).
  destruct (create_kept (snd s) (mname c) G ltac:(discriminate) Fm) as (g1 & h1 & E1 & G1 & Hh1 & K1 & N1 & o1 & Ho1 & Kd1 & Po1 & L1).
  destruct (create_kept g1 (sname c) G1 ltac:(discriminate)) as (g2 & h2 & E2 & G2 & Hh2 & K2 & N2 & o2 & Ho2 & Kd2 & Po2 & L2).
  { rewrite N1. destruct (String.eqb_spec (mname c) (sname c)) as [X|_]; [exfalso; exact (names_differ c c X)|exact Fs]. }
  rewrite E1. cbn [bind fst snd]. rewrite E2. cbn [bind fst snd]. rewrite Es. cbn [bind]. rewrite Ps. cbn [bind].
  assert (F1 : findGroup g1 (mname c) = Some h1) by now rewrite N1, String.eqb_refl.
  destruct (K2 _ _ _ F1 Ho1) as [F12 Ho12].
  assert (Hne : h2 <> h1) by lia.
  destruct (fill_cells (fst s, g2) (sname c) h2 o2 sp) as (s1 & A1 & C1 & I1 & X1 & T1 & G3 & N3 & H3); cbn [fst snd]; auto.
  { now rewrite N2, String.eqb_refl. }
  cbn [fst snd] in *. rewrite A1. cbn [bind]. rewrite Em. cbn [bind]. rewrite Pm. cbn [bind].
  destruct (fill_cells s1 (mname c) h1 o1 mp) as (s2 & A2 & C2 & I2 & X2 & T2 & G4 & N4 & H4); auto.
  { now rewrite T1. }
  { now rewrite N3. }
  exists s2. split; [exact A2|]. split; [|split; [exact C2|split]].
  - split; [exact I2|]. split; [eapply mext_trans; eauto|]. split; [congruence|]. split; [exact G4|]. intros n k x B1 B2.
    destruct (K1 n k x B1 B2) as [U1 U2]. destruct (K2 n k x U1 U2) as [W1 W2]. split; [now rewrite N4, N3|].
    assert (L : (k < length (heap (snd s)))%nat) by (apply nth_error_Some; congruence). apply H4; [lia|]. apply H3; [lia|exact W2].
  - destruct C1 as (h & g & ps & Q1 & Q2 & Q3 & Q4 & Q5 & Q6).
    assert (h = h2) by (rewrite N3, N2, String.eqb_refl in Q1; congruence). subst h.
    exists h2, g, ps. split; [now rewrite N4|]. split; [apply H4; [lia|exact Q2]|]. split; [exact Q3|]. split; [exact Q4|]. split; [exact Q5|].
    eapply forall2_weaken; [|exact Q6]. intros p ab. now apply covers_ext.
  - intros n Na Nb. rewrite N4, N3, N2, N1. destruct (String.eqb_spec (sname c) n); [congruence|]. destruct (String.eqb_spec (mname c) n); [congruence|]. reflexivity.
Qed.

Lemma bound_surfaces_spec surfaces : forall (l : list bsconp) (pm ps : bsconp -> list (ctype * list Z)) (s : state D), cinv (fst s) -> ginv (snd s) ->
  (forall c, In c l -> 0 <= b_id c /\ (exists ml, surfaces (b_master c) = Some ml /\ patches ml = Ok (pm c)) /\ (exists sl, surfaces (b_slave c) = Some sl /\ patches sl = Ok (ps c)) /\
     Forall (sound (trace (fst s))) (pm c) /\ Forall (sound (trace (fst s))) (ps c) /\
     findGroup (snd s) (mname c) = None /\ findGroup (snd s) (sname c) = None) -> NoDup (map b_id l) ->
  exists s', bound_surfaces R z surfaces l s = Ok s' /\ kept s s' /\
    forall c, In c l -> cover s' (mname c) (pm c) /\ cover s' (sname c) (ps c).
Proof.
  induction l as [|c l IH]; intros pm ps s I G P N.
  - exists s. split; [reflexivity|]. split; [now apply kept_refl|]. intros c [].
  - destruct (P c (or_introl eq_refl)) as (P0 & (ml & P1 & P1') & (sl & P2 & P2') & P3 & P4 & P5 & P6).
    destruct (bound_surface_spec surfaces c s ml sl _ _ I G P1 P2 P1' P2' P3 P4 P5 P6) as (s1 & E1 & K1 & C1 & C2 & N1). pose proof K1 as (I1 & X1 & T1 & G1 & _).
    cbn [map] in N. inversion N as [|a b Nin N']; subst. destruct (IH pm ps s1 I1 G1) as (s' & E2 & K2 & C3).
    { intros q Hq. destruct (P q (or_intror Hq)) as (Q0 & Q1 & Q2 & Q3 & Q4 & Q5 & Q6). rewrite T1.
      assert (Hne : b_id q <> b_id c) by (intros X; apply Nin; rewrite <- X; now apply in_map).
      split; [exact Q0|]. split; [exact Q1|]. split; [exact Q2|]. split; [exact Q3|]. split; [exact Q4|].
      split; rewrite N1; auto; try (intros X; apply Hne; now apply numbered_inj in X); try (intros X; now apply names_differ in X); intros X; symmetry in X; now apply names_differ in X. }
    { exact N'. }
    unfold bound_surfaces in *. cbn [foldM]. rewrite E1. cbn [bind]. exists s'. split; [exact E2|]. split; [eapply kept_trans; eauto|].
    intros q [<- |Hq]; [split; eapply cover_kept; eauto|now apply C3].
Qed.

(** ** Skins *)

(** A face as the mesh has it: the position of the element, and the cell to make, if any. *)
Definition described (m : mesh D) (x : face * nat * option (ctype * list Z)) : Prop :=
  let '(f, p, o) := x in
  findCellPosition m (f_cell f) = Some p /\
  exists c ids, findCell m p = Ok c /\ faceids_from_two_nodes (c_type c) (c_nodeIds c) (f_node1 f) (f_node2 f) = Ok ids /\
    match o with
    | None => ids = []
    | Some (t, l) => l = ids /\ ids <> [] /\ skin_type (length ids) = Ok t /\ sound (trace m) (t, ids)
    end.
Definition made {A B C} (l : list (A * B * option C)) : list C := flat_map (fun x => match snd x with Some c => [c] | None => [] end) l.

Lemma skin_faces_spec hs he : hs <> he -> forall xs s, cinv (fst s) -> ginv (snd s) -> Forall (described (fst s)) xs ->
  exists s', foldM (fun s f => skin_face R z hs he f s) (map (fun x => fst (fst x)) xs) s = Ok s' /\ cinv (fst s') /\ mext (fst s) (fst s') /\ trace (fst s') = trace (fst s) /\ ginv (snd s') /\
    (forall n, findGroup (snd s') n = findGroup (snd s) n) /\ length (heap (snd s')) = length (heap (snd s)) /\
    (forall k g, nth_error (heap (snd s)) k = Some g -> exists g', nth_error (heap (snd s')) k = Some g' /\ g_kind g' = g_kind g /\
       (forall q, In q (g_pos g') <-> In q (g_pos g) \/ k = hs /\ In q (seq (length (cdatas (fst s))) (length (made xs))) \/ k = he /\ In q (map (fun x => snd (fst x)) xs)) /\
       (k <> hs -> k <> he -> g' = g)) /\
    Forall2 (covers (fst s')) (seq (length (cdatas (fst s))) (length (made xs))) (made xs).
Proof.
  intros Hd. induction xs as [|[[f p] o] xs IH]; intros [m gs] I G F; cbn [fst snd] in *.
  - exists (m, gs). cbn [made flat_map map foldM fst snd length seq]. split; [reflexivity|]. split; [exact I|]. split; [now apply mext_refl|]. split; [reflexivity|]. split; [exact G|].
    split; [reflexivity|]. split; [reflexivity|]. split; [|constructor]. intros k g Hg. exists g. split; [exact Hg|]. split; [reflexivity|]. split; [|reflexivity].
    intros q. cbn. tauto.
  - inversion F as [|x y F1 F4]; subst. cbn [described] in F1. destruct F1 as (Fp & c & ids & Fc & Fi & Fo).
    destruct (groupAdd_spec gs he p G) as [G1 H1].
    assert (Step : exists m1 gs1, skin_face R z hs he f (m, gs) = Ok (m1, gs1) /\ cinv m1 /\ mext m m1 /\ trace m1 = trace m /\ ginv gs1 /\
      (forall j q, findCellPosition m j = Some q -> findCellPosition m1 j = Some q) /\
      (forall n, findGroup gs1 n = findGroup gs n) /\ length (heap gs1) = length (heap gs) /\
      length (cdatas m1) = (length (cdatas m) + length (made [(f, p, o)]))%nat /\
      (forall k g, nth_error (heap gs) k = Some g -> exists g', nth_error (heap gs1) k = Some g' /\ g_kind g' = g_kind g /\
       (forall q, In q (g_pos g') <-> In q (g_pos g) \/ k = hs /\ In q (seq (length (cdatas m)) (length (made [(f, p, o)]))) \/ k = he /\ q = p) /\
       (k <> hs -> k <> he -> g' = g)) /\
      Forall2 (covers m1) (seq (length (cdatas m)) (length (made [(f, p, o)]))) (made [(f, p, o)])).
    { unfold skin_face. cbn [fst snd]. rewrite Fp, Fc. cbn [bind]. rewrite Fi. cbn [bind]. destruct o as [[t l]|].
      - destruct Fo as (-> & Ne & Ft & Fs). destruct ids as [|i0 ids]; [congruence|]. rewrite Ft. cbn [bind].
        destruct (addCell_auto m t (i0 :: ids) I Fs) as (m1 & E & I1 & X1 & T1 & L1 & Cv & Po). rewrite E. cbn [bind fst snd].
        destruct (groupAdd_spec (groupAdd gs he p) hs (length (cdatas m)) G1) as [G2 H2].
        exists m1, (groupAdd (groupAdd gs he p) hs (length (cdatas m))). split; [reflexivity|]. split; [exact I1|]. split; [exact X1|]. split; [exact T1|]. split; [exact G2|]. split; [exact Po|].
        split; [reflexivity|]. split; [cbn [groupAdd heap]; now rewrite !upd_length|]. split; [cbn [made flat_map snd app length]; lia|]. split; [|repeat constructor; exact Cv].
        intros k g Hg. destruct (H1 k g Hg) as (g1 & Hg1 & _ & A2 & _ & A3). destruct (H2 k g1 Hg1) as (g2 & Hg2 & _ & B2 & _ & B3).
        exists g2. split; [exact Hg2|]. split; [congruence|]. split.
        + intros q. rewrite B3, A3. cbn [made flat_map snd app length seq In]. intuition congruence.
        + intros Na Nb. cbn [groupAdd heap] in Hg2. rewrite !upd_nth, Hg in Hg2. destruct (Nat.eqb_spec hs k); [congruence|]. destruct (Nat.eqb_spec he k); [congruence|]. cbn in Hg2. congruence.
      - subst ids. exists m, (groupAdd gs he p). split; [reflexivity|]. split; [exact I|]. split; [now apply mext_refl|]. split; [reflexivity|]. split; [exact G1|]. split; [auto|].
        split; [reflexivity|]. split; [cbn [groupAdd heap]; now rewrite upd_length|]. split; [cbn; lia|]. split; [|constructor].
        intros k g Hg. destruct (H1 k g Hg) as (g1 & Hg1 & _ & A2 & _ & A3). exists g1. split; [exact Hg1|]. split; [congruence|]. split.
        + intros q. rewrite A3. cbn [made flat_map snd app length seq In]. intuition congruence.
        + intros Na Nb. cbn [groupAdd heap] in Hg1. rewrite !upd_nth, Hg in Hg1. destruct (Nat.eqb_spec he k); [congruence|]. cbn in Hg1. congruence. }
    destruct Step as (m1 & gs1 & E & I1 & X1 & T1 & G2 & Po & N1 & L1 & C1 & H2 & J1).
    destruct (IH (m1, gs1) I1 G2) as (s' & E' & I' & X' & T' & G' & N' & L' & H' & J').
    { eapply Forall_impl; [|exact F4]. intros [[f' p'] o'] (U1 & c' & ids' & U2 & U3 & U4). cbn [fst]. split; [now apply Po|].
      destruct (mext_findCell m m1 p' c' I I1 X1 U2) as (c2 & V1 & _ & V2 & V3 & _). exists c2, ids'. split; [exact V1|]. split; [now rewrite V2, V3|].
      destruct o' as [[t' l']|]; [|exact U4]. rewrite T1. exact U4. }
    cbn [map fst snd foldM] in *. rewrite E. cbn [bind]. exists s'. split; [exact E'|]. split; [exact I'|]. split; [eapply mext_trans; eauto|]. split; [congruence|]. split; [exact G'|].
    split; [intros n; rewrite N'; apply N1|]. split; [congruence|].
    assert (Em : made ((f, p, o) :: xs) = made [(f, p, o)] ++ made xs) by (unfold made; cbn [flat_map]; now rewrite app_nil_r).
    rewrite Em, app_length, seq_app. rewrite C1 in H', J'. split.
    + intros k g Hg. destruct (H2 k g Hg) as (g1 & Hg1 & A2 & A3 & A4). destruct (H' k g1 Hg1) as (g2 & Hg2 & B2 & B3 & B4).
      exists g2. split; [exact Hg2|]. split; [congruence|]. split.
      * intros q. rewrite B3, A3, in_app_iff. cbn [In]. intuition congruence.
      * intros Na Nb. rewrite (B4 Na Nb). now apply A4.
    + apply Forall2_app; [|exact J']. eapply forall2_weaken; [|exact J1]. intros q x. now apply covers_ext.
Qed.

Definition kname (id : Z) := numbered "SURF" id.
Definition ename (id : Z) := numbered "SURFO" id.
Lemma skin_names i j : 0 <= i -> kname i <> ename j.
Proof.
  intros Hi X. unfold kname, ename, numbered in X. cbn [append] in X. injection X as X.
  apply (f_equal list_ascii_of_string) in X. rewrite list_ascii_of_string_of_list_ascii in X. cbn [list_ascii_of_string] in X.
  pose proof (proj1 (int_digits i Hi)) as Dg. rewrite X in Dg. cbn in Dg. first [discriminate Dg | inversion Dg; subst; discriminate].
Qed.

(** The positions of a group. *)
Definition holds (s : state D) (name : string) (ps : list nat) : Prop :=
  exists h g, findGroup (snd s) name = Some h /\ nth_error (heap (snd s)) h = Some g /\ g_kind g = CellG /\ forall q, In q (g_pos g) <-> In q ps.

Lemma create_skin_spec id xs (s : state D) : cinv (fst s) -> ginv (snd s) -> 0 <= id -> Forall (described (fst s)) xs ->
  findGroup (snd s) (kname id) = None -> findGroup (snd s) (ename id) = None ->
  exists s', create_skin R z id (map (fun x => fst (fst x)) xs) s = Ok s' /\ kept s s' /\ cover s' (kname id) (made xs) /\ holds s' (ename id) (map (fun x => snd (fst x)) xs) /\
    (forall n, n <> kname id -> n <> ename id -> findGroup (snd s') n = findGroup (snd s) n).
Proof.
  intros I G Hi F Fm Fs. unfold create_skin. fold (kname id) (ename id).
  destruct (create_kept (snd s) (kname id) G ltac:(discriminate) Fm) as (g1 & h1 & E1 & G1 & Hh1 & K1 & N1 & o1 & Ho1 & Kd1 & Po1 & L1).
  destruct (create_kept g1 (ename id) G1 ltac:(discriminate)) as (g2 & h2 & E2 & G2 & Hh2 & K2 & N2 & o2 & Ho2 & Kd2 & Po2 & L2).
  { rewrite N1. destruct (String.eqb_spec (kname id) (ename id)) as [X|_]; [exfalso; exact (skin_names id id Hi X)|exact Fs]. }
  rewrite E1. cbn [bind fst snd]. rewrite E2. cbn [bind fst snd].
  assert (F1 : findGroup g1 (kname id) = Some h1) by now rewrite N1, String.eqb_refl.
  destruct (K2 _ _ _ F1 Ho1) as [F12 Ho12].
  destruct (skin_faces_spec h1 h2 ltac:(lia) xs (fst s, g2) I G2 F) as (s' & E & I' & X & T & G' & N' & L' & H' & J). cbn [fst snd] in *.
  exists s'. split; [exact E|]. destruct (H' h1 o1 Ho12) as (q1 & U1 & U2 & U3 & _). destruct (H' h2 o2 Ho2) as (q2 & W1 & W2 & W3 & _). split; [|split; [|split]].
  - split; [exact I'|]. split; [exact X|]. split; [exact T|]. split; [exact G'|]. intros n k x B1 B2.
    destruct (K1 n k x B1 B2) as [V1 V2]. destruct (K2 n k x V1 V2) as [Y1 Y2]. split; [now rewrite N'|].
    assert (L : (k < length (heap (snd s)))%nat) by (apply nth_error_Some; congruence). destruct (H' k x Y2) as (x' & Hx & _ & _ & Hs). rewrite Hx. f_equal. apply Hs; lia.
  - exists h1, q1, (seq (length (cdatas (fst s))) (length (made xs))). split; [now rewrite N'|]. split; [exact U1|]. split; [congruence|]. split; [apply seq_NoDup|]. split; [|exact J].
    intros q. rewrite U3, Po1. cbn. split; [intros [[]|[[_ H]|[H _]]]; [exact H|lia]|auto].
  - exists h2, q2. split; [now rewrite N', N2, String.eqb_refl|]. split; [exact W1|]. split; [congruence|].
    intros q. rewrite W3, Po2. cbn. split; [intros [[]|[[H _]|[_ H]]]; [lia|exact H]|auto].
  - intros n Na Nb. rewrite N', N2, N1. destruct (String.eqb_spec (ename id) n); [congruence|]. destruct (String.eqb_spec (kname id) n); [congruence|]. reflexivity.
Qed.
End P.
