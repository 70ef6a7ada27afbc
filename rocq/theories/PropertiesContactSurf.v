(** C114: surfaces in contact. *)
From Coq Require Import Ascii String ZArith List Bool Arith Lia.
From Verif Require Import Base ZMap TextModel TextProofs TokenizerModel NextIntsProofs CardModel CardProofs LoadCardModel FieldProofs PropertiesTokenizer DofModel MeshNodeModel MeshNodeProofs MeshCellModel MeshCellProofs PropertiesMeshCells MeshGroupModel MeshGroupProofs PropertiesMeshGroups FaceModel OptistructModel PropertiesOptistruct SegmentModel SegmentProofs PropertiesSegment ContactSurfModel ContactSurfProofs.
Import ListNotations.
Open Scope Z_scope.
Open Scope list_scope.

(** ** The specification *)

(** A patch of a surface, and how a card lists patches: four numbers each, the last one 0
    for a triangle. *)
Inductive patch := Tri (a b c : Z) | Quad (a b c d : Z).
Definition corners (p : patch) : list Z := match p with Tri a b c => [a; b; c] | Quad a b c d => [a; b; c; d] end.
Definition listed (p : patch) : list Z := match p with Tri a b c => [a; b; c; 0] | Quad a b c d => [a; b; c; d] end.
Definition real_patch (p : patch) : Prop := match p with Tri _ _ _ => True | Quad _ _ _ d => d <> 0 end.
(** What the patch is in the mesh. *)
Definition shape (p : patch) : ctype * list Z := match p with Tri a b c => (TRI3, [a; b; c]) | Quad a b c d => (QUAD4, [a; b; c; d]) end.

(** The group of that name has one cell for each member of the list: of that type, over
    those nodes. *)
Definition group_of_cells {D} (s : state D) (name : string) (l : list (ctype * list Z)) : Prop :=
  exists h g ps, findGroup (snd s) name = Some h /\ nth_error (heap (snd s)) h = Some g /\ g_kind g = CellG /\
    NoDup ps /\ (forall q, In q (g_pos g) <-> In q ps) /\
    Forall2 (fun p x => exists c, findCell (fst s) p = Ok c /\ c_type c = fst x /\ c_nodeIds c = snd x) ps l.
(** The group of that name has the cells at those positions. *)
Definition group_at {D} (s : state D) (name : string) (ps : list nat) : Prop :=
  exists h g, findGroup (snd s) name = Some h /\ nth_error (heap (snd s)) h = Some g /\ g_kind g = CellG /\ forall q, In q (g_pos g) <-> In q ps.

(** The groups of a BCTABLE card from field [i] to field [e]: SLAVE and the number of a body,
    MASTERS and the number of another, with any blanks before the words. *)
Inductive groups_at (vec : list str) : nat -> list (Z * Z) -> nat -> Prop :=
| GroupsEnd i : groups_at vec i [] i
| GroupsNext i j k s m l e : (i <= j)%nat -> (forall q, (i <= q < j)%nat -> blank_at vec q) -> word_at vec j (txt "SLAVE") -> int_or 0 vec (S j) s ->
    (S (S j) <= k)%nat -> (forall q, (S (S j) <= q < k)%nat -> blank_at vec q) -> word_at vec k (txt "MASTERS") -> int_or 0 vec (S k) m ->
    blank_at vec (S (S k)) -> groups_at vec (S (S k)) l e -> groups_at vec i ((s, m) :: l) e.
(** The zones asked for: that of the first line if it names two bodies, then the groups. *)
Definition asked (s m : Z) (gs : list (Z * Z)) : list (Z * Z) := (if (s =? 0) || (m =? 0) then [] else [(s, m)]) ++ gs.

(** ** Cards *)

(** A surface has the numbers of its card. *)
Theorem C114_surface_card : forall kw f1 id items texts post, int_field f1 id -> Forall2 item_text items texts -> ends_list post ->
  parseBSSEG (at_field (kw :: f1 :: concat texts ++ post) 1) = Ok (id, concat (map denote items)).
Proof.
  intros kw f1 id items texts post H1 Hi He. set (vec := kw :: f1 :: concat texts ++ post). unfold parseBSSEG. rewrite (f_int vec 1 id H1). cbn [bind].
  rewrite at_field_pos by (cbn; lia). pose proof (C21_lists_and_ranges [kw; f1] items texts post Hi He) as E. cbn [app length] in E. fold vec in E. rewrite E. reflexivity.
Qed.
(** The second number of a contact is the slave, the third one the master. *)
Theorem C114_contact_card : forall vec id slave master, int_at vec 1 id -> int_at vec 2 slave -> int_at vec 3 master ->
  parseBSCONP (at_field vec 1) = if forallb (fun f => null (trim f)) (skipn 4 vec) then Ok (mkBsconp id master slave) else Throw.
Proof.
  intros vec id slave master H1 H2 H3. unfold parseBSCONP. rewrite (f_int _ _ _ H1). cbn [bind]. rewrite (f_int _ _ _ H2). cbn [bind]. rewrite (f_int _ _ _ H3). cbn [bind].
  now rewrite f_until.
Qed.
(** A body has the surface of its card; 3D and DEFORM may be left out, nothing else is taken. *)
Theorem C114_body_card : forall vec bid bsid dim behav, int_at vec 1 bid -> word_or (txt "3D") vec 2 dim -> word_or (txt "DEFORM") vec 3 behav -> int_at vec 4 bsid ->
  (forall j, (5 <= j)%nat -> blank_at vec j) ->
  parseBCBODY (at_field vec 1) = if str_eqb dim (txt "3D") && str_eqb behav (txt "DEFORM") then Ok (bid, bsid) else Throw.
Proof.
  intros vec bid bsid dim behav H1 H2 H3 H4 H5. unfold parseBCBODY. rewrite (f_int _ _ _ H1). cbn [bind]. rewrite (f_worddef _ _ _ _ H2). cbn [bind].
  destruct (str_eqb dim (txt "3D")); cbn [negb andb]; [|reflexivity]. rewrite (f_worddef _ _ _ _ H3). cbn [bind].
  destruct (str_eqb behav (txt "DEFORM")); cbn [negb]; [|reflexivity]. rewrite (f_int _ _ _ H4). cbn [bind]. now rewrite (blank_until vec 5 H5).
Qed.

Definition zone_of (p : Z * Z) : zone := mkZone (BOUNDARY_SURFACE, snd p) (BOUNDARY_SURFACE, fst p).
Lemma word_not_blank vec i c w : word_at vec i (c :: w) -> ~ blank_at vec i.
Proof. unfold word_at, blank_at. intros H B. rewrite B in H. discriminate H. Qed.
Lemma groups_read vec i l e : groups_at vec i l e -> table_groups (length l) (at_field vec i) = Ok (map zone_of l, at_field vec e).
Proof.
  induction 1 as [i|i j k s m l e A1 A2 A3 A4 A5 A6 A7 A8 A9 H IH]; [reflexivity|]. cbn [length table_groups].
  rewrite (f_to vec i j A1 A2 (or_introl (word_not_blank _ _ _ _ A3))). cbn [bind]. rewrite (f_string _ _ _ A3 ltac:(discriminate)). cbn [bind]. picks.
  rewrite (f_intdef _ _ _ _ A4). cbn [bind]. rewrite (f_to vec _ k A5 A6 (or_introl (word_not_blank _ _ _ _ A7))). cbn [bind].
  rewrite (f_string _ _ _ A7 ltac:(discriminate)). cbn [bind]. picks. rewrite (f_intdef _ _ _ _ A8). cbn [bind].
  assert (E : exists b, isNextEmpty 1 (at_field vec (S (S k))) = Ok b /\ negb (b || isEmptyUntilNextKeyword (at_field vec (S (S k)))) = false).
  { destruct (Nat.lt_ge_cases (S (S k)) (length vec)) as [L|L].
    - eexists. split; [exact (f_empty vec _ L)|]. unfold blank_at in A9. now rewrite A9.
    - destruct (f_empty_end vec _ L) as [-> ->]. now exists false. }
  destruct E as (b & -> & X). cbn [bind]. rewrite X. rewrite IH. reflexivity.
Qed.
(** A table gives the zones asked for, of the bodies with those numbers. *)
Theorem C114_table_partial : forall vec sid s m n gs e, int_at vec 1 sid -> int_or 0 vec 2 s -> int_or 0 vec 3 m -> int_or 0 vec 4 n -> n = Z.of_nat (length gs) ->
  groups_at vec 5 gs e -> (forall j, (e <= j)%nat -> blank_at vec j) ->
  exists zs, parseBCTABLE (at_field vec 1) = Ok (sid, zs) /\ map (fun z => (snd (z_slave z), snd (z_master z))) zs = asked s m gs.
Proof.
  intros vec sid s m n gs e H1 H2 H3 H4 -> Hg Hb. unfold parseBCTABLE. rewrite (f_int _ _ _ H1). cbn [bind]. rewrite (f_intdef _ _ _ _ H2). cbn [bind]. rewrite (f_intdef _ _ _ _ H3). cbn [bind].
  rewrite (f_intdef _ _ _ _ H4). cbn [bind]. rewrite Nat2Z.id, (groups_read _ _ _ _ Hg). cbn [bind]. rewrite (blank_until vec e Hb). eexists. split; [reflexivity|].
  unfold asked. rewrite map_app. f_equal.
  - destruct (Z.eqb_spec s 0), (Z.eqb_spec m 0); reflexivity.
  - rewrite map_map. rewrite <- map_id. apply map_ext. now intros [a b].
Qed.

(** The zones of a table name surfaces where bodies are looked for: whatever the bodies and
    surfaces of the model, no zone has nodes, and a model with one is not translated. *)
Theorem C114_zones_refuted : forall t sid zs targets, parseBCTABLE t = Ok (sid, zs) ->
  (forall z, In z zs -> zone_nodes targets z = Throw) /\ (zs <> [] -> effective_zones targets zs = Throw).
Proof.
  intros t sid zs targets E.
  assert (K : forall z, In z zs -> fst (z_master z) = BOUNDARY_SURFACE).
  { assert (Kg : forall n t l t', table_groups n t = Ok (l, t') -> forall z, In z l -> fst (z_master z) = BOUNDARY_SURFACE).
    { induction n as [|n IH]; intros t0 l t' X; cbn [table_groups] in X; [injection X as <- _; intros z []|].
      repeat match type of X with
      | bind ?x _ = _ => let Y := fresh "Y" in destruct x as [?| | |] eqn:Y; cbn [bind] in X; try discriminate X
      | (let '(_, _) := ?p in _) = _ => destruct p
      | (if ?b then _ else _) = _ => destruct b; try discriminate X
      end. injection X as <- <-. intros zz [<- |Hz]; [reflexivity|]. eapply IH; eauto. }
    unfold parseBCTABLE in E.
    repeat match type of E with
      | bind ?x _ = _ => let Y := fresh "Y" in destruct x as [?| | |] eqn:Y; cbn [bind] in E; try discriminate E
      | (let '(_, _) := ?p in _) = _ => destruct p
      end. cbn zeta in E. destruct (isEmptyUntilNextKeyword _); [|discriminate E]. injection E as _ <-. intros zz Hz. apply in_app_iff in Hz as [Hz|Hz]; [|eapply Kg; eauto].
    destruct (negb _ && negb _); [|destruct Hz]. destruct Hz as [<- |[]]. reflexivity. }
  assert (Sd : forall r, fst r = BOUNDARY_SURFACE -> side_nodes targets r = Throw).
  { intros r Hr. unfold side_nodes. destruct (find_target targets r) as [x|] eqn:F; [|reflexivity]. apply find_some in F as [_ F]. rewrite Hr in F. destruct x; [reflexivity|discriminate F]. }
  split.
  - intros z Hz. unfold zone_nodes. now rewrite (Sd _ (K z Hz)).
  - destruct zs as [|z zs]; [congruence|]. intros _. unfold effective_zones. cbn [mapM]. unfold zone_ineffective at 1. rewrite (Sd _ (K z (or_introl eq_refl))). reflexivity.
Qed.

(** ** Cells of the surfaces *)
Lemma patches_listed l : Forall real_patch l -> patches (concat (map listed l)) = Ok (map shape l).
Proof.
  induction 1 as [|p l Hp H IH]; [reflexivity|]. cbn [map concat]. destruct p as [a b c|a b c d]; cbn [listed app patches]; rewrite IH; cbn [bind].
  - reflexivity.
  - cbn in Hp. destruct (Z.eqb_spec d 0); [contradiction|reflexivity].
Qed.

(** Every contact between two listed surfaces gets two groups, one of the cells of its master,
    one of those of its slave; nothing else changes. *)
Theorem C114_surfaces : forall D (R z : D) tr hist m gs surfaces (l : list bsconp) (master slave : bsconp -> list patch),
  mbuilt R z tr hist m -> gbuilt gs ->
  (forall c, In c l -> 0 <= b_id c /\ surfaces (b_master c) = Some (concat (map listed (master c))) /\ surfaces (b_slave c) = Some (concat (map listed (slave c))) /\
     findGroup gs (numbered "SURFCONT_M_" (b_id c)) = None /\ findGroup gs (numbered "SURFCONT_S_" (b_id c)) = None /\
     forall p, In p (master c) \/ In p (slave c) -> real_patch p /\ Forall (fun i => i <> AUTO_ID) (corners p) /\ (tr = true -> NoDup (corners p))) ->
  NoDup (map b_id l) ->
  exists s', bound_surfaces R z surfaces l (m, gs) = Ok s' /\ all_kept (m, gs) s' /\
    forall c, In c l -> group_of_cells s' (numbered "SURFCONT_M_" (b_id c)) (map shape (master c)) /\
                        group_of_cells s' (numbered "SURFCONT_S_" (b_id c)) (map shape (slave c)).
Proof.
  intros D R z tr hist m gs surfaces l master slave B Gb P N. destruct (mbuilt_inv _ _ _ _ _ B) as [I T]. apply gbuilt_inv in Gb.
  destruct (bound_surfaces_spec R z surfaces l (fun c => map shape (master c)) (fun c => map shape (slave c)) (m, gs) I Gb) as (s' & E & K & C).
  - intros c Hc. destruct (P c Hc) as (P0 & P1 & P2 & P3 & P4 & P5). cbn [fst]. rewrite T.
    assert (Q : forall ps, (forall p, In p ps -> In p (master c) \/ In p (slave c)) -> patches (concat (map listed ps)) = Ok (map shape ps) /\ Forall (sound tr) (map shape ps)).
    { intros ps Hps. split; [apply patches_listed, Forall_forall; intros p Hp; apply P5, Hps, Hp|]. apply Forall_forall. intros x Hx. apply in_map_iff in Hx as (p & <- & Hp).
      destruct (P5 p (Hps p Hp)) as (A1 & A2 & A3). assert (S1 : snd (shape p) = corners p) by (destruct p; reflexivity). split; [destruct p; reflexivity|]. split; [destruct p; discriminate|].
      rewrite S1. split; [exact A2|]. destruct tr; [right; now apply A3|now left]. }
    destruct (Q (master c) ltac:(auto)) as [Q1 Q2]. destruct (Q (slave c) ltac:(auto)) as [Q3 Q4].
    split; [exact P0|]. split; [eauto|]. split; [eauto|]. now repeat split.
  - exact N.
  - exists s'. split; [exact E|]. split; [now apply kept_all|]. intros c Hc. exact (C c Hc).
Qed.

(** Both groups are there before anything of the surfaces is read. *)
Lemma surface_groups c gs : ginv gs -> findGroup gs (mname c) = None -> findGroup gs (sname c) = None ->
  exists g1 g2, createGroup gs CellG (mname c) NO_ORIGINAL = Ok g1 /\ createGroup (fst g1) CellG (sname c) NO_ORIGINAL = Ok g2.
Proof.
  intros G Fm Fs. destruct (create_kept gs (mname c) G ltac:(discriminate) Fm) as (g1 & h1 & E1 & G1 & _ & _ & N1 & _).
  destruct (create_kept g1 (sname c) G1 ltac:(discriminate)) as (g2 & h2 & E2 & _).
  { rewrite N1. destruct (String.eqb_spec (mname c) (sname c)) as [X|_]; [exfalso; exact (names_differ c c X)|exact Fs]. }
  now exists (g1, h1), (g2, h2).
Qed.
(** A list that is not made of fours, such as three corners with the fourth field left blank,
    is read past its end. *)
Lemma patches_short : forall n l, (length l <= n)%nat -> ~ Nat.divide 4 (length l) -> patches l = UB.
Proof.
  induction n as [|n IH]; intros l L N; [destruct l; [exfalso; apply N; now exists 0%nat|cbn in L; lia]|].
  destruct l as [|a [|b [|c [|d l]]]]; try reflexivity; [exfalso; apply N; now exists 0%nat|]. cbn [patches]. rewrite IH; [reflexivity|cbn in L; lia|].
  intros [k Hk]. apply N. exists (S k). cbn [length]. lia.
Qed.
Theorem C114_fours_refuted : forall D (R z : D) surfaces c m gs l, ginv gs -> findGroup gs (numbered "SURFCONT_M_" (b_id c)) = None -> findGroup gs (numbered "SURFCONT_S_" (b_id c)) = None ->
  surfaces (b_slave c) = Some l -> ~ Nat.divide 4 (length l) -> bound_surface R z surfaces c (m, gs) = UB.
Proof.
  intros D R z surfaces c m gs l G Fm Fs Hl Nd. fold (mname c) in Fm. fold (sname c) in Fs. unfold bound_surface. cbn [fst snd]. fold (mname c). fold (sname c).
  destruct (surface_groups c gs G Fm Fs) as (g1 & g2 & -> & E2). cbn [bind]. rewrite E2. cbn [bind]. rewrite Hl. cbn [bind]. now rewrite (patches_short _ _ (le_n _) Nd).
Qed.
(** A contact whose slave surface is missing stops the translation. *)
Theorem C114_missing : forall D (R z : D) surfaces c m gs, ginv gs -> findGroup gs (numbered "SURFCONT_M_" (b_id c)) = None -> findGroup gs (numbered "SURFCONT_S_" (b_id c)) = None ->
  surfaces (b_slave c) = None -> bound_surface R z surfaces c (m, gs) = Throw.
Proof.
  intros D R z surfaces c m gs G Fm Fs Hl. fold (mname c) in Fm. fold (sname c) in Fs. unfold bound_surface. cbn [fst snd]. fold (mname c). fold (sname c).
  destruct (surface_groups c gs G Fm Fs) as (g1 & g2 & -> & E2). cbn [bind]. rewrite E2. cbn [bind]. now rewrite Hl.
Qed.
(** ... and so does one whose master surface is missing. *)
Theorem C114_missing_master : forall D (R z : D) surfaces c s s', surfaces (b_master c) = None -> bound_surface R z surfaces c s <> Ok s'.
Proof.
  intros D R z surfaces c s s' H E. unfold bound_surface in E. rewrite H in E.
  repeat match type of E with bind ?x _ = _ => destruct x; cbn [bind] in E; try discriminate E end.
Qed.
Print Assumptions C114_missing_master.
(** The nodes of a contact are those of its surfaces, but the 0 that marks a triangle is
    taken for a node too: the node with no position is among them. *)
Theorem C114_nodes_partial : forall D (m : mesh D) surfaces c (master slave : list patch),
  surfaces (b_master c) = Some (concat (map listed master)) -> surfaces (b_slave c) = Some (concat (map listed slave)) ->
  exists ns, surface_nodes surfaces m c = Ok ns /\ forall p i, In p (master ++ slave) -> In i (corners p) -> In (findNodePosition (mnodes m) i) ns.
Proof.
  intros D m surfaces c master slave H1 H2. unfold surface_nodes. rewrite H1, H2. eexists. split; [reflexivity|]. intros p i Hp Hi. apply in_map. rewrite <- concat_app, <- map_app.
  apply in_concat. exists (listed p). split; [now apply in_map|]. destruct p; cbn in *; tauto.
Qed.
Theorem C114_nodes_refuted : forall D (m : mesh D) surfaces c (master slave : list patch) a b d,
  surfaces (b_master c) = Some (concat (map listed master)) -> surfaces (b_slave c) = Some (concat (map listed slave)) -> In (Tri a b d) (master ++ slave) ->
  findNodePosition (mnodes m) 0 = None -> exists ns, surface_nodes surfaces m c = Ok ns /\ In None ns.
Proof.
  intros D m surfaces c master slave a b d H1 H2 Ht H0. unfold surface_nodes. rewrite H1, H2. eexists. split; [reflexivity|]. rewrite <- H0. apply in_map. rewrite <- concat_app, <- map_app.
  apply in_concat. exists (listed (Tri a b d)). split; [now apply in_map|]. cbn. tauto.
Qed.

(** ** Skins *)

(** Whatever the cell, a face found has a number of nodes for which there is a type. *)
Lemma face_type t ids n1 n2 f : (0 < numNodes t)%nat -> length ids = numNodes t -> faceids_from_two_nodes t ids n1 n2 = Ok f -> f <> [] ->
  exists t', skin_type (length f) = Ok t' /\ dimension t' = 2%nat /\ numNodes t' = length f /\ t' <> POLY 0.
Proof.
  intros N L E Ne. unfold faceids_from_two_nodes in E. destruct (findNodeIdPosition ids n1) as [p1| | |]; cbn [bind] in E; try discriminate E.
  destruct (if n2 =? UNAVAILABLE_INT then _ else _) as [p2| | |]; cbn [bind] in E; try discriminate E.
  assert (G : forall n, In n [3; 4; 6; 7; 8; 9]%nat -> exists t', skin_type n = Ok t' /\ dimension t' = 2%nat /\ numNodes t' = n /\ t' <> POLY 0).
  { intros n Hn. cbn in Hn. destruct Hn as [<- |[<- |[<- |[<- |[<- |[<- |[]]]]]]]; eexists; (split; [reflexivity|]); (split; [reflexivity|]); (split; [reflexivity|]); discriminate. }
  destruct (dimension t =? 2)%nat eqn:Dm.
  - injection E as <-. apply G. rewrite L. destruct t; try discriminate Dm; cbn; tauto.
  - destruct (face_table t) as [fs|] eqn:Ft; [|discriminate E]. destruct (choose_face t fs p1 p2) as [k| | |] eqn:Ck; cbn [bind] in E; try discriminate E.
    assert (Lf : length f = length k). { unfold gather in E. clear - E. revert f E. induction k as [|x k IH]; intros f E; cbn [mapM] in E; [now injection E as <-|].
      destruct (of_option _); cbn [bind] in E; try discriminate E. destruct (mapM _ k) eqn:X; cbn [bind] in E; try discriminate E. injection E as <-. cbn [length]. f_equal. now apply IH. }
    assert (Hk : k = [] \/ In k fs).
    { assert (Hl : forall l : list (list nat), last l [] = [] \/ In (last l []) l).
      { induction l as [|x [|y l] IH]; [now left|right; now left|]. cbn [last] in *. destruct IH as [IH|IH]; [now left|right; now right]. }
      assert (Hh : forall l : list (list nat), hd [] l = [] \/ In (hd [] l) l) by (intros [|x l]; [now left|right; now left]).
      destruct t; try discriminate Ck; cbn [choose_face] in Ck; try destruct p2 as [p2|]; try discriminate Ck; injection Ck as <-;
        match goal with |- ?x = [] \/ _ => match x with last ?l _ => destruct (Hl l) as [X|X] | hd _ ?l => destruct (Hh l) as [X|X] end end;
        try (left; exact X); right; apply filter_In in X; exact (proj1 X). }
    destruct Hk as [-> |Hk]; [destruct f; [congruence|discriminate Lf]|]. rewrite Lf. apply G.
    destruct t; try discriminate Ft; injection Ft as <-; cbn in Hk; repeat (destruct Hk as [<- |Hk]; [cbn; tauto|]); destruct Hk.
Qed.

(** A face in the mesh: the position of its element and its nodes (none if the two nodes given
    have no face in common). *)
Definition face_nodes {D} (m : mesh D) (f : face) (p : nat) (ids : list Z) : Prop :=
  findCellPosition m (f_cell f) = Some p /\ exists c, findCell m p = Ok c /\ faceids_from_two_nodes (c_type c) (c_nodeIds c) (f_node1 f) (f_node2 f) = Ok ids.

(** The faces of a surface become a group of flat cells over their nodes, and their elements
    another group; nothing else changes. *)
Theorem C114_skin : forall D (R z : D) tr hist m gs id (xs : list (face * nat * list Z)),
  mbuilt R z tr hist m -> gbuilt gs -> 0 <= id -> findGroup gs (numbered "SURF" id) = None -> findGroup gs (numbered "SURFO" id) = None ->
  (forall f p ids, In (f, p, ids) xs -> face_nodes m f p ids /\ Forall (fun i => i <> AUTO_ID) ids /\ (tr = true -> NoDup ids)) ->
  exists s' cells, create_skin R z id (map (fun x => fst (fst x)) xs) (m, gs) = Ok s' /\ all_kept (m, gs) s' /\
    map snd cells = filter (fun l => negb (Nat.eqb (length l) 0)) (map snd xs) /\ Forall (fun x => dimension (fst x) = 2%nat /\ numNodes (fst x) = length (snd x)) cells /\
    group_of_cells s' (numbered "SURF" id) cells /\ group_at s' (numbered "SURFO" id) (map (fun x => snd (fst x)) xs).
Proof.
  intros D R z tr hist m gs id xs B Gb Hi F1 F2 P. destruct (mbuilt_inv _ _ _ _ _ B) as [I T]. apply gbuilt_inv in Gb.
  assert (Ex : exists ys, map (fun x => fst (fst x)) ys = map (fun x => fst (fst x)) xs /\ map (fun x => snd (fst x)) ys = map (fun x => snd (fst x)) xs /\
    map snd (made ys) = filter (fun l => negb (Nat.eqb (length l) 0)) (map snd xs) /\ Forall (fun x => dimension (fst x) = 2%nat /\ numNodes (fst x) = length (snd x)) (made ys) /\
    Forall (described m) ys).
  { clear F1 F2. induction xs as [|[[f p] ids] xs IH]; [exists []; repeat split; constructor|].
    destruct IH as (ys & Y1 & Y2 & Y3 & Y4 & Y5); [intros f' p' ids' Hin; apply P; now right|].
    destruct (P f p ids (or_introl eq_refl)) as ((A1 & c & A2 & A3) & A4 & A5).
    destruct ids as [|i0 ids].
    - exists ((f, p, None) :: ys). cbn [map fst snd made flat_map app filter length Nat.eqb negb]. fold (made ys). repeat (split; [congruence || assumption|]). constructor; [|exact Y5].
      split; [exact A1|]. exists c, []. now repeat split.
    - assert (Hc : exists d, nth_error (cdatas m) p = Some d).
      { unfold findCell in A2. destruct (nth_error (cdatas m) p) as [d|]; [eauto|discriminate A2]. }
      destruct Hc as [d Hd]. destruct (findCell_ok m p d I Hd) as (c' & ps & B1 & _ & B2 & _ & _ & _ & _ & _ & _ & B3 & _). assert (c' = c) by congruence. subst c'. rewrite <- B2 in B3.
      assert (Np : (0 < numNodes (c_type c))%nat).
      { rewrite <- B3. destruct (c_nodeIds c) eqn:Z0; [|cbn; lia]. unfold faceids_from_two_nodes in A3. cbn in A3. discriminate A3. }
      destruct (face_type _ _ _ _ _ Np B3 A3 ltac:(discriminate)) as (t & U1 & U2 & U3 & U4).
      exists ((f, p, Some (t, i0 :: ids)) :: ys). cbn [map fst snd made flat_map app filter length Nat.eqb negb]. fold (made ys).
      split; [congruence|]. split; [congruence|]. split; [congruence|]. split; [constructor; [now split|exact Y4]|]. constructor; [|exact Y5].
      split; [exact A1|]. exists c, (i0 :: ids). split; [exact A2|]. split; [exact A3|]. split; [reflexivity|]. split; [discriminate|]. split; [exact U1|].
      split; [symmetry; exact U3|]. split; [exact U4|]. split; [exact A4|]. rewrite T. destruct tr; [right; now apply A5|now left]. }
  destruct Ex as (ys & Y1 & Y2 & Y3 & Y4 & Y5).
  destruct (create_skin_spec R z id ys (m, gs) I Gb Hi Y5 F1 F2) as (s' & E & K & C & H & _).
  exists s', (made ys). rewrite <- Y1, <- Y2. split; [exact E|]. split; [now apply kept_all|]. split; [exact Y3|]. split; [exact Y4|]. now split.
Qed.

(** A face of an element that is not there stops the translation. *)
Theorem C114_skin_unknown : forall D (R z : D) id f fs (s : state D) s', findCellPosition (fst s) (f_cell f) = None -> create_skin R z id (f :: fs) s <> Ok s'.
Proof.
  intros D R z id f fs s s' H E. unfold create_skin in E. destruct (createGroup (snd s) CellG (numbered "SURF" id) NO_ORIGINAL) as [g1| | |]; cbn [bind] in E; try discriminate E.
  destruct (createGroup (fst g1) CellG (numbered "SURFO" id) NO_ORIGINAL) as [g2| | |]; cbn [bind] in E; try discriminate E. cbn [foldM] in E.
  unfold skin_face in E at 1. cbn [fst] in E. rewrite H in E. discriminate E.
Qed.
Print Assumptions C114_skin_unknown.
(** The side asked for makes no difference. *)
Theorem C114_normal_refuted : forall D (R z : D) id fs (s : state D),
  create_skin R z id (map (fun f => mkFace (f_cell f) (f_node1 f) (f_node2 f) (negb (f_swap f))) fs) s = create_skin R z id fs s.
Proof.
  intros D R z id fs s. unfold create_skin. destruct (createGroup (snd s) _ _ _) as [g1| | |]; [|reflexivity..]. cbn [bind]. destruct (createGroup (fst g1) _ _ _) as [g2| | |]; [|reflexivity..]. cbn [bind].
  generalize (fst s, fst g2). induction fs as [|f fs IH]; intros s0; [reflexivity|]. cbn [map foldM].
  change (skin_face R z (snd g1) (snd g2) (mkFace (f_cell f) (f_node1 f) (f_node2 f) (negb (f_swap f))) s0) with (skin_face R z (snd g1) (snd g2) f s0).
  destruct (skin_face R z (snd g1) (snd g2) f s0); cbn [bind]; [apply IH|reflexivity..].
Qed.

(** ** Examples *)
Example C114_card_case : parseBSSEG (at_field (map txt ["BSSEG"; "4"; "10"; "20"; "30"; "40"; "20"; "THRU"; "22"; "0"; ""]%string) 1) = Ok (4, [10; 20; 30; 40; 20; 21; 22; 0]) /\
  parseBSCONP (at_field (map txt ["BSCONP"; "3"; "4"; "5"; " "]%string) 1) = Ok (mkBsconp 3 5 4) /\
  parseBCBODY (at_field (map txt ["BCBODY"; "1"; ""; ""; "7"]%string) 1) = Ok (1, 7).
Proof. vm_compute. repeat split. Qed.
Definition C114_table := map txt ["BCTABLE"; "9"; "1"; "2"; "1"; ""; ""; ""; ""; "SLAVE"; "3"; ""; ""; ""; ""; ""; ""; "MASTERS"; "4"]%string.
Example C114_table_case : groups_at C114_table 5 [(3, 4)] 19 /\ parseBCTABLE (at_field C114_table 1) = Ok (9, [zone_of (1, 2); zone_of (3, 4)]) /\
  zone_nodes [Body 1 (BOUNDARY_SURFACE, 1); Body 2 (BOUNDARY_SURFACE, 2); Surface 1 [0%nat]; Surface 2 [1%nat]] (zone_of (1, 2)) = Throw.
Proof.
  split; [|vm_compute; split; reflexivity].
  apply (GroupsNext C114_table 5 9 17); try lia; try reflexivity.
  - intros q Hq. do 9 (destruct q as [|q]; [try lia; reflexivity|]). lia.
  - left. eexists. split; [|split; [|split; [|left; split; vm_compute; reflexivity]]]; [discriminate|reflexivity|vm_compute; split; discriminate].
  - intros q Hq. do 17 (destruct q as [|q]; [try lia; reflexivity|]). lia.
  - left. eexists. split; [|split; [|split; [|left; split; vm_compute; reflexivity]]]; [discriminate|reflexivity|vm_compute; split; discriminate].
  - constructor.
Qed.

Definition C114_h : list (mop Z) :=
  [MNode (Define 10 0 0 0 0 0); MNode (Define 20 5 0 0 0 0); MNode (Define 30 5 7 0 0 0); MNode (Define 40 5 7 3 0 0); MCell 1 TETRA4 [10; 20; 30; 40] false 0 100 0].
Definition C114_gs : groups := match grun (empty_groups 0) [GCreate CellG "SOLID" 4; GAdd 0 0%nat] with Ok g => g | _ => empty_groups 0 end.
Definition C114_c : bsconp := mkBsconp 3 5 4.
Definition C114_master (c : bsconp) : list patch := [Tri 10 20 30; Quad 10 20 30 40].
Definition C114_slave (c : bsconp) : list patch := [Tri 10 30 40].
Definition C114_surfs (i : Z) : option (list Z) := if i =? 5 then Some [10; 20; 30; 0; 10; 20; 30; 40] else if i =? 4 then Some [10; 30; 40; 0] else None.
Definition C114_f : face := mkFace 1 10 40 true.
(** A mesh with a solid, a contact of three patches, and the face of the solid opposite to a node. *)
Example C114_case : exists m, mbuilt (-1) 0 true C114_h m /\ gbuilt C114_gs /\
  (forall c, In c [C114_c] -> 0 <= b_id c /\ C114_surfs (b_master c) = Some (concat (map listed (C114_master c))) /\ C114_surfs (b_slave c) = Some (concat (map listed (C114_slave c))) /\
     findGroup C114_gs (numbered "SURFCONT_M_" (b_id c)) = None /\ findGroup C114_gs (numbered "SURFCONT_S_" (b_id c)) = None /\
     forall p, In p (C114_master c) \/ In p (C114_slave c) -> real_patch p /\ Forall (fun i => i <> AUTO_ID) (corners p) /\ (true = true -> NoDup (corners p))) /\
  (exists m' gs', bound_surfaces (-1) 0 C114_surfs [C114_c] (m, C114_gs) = Ok (m', gs') /\ length (cdatas m') = 4%nat) /\
  face_nodes m C114_f 0 [10; 20; 30] /\
  exists m' gs', create_skin (-1) 0 6 [C114_f] (m, C114_gs) = Ok (m', gs') /\ (do c <- findCell m' 1; Ok (c_type c, c_nodeIds c)) = Ok (TRI3, [10; 20; 30]).
Proof.
  destruct (mrun (-1) 0 (empty_mesh 9999999 0 9999999 true) C114_h) as [m| | |] eqn:E; [|vm_compute in E; discriminate..].
  exists m. split; [split; [intros o Ho; cbn in Ho;
    repeat (destruct Ho as [<-|Ho]; [good_tac|]); destruct Ho|exists 9999999, 0, 9999999; exact E]|].
  vm_compute in E. injection E as <-. split; [exists 0, [GCreate CellG "SOLID" 4; GAdd 0 0%nat]; vm_compute; reflexivity|].
  split.
  { intros c [<- |[]]. split; [cbn; lia|]. split; [reflexivity|]. split; [reflexivity|]. split; [vm_compute; reflexivity|]. split; [vm_compute; reflexivity|].
    intros p [[<- |[<- |[]]]|[<- |[]]]; (split; [cbn; auto; discriminate|]); (split; [repeat (constructor; [vm_compute; discriminate|]); constructor|]); intros _;
      repeat (constructor; [cbn; intuition discriminate|]); constructor. }
  split; [eexists _, _; vm_compute; split; reflexivity|]. split; [split; [vm_compute; reflexivity|]; eexists; vm_compute; split; reflexivity|].
  eexists _, _. vm_compute. split; reflexivity.
Qed.
Print Assumptions C114_surface_card.
Print Assumptions C114_contact_card.
Print Assumptions C114_body_card.
Print Assumptions C114_table_partial.
Print Assumptions C114_zones_refuted.
Print Assumptions C114_surfaces.
Print Assumptions C114_fours_refuted.
Print Assumptions C114_missing.
Print Assumptions C114_nodes_partial.
Print Assumptions C114_nodes_refuted.
Print Assumptions C114_skin.
Print Assumptions C114_normal_refuted.
