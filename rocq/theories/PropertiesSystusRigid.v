(** C120: the rigid elements written for Systus keep the model's cells and nodes
    and are given their own extra nodes. *)
From Coq Require Import ZArith List Bool Lia.
From Verif Require Import Base ZMap MeshNodeModel MeshNodeProofs MeshCellModel MeshCellProofs PropertiesMeshCells
  SystusRigidModel SystusRigidProofs.
Import ListNotations.
Open Scope Z_scope.

(** ** Specification *)

(** A set a reader of input files makes: the master is a node of the mesh; every
    cell can be read, has a number that the mesh knows, and joins the master to one
    other node; a relation has 2 to 19 nodes. *)
Record rigid_set {D} (m : mesh D) (e : rkind * rset) : Prop := {
  rg_master : fst e <> KLmpc -> exists d, getNode (mnodes m) (rs_master (snd e)) = Some d;
  rg_cells : forall p, In p (rs_cells (snd e)) -> exists c, findCell m p = Ok c /\
     c_id c <> AUTO_ID /\ findCellPosition m (c_id c) <> None /\
     (trace m = true -> NoDup (c_nodeIds c)) /\
     (fst e <> KLmpc -> exists s, c_nodeIds c = [rs_master (snd e); s]) /\
     (fst e = KLmpc -> (2 <= length (c_nodeIds c) <= 19)%nat) }.

(** Bars, then averaging elements, then relations. *)
Definition of_kind (k : rkind) (l : list (rkind * rset)) : list (rkind * rset) :=
  flat_map (fun e => match fst e, k with
                     | KRbar, KRbar | KRbe3, KRbe3 | KLmpc, KLmpc => [e]
                     | _, _ => []
                     end) l.
Definition in_order l := of_kind KRbar l ++ of_kind KRbe3 l ++ of_kind KLmpc l.

(** [n] is a node the mesh [m] did not have; in [m'] it stands where node [o]
    stands in [m], with the displacement system [cd]. *)
Definition added_at {D} (m m' : mesh D) (o n : Z) (cd : Z) : Prop :=
  getNode (mnodes m) n = None /\ exists a b, getNode (mnodes m) o = Some a /\ getNode (mnodes m') n = Some b /\
    nd_x b = nd_x a /\ nd_y b = nd_y a /\ nd_z b = nd_z a /\ nd_cp b = nd_cp a /\ nd_cd b = cd.

(** The displacement system of node [o]. *)
Definition system_of {D} (m : mesh D) (o cd : Z) : Prop :=
  exists a, getNode (mnodes m) o = Some a /\ nd_cd a = cd.

(** The sets match: the cells of [s'] are those of [s], each with the nodes that
    [R] tells from its old nodes. *)
Definition cells_become {D} (m m' : mesh D) (s s' : rset) (R : list Z -> list Z -> Prop) : Prop :=
  rs_master s' = rs_master s /\
  (forall p, In p (rs_cells s) -> exists q c c', In q (rs_cells s') /\ findCell m p = Ok c /\ findCell m' q = Ok c' /\
     c_id c' = c_id c /\ R (c_nodeIds c) (c_nodeIds c')) /\
  (forall q, In q (rs_cells s') -> exists p c c', In p (rs_cells s) /\ findCell m p = Ok c /\ findCell m' q = Ok c' /\
     c_id c' = c_id c /\ R (c_nodeIds c) (c_nodeIds c')).

(** ** Theorems *)

Lemma in_order_same l : in_order l = filter (isKind KRbar) l ++ filter (isKind KRbe3) l ++ filter (isKind KLmpc) l.
Proof.
  assert (H : forall k, of_kind k l = filter (isKind k) l).
  { intros k. induction l as [|[k' s] l IH]; [reflexivity|]. cbn. unfold of_kind in IH. rewrite IH. destruct k', k; reflexivity. }
  unfold in_order. now rewrite !H.
Qed.

Lemma rigid_good {D} (m : mesh D) e : rigid_set m e -> goodSet m (fst e) (snd e).
Proof.
  intros [H1 H2]. split.
  - intros Hk X. destruct (H1 Hk) as [d Hd]. unfold node in X. congruence.
  - intros p Hp. destruct (H2 p Hp) as (c & A1 & A2 & A3 & A4 & A5 & A6). exists c. repeat (split; [assumption|]).
    split; [|exact A4]. destruct (fst e); cbn; [apply A5; discriminate|apply A5; discriminate|apply A6; reflexivity].
Qed.

Section C120.
Context {D : Type} (R z : D).

Lemma run strict d3 lag tr h m l : mbuilt R z tr h m -> (forall e, In e l -> rigid_set m e) ->
  exists m' l' shs, generateRBEs R strict d3 lag m l = Ok (m', rotsAll d3 (in_order l) shs [], l') /\ ext m m' /\
    length l' = length (in_order l) /\ length shs = length (in_order l) /\
    (forall i e e' sh, nth_error (in_order l) i = Some e -> nth_error l' i = Some e' -> nth_error shs i = Some sh ->
       setDone d3 lag m m' e e' sh /\ forall n, In n sh -> node m n = None) /\
    (forall i j e' f', nth_error l' i = Some e' -> nth_error l' j = Some f' -> i <> j -> setsApart m m' e' f').
Proof.
  intros B Hl. destruct (mbuilt_inv _ _ _ _ _ B) as [I _]. unfold generateRBEs. rewrite <- in_order_same.
  apply setLoop_spec; [exact I|]. intros e He. apply rigid_good, Hl. unfold in_order, of_kind in He.
  rewrite !in_app_iff, !in_flat_map in He.
  destruct He as [(x & Hx & He)|[(x & Hx & He)|(x & Hx & He)]]; destruct (fst x); cbn in He; try contradiction; destruct He as [<-|[]]; exact Hx.
Qed.

(** The preparation never fails on such sets; nodes and cells of the model stay as
    they were; the sets come out in order with their kinds. *)
Theorem C120_kept : forall strict d3 lag tr h m l, mbuilt R z tr h m -> (forall e, In e l -> rigid_set m e) ->
  exists m' rots l', generateRBEs R strict d3 lag m l = Ok (m', rots, l') /\
    (forall id d, getNode (mnodes m) id = Some d -> getNode (mnodes m') id = Some d) /\
    (forall p c, findCell m p = Ok c -> findCell m' p = Ok c) /\
    map fst l' = map fst (in_order l) /\
    map (fun e => rs_master (snd e)) l' = map (fun e => rs_master (snd e)) (in_order l).
Proof.
  intros strict d3 lag tr h m l B Hl. destruct (run strict d3 lag tr h m l B Hl) as (m' & l' & shs & E & X & L1 & L2 & S & _).
  exists m'. eexists. exists l'. split; [exact E|]. destruct X as (_ & _ & X1 & X2 & _).
  split; [exact X1|]. split; [exact X2|].
  assert (Hn : forall A (f : rkind * rset -> A), (forall i e e' sh, nth_error (in_order l) i = Some e ->
     nth_error l' i = Some e' -> nth_error shs i = Some sh -> f e' = f e) -> map f l' = map f (in_order l)).
  { intros A f. clear - L1 L2. revert l' shs L1 L2. induction (in_order l) as [|e r IH]; intros [|e' l'] [|sh shs] L1 L2 H; try discriminate.
    - reflexivity.
    - cbn. f_equal.
      + apply (H 0%nat e e' sh); reflexivity.
      + apply (IH l' shs); [now injection L1|now injection L2|]. intros i a a' sh' H1 H2 H3. apply (H (S i) a a' sh'); assumption. }
  split; apply Hn; intros i e e' sh H1 H2 H3; destruct (S _ _ _ _ H1 H2 H3) as [(S1 & S2 & S3) _].
  - exact S1.
  - apply S3.
Qed.

Lemma set_at strict d3 lag tr h m l m' rots l' i e e' : mbuilt R z tr h m -> (forall e, In e l -> rigid_set m e) ->
  generateRBEs R strict d3 lag m l = Ok (m', rots, l') ->
  nth_error (in_order l) i = Some e -> nth_error l' i = Some e' ->
  exists sh, setDone d3 lag m m' e e' sh /\ (forall n, In n sh -> node m n = None) /\ ext m m'.
Proof.
  intros B Hl E H1 H2. destruct (run strict d3 lag tr h m l B Hl) as (m1 & l1 & shs & E1 & X & L1 & L2 & S & _).
  rewrite E in E1. injection E1 as <- _ <-.
  assert (Hi : (i < length shs)%nat) by (rewrite L2; apply nth_error_Some; congruence).
  destruct (nth_error shs i) as [sh|] eqn:Es; [|apply nth_error_None in Es; lia].
  exists sh. destruct (S _ _ _ _ H1 H2 Es). auto.
Qed.

Lemma become (m m' : mesh D) own k lag sh s s' (Q : list Z -> list Z -> Prop) : cellsDone lag m m' k sh s s' -> own_of k lag = own ->
  (forall (c c' : cell D) lg, In (c_pos c) (rs_cells s) -> findCell m (c_pos c) = Ok c -> c_nodeIds c' = c_nodeIds c ++ sh ++ lg ->
      (forall n, In n lg -> ~ In n sh) -> lagOf m m' own c lg -> Q (c_nodeIds c) (c_nodeIds c')) ->
  (forall p c, findCell m p = Ok c -> c_pos c = p) -> cells_become m m' s s' Q.
Proof.
  intros (H1 & H2 & H3 & _) Ho HQ Hpos. rewrite Ho in *.
  assert (K : forall p q, In p (rs_cells s) -> cellDone m m' own sh p q ->
    exists c c', findCell m p = Ok c /\ findCell m' q = Ok c' /\ c_id c' = c_id c /\ Q (c_nodeIds c) (c_nodeIds c')).
  { intros p q Hp (c & c' & lg & A1 & A2 & [A3 A3'] & A4 & A5). exists c, c'. repeat (split; [assumption|]).
    apply (HQ c c' lg); auto; now rewrite (Hpos _ _ A1). }
  split; [exact H1|]. split.
  - intros p Hp. destruct (H2 p Hp) as (q & Hq & C). destruct (K _ _ Hp C) as (c & c' & X). exists q, c, c'. auto.
  - intros q Hq. destruct (H3 q Hq) as (p & Hp & C). destruct (K _ _ Hp C) as (c & c' & X). exists p, c, c'. auto.
Qed.

Lemma pos_of (m : mesh D) p c : findCell m p = Ok c -> c_pos c = p.
Proof.
  unfold findCell. destruct (nth_error (cdatas m) p); [|discriminate].
  destruct (slice _ _ _); [|discriminate]. destruct (mapM _ _); cbn; try discriminate.
  match goal with |- context [bind ?x _] => destruct x; cbn; try discriminate end. intros X. injection X as <-. reflexivity.
Qed.

Lemma clone_added (m m' : mesh D) o d cd n : node m o = Some d -> clone m m' d cd n -> added_at m m' o n cd.
Proof. intros Ho (H1 & d' & H2 & H3). split; [exact H1|]. exists d, d'. auto. Qed.

Lemma set_in (m : mesh D) l i e : (forall e, In e l -> rigid_set m e) -> nth_error (in_order l) i = Some e -> rigid_set m e.
Proof.
  intros Hl H1. apply Hl. apply nth_error_In in H1. unfold in_order, of_kind in H1. rewrite !in_app_iff, !in_flat_map in H1.
  destruct H1 as [(x & Hx & H1)|[(x & Hx & H1)|(x & Hx & H1)]]; destruct (fst x); cbn in H1; try contradiction;
    destruct H1 as [<-|[]]; exact Hx.
Qed.

Lemma shape_of (m : mesh D) k s p c : rigid_set m (k, s) -> k <> KLmpc -> In p (rs_cells s) -> findCell m p = Ok c ->
  exists y, c_nodeIds c = [rs_master s; y].
Proof.
  intros Hset Hk Hp Fc. destruct (rg_cells _ _ Hset p Hp) as (c0 & F0 & _ & _ & _ & A & _).
  assert (c0 = c) by congruence. subst c0. apply A, Hk.
Qed.

(** Bars: [master; slave], then with the 3D option the rotation node of the set,
    then in the Lagrangian mode a node of the cell's own at the slave. *)
Theorem C120_bars : forall strict d3 lag tr h m l m' rots l' i s s', mbuilt R z tr h m ->
  (forall e, In e l -> rigid_set m e) -> generateRBEs R strict d3 lag m l = Ok (m', rots, l') ->
  nth_error (in_order l) i = Some (KRbar, s) -> nth_error l' i = Some (KRbar, s') ->
  exists rot cd, system_of m (rs_master s) cd /\ (d3 = true -> added_at m m' (rs_master s) rot cd) /\
    cells_become m m' s s' (fun old new => exists slave lg, old = [rs_master s; slave] /\
       (lag = true -> added_at m m' slave lg 0) /\ (d3 = true -> lag = true -> lg <> rot) /\
       new = [rs_master s; slave] ++ (if d3 then [rot] else []) ++ (if lag then [lg] else [])).
Proof.
  intros strict d3 lag tr h m l m' rots l' i s s' B Hl E H1 H2.
  destruct (set_at _ _ _ _ _ _ _ _ _ _ _ _ _ B Hl E H1 H2) as (sh & (_ & S & C) & Hsh & X).
  pose proof (set_in _ _ _ _ Hl H1) as Hset. cbn [fst snd] in *. destruct S as (d & Hd & Hs).
  exists (hd 0 sh), (nd_cd d). split; [exists d; auto|].
  split; [intros ->; destruct Hs as (r & -> & Hr); cbn; eapply clone_added; eauto|].
  assert (Hshv : sh = if d3 then [hd 0 sh] else []) by (destruct d3; [destruct Hs as (r & -> & _); reflexivity|exact Hs]).
  eapply become; [exact C|reflexivity| |apply pos_of]. intros c c' lg Hp Fc Hn Hap Hlg.
  destruct (shape_of _ _ _ _ _ Hset ltac:(discriminate) Hp Fc) as [y Hy].
  cbn in Hlg. destruct lag; cbn in Hlg.
  - destruct Hlg as (n & dn & l0 & A1 & A2 & -> & A4). rewrite Hy in A1. cbn in A1. injection A1 as <-.
    exists y, l0. split; [exact Hy|]. split; [intros _; eapply clone_added; eauto|]. split.
    + intros -> _ ->. apply (Hap (hd 0 sh)); [now left|]. rewrite Hshv. now left.
    + rewrite Hn, Hy. rewrite Hshv at 1. reflexivity.
  - subst lg. exists y, 0. split; [exact Hy|]. split; [discriminate|]. split; [discriminate|].
    rewrite Hn, Hy. rewrite Hshv at 1. reflexivity.
Qed.

(** Averaging elements: [master; slave], the rotation node (3D option), a Lagrange
    node, and a second Lagrange node for the rotations (3D option): all at the
    master and the same for every cell of the set. *)
Theorem C120_averages : forall strict d3 lag tr h m l m' rots l' i s s', mbuilt R z tr h m ->
  (forall e, In e l -> rigid_set m e) -> generateRBEs R strict d3 lag m l = Ok (m', rots, l') ->
  nth_error (in_order l) i = Some (KRbe3, s) -> nth_error l' i = Some (KRbe3, s') ->
  exists rot lg lgr cd, system_of m (rs_master s) cd /\ added_at m m' (rs_master s) lg 0 /\
    (d3 = true -> added_at m m' (rs_master s) rot cd /\ added_at m m' (rs_master s) lgr 0 /\ NoDup [rot; lg; lgr]) /\
    cells_become m m' s s' (fun old new => exists slave, old = [rs_master s; slave] /\
       new = [rs_master s; slave] ++ (if d3 then [rot; lg; lgr] else [lg])).
Proof.
  intros strict d3 lag tr h m l m' rots l' i s s' B Hl E H1 H2.
  destruct (set_at _ _ _ _ _ _ _ _ _ _ _ _ _ B Hl E H1 H2) as (sh & (_ & S & C) & Hsh & X).
  pose proof (set_in _ _ _ _ Hl H1) as Hset. cbn [fst snd] in *. destruct S as (d & lg & Hd & Hc & Hs).
  destruct d3.
  - destruct Hs as (r & lr & -> & N & Hr & Hlr). exists r, lg, lr, (nd_cd d). split; [exists d; auto|].
    split; [eapply clone_added; eauto|].
    split; [intros _; split; [eapply clone_added; eauto|split; [eapply clone_added; eauto|exact N]]|].
    eapply become; [exact C|reflexivity| |apply pos_of]. cbn. intros c c' l0 Hp Fc Hn Hap ->.
    destruct (shape_of _ _ _ _ _ Hset ltac:(discriminate) Hp Fc) as [y Hy]. exists y. split; [exact Hy|]. rewrite Hn, Hy. reflexivity.
  - subst sh. exists 0, lg, 0, (nd_cd d). split; [exists d; auto|]. split; [eapply clone_added; eauto|]. split; [discriminate|].
    eapply become; [exact C|reflexivity| |apply pos_of]. cbn. intros c c' l0 Hp Fc Hn Hap ->.
    destruct (shape_of _ _ _ _ _ Hset ltac:(discriminate) Hp Fc) as [y Hy]. exists y. split; [exact Hy|]. rewrite Hn, Hy. reflexivity.
Qed.

(** Relations: in the Lagrangian mode a node of the cell's own at its first node,
    otherwise nothing. *)
Theorem C120_relations : forall strict d3 lag tr h m l m' rots l' i s s', mbuilt R z tr h m ->
  (forall e, In e l -> rigid_set m e) -> generateRBEs R strict d3 lag m l = Ok (m', rots, l') ->
  nth_error (in_order l) i = Some (KLmpc, s) -> nth_error l' i = Some (KLmpc, s') ->
  cells_become m m' s s' (fun old new =>
    if lag then exists first rest lg, old = first :: rest /\ added_at m m' first lg 0 /\ new = old ++ [lg] else new = old).
Proof.
  intros strict d3 lag tr h m l m' rots l' i s s' B Hl E H1 H2.
  destruct (set_at _ _ _ _ _ _ _ _ _ _ _ _ _ B Hl E H1 H2) as (sh & (_ & S & C) & Hsh & X).
  cbn [fst snd] in *. cbn in S. subst sh.
  eapply become; [exact C|reflexivity| |apply pos_of]. intros c c' lg Hp Fc Hn _ Hlg. destruct lag; cbn in Hlg.
  - destruct Hlg as (n & dn & l0 & A1 & A2 & -> & A4). destruct (c_nodeIds c) as [|f r] eqn:Ec; [discriminate|].
    cbn in A1. injection A1 as <-. exists f, r, l0. split; [reflexivity|]. split; [eapply clone_added; eauto|]. exact Hn.
  - subst lg. rewrite Hn. cbn. now rewrite app_nil_r.
Qed.

(** No new node belongs to two sets; within a set of bars or relations, only the
    rotation node is in two cells. *)
Theorem C120_apart : forall strict d3 lag tr h m l m' rots l', mbuilt R z tr h m ->
  (forall e, In e l -> rigid_set m e) -> generateRBEs R strict d3 lag m l = Ok (m', rots, l') ->
  forall i j e f q1 q2 c1 c2 n, nth_error l' i = Some e -> nth_error l' j = Some f ->
    In q1 (rs_cells (snd e)) -> In q2 (rs_cells (snd f)) -> findCell m' q1 = Ok c1 -> findCell m' q2 = Ok c2 ->
    getNode (mnodes m) n = None -> In n (c_nodeIds c1) -> In n (c_nodeIds c2) ->
    i = j /\ (q1 = q2 \/ fst e = KRbe3 \/ (fst e = KRbar /\ d3 = true /\ nth_error (c_nodeIds c1) 2 = Some n)).
Proof.
  intros strict d3 lag tr h m l m' rots l' B Hl E i j e f q1 q2 c1 c2 n H1 H2 Q1 Q2 F1 F2 Hn G1 G2.
  destruct (run strict d3 lag tr h m l B Hl) as (m1 & l1 & shs & E1 & X & L1 & L2 & S & A).
  rewrite E in E1. injection E1 as <- _ <-.
  destruct (Nat.eq_dec i j) as [<-|Hne].
  - split; [reflexivity|]. assert (f = e) by congruence. subst f.
    assert (Hi : (i < length (in_order l))%nat) by (rewrite <- L1; apply nth_error_Some; congruence).
    destruct (nth_error (in_order l) i) as [[k s]|] eqn:Ek; [|apply nth_error_None in Ek; lia].
    destruct (nth_error shs i) as [sh|] eqn:Es; [|apply nth_error_None in Es; lia].
    destruct (S _ _ _ _ Ek H1 Es) as [(S1 & S2 & S3) _]. cbn [fst snd] in *. rewrite S1.
    pose proof (set_in _ _ _ _ Hl Ek) as Hset.
    destruct S3 as (_ & _ & S3 & S4). destruct (S4 _ _ _ _ _ Q1 Q2 F1 F2 Hn G1 G2) as [Hi'| ->]; [|auto].
    right. destruct k; [|auto|cbn in S2; subst sh; contradiction].
    right. split; [reflexivity|]. destruct S2 as (d & _ & S2). destruct d3; [|subst sh; contradiction].
    destruct S2 as (r & -> & _). destruct Hi' as [->|[]]. split; [reflexivity|].
    destruct (S3 _ Q1) as (p & Hp & (c & c' & lg & A1 & A2 & _ & A4 & _)). assert (c' = c1) by congruence. subst c'.
    destruct (shape_of _ _ _ _ _ Hset ltac:(discriminate) Hp A1) as [y Hy]. rewrite A4, Hy. reflexivity.
  - exfalso. apply (A i j e f H1 H2 Hne q1 q2 c1 c2 n); assumption.
Qed.

(** The rotation node that loads, constraints and degrees of freedom are moved to
    is the one of the cells, for a master of one set only. *)
Theorem C120_rotation_map_partial : forall strict lag tr h m l m' rots l' i e e' q c, mbuilt R z tr h m ->
  (forall e, In e l -> rigid_set m e) -> generateRBEs R strict true lag m l = Ok (m', rots, l') ->
  nth_error (in_order l) i = Some e -> nth_error l' i = Some e' -> fst e <> KLmpc ->
  (forall j f, nth_error (in_order l) j = Some f -> fst f <> KLmpc -> rs_master (snd f) = rs_master (snd e) -> j = i) ->
  In q (rs_cells (snd e')) -> findCell m' q = Ok c ->
  exists r, zfind rots (rs_master (snd e)) = Some r /\ nth_error (c_nodeIds c) 2 = Some r.
Proof.
  intros strict lag tr h m l m' rots l' i e e' q c B Hl E H1 H2 Hk Hone Q F.
  destruct (run strict true lag tr h m l B Hl) as (m1 & l1 & shs & E1 & X & L1 & L2 & S & A).
  rewrite E in E1. injection E1 as <- -> <-.
  assert (Hi : (i < length shs)%nat) by (rewrite L2; apply nth_error_Some; congruence).
  destruct (nth_error shs i) as [sh|] eqn:Es; [|apply nth_error_None in Es; lia].
  exists (hd 0 sh). split.
  - eapply rotsAll_at; eauto; [constructor|]. intros j f Hj Hf Hkf Heq. specialize (Hone j f Hf Hkf Heq). lia.
  - destruct (S _ _ _ _ H1 H2 Es) as [(S1 & S2 & _ & _ & S3 & _) _].
    destruct (S3 _ Q) as (p & Hp & (c0 & c' & lg & A1 & A2 & _ & A4 & _)). assert (c' = c) by congruence. subst c'.
    pose proof (set_in _ _ _ _ Hl H1) as Hset. destruct e as [k s]. cbn [fst snd] in *.
    destruct (shape_of _ _ _ _ _ Hset Hk Hp A1) as [y Hy]. rewrite A4, Hy. cbn.
    destruct k; cbn in S2; [| |contradiction].
    + destruct S2 as (d & _ & r & -> & _). reflexivity.
    + destruct S2 as (d & l0 & _ & _ & r & lr & -> & _). reflexivity.
Qed.

(** Without the 3D option no degree of freedom is moved. *)
Theorem C120_no_rotation : forall strict lag tr h m l m' rots l', mbuilt R z tr h m ->
  (forall e, In e l -> rigid_set m e) -> generateRBEs R strict false lag m l = Ok (m', rots, l') -> rots = [].
Proof.
  intros strict lag tr h m l m' rots l' B Hl E.
  destruct (run strict false lag tr h m l B Hl) as (m1 & l1 & shs & E1 & _ & L1 & L2 & _).
  rewrite E in E1. injection E1 as <- -> <-. clear E L1 L2. unfold rotsAll.
  generalize (combine (in_order l) shs). intros q. induction q as [|[[k s] sh] q IH]; cbn; [reflexivity|].
  destruct k; cbn; exact IH.
Qed.

(** A master that is not a node of the mesh is refused. *)
Theorem C120_missing_master : forall strict d3 lag tr h m l e, mbuilt R z tr h m ->
  nth_error (in_order l) 0 = Some e -> fst e <> KLmpc -> getNode (mnodes m) (rs_master (snd e)) = None ->
  generateRBEs R strict d3 lag m l = Throw.
Proof.
  intros strict d3 lag tr h m l [k s] B H Hk Hn. destruct (mbuilt_inv _ _ _ _ _ B) as [I _].
  unfold generateRBEs. rewrite <- in_order_same. destruct (in_order l) as [|f r]; [discriminate|]. injection H as ->.
  assert (Hp : findNodePosition (mnodes m) (rs_master s) = None).
  { cbn [snd] in Hn. unfold getNode in Hn. destruct (findNodePosition (mnodes m) (rs_master s)) as [p|] eqn:Ep; [|reflexivity].
    apply (proj2 (ci_nodes _ I)) in Ep. destruct Ep as (d & Ed & _). congruence. }
  cbn [setLoop fst snd] in *. destruct k; cbn [oneSet]; [unfold rbarSet|unfold rbe3Set|contradiction]; rewrite Hp; reflexivity.
Qed.

(** In strict mode a set of bars or averaging elements whose first cell does not join
    the master to one other node is refused. *)
Theorem C120_malformed : forall d3 lag tr h m l k s p rest c, mbuilt R z tr h m ->
  nth_error (in_order l) 0 = Some (k, s) -> k <> KLmpc -> rs_cells s = p :: rest -> findCell m p = Ok c ->
  (forall y, c_nodeIds c <> [rs_master s; y]) -> generateRBEs R true d3 lag m l = Throw.
Proof.
  intros d3 lag tr h m l k s p rest c B H Hk Hs Fc Hbad. destruct (mbuilt_inv _ _ _ _ _ B) as [I _].
  unfold generateRBEs. rewrite <- in_order_same. destruct (in_order l) as [|f r]; [discriminate|]. injection H as ->.
  assert (Hw : wellShaped k (rs_master s) (c_nodeIds c) = false).
  { destruct k; [| |contradiction]; cbn; destruct (c_nodeIds c) as [|a [|b [|q w]]]; cbn; try reflexivity;
      (destruct (Z.eqb_spec a (rs_master s)) as [->|]; [exfalso; apply (Hbad b); reflexivity|reflexivity]). }
  assert (Hstep : forall sh own m1, ext m m1 -> cellLoop R true k (rs_master s) sh own m1 (rs_cells s) = Throw).
  { intros sh own m1 (_ & _ & _ & E & _). rewrite Hs. cbn [cellLoop]. unfold cellStep. rewrite (E _ _ Fc). cbn [bind].
    rewrite Hw. reflexivity. }
  cbn [setLoop].
  destruct (findNodePosition (mnodes m) (rs_master s)) as [mp|] eqn:Ep.
  2: { destruct k; cbn [oneSet]; [unfold rbarSet|unfold rbe3Set|contradiction]; rewrite Ep; reflexivity. }
  pose proof Ep as Ep'. apply (proj2 (ci_nodes _ I)) in Ep'. destruct Ep' as (d & Ed & _).
  destruct k; cbn [oneSet]; [unfold rbarSet|unfold rbe3Set|contradiction]; rewrite Ep; cbn [nodeAt]; rewrite Ed; cbn [bind].
  - destruct d3; cbn [bind].
    + destruct (cloneNode_spec m d (nd_cd d) I) as (m1 & x & -> & E1 & _). cbn [bind]. rewrite Hstep by exact E1. reflexivity.
    + rewrite Hstep by (apply ext_refl, I). reflexivity.
  - destruct (cloneNode_spec m d 0 I) as (m1 & x & -> & E1 & _). cbn [bind]. destruct d3; cbn [bind].
    + destruct (cloneNode_spec m1 d (nd_cd d) ltac:(apply E1)) as (m2 & x2 & -> & E2 & _). cbn [bind].
      destruct (cloneNode_spec m2 d 0 ltac:(apply E2)) as (m3 & x3 & -> & E3 & _). cbn [bind].
      rewrite Hstep by exact (ext_trans _ _ _ (ext_trans _ _ _ E1 E2) E3). reflexivity.
    + rewrite Hstep by exact E1. reflexivity.
Qed.
End C120.

(** ** Witnesses *)

(** Nodes 1 to 5, a bar set of master 1 with two cells, an averaging set of master
    4, a relation between nodes 2 and 3. *)
Definition w_history : list (mop Z) :=
  [MNode (Define 1 0 0 0 0 7); MNode (Define 2 1 0 0 0 0); MNode (Define 3 0 1 0 0 0);
   MNode (Define 4 0 0 5 0 0); MNode (Define 5 1 1 1 0 0);
   MCell 10 SEG2 [1; 2] true 0 100 0; MCell 11 SEG2 [1; 3] true 0 100 0;
   MCell 12 SEG2 [4; 5] true 0 101 0; MCell 13 SEG2 [2; 3] true 0 102 0;
   MCell 14 SEG2 [1; 4] true 0 103 0; MCell 15 POINT1 [5] true 0 104 0].
Definition w_mesh : mesh Z :=
  match mrun (-1) 0 (empty_mesh 9999999 0 9999999 true) w_history with Ok m => m | _ => empty_mesh 0 0 0 true end.
Definition w_sets : list (rkind * rset) :=
  [(KLmpc, mkRS 0 [3%nat]); (KRbar, mkRS 1 [0%nat; 1%nat]); (KRbe3, mkRS 4 [2%nat])].

Lemma w_built : mbuilt (-1) 0 true w_history w_mesh.
Proof.
  split; [|exists 9999999, 0, 9999999; unfold w_mesh;
    assert (match mrun (-1) 0 (empty_mesh 9999999 0 9999999 true) w_history with Ok _ => true | _ => false end = true)
      as H by (vm_compute; reflexivity);
    destruct (mrun (-1) 0 (empty_mesh 9999999 0 9999999 true) w_history); (reflexivity || discriminate)].
  cbn [In w_history]. intros o H. repeat (destruct H as [<-|H]; [good_tac|]). destruct H.
Qed.

Lemma w_nodup (l : list Z) : (if list_eq_dec Z.eq_dec (nodup Z.eq_dec l) l then true else false) = true -> NoDup l.
Proof. destruct (list_eq_dec Z.eq_dec (nodup Z.eq_dec l) l) as [E|]; [|discriminate]. intros _. rewrite <- E. apply NoDup_nodup. Qed.

Example C120_case : mbuilt (-1) 0 true w_history w_mesh /\ (forall e, In e w_sets -> rigid_set w_mesh e) /\
  match generateRBEs (-1) true true true w_mesh w_sets with
  | Ok (m', rots, l') =>
      (map (fun e => (fst e, map (fun q => match findCell m' q with Ok c => (c_id c, c_nodeIds c) | _ => (0, []) end)
                               (rs_cells (snd e)))) l' =
        [(KRbar, [(10, [1; 2; 9999999; 9999998]); (11, [1; 3; 9999999; 9999997])]);
         (KRbe3, [(12, [4; 5; 9999995; 9999996; 9999994])]);
         (KLmpc, [(13, [2; 3; 9999993])])] /\
      rots = [(1, 9999999); (4, 9999995)])
  | _ => False
  end.
Proof.
  split; [exact w_built|]. split; [|vm_compute; auto].
  cbn [In w_sets]. intros e [<-|[<-|[<-|[]]]].
  - split; cbn [fst snd]; [intros X; exfalso; apply X; reflexivity|].
    cbn [In rs_cells]. intros p [<-|[]]. eexists. split; [vm_compute; reflexivity|]. cbn [fst snd c_id c_nodeIds rs_master].
    split; [discriminate|]. split; [vm_compute; discriminate|]. split; [intros _; apply w_nodup; reflexivity|].
    split; [intros X; exfalso; apply X; reflexivity|intros _; cbn; lia].
  - split; cbn [fst snd]; [intros _; eexists; vm_compute; reflexivity|].
    cbn [In rs_cells]. intros p [<-|[<-|[]]]; (eexists; split; [vm_compute; reflexivity|]; cbn [fst snd c_id c_nodeIds rs_master];
    split; [discriminate|]; split; [vm_compute; discriminate|]; split; [intros _; apply w_nodup; reflexivity|];
    split; [eauto|discriminate]).
  - split; cbn [fst snd]; [intros _; eexists; vm_compute; reflexivity|].
    cbn [In rs_cells]. intros p [<-|[]]. eexists. split; [vm_compute; reflexivity|]. cbn [fst snd c_id c_nodeIds rs_master].
    split; [discriminate|]. split; [vm_compute; discriminate|]. split; [intros _; apply w_nodup; reflexivity|].
    split; [eauto|discriminate].
Qed.

Definition run_of (strict d3 lag : bool) (l : list (rkind * rset)) : mesh Z * zmap Z * list (rkind * rset) :=
  match generateRBEs (-1) strict d3 lag w_mesh l with Ok x => x | _ => (w_mesh, [], []) end.
Definition w_two := run_of true true false [(KRbar, mkRS 1 [0%nat; 1%nat]); (KRbar, mkRS 1 [4%nat])].
Definition w_one := run_of true true true [(KLmpc, mkRS 0 [5%nat])].
Lemma run_of_ok strict d3 lag l r : l <> [] -> snd (run_of strict d3 lag l) = r -> r <> [] ->
  generateRBEs (-1) strict d3 lag w_mesh l =
    Ok (fst (fst (run_of strict d3 lag l)), snd (fst (run_of strict d3 lag l)), r).
Proof.
  unfold run_of. destruct (generateRBEs (-1) strict d3 lag w_mesh l) as [[[x w] y]| | |]; cbn [fst snd]; intros _ <- H;
    [reflexivity|contradiction|contradiction|contradiction].
Qed.

(** A cell that goes from a slave to the master, in strict mode, and a master that
    is not in the mesh. *)
Example C120_refusals :
  nth_error (in_order [(KRbar, mkRS 2 [0%nat])]) 0 = Some (KRbar, mkRS 2 [0%nat]) /\
  (exists c, findCell w_mesh 0 = Ok c /\ c_nodeIds c = [1; 2]) /\
  generateRBEs (-1) true true true w_mesh [(KRbar, mkRS 2 [0%nat])] = Throw /\
  getNode (mnodes w_mesh) 77 = None /\
  generateRBEs (-1) false true true w_mesh [(KRbe3, mkRS 77 [2%nat])] = Throw.
Proof.
  split; [reflexivity|]. split; [eexists; split; vm_compute; reflexivity|]. repeat split; vm_compute; reflexivity.
Qed.

(** Two rigid bodies that share their master do not share its rotation: each gets a
    rotation node of its own, and what concerns the rotations of the master goes to
    the last one only. *)
Theorem C120_shared_master_refuted : exists (m : mesh Z) s1 s2 m' rots s1' s2' q1 q2 c1 c2 r1 r2,
  mbuilt (-1) 0 true w_history m /\ rigid_set m (KRbar, s1) /\ rigid_set m (KRbar, s2) /\
  rs_master s1 = 1 /\ rs_master s2 = 1 /\
  generateRBEs (-1) true true false m [(KRbar, s1); (KRbar, s2)] = Ok (m', rots, [(KRbar, s1'); (KRbar, s2')]) /\
  In q1 (rs_cells s1') /\ In q2 (rs_cells s2') /\ findCell m' q1 = Ok c1 /\ findCell m' q2 = Ok c2 /\
  nth_error (c_nodeIds c1) 2 = Some r1 /\ nth_error (c_nodeIds c2) 2 = Some r2 /\ r1 <> r2 /\
  zfind rots 1 = Some r2.
Proof.
  exists w_mesh, (mkRS 1 [0%nat; 1%nat]), (mkRS 1 [4%nat]).
  exists (fst (fst w_two)), (snd (fst w_two)), (mkRS 1 [6%nat; 7%nat]), (mkRS 1 [8%nat]), 6%nat, 8%nat.
  do 4 eexists. split; [exact w_built|]. split; [|split].
  - split; cbn [fst snd]; [intros _; eexists; vm_compute; reflexivity|].
    cbn [In rs_cells]. intros p [<-|[<-|[]]]; (eexists; split; [vm_compute; reflexivity|]; cbn [fst snd c_id c_nodeIds rs_master];
    split; [discriminate|]; split; [vm_compute; discriminate|]; split; [intros _; apply w_nodup; reflexivity|];
    split; [eauto|discriminate]).
  - split; cbn [fst snd]; [intros _; eexists; vm_compute; reflexivity|].
    cbn [In rs_cells]. intros p [<-|[]]. eexists. split; [vm_compute; reflexivity|]. cbn [fst snd c_id c_nodeIds rs_master].
    split; [discriminate|]. split; [vm_compute; discriminate|]. split; [intros _; apply w_nodup; reflexivity|].
    split; [eauto|discriminate].
  - split; [reflexivity|]. split; [reflexivity|]. split.
    { unfold w_two. apply run_of_ok; [discriminate|vm_compute; reflexivity|discriminate]. }
    split; [cbn; left; reflexivity|]. split; [cbn; left; reflexivity|]. split; [vm_compute; reflexivity|]. split; [vm_compute; reflexivity|].
    split; [reflexivity|]. split; [reflexivity|]. split; [discriminate|vm_compute; reflexivity].
Qed.

(** A relation on the degrees of freedom of one node: in the Lagrangian mode its cell
    can no longer be read, and the preparation reports no error. *)
Theorem C120_single_node_refuted : exists (m m' : mesh Z) rots q,
  mbuilt (-1) 0 true w_history m /\
  (exists c, findCell m 5 = Ok c /\ c_nodeIds c = [5]) /\
  generateRBEs (-1) true true true m [(KLmpc, mkRS 0 [5%nat])] = Ok (m', rots, [(KLmpc, mkRS 0 [q])]) /\
  findCell m' q = UB.
Proof.
  exists w_mesh, (fst (fst w_one)), (snd (fst w_one)), 6%nat. split; [exact w_built|].
  split; [eexists; split; vm_compute; reflexivity|]. split; [|vm_compute; reflexivity].
  unfold w_one. apply run_of_ok; [discriminate|vm_compute; reflexivity|discriminate].
Qed.

(** A relation of twenty nodes is refused in the Lagrangian mode. *)
Theorem C120_twenty_nodes : forall D (R z : D) strict d3 tr h m s p c, mbuilt R z tr h m -> rs_cells s = [p] ->
  findCell m p = Ok c -> (20 <= length (c_nodeIds c))%nat ->
  generateRBEs R strict d3 true m [(KLmpc, s)] = Throw.
Proof.
  intros D R z strict d3 tr h m s p c B Hs Fc Hl. destruct (mbuilt_inv _ _ _ _ _ B) as [I _].
  unfold generateRBEs. cbn. unfold lmpcSet. rewrite Hs. cbn [cellLoop]. unfold cellStep. rewrite Fc. cbn [bind wellShaped negb].
  rewrite andb_false_r. destruct (findCell_nodes m p c I Fc) as [Hm _]. destruct (mapM_nth _ _ _ Hm) as [L N].
  destruct (nth_error (c_nodePos c) 0) as [np|] eqn:Ep; [|apply nth_error_None in Ep; lia].
  destruct (N _ _ Ep) as (n & _ & Fn). unfold findNodeId in Fn. cbn [nodeAt].
  destruct (nth_error (ndatas (mnodes m)) np) as [d|]; [|discriminate]. cbn [bind].
  destruct (cloneNode_spec m d 0 I) as (m1 & l & -> & _). cbn [bind app].
  assert (retype strict KLmpc (length (c_nodeIds c ++ [l])) = Throw) as ->; [|reflexivity].
  rewrite app_length. cbn [length]. remember (length (c_nodeIds c) + 1)%nat as k eqn:Ek.
  assert (Hk : (21 <= k)%nat) by lia. clear Ek. unfold retype, polyType. destruct k as [|[|[|k]]]; try lia.
  assert (Nat.leb (S (S (S k))) 20 = false) as -> by (apply Nat.leb_gt; lia). rewrite andb_false_r. reflexivity.
Qed.
Print Assumptions C120_kept.
Print Assumptions C120_bars.
Print Assumptions C120_averages.
Print Assumptions C120_relations.
Print Assumptions C120_apart.
Print Assumptions C120_rotation_map_partial.
Print Assumptions C120_no_rotation.
Print Assumptions C120_missing_master.
Print Assumptions C120_malformed.
Print Assumptions C120_shared_master_refuted.
Print Assumptions C120_single_node_refuted.
Print Assumptions C120_twenty_nodes.
