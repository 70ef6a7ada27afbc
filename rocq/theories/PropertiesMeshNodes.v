(** Properties C10-C13, C51, C52: nodes of a mesh. *)
From Coq Require Import ZArith List Bool Lia.
From Verif Require Import Base ZMap MeshNodeModel MeshNodeProofs MeshPartProofs.
Import ListNotations.
Open Scope Z_scope.

(** A mesh [s] built from nothing by the calls [h] (in that order); [a] and [l]
    are the values the static counters had, and AUTO_ID is not used as the
    number of an existing node. *)
Definition built {D} (R : D) (a l : Z) (h : list (nop D)) (s : nodes D) : Prop :=
  0 <= l /\ no_auto_use h /\ nrun R (empty_nodes a l) h = Ok s.

Lemma built_inv {D} (R : D) a l h s : built R a l h s -> ninv s.
Proof.
  intros (_ & Hn & H). eapply nrun_inv; [apply (ninv_empty a l)|exact Hn|exact H].
Qed.

Lemma built_app {D} (R : D) a l h1 h2 s : built R a l (h1 ++ h2) s ->
  exists s1, built R a l h1 s1 /\ nrun R s1 h2 = Ok s /\ no_auto_use h2.
Proof.
  intros (Hl & Hn & H). unfold nrun in H. rewrite foldM_app in H.
  destruct (foldM (nstep R) h1 (empty_nodes a l)) as [s1| | |] eqn:E; cbn in H; try discriminate.
  exists s1. split; [|split; [exact H|]].
  - split; [exact Hl|]. split; [|exact E]. intros id c Hi. apply (Hn id c), in_or_app. auto.
  - intros id c Hi. apply (Hn id c), in_or_app. auto.
Qed.

(** ** C10: identifiers and positions are in bijection, positions are stable *)

(** Definitions and uses never fail, whatever their order. *)
Theorem C10_never_fails : forall D (R : D) a l h, 0 <= l -> no_auto_use h ->
  (forall id b, ~ In (Allow id b) h) -> exists s, built R a l h s.
Proof.
  intros D R a l h Hl Hn Ha.
  assert (exists s, nrun R (empty_nodes a l) h = Ok s) as [s Hs]; [|exists s; split; auto].
  generalize (ninv_empty (D := D) a l). generalize (empty_nodes (D := D) a l).
  clear l Hl. induction h as [|o h IH]; intros s I; cbn; [eauto|].
  assert (Ho : nop_ok s o).
  { destruct o as [| |id b]; cbn; [exact Logic.I|eapply Hn; left; reflexivity|]. exfalso. eapply Ha. left. reflexivity. }
  destruct (nstep_inv R s o I Ho) as (s1 & E & I1 & _). rewrite E. cbn. apply IH.
  - intros id c Hi. eapply Hn. right. exact Hi.
  - intros id b Hi. eapply Ha. right. exact Hi.
  - exact I1.
Qed.

(** [findNodePosition] and [findNodeId] are inverse bijections between the
    known identifiers and the positions 0..count-1. *)
Theorem C10_bijection : forall D (R : D) a l h s, built R a l h s ->
  (forall id p, findNodePosition s id = Some p -> findNodeId s p = Ok id /\ (p < countNodes s)%nat) /\
  (forall p, (p < countNodes s)%nat -> exists id, findNodeId s p = Ok id /\ findNodePosition s id = Some p).
Proof.
  intros D R a l h s H. apply built_inv in H. destruct H as [W B]. unfold findNodeId, countNodes, findNodePosition.
  split.
  - intros id p Hp. apply B in Hp. destruct Hp as (d & H1 & H2). rewrite H1. split; [congruence|].
    apply nth_error_Some. congruence.
  - intros p Hp. apply nth_error_Some in Hp. destruct (nth_error (ndatas s) p) as [d|] eqn:E; [|congruence].
    exists (nd_id d). split; [reflexivity|]. apply B. eauto.
Qed.

(** Once a number has a position, no later call changes it. *)
Theorem C10_position_stable : forall D (R : D) a l h1 h2 s1 s2 id p,
  built R a l h1 s1 -> built R a l (h1 ++ h2) s2 ->
  findNodePosition s1 id = Some p -> findNodePosition s2 id = Some p.
Proof.
  intros D R a l h1 h2 s1 s2 id p H1 H2 Hp. apply built_app in H2. destruct H2 as (s1' & H1' & H2 & Hn).
  assert (s1' = s1) by (destruct H1 as (_ & _ & A), H1' as (_ & _ & B); congruence). subst s1'.
  eapply nrun_inv; [eapply built_inv; exact H1|exact Hn|exact H2|exact Hp].
Qed.

(** Iterating over the nodes visits every node exactly once, by increasing number. *)
Theorem C10_iteration : forall D (R : D) a l h s, built R a l h s ->
  exists ds, iterateNodes s = Ok ds /\ (forall d, In d ds <-> In d (ndatas s)) /\
    (forall i j d e, (i < j)%nat -> nth_error ds i = Some d -> nth_error ds j = Some e -> nd_id d < nd_id e).
Proof.
  intros D R a l h s H. apply built_inv in H. destruct H as [W B].
  assert (Hall : forall m : zmap nat, (forall k p, In (k, p) m -> In (k, p) (npos s)) -> zmap_wf m ->
    exists ds, mapM (fun kp => match nth_error (ndatas s) (snd kp) with Some d => Ok d | None => UB end) m = Ok ds /\
      map (@nd_id D) ds = map fst m /\
      (forall d, In d ds <-> exists k p, In (k, p) m /\ nth_error (ndatas s) p = Some d)).
  { induction m as [|[k p] m IH]; intros Hin Wm; cbn.
    - exists []. split; [reflexivity|]. split; [reflexivity|]. intros d. split; [intros []|]. intros (k & p & [] & _).
    - assert (E : zfind (npos s) k = Some p) by (apply in_zfind; [exact W|apply Hin; left; reflexivity]).
      apply B in E. destruct E as (d & Hd & Hi). rewrite Hd. cbn [bind].
      destruct IH as (ds & E1 & E2 & E3).
      + intros k' p' Hk. apply Hin. right. exact Hk.
      + eapply wf_tail. exact Wm.
      + rewrite E1. cbn [bind]. exists (d :: ds). split; [reflexivity|]. cbn. split; [congruence|].
        intros e. rewrite E3. split.
        * intros [<-|(k' & p' & H1 & H2)]; eauto.
        * intros (k' & p' & [X|H1] & H2); [left; congruence|right; eauto]. }
  destruct (Hall (npos s)) as (ds & E1 & E2 & E3); [auto|exact W|]. exists ds. split; [exact E1|]. split.
  - intros d. rewrite E3. split.
    + intros (k & p & _ & Hp). eapply nth_error_In. exact Hp.
    + intros Hd. apply In_nth_error in Hd. destruct Hd as [p Hp]. exists (nd_id d), p. split; [|exact Hp].
      apply zfind_in, B. eauto.
  - intros i j d e Hij Hi Hj.
    assert (forall m : zmap nat, zmap_wf m -> forall i j x y, (i < j)%nat -> nth_error (map fst m) i = Some x ->
       nth_error (map fst m) j = Some y -> x < y) as Hs.
    { clear. induction m as [|[k p] m IH]; intros Wm i j x y Hij Hi Hj.
      - destruct i; discriminate.
      - destruct j as [|j]; [lia|]. cbn in Hj. destruct i as [|i]; cbn in Hi.
        + inversion Hi; subst. apply nth_error_In in Hj. apply in_map_iff in Hj. destruct Hj as (z & <- & Hz).
          exact (wf_head _ _ _ _ Wm Hz).
        + eapply (IH (wf_tail _ _ Wm) i j); eauto. lia. }
    eapply (Hs (npos s) W i j); [exact Hij|rewrite <- E2..].
    + now rewrite nth_error_map, Hi.
    + now rewrite nth_error_map, Hj.
Qed.

Example C10_case : exists s : nodes Z,
  built (-1) 9999999 0 [Use 7 100; Define 3 1 2 3 0 0; Define AUTO_ID 4 4 4 0 0; Define 7 5 6 7 0 0] s /\
  findNodePosition s 7 = Some 0%nat /\ findNodePosition s 9999999 = Some 2%nat /\ countNodes s = 3%nat.
Proof.
  eexists. split; [split; [lia|split; [|vm_compute; reflexivity]]|vm_compute; auto].
  intros id c [H|[H|[H|[H|[]]]]]; inversion H. discriminate.
Qed.
Print Assumptions C10_bijection.

(** ** C11: the last definition of a node wins *)

(** Whatever came before, and whatever follows as long as it does not define
    [id] again: the node has the coordinates and systems of that definition. *)
Theorem C11_last_definition_wins : forall D (R : D) a l h1 h2 s id x y z cp cd,
  id <> AUTO_ID -> built R a l (h1 ++ Define id x y z cp cd :: h2) s ->
  (forall x' y' z' cp' cd', ~ In (Define id x' y' z' cp' cd') h2) ->
  exists d, getNode s id = Some d /\ nd_id d = id /\
    nd_x d = x /\ nd_y d = y /\ nd_z d = z /\ nd_cp d = cp /\ nd_cd d = cd.
Proof.
  intros D R a l h1 h2 s id x y z cp cd Hid H Hno.
  apply built_app in H. destruct H as (s1 & H1 & H2 & Hn). apply built_inv in H1.
  cbn [nrun foldM nstep] in H2.
  destruct (addNode_spec s1 id x y z cp cd H1) as (s2 & p & k & E & I2 & Hk & _ & P2 & _ & _ & _ & _ & (d & G1 & G2 & G3 & G4 & G5 & G6 & G7 & _) & _).
  specialize (Hk Hid). subst k. unfold nrun in H2. cbn [foldM nstep] in H2. rewrite E in H2. cbn in H2.
  assert (Hn2 : no_auto_use h2) by (intros i c Hi; eapply Hn; right; exact Hi).
  assert (Hg : getNode s2 id = Some d) by (unfold getNode; rewrite P2; exact G1).
  destruct (nrun_attrs R h2 s2 s id d (attrs d) I2 Hn2 H2 Hg eq_refl Hid) as (d' & K1 & K2).
  exists d'. split; [exact K1|].
  destruct (nrun_inv R h2 s2 s I2 Hn2 H2) as [I3 _].
  assert (Hi : nd_id d' = id).
  { unfold getNode in K1. destruct (findNodePosition s id) as [q|] eqn:Eq; [|discriminate].
    apply (proj2 I3) in Eq. destruct Eq as (e & E1 & E2). congruence. }
  split; [exact Hi|].
  assert (Hf : forall l v, (forall x' y' z' cp' cd', ~ In (Define id x' y' z' cp' cd') l) ->
     fold_left (spec_step (D := D) id) l (Some v) = Some v).
  { induction l0 as [|o l0 IH]; intros v Hl; [reflexivity|]. cbn [fold_left].
    replace (spec_step id (Some v) o) with (Some v).
    - apply IH. intros x' y' z' cp' cd' Hin. eapply Hl. right. exact Hin.
    - destruct o as [k x' y' z' cp' cd'| |]; cbn; try reflexivity.
      destruct (Z.eqb_spec k id); [|reflexivity]. subst. exfalso. eapply Hl. left. reflexivity. }
  rewrite Hf in K2 by exact Hno. unfold attrs in K2. injection K2 as K2 K3 K4 K5 K6.
  subst. auto.
Qed.

(** Degrees of freedom granted to a node accumulate and are not lost when the
    node is (re)defined or used. *)
Theorem C11_granted_dofs_survive : forall D (R : D) a l h o s s' id d,
  id <> AUTO_ID -> built R a l h s -> built R a l (h ++ [o]) s' -> getNode s id = Some d ->
  exists d', getNode s' id = Some d' /\
    nd_dofs d' = match o with Allow k b => if k =? id then Z.lor (nd_dofs d) b else nd_dofs d | _ => nd_dofs d end.
Proof.
  intros D R a l h o s s' id d Hid H1 H2 Hd. apply built_app in H2. destruct H2 as (s1' & H1' & H2 & Hn).
  assert (s1' = s) by (destruct H1 as (_ & _ & A), H1' as (_ & _ & B); congruence). subst s1'.
  unfold nrun in H2. cbn in H2. destruct (nstep R s o) as [s2| | |] eqn:E; cbn in H2; try discriminate.
  injection H2 as ->. pose proof (built_inv _ _ _ _ _ H1) as I.
  assert (Ho : nop_ok s o) by (eapply nstep_nop_ok; [exact E|]; intros i c ->; eapply Hn; left; reflexivity).
  destruct (nstep_attrs R s o s' id d _ I Ho E Hd eq_refl Hid) as (d' & K1 & _ & K3). eauto.
Qed.

Example C11_case : exists s : nodes Z,
  built (-1) 9999999 0 ([Use 7 100; Define 7 1 1 1 0 0] ++ Define 7 5 6 8 2 3 :: [Define 8 0 0 0 0 0; Allow 7 7]) s /\
  option_map (@nd_z Z) (getNode s 7) = Some 8 /\ option_map (@nd_dofs Z) (getNode s 7) = Some 7.
Proof.
  eexists. split; [split; [lia|split; [|vm_compute; reflexivity]]|vm_compute; auto].
  intros id c [H|[H|[H|[H|[H|[]]]]]]; inversion H. discriminate.
Qed.
Print Assumptions C11_last_definition_wins.

(** ** C12: automatically numbered nodes get a fresh number *)

(** Adding a node without a number always succeeds, gives it the largest free
    number not above the counter, at a new position, and changes no other node. *)
Theorem C12_auto_fresh : forall D (R : D) a l h s x y z cp cd, built R a l h s ->
  exists s' id, addNode s AUTO_ID x y z cp cd 0 = Ok (s', countNodes s) /\
    findNodeId s' (countNodes s) = Ok id /\
    findNodePosition s id = None /\ id <= auto_next s /\
    (forall j, id < j <= auto_next s -> findNodePosition s j <> None) /\
    countNodes s' = S (countNodes s) /\
    (forall j, j <> id -> findNodePosition s' j = findNodePosition s j) /\
    (forall q, (q < countNodes s)%nat -> nth_error (ndatas s') q = nth_error (ndatas s) q).
Proof.
  intros D R a l h s x y z cp cd H. apply built_inv in H.
  destruct (addNode_spec s AUTO_ID x y z cp cd H) as (s' & p & k & E & I2 & _ & Hk & P2 & P3 & P4 & _ & P6 & (d & G1 & G2 & _) & _).
  destruct (Hk eq_refl) as (K1 & K2 & K3 & K4). destruct (P4 K1) as [-> P5].
  exists s', k. unfold countNodes. split; [exact E|]. split; [unfold findNodeId; rewrite G1; congruence|].
  repeat (split; [assumption|]). intros q Hq. apply P6. lia.
Qed.

Example C12_case : exists s : nodes Z,
  built (-1) 12 0 [Define 12 0 0 0 0 0; Define 11 1 1 1 0 0] s /\
  exists s', addNode s AUTO_ID 9 9 9 0 0 0 = Ok (s', 2%nat) /\ findNodeId s' 2 = Ok 10.
Proof.
  eexists. split; [split; [lia|split; [|vm_compute; reflexivity]]|].
  - intros id c [H|[H|[]]]; inversion H.
  - eexists. vm_compute. auto.
Qed.
Print Assumptions C12_auto_fresh.

(** ** C13: a node that is used but never defined is reported *)

(** The mesh check only looks at the number of each stored node. *)
Theorem C13_validate_ignores_undefined : forall D (R : D) a l h s, built R a l h s ->
  (nvalidate s = false <-> exists p, findNodeId s p = Ok UNAVAILABLE_NODE).
Proof.
  intros D R a l h s _. unfold nvalidate, findNodeId. split.
  - intros H. assert (exists d, In d (ndatas s) /\ nd_id d = UNAVAILABLE_NODE) as (d & Hd & E).
    { induction (ndatas s) as [|d r IH]; [discriminate|]. cbn [forallb] in H.
      destruct (nd_id d =? UNAVAILABLE_NODE) eqn:X; [apply Z.eqb_eq in X; exists d; split; [now left|assumption]|].
      destruct (IH H) as (e & He & Hi). exists e. split; [now right|exact Hi]. }
    apply In_nth_error in Hd. destruct Hd as [p Hp]. exists p. rewrite Hp. congruence.
  - intros [p Hp]. destruct (nth_error (ndatas s) p) as [d|] eqn:E; [|discriminate]. injection Hp as Hp.
    apply not_true_iff_false. intros H. rewrite forallb_forall in H. apply nth_error_In in E.
    apply H in E. rewrite Hp, Z.eqb_refl in E. discriminate.
Qed.

(** A cell refers to node 5, which no card defines: the check passes and the
    node keeps the reserved coordinates. *)
Theorem C13_undefined_reported_refuted : exists (h : list (nop Z)) s,
  built (-999) 9999999 0 h s /\ In (Use 5 100) h /\
  (forall x y z cp cd, ~ In (Define 5 x y z cp cd) h) /\
  nvalidate s = true /\ option_map (@nd_x Z) (getNode s 5) = Some (-999).
Proof.
  exists [Define 4 1 1 1 0 0; Use 4 100; Use 5 100]. eexists.
  split; [split; [lia|split; [|vm_compute; reflexivity]]|].
  - intros id c [H|[H|[H|[]]]]; inversion H; discriminate.
  - split; [cbn; auto|]. split; [|vm_compute; auto].
    intros x y z cp cd [H|[H|[H|[]]]]; inversion H.
Qed.
Print Assumptions C13_undefined_reported_refuted.

(** ** C51: node parts separate nodes by the element sets that use them *)

(** The element sets using node [id] are exactly those of its recorded part,
    and two used nodes have the same part iff the same element sets use them. *)
Theorem C51_node_part_is_set_of_users : forall D (R : D) a l h s, built R a l h s ->
  (forall id d, getNode s id = Some d ->
     (nd_part d = 0 <-> forall c, ~ used h id c) /\
     (nd_part d <> 0 -> exists k, zfind (parts_of s) (nd_part d) = Some k /\
                                  forall c, smem k c = true <-> used h id c)) /\
  (forall i j d e, getNode s i = Some d -> getNode s j = Some e ->
     (nd_part d = nd_part e <-> forall c, used h i c <-> used h j c)).
Proof.
  intros D R a l h s (Hl & Hn & H).
  destruct (pinv_run R h [] _ s (pinv_empty a l Hl) Hn H) as (I & C & P & N). cbn [app] in *.
  assert (P1 : forall id d, getNode s id = Some d ->
     (nd_part d = 0 <-> forall c, ~ used h id c) /\
     (nd_part d <> 0 -> exists k, zfind (parts_of s) (nd_part d) = Some k /\
                                  forall c, smem k c = true <-> used h id c)).
  { intros id d Hd. destruct (P _ _ Hd) as [[A B]|(k & A & B)].
    - split; [tauto|contradiction].
    - destruct (pc_range _ _ _ _ C _ _ A) as [Hr Hw]. split; [|eauto].
      split; [lia|]. intros X. exfalso.
      destruct k as [|[c []] k].
      + destruct (pc_c _ _ _ _ C _ _ A) as [(c & E & _)|(_ & L)]; [discriminate|cbn in L; lia].
      + apply (X c), B. unfold smem. cbn. now rewrite Z.eqb_refl. }
  split; [exact P1|].
  intros i j d e Hi Hj. destruct (P1 _ _ Hi) as [Z1 S1], (P1 _ _ Hj) as [Z2 S2].
  split.
  - intros E c. destruct (Z.eq_dec (nd_part d) 0) as [E0|E0].
    + pose proof (proj1 Z1 E0 c). rewrite E in E0. pose proof (proj1 Z2 E0 c). tauto.
    + destruct (S1 E0) as (k & A & B). rewrite E in E0, A. destruct (S2 E0) as (k' & A' & B').
      assert (k' = k) by congruence. subst. now rewrite <- B, <- B'.
  - intros U. destruct (Z.eq_dec (nd_part d) 0) as [E0|E0].
    + rewrite E0. symmetry. apply Z2. intros c Hc. apply U in Hc. revert Hc. now apply Z1.
    + destruct (S1 E0) as (k & A & B).
      assert (E1 : nd_part e <> 0).
      { intros E1. apply E0, Z1. intros c Hc. apply U in Hc. revert Hc. now apply Z2. }
      destruct (S2 E1) as (k' & A' & B').
      assert (k = k').
      { apply zset_ext; [apply (pc_range _ _ _ _ C _ _ A)|apply (pc_range _ _ _ _ C _ _ A')|].
        intros c. apply eq_true_iff_eq. now rewrite B, B'. }
      subst k'. eapply pcore_inj; eauto.
Qed.

Example C51_case : exists s : nodes Z,
  built (-1) 9999999 0 [Use 1 10; Use 2 10; Use 2 20; Use 3 20; Use 4 20; Use 4 10] s /\
  option_map (@nd_part Z) (getNode s 2) = Some 3 /\ option_map (@nd_part Z) (getNode s 4) = Some 3 /\
  option_map (@nd_part Z) (getNode s 1) = Some 1 /\ option_map (@nd_part Z) (getNode s 3) = Some 2.
Proof.
  eexists. split; [split; [lia|split; [|vm_compute; reflexivity]]|vm_compute; auto].
  intros id c H. cbn in H. repeat (destruct H as [H|H]; [inversion H; discriminate|]). destruct H.
Qed.
Print Assumptions C51_node_part_is_set_of_users.

(** ** C52: a node used by an element is not treated as unused *)

(** Holds for nodes that are defined before being used, and for nodes used by
    an element set after having been mentioned. *)
Theorem C52_used_not_listed_partial : forall D (R : D) a l h1 o h2 s id,
  id <> AUTO_ID -> built R a l (h1 ++ o :: h2) s ->
  (exists s1, built R a l h1 s1 /\ findNodePosition s1 id = None /\
     exists x y z cp cd, o = Define id x y z cp cd) \/
  ((exists c, o = Use id c) /\ exists c, In (Use id c) h2 /\ c <> UNAVAILABLE_INT) ->
  ~ listed_unused s id.
Proof.
  intros D R a l h1 o h2 s id Hid H Hcase (p & Hp & Hin).
  apply built_app in H. destruct H as (s1 & H1 & H2 & Hn).
  pose proof (built_inv _ _ _ _ _ H1) as I1.
  unfold nrun in H2. cbn [foldM] in H2.
  destruct (nstep R s1 o) as [s2| | |] eqn:E; cbn in H2; try discriminate.
  assert (Ho : nop_ok s1 o) by (eapply nstep_nop_ok; [exact E|]; intros i c ->; eapply Hn; left; reflexivity).
  assert (Hn2 : no_auto_use h2) by (intros i c Hi; eapply Hn; right; exact Hi).
  destruct (nstep_inv R s1 o I1 Ho) as (s2' & E2 & I2 & P2). rewrite E in E2. injection E2 as <-.
  destruct (nrun_inv R h2 s2 s I2 Hn2 H2) as [I3 P3].
  destruct Hcase as [(s1' & H1' & Hnone & x & y & z & cp & cd & ->)|((c & ->) & c' & Hc' & Hc)].
  - assert (s1' = s1) by (destruct H1 as (_ & _ & A), H1' as (_ & _ & B); congruence). subst s1'.
    cbn in E. destruct (addNode_spec s1 id x y z cp cd I1) as (s3 & q & k & F1 & F2 & F3 & F4 & F5 & F6 & F7 & F8 & F9 & _ & L1 & L2 & L3 & L4 & L5).
    rewrite F1 in E. cbn in E. injection E as ->. rewrite (F3 Hid) in *.
    assert (q = p) by (apply P3 in F5; congruence). subst q.
    destruct (unused_run R h2 s2 s I2 Hn2 H2 id p F5 Hin) as [A _]. rewrite L5 in A.
    assert (Hlt : forall h s' sx, (forall q, In q (unused sx) -> (q < length (ndatas sx))%nat) -> ninv sx -> no_auto_use h ->
       nrun R sx h = Ok s' -> forall q, In q (unused s') -> (q < length (ndatas s'))%nat).
    { clear. induction h as [|o h IH]; intros s' sx Hx Ix Hn H; cbn in H; [injection H as <-; exact Hx|].
      destruct (nstep R sx o) as [sy| | |] eqn:E; cbn in H; try discriminate.
      assert (Ho : nop_ok sx o) by (eapply nstep_nop_ok; [exact E|]; intros i c ->; eapply Hn; left; reflexivity).
      assert (Hn2 : no_auto_use h) by (intros i c Hi; eapply Hn; right; exact Hi).
      destruct (nstep_inv R sx o Ix Ho) as (sy' & E2 & Iy & _). rewrite E in E2. injection E2 as <-.
      apply (IH s' sy); auto. intros q Hq.
      destruct o as [k x y z cp cd|k c|k b]; cbn in E.
      - destruct (addNode_spec sx k x y z cp cd Ix) as (s3 & q' & k' & F1 & F2 & F3 & F4 & F5 & F6 & F7 & F8 & F9 & _ & L1 & L2 & L3 & L4 & L5).
        rewrite F1 in E. cbn in E. injection E as ->. rewrite L5 in Hq. apply Hx in Hq.
        destruct (findNodePosition sx k') eqn:G; [destruct (F8 _ eq_refl)|destruct (F7 eq_refl)]; lia.
      - destruct (use_spec R sx k c Ix Ho) as (s3 & q' & F1 & F2 & F3 & F4 & F5 & F6 & _).
        assert (HL : (length (ndatas sx) <= length (ndatas sy))%nat).
        { rewrite F1 in E. cbn in E. injection E as ->.
          destruct (findNodePosition sx k) eqn:G; [destruct (F6 _ eq_refl)|destruct (F5 eq_refl)]; lia. }
        destruct (Nat.lt_ge_cases q (length (ndatas sx))) as [L|L]; [lia|].
        rewrite F1 in E. cbn in E. injection E as ->.
        (* a listed position that is not old is the new node *)
        destruct (findNodePosition sx k) as [r|] eqn:G.
        + exfalso. 
          assert (In q (unused sx)).
          { unfold findOrReserveNode in F1. destruct (main_node_part sx c) as [s1 mp] eqn:E1.
            destruct (main_node_part_frame _ _ _ _ E1) as (A1 & A2 & A3 & A4).
            unfold findNodePosition in *. rewrite A2, G in F1.
            destruct (c =? UNAVAILABLE_INT); [injection F1 as <- _; congruence|].
            destruct (proj1 (proj2 Ix _ _) G) as (d & Hd & _). rewrite A1, Hd in F1. injection F1 as F1 _.
            set (s2 := mkN _ _ _ _ _ _ _ (remove _ _ _)) in F1.
            assert (Hd2 : nth_error (ndatas s2) r = Some d) by exact Hd.
            destruct (update_part_frame s2 r d c mp Hd2) as (_ & _ & G3 & _).
            rewrite F1 in G3. rewrite G3 in Hq. cbn in Hq. apply in_remove in Hq. now rewrite <- A4. }
          apply Hx in H0. lia.
        + destruct (F5 eq_refl) as [-> L2]. 
          unfold findOrReserveNode in F1. destruct (main_node_part sx c) as [s1 mp] eqn:E1.
          destruct (main_node_part_frame _ _ _ _ E1) as (A1 & A2 & A3 & A4).
          unfold findNodePosition in *. rewrite A2, G in F1. unfold addNode in F1.
          cbn in Ho. destruct (Z.eqb_spec k AUTO_ID); [contradiction|].
          unfold addNodeAs, findNodePosition in F1. rewrite A2, G in F1. cbn in F1. injection F1 as F1 _.
          rewrite <- F1 in Hq. cbn in Hq. rewrite A1, A4 in Hq. destruct Hq as [<-|Hq]; [lia|]. apply Hx in Hq. lia.
      - destruct (findNodePosition sx k) as [r|] eqn:G; [|discriminate].
        destruct (proj1 (proj2 Ix _ _) G) as (e & He & _).
        destruct (allow_spec sx r b e Ix He) as (s3 & F1 & F2 & F3 & F4 & F5 & F6 & L1 & L2 & L3 & L4 & L5 & _).
        rewrite F1 in E. injection E as ->. rewrite L5 in Hq. apply Hx in Hq. lia. }
    destruct H1 as (Hl & Hnn & H1).
    assert (p < length (ndatas s1))%nat.
    { eapply (Hlt h1 s1 (empty_nodes a l)); [intros q []|apply ninv_empty|exact Hnn|exact H1|exact A]. }
    destruct (F7 Hnone) as [-> _]. lia.
  - assert (exists q, findNodePosition s2 id = Some q) as [q Hq].
    { cbn in E. destruct (use_spec R s1 id c I1 Ho) as (s3 & q & F1 & F2 & F3 & _). rewrite F1 in E. cbn in E.
      injection E as ->. eauto. }
    assert (q = p) by (apply P3 in Hq; congruence). subst q.
    destruct (unused_run R h2 s2 s I2 Hn2 H2 id p Hq Hin) as [_ B]. exact (Hc (B _ Hc')).
Qed.

(** A node used by one element whose card precedes the node's own card is
    defined and used, and is listed all the same. *)
Theorem C52_used_not_listed_refuted : exists (h : list (nop Z)) s,
  built (-999) 9999999 0 h s /\ In (Use 5 100) h /\ In (Define 5 1 2 3 0 0) h /\ listed_unused s 5.
Proof.
  exists [Use 5 100; Define 5 1 2 3 0 0]. eexists.
  split; [split; [lia|split; [|vm_compute; reflexivity]]|].
  - intros id c [H|[H|[]]]; inversion H; discriminate.
  - split; [cbn; auto|]. split; [cbn; auto|]. exists 0%nat. split; vm_compute; auto.
Qed.

Example C52_case : exists s : nodes Z,
  built (-999) 9999999 0 ([] ++ Define 5 1 2 3 0 0 :: [Use 5 100]) s /\ findNodePosition (empty_nodes (D := Z) 9999999 0) 5 = None /\
  unused s = [].
Proof.
  eexists. split; [split; [lia|split; [|vm_compute; reflexivity]]|vm_compute; auto].
  intros id c [H|[H|[]]]; inversion H; discriminate.
Qed.
Print Assumptions C52_used_not_listed_partial.
