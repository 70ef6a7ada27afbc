(* Rigid links and supports in local axes: C34, C35. *)
From Coq Require Import Reals ZArith List Bool Lra Lia.
Require Import Verif.Base Verif.DofModel Verif.DofProofs Verif.GeomModel Verif.GeomProofs Verif.PropertiesGeom Verif.RigidModel.
Import ListNotations.
Open Scope R_scope.

(* A displacement field: six components at each node. *)
Definition field := Z -> dof -> R.
Definition translation (u : field) (p : Z) : vec := V3 (u p DX) (u p DY) (u p DZ).
Definition rotation (u : field) (p : Z) : vec := V3 (u p RX) (u p RY) (u p RZ).

(* A linear relation holds for a field when the weighted sum of the components
   is the imposed value. *)
Definition work (c v : dof -> R) : R :=
  c DX * v DX + c DY * v DY + c DZ * v DZ + c RX * v RX + c RY * v RY + c RZ * v RZ.
Fixpoint total (l : list (Z * (dof -> R))) (u : field) : R :=
  match l with [] => 0 | (p, c) :: r => work c (u p) + total r u end.
Definition holds (u : field) (m : mpc) : Prop := total (terms m) u = imposed m.

(* Motion at the point [xs] of the rigid body that moves by [t] at [xm] and
   turns by the small rotation [w]. *)
Definition rigid (xm xs t w : vec) (d : dof) : R :=
  let v := vadd t (cross w (vsub xs xm)) in
  match d with DX => vx v | DY => vy v | DZ => vz v | RX => vx w | RY => vy w | RZ => vz w end.

(* The degrees of freedom a master carries: its own ones and, if it may receive
   rotations, the translations, those of the slaves, and the rotations that a
   slave away from it calls for. *)
Definition offset_calls (tol : R) (xm xs : vec) (d : dof) : Prop :=
  let far x := tol < Rabs x in
  let a := vsub xm xs in
  match d with
  | RX => far (vy a) \/ far (vz a)
  | RY => far (vx a) \/ far (vz a)
  | RZ => far (vx a) \/ far (vy a)
  | _ => False
  end.
Definition carries (tol : R) (nodes : Z -> outcome rnode) (l : link) (m : rnode) (d : dof) : Prop :=
  member d (node_dofs m) \/
  (add_rotations l = true /\
   (member d TRANSLATIONS \/
    exists s n, In s (link_nodes l) /\ s <> master l /\ nodes s = Ok n /\
      (member d (node_dofs n) \/ offset_calls tol (at_ m) (at_ n) d))).

Lemma member_all : forall d, member d ALL_DOFS.
Proof. intros []; reflexivity. Qed.
Lemma near_zero_false : forall tol x, near_zero tol x = false <-> tol < Rabs x.
Proof. intros. unfold near_zero. destruct (Rle_dec (Rabs x) tol); split; intros H; try discriminate; try reflexivity; lra. Qed.
Lemma in_slaves : forall l s, In s (slaves l) <-> In s (link_nodes l) /\ s <> master l.
Proof.
  intros. unfold slaves. rewrite filter_In, negb_true_iff, Z.eqb_neq. reflexivity.
Qed.

Lemma master_loop_spec : forall tol nodes m ss acc md,
  master_dofs_loop tol nodes m ss acc = Ok md ->
  (forall s n, In s ss -> nodes s = Ok n -> is_set (node_dofs n)) -> is_set acc ->
  forall d, member d md <-> member d acc \/ exists s n, In s ss /\ nodes s = Ok n /\
    (member d (node_dofs n) \/ offset_calls tol (at_ m) (at_ n) d).
Proof.
  induction ss as [|s r IH]; intros acc md E Hs Ha d.
  { cbn in E. injection E as <-. split; [auto|]. intros [H|(s & n & [] & _)]. exact H. }
  cbn [master_dofs_loop] in E. destruct (nodes s) as [n| | |] eqn:En; try discriminate. cbn [bind] in E.
  set (a := vsub (at_ m) (at_ n)) in E.
  set (acc1 := dofs_add acc (node_dofs n)) in E.
  set (acc2 := if near_zero tol (vx a) then acc1 else dofs_add_dof (dofs_add_dof acc1 RY) RZ) in E.
  set (acc3 := if near_zero tol (vy a) then acc2 else dofs_add_dof (dofs_add_dof acc2 RX) RZ) in E.
  set (acc4 := if near_zero tol (vz a) then acc3 else dofs_add_dof (dofs_add_dof acc3 RX) RY) in E.
  assert (M : forall e, member e acc4 <-> member e acc \/ member e (node_dofs n) \/ offset_calls tol (at_ m) (at_ n) e).
  { intros e.
    assert (M2 : member e acc2 <-> (member e acc \/ member e (node_dofs n)) \/ (tol < Rabs (vx a) /\ (e = RY \/ e = RZ))).
    { unfold acc2. destruct (near_zero tol (vx a)) eqn:X.
      - unfold acc1. rewrite member_add. split; [tauto|]. intros [H|[H _]]; [exact H|].
        apply near_zero_false in H. congruence.
      - apply near_zero_false in X. rewrite !member_add_dof. unfold acc1. rewrite member_add. tauto. }
    assert (M3 : member e acc3 <-> member e acc2 \/ (tol < Rabs (vy a) /\ (e = RX \/ e = RZ))).
    { unfold acc3. destruct (near_zero tol (vy a)) eqn:X.
      - split; [tauto|]. intros [H|[H _]]; [exact H|]. apply near_zero_false in H. congruence.
      - apply near_zero_false in X. rewrite !member_add_dof. tauto. }
    assert (M4 : member e acc4 <-> member e acc3 \/ (tol < Rabs (vz a) /\ (e = RX \/ e = RY))).
    { unfold acc4. destruct (near_zero tol (vz a)) eqn:X.
      - split; [tauto|]. intros [H|[H _]]; [exact H|]. apply near_zero_false in H. congruence.
      - apply near_zero_false in X. rewrite !member_add_dof. tauto. }
    rewrite M4, M3, M2. unfold offset_calls. fold a.
    destruct e; intuition congruence. }
  assert (S4 : is_set acc4).
  { pose proof (Hs s n (or_introl eq_refl) En) as Hn.
    assert (S1 : is_set acc1) by (unfold acc1, dofs_add; apply lor_set; assumption). clearbody acc1.
    assert (S2 : is_set acc2) by (unfold acc2; destruct (near_zero tol (vx a)); [exact S1|]; apply lor_set; [apply lor_set; [exact S1|]|]; apply code_set).
    assert (S3 : is_set acc3) by (unfold acc3; destruct (near_zero tol (vy a)); [exact S2|]; apply lor_set; [apply lor_set; [exact S2|]|]; apply code_set).
    unfold acc4. destruct (near_zero tol (vz a)); [exact S3|]; apply lor_set; [apply lor_set; [exact S3|]|]; apply code_set. }
  clearbody acc4.
  destruct (Z.eqb acc4 ALL_DOFS) eqn:EA.
  - apply Z.eqb_eq in EA. injection E as <-. subst acc4. split; [intros _|intros _; apply member_all].
    destruct (proj1 (M d) (member_all d)) as [H|H]; [left; exact H|]. right. exists s, n. repeat split; auto. left; reflexivity.
  - rewrite (IH acc4 md E (fun s' n' h => Hs s' n' (or_intror h)) S4 d), M.
    split.
    + intros [[H|H]|(s' & n' & H1 & H2)].
      * left; exact H.
      * right. exists s, n. repeat split; auto. left; reflexivity.
      * right. exists s', n'. split; [right; exact H1|exact H2].
    + intros [H|(s' & n' & [<-|H1] & H2 & H3)].
      * left; left; exact H.
      * rewrite En in H2. injection H2 as <-. left; right; exact H3.
      * right. exists s', n'. auto.
Qed.

(* Degrees of freedom of a node are always a valid set. *)
Definition valid_nodes (nodes : Z -> outcome rnode) : Prop := forall p n, nodes p = Ok n -> is_set (node_dofs n).

Lemma calc_master_spec : forall tol nodes l md, valid_nodes nodes -> calc_master_dofs tol nodes l = Ok md ->
  exists m, nodes (master l) = Ok m /\ forall d, member d md <-> carries tol nodes l m d.
Proof.
  intros tol nodes l md V E. unfold calc_master_dofs in E.
  destruct (nodes (master l)) as [m| | |] eqn:Em; try discriminate. cbn [bind] in E. exists m. split; [reflexivity|].
  intros d. destruct (Z.eqb (node_dofs m) ALL_DOFS) eqn:EA.
  { apply Z.eqb_eq in EA. injection E as <-. split; [intros H; left; rewrite EA; exact H|intros _; apply member_all]. }
  destruct (add_rotations l) eqn:Er.
  - rewrite (master_loop_spec _ _ _ _ _ _ E).
    + rewrite member_add. unfold carries. rewrite Er. split.
      * intros [[H|H]|(s & n & H1 & H2 & H3)]; [left; exact H|right; auto|].
        right. split; [reflexivity|]. right. apply in_slaves in H1. destruct H1. exists s, n. auto.
      * intros [H|[_ [H|(s & n & H1 & H2 & H3 & H4)]]]; [left; left; exact H|left; right; exact H|].
        right. exists s, n. split; [apply in_slaves; auto|auto].
    + intros s n _ Hn. exact (V s n Hn).
    + apply lor_set; [exact (V _ _ Em)|unfold is_set; cbn; lia].
  - injection E as <-. unfold carries. rewrite Er. split; [auto|]. intros [H|[H _]]; [exact H|discriminate].
Qed.

Lemma relation_holds : forall u mp sp cm cs, mp <> sp ->
  (holds u (relation mp sp cm cs) <-> work cm (u mp) + work cs (u sp) = 0).
Proof.
  intros u mp sp cm cs H. unfold holds, relation, add_participation. cbn [terms imposed add_term].
  apply Z.eqb_neq in H. rewrite H. cbn [add_term total]. rewrite Rplus_0_r. reflexivity.
Qed.

Lemma Forall_if : forall (b : bool) (P : mpc -> Prop) x, Forall P (if b then [x] else []) <-> (b = true -> P x).
Proof.
  intros [] P x; split; intros H.
  - intros _. inversion H; assumption.
  - constructor; [apply H; reflexivity|constructor].
  - discriminate.
  - constructor.
Qed.

Lemma slave_mpcs_spec : forall u l md m s n, master l <> s ->
  (forall d, isRotation d = true -> ~ member d md -> u (master l) d = 0) ->
  (Forall (holds u) (slave_mpcs l md m s n) <->
   forall d, member d (linked l) -> (isRotation d = true -> member d md) ->
     u s d = rigid (at_ m) (at_ n) (translation u (master l)) (rotation u (master l)) d).
Proof.
  intros u l md m s n Hms Hz. unfold slave_mpcs. cbv zeta. rewrite !Forall_app, !Forall_if.
  rewrite !relation_holds by exact Hms. rewrite !andb_true_iff, !contains_iff.
  assert (Rot : forall d, isRotation d = true -> contains md d = true \/ u (master l) d = 0).
  { intros d Hd. destruct (contains md d) eqn:X; [left; reflexivity|right]. apply Hz; [exact Hd|].
    intros Y. apply contains_iff in Y. congruence. }
  assert (T1 : work (if contains md RY || contains md RZ then coef6 (-1) 0 0 0 (vz (vsub (at_ m) (at_ n))) (- vy (vsub (at_ m) (at_ n))) else coef6 (-1) 0 0 0 0 0) (u (master l))
     + work (coef6 1 0 0 0 0 0) (u s) = u s DX - rigid (at_ m) (at_ n) (translation u (master l)) (rotation u (master l)) DX).
  { unfold rigid, translation, rotation, work. destruct (contains md RY || contains md RZ) eqn:X.
    - cbn [coef6]. vunfold. ring.
    - apply orb_false_iff in X. destruct X as [X Y].
      destruct (Rot RY eq_refl) as [?|Z1]; [congruence|]. destruct (Rot RZ eq_refl) as [?|Z2]; [congruence|].
      cbn [coef6]. vunfold. rewrite Z1, Z2. ring. }
  assert (T2 : work (if contains md RX || contains md RZ then coef6 0 (-1) 0 (- vz (vsub (at_ m) (at_ n))) 0 (vx (vsub (at_ m) (at_ n))) else coef6 0 (-1) 0 0 0 0) (u (master l))
     + work (coef6 0 1 0 0 0 0) (u s) = u s DY - rigid (at_ m) (at_ n) (translation u (master l)) (rotation u (master l)) DY).
  { unfold rigid, translation, rotation, work. destruct (contains md RX || contains md RZ) eqn:X.
    - cbn [coef6]. vunfold. ring.
    - apply orb_false_iff in X. destruct X as [X Y].
      destruct (Rot RX eq_refl) as [?|Z1]; [congruence|]. destruct (Rot RZ eq_refl) as [?|Z2]; [congruence|].
      cbn [coef6]. vunfold. rewrite Z1, Z2. ring. }
  assert (T3 : work (if contains md RX || contains md RY then coef6 0 0 (-1) (vy (vsub (at_ m) (at_ n))) (- vx (vsub (at_ m) (at_ n))) 0 else coef6 0 0 (-1) 0 0 0) (u (master l))
     + work (coef6 0 0 1 0 0 0) (u s) = u s DZ - rigid (at_ m) (at_ n) (translation u (master l)) (rotation u (master l)) DZ).
  { unfold rigid, translation, rotation, work. destruct (contains md RX || contains md RY) eqn:X.
    - cbn [coef6]. vunfold. ring.
    - apply orb_false_iff in X. destruct X as [X Y].
      destruct (Rot RX eq_refl) as [?|Z1]; [congruence|]. destruct (Rot RY eq_refl) as [?|Z2]; [congruence|].
      cbn [coef6]. vunfold. rewrite Z1, Z2. ring. }
  rewrite T1, T2, T3. clear T1 T2 T3.
  assert (T4 : work (coef6 0 0 0 1 0 0) (u (master l)) + work (coef6 0 0 0 (-1) 0 0) (u s) = u (master l) RX - u s RX) by (unfold work; cbn [coef6]; ring).
  assert (T5 : work (coef6 0 0 0 0 1 0) (u (master l)) + work (coef6 0 0 0 0 (-1) 0) (u s) = u (master l) RY - u s RY) by (unfold work; cbn [coef6]; ring).
  assert (T6 : work (coef6 0 0 0 0 0 1) (u (master l)) + work (coef6 0 0 0 0 0 (-1)) (u s) = u (master l) RZ - u s RZ) by (unfold work; cbn [coef6]; ring).
  rewrite T4, T5, T6.
  set (rg := rigid (at_ m) (at_ n) (translation u (master l)) (rotation u (master l))).
  assert (G4 : rg RX = u (master l) RX) by reflexivity.
  assert (G5 : rg RY = u (master l) RY) by reflexivity.
  assert (G6 : rg RZ = u (master l) RZ) by reflexivity.
  clearbody rg. clear Rot Hz T4 T5 T6. split.
  - intros (H1 & H2 & H3 & H4 & H5 & H6) d Hd Hr. destruct d.
    + specialize (H1 Hd). lra.
    + specialize (H2 Hd). lra.
    + specialize (H3 Hd). lra.
    + specialize (H4 (conj Hd (Hr eq_refl))). lra.
    + specialize (H5 (conj Hd (Hr eq_refl))). lra.
    + specialize (H6 (conj Hd (Hr eq_refl))). lra.
  - intros H. repeat split.
    + intros Hd. rewrite (H DX Hd) by discriminate. lra.
    + intros Hd. rewrite (H DY Hd) by discriminate. lra.
    + intros Hd. rewrite (H DZ Hd) by discriminate. lra.
    + intros [Hd Hr]. rewrite (H RX Hd) by (intros _; exact Hr). lra.
    + intros [Hd Hr]. rewrite (H RY Hd) by (intros _; exact Hr). lra.
    + intros [Hd Hr]. rewrite (H RZ Hd) by (intros _; exact Hr). lra.
Qed.

Lemma mapM_concat_forall : forall (P : mpc -> Prop) (f : Z -> outcome (list mpc)) l r, mapM f l = Ok r ->
  (Forall P (concat r) <-> forall s, In s l -> exists x, f s = Ok x /\ Forall P x).
Proof.
  intros P f. induction l as [|s l IH]; intros r E; cbn [mapM] in E.
  - injection E as <-. split; [intros _ s []|constructor].
  - destruct (f s) as [x| | |] eqn:Ex; try discriminate. cbn [bind] in E.
    destruct (mapM f l) as [xs| | |] eqn:El; try discriminate. cbn [bind] in E. injection E as <-.
    cbn [concat]. rewrite Forall_app, (IH xs eq_refl). split.
    + intros [H1 H2] s' [<-|H]; [exists x; auto|auto].
    + intros H. split.
      * destruct (H s (or_introl eq_refl)) as (x' & E' & Hx). rewrite Ex in E'. injection E' as <-. exact Hx.
      * intros s' Hs'. apply H. right; exact Hs'.
Qed.

(** C34.  The relations generated for a rigid link hold for a field exactly
    when every slave moves as the rigid body attached to the master, on every
    linked translation and on every linked rotation that the master carries.
    The field has no rotation at the master where the master carries none. *)
Theorem C34_link_relations : forall tol nodes l ms, valid_nodes nodes ->
  emulate_link tol nodes l = Ok ms ->
  exists m, nodes (master l) = Ok m /\
  forall u, (forall d, isRotation d = true -> ~ carries tol nodes l m d -> u (master l) d = 0) ->
  (Forall (holds u) ms <->
   forall s, In s (link_nodes l) -> s <> master l -> exists n, nodes s = Ok n /\
   forall d, member d (linked l) -> (isRotation d = true -> carries tol nodes l m d) ->
     u s d = rigid (at_ m) (at_ n) (translation u (master l)) (rotation u (master l)) d).
Proof.
  intros tol nodes l ms V E. unfold emulate_link in E.
  destruct (nodes (master l)) as [m| | |] eqn:Em; try discriminate. cbn [bind] in E.
  destruct (calc_master_dofs tol nodes l) as [md| | |] eqn:Ed; try discriminate. cbn [bind] in E.
  destruct (calc_master_spec _ _ _ _ V Ed) as (m' & Em' & Hc). rewrite Em in Em'. injection Em' as <-.
  destruct (mapM _ (slaves l)) as [r| | |] eqn:Er in E; try discriminate. cbn [bind] in E. injection E as <-.
  exists m. split; [reflexivity|]. intros u Hz. rewrite (mapM_concat_forall _ _ _ _ Er).
  assert (Hz' : forall d, isRotation d = true -> ~ member d md -> u (master l) d = 0).
  { intros d Hd Hn. apply Hz; [exact Hd|]. rewrite <- Hc. exact Hn. }
  split.
  - intros H s Hs Hm. destruct (H s) as (x & Ex & Hx); [apply in_slaves; auto|].
    destruct (nodes s) as [n| | |]; try discriminate. cbn [bind] in Ex. injection Ex as <-.
    exists n. split; [reflexivity|]. intros d Hd Hr.
    refine (proj1 (slave_mpcs_spec u l md m s n _ Hz') Hx d Hd _); [congruence|].
    intros R. apply Hc, Hr, R.
  - intros H s Hs. apply in_slaves in Hs. destruct Hs as [Hs Hm]. destruct (H s Hs Hm) as (n & En & Hn).
    rewrite En. cbn [bind]. eexists. split; [reflexivity|]. apply slave_mpcs_spec; [congruence|exact Hz'|].
    intros d Hd Hr. apply Hn; [exact Hd|]. intros R. apply Hc, Hr, R.
Qed.

(** C34.  The relations exist whenever the nodes do. *)
Theorem C34_link_accepted : forall tol nodes l,
  (forall p, In p (master l :: link_nodes l) -> exists n, nodes p = Ok n) ->
  exists ms, emulate_link tol nodes l = Ok ms.
Proof.
  intros tol nodes l H. destruct (H (master l) (or_introl eq_refl)) as [m Em].
  assert (HS : forall s, In s (slaves l) -> exists n, nodes s = Ok n).
  { intros s Hs. apply in_slaves in Hs. apply H. right. tauto. }
  unfold emulate_link. rewrite Em. cbn [bind].
  assert (ED : exists md, calc_master_dofs tol nodes l = Ok md).
  { unfold calc_master_dofs. rewrite Em. cbn [bind]. destruct (Z.eqb (node_dofs m) ALL_DOFS); [eauto|].
    destruct (add_rotations l); [|eauto].
    generalize (dofs_add (node_dofs m) TRANSLATIONS). revert HS. generalize (slaves l).
    induction l0 as [|s r IH]; intros HS acc; cbn [master_dofs_loop]; [eauto|].
    destruct (HS s (or_introl eq_refl)) as [n En]. rewrite En. cbn [bind].
    match goal with |- exists md, (if ?c then _ else _) = _ => destruct c end; [eauto|].
    apply IH. intros s' Hs'. apply HS. right; exact Hs'. }
  destruct ED as [md ->]. cbn [bind].
  assert (EM : exists r, mapM (fun s => do n <- nodes s; Ok (slave_mpcs l md m s n)) (slaves l) = Ok r).
  { revert HS. generalize (slaves l). induction l0 as [|s r IH]; intros HS; cbn [mapM]; [eauto|].
    destruct (HS s (or_introl eq_refl)) as [n En]. rewrite En. cbn [bind].
    destruct IH as [x ->]; [intros s' Hs'; apply HS; right; exact Hs'|]. cbn [bind]. eauto. }
  destruct EM as [r ->]. cbn [bind]. eauto.
Qed.

Definition e34_nodes : Z -> outcome rnode := fun p =>
  if Z.eqb p 0 then Ok (RNode (V3 0 0 0) NO_DOFS) else if Z.eqb p 1 then Ok (RNode (V3 1 2 0) TRANSLATIONS) else UB.
Definition e34_link := Link ALL_DOFS true 0 [0; 1]%Z.
Example C34_example : valid_nodes e34_nodes /\ (exists ms, emulate_link 0 e34_nodes e34_link = Ok ms) /\
  carries 0 e34_nodes e34_link (RNode (V3 0 0 0) NO_DOFS) RZ.
Proof.
  split; [|split].
  - intros p n. unfold e34_nodes. destruct (Z.eqb p 0); [intros E; injection E as <-; vm_compute; split; congruence|].
    destruct (Z.eqb p 1); [intros E; injection E as <-; vm_compute; split; congruence|discriminate].
  - apply C34_link_accepted. intros p [<-|[<-|[<-|[]]]]; cbn; eauto.
  - right. split; [reflexivity|]. right. exists 1%Z, (RNode (V3 1 2 0) TRANSLATIONS). repeat split; [right; left; reflexivity|discriminate|].
    right. left. cbn. rewrite Rabs_left; lra.
Qed.

(* Components of the motion of a node along a given direction. *)
Definition part_of (d : dof) (u : field) (p : Z) : vec := if isRotation d then rotation u p else translation u p.

(* The value of the local components: a vector with components [l] in the
   frame of the node is the vector [g]. *)
Definition local_components (n : nat) (env : systems) (g : frame) (v l : vec) : Prop :=
  vector_to_global n env g l = Ok v.
Definition component (d : dof) (l : vec) : R :=
  match axis_of d with O => vx l | S O => vy l | _ => vz l end.

(* A frame that keeps lengths and angles and reaches every vector. *)
Definition isometric (n : nat) (env : systems) (g : frame) : Prop :=
  exists a b c, ortho a b c /\ forall l, vector_to_global n env g l = Ok (along a b c l).

Lemma local_mpc_spec : forall n env g p d v, isometric n env g -> exists m, local_mpc n env g p d v = Ok m /\
  forall u l, local_components n env g (part_of d u p) l -> (holds u m <-> component d l = v).
Proof.
  intros n env g p d v (a & b & c & O & K). unfold local_mpc. rewrite K. cbn [bind].
  eexists. split; [reflexivity|]. intros u l Hl. unfold local_components in Hl. rewrite K in Hl.
  injection Hl as E.
  pose proof (along_coords a b c O l) as C. rewrite E in C.
  set (e := along a b c (unit_vec (axis_of d))).
  assert (Ce : component d l = dot (part_of d u p) e).
  { unfold component. rewrite <- C. unfold e. destruct d; cbn [axis_of unit_vec vx vy vz]; f_equal; vring. }
  clearbody e. unfold holds, add_participation. cbn [terms imposed add_term total]. rewrite Ce, Rplus_0_r.
  assert (W : work (if isRotation d then coef6 0 0 0 (vx e) (vy e) (vz e) else coef6 (vx e) (vy e) (vz e) 0 0 0) (u p) = dot (part_of d u p) e).
  { unfold part_of, work, dot. destruct (isRotation d); cbn [coef6 translation rotation vx vy vz]; ring. }
  rewrite W. reflexivity.
Qed.

Lemma emulate_support_spec : forall n tol env local s ps own, NoDup ps ->
  (forall p f x, In p ps -> local p = Some (f, x) -> In p own /\ isometric n env (update_local_base tol f x)) ->
  exists ms own', emulate_support n tol env local s ps own = Ok (ms, own') /\
  (forall q, In q own' <-> In q own /\ ~ (In q ps /\ local q <> None)) /\
  forall u, Forall (holds u) ms <->
    forall p f x d v l, In p ps -> local p = Some (f, x) -> spc_value s d = Some v ->
      local_components n env (update_local_base tol f x) (part_of d u p) l -> component d l = v.
Proof.
  induction ps as [|p r IH]; intros own ND Hin.
  { exists [], own. split; [reflexivity|]. split; [cbn; tauto|]. intros u. split; [intros _ p f x d v l []|constructor]. }
  inversion ND as [|? ? Np ND']; subst. cbn [emulate_support].
  destruct (local p) as [[f x]|] eqn:El.
  - destruct (Hin p f x (or_introl eq_refl) El) as [Hp Iso].
    assert (Heq : existsb (Z.eqb p) own = true).
    { apply existsb_exists. exists p. split; [exact Hp|apply Z.eqb_refl]. }
    assert (M : exists ms, mapM (fun d => match spc_value s d with None => Ok []
         | Some v => do m <- local_mpc n env (update_local_base tol f x) p d v; Ok [m] end) [DX; DY; DZ; RX; RY; RZ] = Ok ms /\
       forall u, Forall (holds u) (concat ms) <-> forall d v l, spc_value s d = Some v ->
         local_components n env (update_local_base tol f x) (part_of d u p) l -> component d l = v).
    { assert (G : forall ds, exists ms, mapM (fun d => match spc_value s d with None => Ok []
         | Some v => do m <- local_mpc n env (update_local_base tol f x) p d v; Ok [m] end) ds = Ok ms /\
       forall u, Forall (holds u) (concat ms) <-> forall d v l, In d ds -> spc_value s d = Some v ->
         local_components n env (update_local_base tol f x) (part_of d u p) l -> component d l = v).
      { induction ds as [|d ds IHd]; [exists []; split; [reflexivity|]; intros u; split; [intros _ d v l []|constructor]|].
        destruct IHd as (ms & E & H). cbn [mapM]. destruct (spc_value s d) as [v|] eqn:Ev.
        - destruct (local_mpc_spec n env (update_local_base tol f x) p d v Iso) as (m & Em & Hm).
          rewrite Em. cbn [bind]. rewrite E. cbn [bind]. eexists. split; [reflexivity|]. intros u. cbn [concat app].
          split.
          + intros F d' v' l [<-|Hd'] Ev' Hl.
            * rewrite Ev in Ev'. injection Ev' as <-. inversion F; subst. apply (Hm u l Hl). assumption.
            * inversion F; subst. eapply H; eauto.
          + intros F. constructor.
            * destruct Iso as (a & b & c & O & K).
              assert (Hl : local_components n env (update_local_base tol f x) (part_of d u p)
                (V3 (dot (part_of d u p) a) (dot (part_of d u p) b) (dot (part_of d u p) c))).
              { unfold local_components. rewrite K. f_equal. apply ortho_rows. exact O. }
              apply (Hm u _ Hl). eapply F; eauto. left; reflexivity.
            * apply H. intros d' v' l Hd'. apply F. right; exact Hd'.
        - cbn [bind]. rewrite E. cbn [bind]. eexists. split; [reflexivity|]. intros u. cbn [concat app]. rewrite H.
          split; intros F d' v' l.
          + intros [<-|Hd'] Ev' Hl; [congruence|]. eapply F; eauto.
          + intros Hd' Ev' Hl. eapply F; eauto. right; exact Hd'. }
      destruct (G [DX; DY; DZ; RX; RY; RZ]) as (ms & E & H). exists ms. split; [exact E|]. intros u. rewrite H.
      split; intros F d v l; [intros Ev Hl; eapply F; eauto; apply all_dofs_in|intros _; apply F]. }
    destruct M as (ms & Em & Hm). rewrite Em. cbn [bind]. rewrite Heq.
    destruct (IH (filter (fun q => negb (Z.eqb q p)) own) ND') as (ms' & own' & E' & Ho' & H').
    { intros q f' x' Hq Eq. destruct (Hin q f' x' (or_intror Hq) Eq) as [Hq' Iso']. split; [|exact Iso'].
      apply filter_In. split; [exact Hq'|]. apply negb_true_iff, Z.eqb_neq. intros ->. contradiction. }
    rewrite E'. cbn [bind fst snd]. exists (concat ms ++ ms'), own'. split; [reflexivity|]. split.
    + intros q. rewrite Ho', filter_In, negb_true_iff, Z.eqb_neq. cbn [In]. split.
      * intros [[H1 H2] H3]. split; [exact H1|]. intros [[->|H4] H5]; [contradiction|apply H3; auto].
      * intros [H1 H2]. split; [split; [exact H1|]|].
        -- intros ->. apply H2. split; [left; reflexivity|congruence].
        -- intros [H3 H4]. apply H2. split; [right; exact H3|exact H4].
    + intros u. rewrite Forall_app, Hm, H'. split.
      * intros [F1 F2] q f' x' d v l [<-|Hq] Eq Ev Hl; [|eapply F2; eauto].
        rewrite El in Eq. injection Eq as <- <-. eapply F1; eauto.
      * intros F. split; [intros d v l Ev Hl; eapply F; eauto; left; reflexivity|].
        intros q f' x' d v l Hq. apply F. right; exact Hq.
  - destruct (IH own ND') as (ms & own' & E & Ho & H).
    { intros q f x Hq Eq. apply (Hin q f x); [right; exact Hq|exact Eq]. }
    exists ms, own'. split; [exact E|]. split.
    + intros q. rewrite Ho. cbn [In]. split; intros [H1 H2]; (split; [exact H1|]); intros [H3 H4]; apply H2.
      * destruct H3 as [<-|H3]; [congruence|auto].
      * auto.
    + intros u. rewrite H. split; intros F q f x d v l; [|intros Hq; apply F; right; exact Hq].
      intros [<-|Hq] Eq; [congruence|]. apply F; assumption.
Qed.

Lemma local_support_aux : forall n tol env local s,
  (forall p, In p (group_nodes s) -> local p = None \/ In p (own_nodes s)) ->
  (forall p f x, In p (own_nodes s ++ group_nodes s) -> local p = Some (f, x) -> isometric n env (update_local_base tol f x)) ->
  exists ms own', emulate_local n tol env local s = Ok (ms, own') /\
  (forall q, In q own' <-> In q (own_nodes s) /\ local q = None) /\
  forall u, Forall (holds u) ms <->
    forall p f x d v l, In p (own_nodes s ++ group_nodes s) -> local p = Some (f, x) -> spc_value s d = Some v ->
      local_components n env (update_local_base tol f x) (part_of d u p) l -> component d l = v.
Proof.
  intros n tol env local s Hg Hi. unfold emulate_local.
  destruct (emulate_support_spec n tol env local s (nodup Z.eq_dec (own_nodes s ++ group_nodes s)) (own_nodes s)) as (ms & own' & E & Ho & H).
  - apply NoDup_nodup.
  - intros p f x Hp El. apply nodup_In in Hp. split; [|eapply Hi; eauto].
    apply in_app_or in Hp. destruct Hp as [Hp|Hp]; [exact Hp|]. destruct (Hg p Hp); [congruence|assumption].
  - exists ms, own'. split; [exact E|]. split.
    + intros q. rewrite Ho, nodup_In. split.
      * intros [H1 H2]. split; [exact H1|]. destruct (local q); [|reflexivity]. exfalso. apply H2. split; [apply in_or_app; left; exact H1|discriminate].
      * intros [H1 H2]. split; [exact H1|]. rewrite H2. tauto.
    + intros u. rewrite H. split; intros F p f x d v l Hp; apply F; apply (nodup_In Z.eq_dec); exact Hp.
Qed.

(* The frames of this file's geometry are isometric. *)
Lemma cartesian_isometric : forall env f, cartesian env f -> exists depth, forall n tol x, (depth <= n)%nat ->
  isometric n env (update_local_base tol f x).
Proof.
  intros env f H. destruct (cartesian_converts env f H) as (n0 & o & a & b & c & K0).
  exists n0. intros n tol x Hn. pose proof (converts_more _ _ _ _ _ _ _ K0 n Hn) as [K1 K2 _ _].
  assert (E : fkind f = Cartesian).
  { destruct H as [o' z xz H|a' b' c' H|a' b' c' rid p H _ _ _].
    - destruct (nodes_built o' z xz 0 H) as (? & ? & ? & E & _). rewrite E. reflexivity.
    - rewrite cord2r_built by exact H. reflexivity.
    - rewrite cord2r_built by exact H. reflexivity. }
  unfold update_local_base. rewrite E. exists a, b, c. auto.
Qed.

(* The point [p] is away from the axis of the cylinder through [a] and [b]. *)
Definition off_axis (tol : R) (a b p : vec) : Prop :=
  let k := normalized (vsub b a) in
  let d := vsub p a in
  ~ (Rabs (vx d) <= tol /\ Rabs (vy d) <= tol /\ Rabs (vz d) <= tol) /\
  p <> vadd a (vscale (dot d k) k).

Lemma cylinder_isometric : forall env n tol a b c p, 0 <= tol -> not_aligned a b c -> off_axis tol a b p ->
  isometric (S n) env (update_local_base tol (cord2c a b c 0) p).
Proof.
  intros env n tol a b c p Ht H [H1 H2].
  destruct (C66_local_base_partial env n tol a b c p Ht H H1 H2) as (ur & ut & E1 & E2 & E3 & O & _).
  exists ur, ut, (normalized (vsub b a)). split; [exact O|].
  assert (G : exists A B C, forall l, vector_to_global (S n) env (update_local_base tol (cord2c a b c 0) p) l = Ok (along A B C l)).
  { rewrite cord2c_axes by exact H. unfold update_local_base. cbn [fkind origin ez].
    destruct (vec_iszero tol _); cbn; do 3 eexists; intros l; reflexivity. }
  destruct G as (A & B & C & K). intros l. rewrite K in E1, E2, E3. rewrite K. f_equal.
  assert (inj : forall x y : vec, Ok x = Ok y -> x = y) by (intros x y E; injection E; auto).
  rewrite <- (inj _ _ E1), <- (inj _ _ E2), <- (inj _ _ E3). clear. vring.
Qed.

(* A frame in which the displacements of the node at [x] are given: Cartesian,
   possibly nested, or cylindrical in the global frame with the node off its axis. *)
Definition node_frame (tol : R) (env : systems) (f : frame) (x : vec) : Prop :=
  cartesian env f \/ exists a b c, not_aligned a b c /\ off_axis tol a b x /\ f = cord2c a b c 0.

(** C35.  A support applied directly to nodes whose displacements are given in
    local axes is replaced by relations that hold for a field exactly when, at
    each of these nodes, each supported local component has the prescribed
    value; the nodes in global axes keep their support. *)
Theorem C35_local_support_partial : forall tol env local s, 0 <= tol ->
  (forall p, In p (group_nodes s) -> local p = None \/ In p (own_nodes s)) ->
  (forall p f x, In p (own_nodes s) -> local p = Some (f, x) -> node_frame tol env f x) ->
  exists depth, forall n, (depth <= n)%nat ->
  exists ms own', emulate_local n tol env local s = Ok (ms, own') /\
  (forall q, In q own' <-> In q (own_nodes s) /\ local q = None) /\
  forall u, Forall (holds u) ms <->
    forall p f x d v l, In p (own_nodes s ++ group_nodes s) -> local p = Some (f, x) -> spc_value s d = Some v ->
      local_components n env (update_local_base tol f x) (part_of d u p) l -> component d l = v.
Proof.
  intros tol env local s Ht Hg Hf.
  assert (D : forall ps, (forall p f x, In p ps -> local p = Some (f, x) -> node_frame tol env f x) ->
    exists depth, forall n, (depth <= n)%nat -> forall p f x, In p ps -> local p = Some (f, x) ->
      isometric n env (update_local_base tol f x)).
  { induction ps as [|p r IH]; intros Hp; [exists 0%nat; intros n _ p f x []|].
    destruct IH as [d0 H0]; [intros q f x Hq; apply Hp; right; exact Hq|].
    assert (D1 : exists d1, forall n, (d1 <= n)%nat -> forall f x, local p = Some (f, x) -> isometric n env (update_local_base tol f x)).
    { destruct (local p) as [[f x]|] eqn:E; [|exists 0%nat; discriminate].
      destruct (Hp p f x (or_introl eq_refl) E) as [C|(a & b & c & Ha & Ho & ->)].
      - destruct (cartesian_isometric env f C) as [d1 H1]. exists d1. intros n Hn f' x' E'. injection E' as <- <-. apply H1, Hn.
      - exists 1%nat. intros n Hn f' x' E'. injection E' as <- <-. destruct n as [|n]; [lia|]. apply cylinder_isometric; assumption. }
    destruct D1 as [d1 H1]. exists (Nat.max d0 d1). intros n Hn q f x [<-|Hq] E; [apply H1; [lia|exact E]|].
    apply (H0 n) with (p := q); [lia|exact Hq|exact E]. }
  destruct (D (own_nodes s) Hf) as [depth Hd]. exists depth. intros n Hn. apply local_support_aux; [exact Hg|].
  intros p f x Hp El. apply in_app_or in Hp. destruct Hp as [Hp|Hp]; [apply (Hd n Hn p f x Hp El)|].
  destruct (Hg p Hp) as [E|E]; [congruence|]. apply (Hd n Hn p f x E El).
Qed.

Definition e35_frame := build (cord2r (V3 1 2 3) (V3 1 4 3) (V3 3 2 9) 0).
Definition e35_support := Support (fun d => match d with DX => Some 0 | RY => Some 1 | _ => None end) [4; 7]%Z [].
Lemma e35_cart : cartesian (fun _ => None) e35_frame.
Proof. apply cart_global. unfold not_aligned. apply cross_test. cbn. lra. Qed.
Definition e35_local (p : Z) : option (frame * vec) :=
  if Z.eqb p 4 then Some (e35_frame, V3 0 0 0)
  else if Z.eqb p 7 then Some (cord2c (V3 0 0 0) (V3 0 0 1) (V3 1 0 0) 0, V3 3 4 0) else None.
Example C35_example :
  (forall p, In p (group_nodes e35_support) -> e35_local p = None \/ In p (own_nodes e35_support)) /\
  (forall p f x, In p (own_nodes e35_support) -> e35_local p = Some (f, x) -> node_frame 0 (fun _ => None) f x).
Proof.
  split; [intros p []|]. intros p f x [<-|[<-|[]]] E; injection E as <- <-.
  - left. exact e35_cart.
  - right. exists (V3 0 0 0), (V3 0 0 1), (V3 1 0 0). split; [apply cross_test; cbn; lra|]. split; [|reflexivity].
    split.
    + cbn. intros (H & _). rewrite Rabs_right in H; lra.
    + intros E. apply (f_equal vx) in E. cbn in E. unfold Rdiv in E. lra.
Qed.

(** C35 fails when the node is reached through a group: removing it from the
    support erases the end of the set of nodes. *)
Theorem C35_group_node_refuted : exists n tol env local s,
  own_nodes s = [] /\ group_nodes s = [4%Z] /\ local 4%Z = Some (e35_frame, V3 0 0 0) /\
  isometric n env (update_local_base tol e35_frame (V3 0 0 0)) /\
  emulate_local n tol env local s = UB.
Proof.
  destruct (cartesian_isometric (fun _ => None) e35_frame) as [n Hn].
  { exact e35_cart. }
  pose (s := Support (fun d => match d with DX => Some 0 | _ => None end) [] [4%Z]).
  exists n, 0, (fun _ => None), (fun p => if Z.eqb p 4 then Some (e35_frame, V3 0 0 0) else None), s.
  repeat (split; [reflexivity|]). pose proof (Hn n 0 (V3 0 0 0) (le_n n)) as Iso. split; [exact Iso|].
  unfold emulate_local. replace (nodup Z.eq_dec (own_nodes s ++ group_nodes s)) with [4%Z] by reflexivity.
  cbn [emulate_support mapM Z.eqb Pos.eqb spc_value s].
  destruct (local_mpc_spec n (fun _ => None) _ 4 DX 0 Iso) as (m & Em & _). cbv zeta. rewrite Em. reflexivity.
Qed.

Print Assumptions C34_link_relations.
Print Assumptions C34_link_accepted.
Print Assumptions C35_local_support_partial.
Print Assumptions C35_group_node_refuted.

(** C34: however the terms of a relation are entered, several for one node
    included, the relation holds when the works of all of them add up to the
    imposed value. *)
Lemma work_add c c' v : work (fun d => c d + c' d) v = work c v + work c' v.
Proof. unfold work. ring. Qed.
Lemma total_add l p c u : total (add_term l p c) u = total l u + work c (u p).
Proof.
  induction l as [|[q c'] l IH]; cbn [add_term total]; [ring|]. destruct (Z.eqb_spec q p) as [->|_]; cbn [total]; [rewrite work_add; ring|].
  rewrite IH. ring.
Qed.
Fixpoint works (ps : list (Z * (dof -> R))) (u : field) : R :=
  match ps with [] => 0 | (p, c) :: r => work c (u p) + works r u end.
Theorem C34_terms_add_up : forall ps v u,
  holds u (fold_left (fun m t => add_participation m (fst t) (snd t)) ps (Mpc [] v)) <-> works ps u = v.
Proof.
  assert (G : forall ps m u, let m' := fold_left (fun m t => add_participation m (fst t) (snd t)) ps m in
    total (terms m') u = total (terms m) u + works ps u /\ imposed m' = imposed m).
  { induction ps as [|[p c] ps IH]; intros m u; cbn [fold_left works]; [split; [ring|reflexivity]|].
    destruct (IH (add_participation m p c) u) as [A B]. cbn [fst snd]. split; [|exact B]. rewrite A. cbn [add_participation terms]. rewrite total_add. ring. }
  intros ps v u. destruct (G ps (Mpc [] v) u) as [A B]. unfold holds. rewrite A, B. cbn [terms imposed total]. rewrite Rplus_0_l. reflexivity.
Qed.
(** Two terms on one node: u(3,DX) + 2 u(3,DX) - u(5,DX) = 0. *)
Example C34_terms_case : forall u : field,
  holds u (fold_left (fun m t => add_participation m (fst t) (snd t))
     [(3%Z, coef6 1 0 0 0 0 0); (5%Z, coef6 (-1) 0 0 0 0 0); (3%Z, coef6 2 0 0 0 0 0)] (Mpc [] 0)) <-> u 5%Z DX = 3 * u 3%Z DX.
Proof. intros u. rewrite C34_terms_add_up. cbn [works]. unfold work, coef6. split; intros H; lra. Qed.
Print Assumptions C34_terms_add_up.
