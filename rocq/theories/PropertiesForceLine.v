(** C107: loads on lines given as functions of X. *)
From Coq Require Import ZArith QArith Qabs Qminmax Lqa List Bool Arith Lia.
From Verif Require Import Base ReferenceModel ForceLineModel.
Import ListNotations.
Open Scope Z_scope.

(** The specification: the broken line through the points of a table. *)
Definition curve (pts : list (Q * Q)) (x y : Q) : Prop :=
  exists a b pre post u, pts = pre ++ a :: b :: post /\ (0 <= u /\ u <= 1)%Q /\
    (x == fst a + u * (fst b - fst a))%Q /\ (y == snd a + u * (snd b - snd a))%Q.
(** The X of the point of a bar at a fraction of its length. *)
Definition point_x (x1 x2 a : Q) : Q := (x1 + a * (x2 - x1))%Q.

(** Two numbers that differ by more than the tolerance. *)
Definition apart (x y : Q) : Prop :=
  ((5 # 4503599627370496) * Qmax 1 (Qmax (Qabs x) (Qabs y)) < Qabs (x - y))%Q.

(** A load which is a function of the fraction becomes the same as a function of X. *)
Definition same_load (cell_nodes : nat -> list nat) (node_x : nat -> Q) (l l' : fline) : Prop :=
  l_cells l' = l_cells l /\ l_dof l' = l_dof l /\
  forall t, l_force l = FTable t -> t_x t = ABSC ->
  exists t' c n1 n2, l_cells l = [c] /\ cell_nodes c = [n1; n2] /\ l_force l' = FTable t' /\ t_x t' = PARAX /\
    t_y t' = t_y t /\ t_param t' = t_param t /\ t_value t' = t_value t /\
    t_left t' = t_left t /\ t_right t' = t_right t /\ length (t_points t') = length (t_points t) /\
    forall a y, curve (t_points t) a y <-> curve (t_points t') (point_x (node_x n1) (node_x n2) a) y.
(** The loads that the pass can treat: none if not a function; else a table on one
    cell which is not perpendicular to X, of two nodes if the table is a function
    of the fraction. *)
Definition treatable (cell_nodes : nat -> list nat) (node_x : nat -> Q) (l : fline) : Prop :=
  (exists x, l_force l = FNumber x) \/
  exists t c n1 n2 rest, l_force l = FTable t /\ l_cells l = [c] /\ cell_nodes c = n1 :: n2 :: rest /\
    apart (node_x n1) (node_x n2) /\
    (t_x t = ABSC -> rest = [] /\ t_id t = NO_ID).

Lemma close_refl x y : (x == y)%Q -> close x y = true.
Proof.
  intros E. unfold close. apply Qle_bool_iff. assert (E0 : (x - y == 0)%Q) by (rewrite E; ring). rewrite E0.
  change (Qabs 0) with 0%Q. pose proof (Q.le_max_l 1 (Qmax (Qabs x) (Qabs y))).
  apply Qmult_le_0_compat; [discriminate|]. lra.
Qed.

Lemma close_apart x y : close x y = false <-> apart x y.
Proof.
  unfold close, apart. change ((5 # 1) * (1 # 2 ^ 52))%Q with (5 # 4503599627370496)%Q. split.
  - intros H. apply Qnot_le_lt. intros C. apply Qle_bool_iff in C. congruence.
  - intros H. destruct (Qle_bool _ _) eqn:E; [|reflexivity]. apply Qle_bool_iff in E. apply Qlt_not_le in H. contradiction.
Qed.

Lemma close_sound x y : close x y = false -> ~ (x == y)%Q.
Proof. intros H E. rewrite close_refl in H by exact E. discriminate. Qed.

Lemma curve_map x1 x2 pts a y : ~ (x1 == x2)%Q ->
  (curve pts a y <-> curve (map (absolute x1 x2) pts) (point_x x1 x2 a) y).
Proof.
  intros N. unfold curve, point_x. split.
  - intros (p & q & pre & post & u & -> & U & Ex & Ey).
    exists (absolute x1 x2 p), (absolute x1 x2 q), (map (absolute x1 x2) pre), (map (absolute x1 x2) post), u.
    split; [now rewrite map_app|]. split; [exact U|]. cbn [absolute fst snd]. split; [rewrite Ex; ring|exact Ey].
  - intros (p & q & pre & post & u & E & U & Ex & Ey).
    apply map_eq_app in E. destruct E as (l1 & l2 & -> & E1 & E2). destruct l2 as [|p0 [|q0 l2]]; try discriminate.
    cbn [map] in E2. injection E2 as E3 E4 E5. subst p q. cbn [absolute fst snd] in Ex, Ey.
    exists p0, q0, l1, l2, u. split; [reflexivity|]. split; [exact U|]. split; [|exact Ey].
    assert (K : ((a - (fst p0 + u * (fst q0 - fst p0))) * (x2 - x1) == 0)%Q).
    { assert (M : (x1 + a * (x2 - x1) - (x1 * (1 - fst p0) + x2 * fst p0 + u * (x1 * (1 - fst q0) + x2 * fst q0 - (x1 * (1 - fst p0) + x2 * fst p0))) == 0)%Q) by (rewrite Ex; ring).
      rewrite <- M. ring. }
    apply Qmult_integral in K. destruct K as [K|K]; [lra|]. exfalso. apply N. lra.
Qed.

Lemma convert_same cell_nodes node_x ids l ids' l' :
  convert cell_nodes node_x ids l = Ok (ids', l') -> same_load cell_nodes node_x l l'.
Proof.
  unfold convert. destruct (is_function (l_force l)) eqn:F; cbn [negb].
  2:{ intros [= <- <-]. split; [reflexivity|]. split; [reflexivity|]. intros t E. rewrite E in F. discriminate. }
  destruct (l_cells l) as [|c [|c2 cs]] eqn:Ec; try discriminate.
  destruct (nth_error (cell_nodes c) 0) as [n1|] eqn:E1; [|discriminate]. cbn [bind].
  destruct (nth_error (cell_nodes c) 1) as [n2|] eqn:E2; [|discriminate]. cbn [bind].
  destruct (close (node_x n1) (node_x n2)) eqn:Cl; [discriminate|].
  destruct (l_force l) as [x|t|n] eqn:Ef; try discriminate.
  destruct (t_x t) eqn:Et.
  - destruct (length (cell_nodes c) =? 2)%nat eqn:El; [|discriminate]. cbn [negb]. apply Nat.eqb_eq in El.
    destruct (negb (t_id t =? NO_ID) && existsb (Z.eqb (t_id t)) ids); [discriminate|].
    intros [= <- <-]. unfold same_load. cbn [l_cells l_dof l_force]. split; [now rewrite Ec|]. split; [reflexivity|].
    intros t0 E0 _. rewrite Ef in E0. injection E0 as <-. eexists. exists c, n1, n2. split; [exact Ec|].
    split. { destruct (cell_nodes c) as [|a [|b [|d r]]]; try discriminate. cbn in E1, E2. congruence. }
    split; [reflexivity|]. cbn. repeat (split; [reflexivity|]). split; [apply map_length|].
    intros a y. apply curve_map. now apply close_sound.
  - intros [= <- <-]. split; [reflexivity|]. split; [reflexivity|]. intros t0 E0 H. rewrite Ef in E0. congruence.
  - intros [= <- <-]. split; [reflexivity|]. split; [reflexivity|]. intros t0 E0 H. rewrite Ef in E0. congruence.
Qed.

(** When the pass ends every load is the one given, point by point along its bar. *)
Theorem C107_same_load : forall cell_nodes node_x ls ids ids' ls',
  to_absolute cell_nodes node_x ids ls = Ok (ids', ls') ->
  Forall2 (same_load cell_nodes node_x) ls ls'.
Proof.
  intros cell_nodes node_x. induction ls as [|l ls IH]; intros ids ids' ls'; cbn.
  - intros [= <- <-]. constructor.
  - destruct (convert cell_nodes node_x ids l) as [[i1 l1]| | |] eqn:E1; try discriminate. cbn [bind fst snd].
    destruct (to_absolute cell_nodes node_x i1 ls) as [[i2 l2]| | |] eqn:E2; try discriminate. cbn [bind fst snd].
    intros [= <- <-]. constructor; [eapply convert_same; eauto|]. eapply IH; eauto.
Qed.

(** A number and a function of another parameter are left as they are. *)
Theorem C107_others_kept : forall cell_nodes node_x ls ids ids' ls',
  to_absolute cell_nodes node_x ids ls = Ok (ids', ls') ->
  Forall2 (fun l l' => (forall t, l_force l = FTable t -> t_x t <> ABSC) -> l' = l) ls ls'.
Proof.
  intros cell_nodes node_x. induction ls as [|l ls IH]; intros ids ids' ls'; cbn.
  - intros [= <- <-]. constructor.
  - destruct (convert cell_nodes node_x ids l) as [[i1 l1]| | |] eqn:E1; try discriminate. cbn [bind fst snd].
    destruct (to_absolute cell_nodes node_x i1 ls) as [[i2 l2]| | |] eqn:E2; try discriminate. cbn [bind fst snd].
    intros [= <- <-]. constructor; [|eapply IH; eauto]. intros H. unfold convert in E1.
    destruct (is_function (l_force l)); cbn [negb] in E1; [|congruence].
    destruct (l_cells l) as [|c [|c2 cs]]; try discriminate.
    destruct (nth_error (cell_nodes c) 0) as [n1|]; [|discriminate]. cbn [bind] in E1.
    destruct (nth_error (cell_nodes c) 1) as [n2|]; [|discriminate]. cbn [bind] in E1.
    destruct (close (node_x n1) (node_x n2)); [discriminate|].
    destruct (l_force l) as [x|t|n] eqn:Ef; try discriminate.
    destruct (t_x t) eqn:Et; try congruence. exfalso. now apply (H t).
Qed.

(** It ends exactly when each load can be treated (the tables have their numbers in the
    model). *)
Theorem C107_ends : forall cell_nodes node_x ls ids,
  (forall l t, In l ls -> l_force l = FTable t -> t_id t <> NO_ID -> In (t_id t) ids) ->
  ((exists r, to_absolute cell_nodes node_x ids ls = Ok r) <-> Forall (treatable cell_nodes node_x) ls).
Proof.
  intros cell_nodes node_x.
  assert (One : forall l ids, (forall t, l_force l = FTable t -> t_id t <> NO_ID -> In (t_id t) ids) ->
    (exists r, convert cell_nodes node_x ids l = Ok r) <-> treatable cell_nodes node_x l).
  { intros l ids H. unfold convert, treatable. destruct (l_force l) as [x|t|n] eqn:Ef; cbn [is_function negb].
    - split; [intros _; left; now exists x|intros _; eauto].
    - split.
      + intros [r E]. right. destruct (l_cells l) as [|c [|c2 cs]] eqn:Ec; try discriminate.
        destruct (cell_nodes c) as [|n1 [|n2 rest]] eqn:En; try discriminate. cbn [nth_error bind] in E.
        destruct (close (node_x n1) (node_x n2)) eqn:Cl; [discriminate|].
        exists t, c, n1, n2, rest. split; [reflexivity|]. split; [reflexivity|]. split; [exact En|]. split; [now apply close_apart|].
        intros Ht. rewrite Ht in E. destruct rest as [|n3 rest]; [|discriminate]. split; [reflexivity|].
        cbn [length Nat.eqb negb] in E. destruct (Z.eqb_spec (t_id t) NO_ID) as [Ei|Ni]; [exact Ei|].
        specialize (H t eq_refl Ni). assert (X : existsb (Z.eqb (t_id t)) ids = true).
        { apply existsb_exists. exists (t_id t). split; [exact H|apply Z.eqb_refl]. }
        rewrite X in E. discriminate.
      + intros [[x E]|(t0 & c & n1 & n2 & rest & E & Ec & En & Cl & Ht)]; [discriminate|]. injection E as <-.
        apply close_apart in Cl.
        rewrite Ec, En. cbn [nth_error bind]. rewrite Cl. destruct (t_x t); [|eauto|eauto].
        destruct (Ht eq_refl) as [-> ->]. cbn [length Nat.eqb negb]. rewrite Z.eqb_refl. cbn [negb andb]. eauto.
    - split.
      + intros [r E]. exfalso. destruct (l_cells l) as [|c [|c2 cs]]; try discriminate.
        destruct (cell_nodes c) as [|n1 [|n2 rest]]; try discriminate. cbn [nth_error bind] in E.
        destruct (close (node_x n1) (node_x n2)); discriminate.
      + intros [[x E]|(t0 & c & n1 & n2 & rest & E & _)]; discriminate. }
  induction ls as [|l ls IH]; intros ids H; cbn [to_absolute].
  - split; [constructor|eauto].
  - assert (Grow : forall r, convert cell_nodes node_x ids l = Ok r -> forall i, In i ids -> In i (fst r)).
    { intros r E i Hi. unfold convert in E. destruct (negb (is_function (l_force l))); [injection E as <-; exact Hi|].
      destruct (l_cells l) as [|c [|c2 cs]]; try discriminate.
      destruct (nth_error (cell_nodes c) 0) as [n1|]; [|discriminate]. cbn [bind] in E.
      destruct (nth_error (cell_nodes c) 1) as [n2|]; [|discriminate]. cbn [bind] in E.
      destruct (close (node_x n1) (node_x n2)); [discriminate|].
      destruct (l_force l) as [x|t|n]; try discriminate.
      destruct (t_x t); try (injection E as <-; exact Hi).
      destruct (negb (length (cell_nodes c) =? 2)%nat); [discriminate|].
      destruct (negb (t_id t =? NO_ID) && existsb (Z.eqb (t_id t)) ids); [discriminate|].
      injection E as <-. cbn [fst]. destruct (t_id t =? NO_ID); [exact Hi|now right]. }
    assert (O := One l ids (fun t => H l t (or_introl eq_refl))). split.
    + intros [r E]. destruct (convert cell_nodes node_x ids l) as [a| | |] eqn:E1; try discriminate. cbn [bind] in E.
      destruct (to_absolute cell_nodes node_x (fst a) ls) as [b| | |] eqn:E2; try discriminate.
      constructor; [apply O; eauto|]. apply (IH (fst a)); [|eauto].
      intros l0 t0 Hl Hf Hi. eapply Grow; [reflexivity|]. eapply H; eauto. now right.
    + intros F. inversion F; subst. destruct O as [_ O]. destruct (O H2) as [a E1]. rewrite E1. cbn [bind].
      destruct (IH (fst a)) as [_ K].
      { intros l0 t0 Hl Hf Hi. eapply Grow; [exact E1|]. eapply H; eauto. now right. }
      destruct (K H3) as [b E2]. rewrite E2. cbn [bind]. eauto.
Qed.

(** The points are in ascending X when the bar goes up the axis, descending otherwise. *)
Fixpoint rising (pts : list (Q * Q)) : Prop :=
  match pts with
  | a :: ((b :: _) as r) => (fst a < fst b)%Q /\ rising r
  | _ => True
  end.
Fixpoint falling (pts : list (Q * Q)) : Prop :=
  match pts with
  | a :: ((b :: _) as r) => (fst b < fst a)%Q /\ falling r
  | _ => True
  end.
Lemma absolute_order x1 x2 pts : rising pts ->
  ((x1 < x2)%Q -> rising (map (absolute x1 x2) pts)) /\ ((x2 < x1)%Q -> falling (map (absolute x1 x2) pts)).
Proof.
  induction pts as [|a [|b r] IH]; intros H; [split; intros; exact Logic.I|split; intros; exact Logic.I|].
  destruct H as [H1 H2]. destruct (IH H2) as [A B]. split; intros L; cbn [map]; (split; [|auto]); cbn [absolute fst].
  - assert (0 < (fst b - fst a) * (x2 - x1))%Q by (apply Qmult_lt_0_compat; lra). lra.
  - assert (0 < (fst b - fst a) * (x1 - x2))%Q by (apply Qmult_lt_0_compat; lra). lra.
Qed.
Theorem C107_order : forall cell_nodes node_x ids l ids' l' t c n1 n2,
  convert cell_nodes node_x ids l = Ok (ids', l') ->
  l_force l = FTable t -> t_x t = ABSC -> l_cells l = [c] -> cell_nodes c = [n1; n2] -> rising (t_points t) ->
  exists t', l_force l' = FTable t' /\
    ((node_x n1 < node_x n2)%Q -> rising (t_points t')) /\ ((node_x n2 < node_x n1)%Q -> falling (t_points t')).
Proof.
  intros cell_nodes node_x ids l ids' l' t c n1 n2 E Ef Et Ec En R. unfold convert in E.
  rewrite Ef, Ec, En in E. cbn [is_function negb nth_error bind] in E.
  destruct (close (node_x n1) (node_x n2)); [discriminate|]. rewrite Et in E. cbn [length Nat.eqb negb] in E.
  destruct (negb (t_id t =? NO_ID) && existsb (Z.eqb (t_id t)) ids); [discriminate|]. injection E as <- <-.
  eexists. split; [reflexivity|]. cbn [t_points]. now apply absolute_order.
Qed.

Definition slope (x : para) : ftable := mkTable NO_ID x None LINEAR LINEAR NOINTER NOINTER [(0#1, 10#1); (1#1, 30#1)]%Q.
Example C107_case :
  let nodes := fun _ : nat => [0; 1]%nat in
  let xs := fun n => nth n [5#1; 7#1]%Q 0%Q in
  let l := mkLine [0%nat] (FTable (slope ABSC)) 2 in
  treatable nodes xs l /\
  exists t', to_absolute nodes xs [] [l] = Ok ([], [mkLine [0%nat] (FTable t') 2]) /\
    map (fun p => (Qred (fst p), snd p)) (t_points t') = [(5#1, 10#1); (7#1, 30#1)]%Q /\ t_x t' = PARAX /\
    curve (t_points t') 6 20.
Proof.
  cbv zeta. split.
  - right. exists (slope ABSC), 0%nat, 0%nat, 1%nat, []. split; [reflexivity|]. split; [reflexivity|]. split; [reflexivity|].
    split; [vm_compute; reflexivity|]. intros _. split; reflexivity.
  - eexists. split; [vm_compute; reflexivity|]. split; [vm_compute; reflexivity|]. split; [reflexivity|].
    eexists. eexists. exists [], [], (1#2)%Q. split; [reflexivity|]. split; [split; discriminate|]. split; reflexivity.
Qed.

(** The abscissas of PLOAD1 in lengths, read as a function of X (NastranParser.cpp:2811-2817),
    are left: at one unit from the end of a bar which starts at X = 5 there is no load. *)
Theorem C107_length_refuted : exists nodes xs (l : fline) t,
  l_force l = FTable t /\ t_x t = PARAX /\ t_points t = [(0#1, 10#1); (1#1, 30#1)]%Q /\
  to_absolute nodes xs [] [l] = Ok ([], [l]) /\
  (xs 0%nat == 5)%Q /\ (xs 1%nat == 6)%Q /\ nodes 0%nat = [0; 1]%nat /\ l_cells l = [0%nat] /\
  curve (t_points t) 1 30 /\ (forall y, ~ curve (t_points t) (point_x (xs 0%nat) (xs 1%nat) 1) y).
Proof.
  exists (fun _ => [0; 1]%nat), (fun n => nth n [5#1; 6#1]%Q 0%Q), (mkLine [0%nat] (FTable (slope PARAX)) 2), (slope PARAX).
  split; [reflexivity|]. split; [reflexivity|]. split; [reflexivity|]. split; [vm_compute; reflexivity|].
  split; [reflexivity|]. split; [reflexivity|]. split; [reflexivity|]. split; [reflexivity|]. split.
  - eexists. eexists. exists [], [], 1%Q. split; [reflexivity|]. split; [split; discriminate|]. split; reflexivity.
  - intros y (a & b & pre & post & u & E & [U1 U2] & Ex & _). cbn in E.
    destruct pre as [|p [|q [|z pre]]]; cbn in E; try discriminate.
    injection E as <- <- _. unfold point_x in Ex. cbn in Ex. lra.
Qed.

(** A bar along Y or Z stops the conversion, even for a function which needs none. *)
Theorem C107_vertical_refuted : exists nodes xs l t, l_force l = FTable t /\ t_x t = PARAX /\
  to_absolute nodes xs [] [l] = Throw.
Proof.
  exists (fun _ => [0; 1]%nat), (fun n => 5%Q), (mkLine [0%nat] (FTable (slope PARAX)) 2), (slope PARAX).
  split; [reflexivity|]. split; [reflexivity|]. vm_compute. reflexivity.
Qed.

(** So does a table with a number of its own, a load on two cells and another function. *)
Theorem C107_named_refuted : exists nodes xs l t, l_force l = FTable t /\ t_id t = 3 /\
  to_absolute nodes xs [3] [l] = Throw /\ ~ (xs 0%nat == xs 1%nat)%Q.
Proof.
  exists (fun _ => [0; 1]%nat), (fun n => nth n [5#1; 7#1]%Q 0%Q).
  set (t := mkTable 3 ABSC None LINEAR LINEAR NOINTER NOINTER [(0#1, 10#1); (1#1, 30#1)]%Q).
  exists (mkLine [0%nat] (FTable t) 2), t. split; [reflexivity|]. split; [reflexivity|]. split; [vm_compute; reflexivity|]. discriminate.
Qed.
Theorem C107_group_refuted : exists nodes xs l, l_cells l = [0; 1]%nat /\
  to_absolute nodes xs [] [l] = Throw /\ ~ (xs 0%nat == xs 1%nat)%Q.
Proof.
  exists (fun _ => [0; 1]%nat), (fun n => nth n [5#1; 7#1]%Q 0%Q), (mkLine [0; 1]%nat (FTable (slope ABSC)) 2).
  split; [reflexivity|]. split; [vm_compute; reflexivity|]. discriminate.
Qed.

Print Assumptions C107_same_load.
Print Assumptions C107_others_kept.
Print Assumptions C107_ends.
Print Assumptions C107_order.
Print Assumptions C107_case.
Print Assumptions C107_length_refuted.
Print Assumptions C107_vertical_refuted.
Print Assumptions C107_named_refuted.
Print Assumptions C107_group_refuted.
