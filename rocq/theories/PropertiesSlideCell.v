(** C124: a sliding contact becomes one cell for each node of the slave surface, joined
    to a face of the master surface whose box is nearest to it. *)
From Coq Require Import Reals ZArith List Bool Lra Lia Permutation.
From Verif Require Import Base GeomModel MeshStatsModel SlideCellModel SlideCellProofs.
Import ListNotations.
Open Scope R_scope.

(** The cell joining a face to a node: the nodes of the face, in order, then the node. *)
Definition joins (f : face) (n : pnode) (c : slidecell) : Prop :=
  sc_nodes c = map fst f ++ [fst n] /\
  (length f = 3%nat /\ sc_type c = TETRA4 \/ length f = 4%nat /\ sc_type c = PYRA5).

Lemma slide_cell_spec f n c : slide_cell f n = Ok c <-> joins f n c.
Proof.
  unfold slide_cell, joins. split.
  - destruct (length f) as [|[|[|[|[|k]]]]]; intros H; try discriminate H; injection H as <-; cbn; auto.
  - destruct c as [t ns]. cbn. intros [-> [[-> ->]|[-> ->]]]; reflexivity.
Qed.

Lemma forall2_impl {A B} (P Q : A -> B -> Prop) l m : (forall a b, P a b -> Q a b) -> Forall2 P l m -> Forall2 Q l m.
Proof. induction 2; constructor; auto. Qed.

(** Every node of the slave faces, in order, gets its cell; the face joined is one of the
    master surface, and no box of a master face has a point nearer than the nearest point
    of its box. *)
Theorem C124_cells masters slaves cs : makeCells masters slaves (Ok cs) ->
  Forall2 (fun n c => exists f q, In f masters /\ joins f n c /\ boxed f q /\
    forall g q', In g masters -> boxed g q' -> sqd (snd n) q <= sqd (snd n) q') (concat slaves) cs.
Proof.
  unfold makeCells. pose proof (nearest_face masters) as NF. cbn zeta in NF. destruct (fill masters [] []) as [faces tree]. cbn [fst snd] in NF.
  remember (Ok cs) as o eqn:Eo. intros H. revert cs Eo. induction H as [|n r T|n r i rest N H IH]; intros cs Eo.
  - injection Eo as <-. constructor.
  - discriminate Eo.
  - destruct (slide_cell (nth i faces []) n) as [c| | |] eqn:C; try discriminate Eo. destruct rest as [l| | |]; try discriminate Eo.
    cbn in Eo. injection Eo as <-. constructor; [|now apply IH].
    destruct (NF (snd n) i N) as (I & _ & q & B & M). exists (nth i faces []), q. split; [assumption|]. split; [now apply slide_cell_spec|]. auto.
Qed.
Theorem C124_count masters slaves cs : makeCells masters slaves (Ok cs) -> length cs = length (concat slaves).
Proof. intros H. apply C124_cells in H. induction H; cbn; congruence. Qed.

(** The face joined is at least as near as every point of the master surface tells: the
    distance to its box never exceeds the distance to a point of a master face. *)
Theorem C124_bound masters slaves cs : makeCells masters slaves (Ok cs) ->
  Forall2 (fun n c => exists f q, In f masters /\ joins f n c /\ boxed f q /\
    forall g q', In g masters -> of_face g q' -> sqd (snd n) q <= sqd (snd n) q') (concat slaves) cs.
Proof.
  intros H. apply C124_cells in H. eapply forall2_impl; [|exact H].
  intros n c (f & q & I & J & B & M). exists f, q. split; [assumption|]. split; [assumption|]. split; [assumption|].
  intros g q' G F. apply (M g); [assumption|]. now apply face_boxed.
Qed.
(** When the master faces fill their boxes (rectangles along the axes), the face joined
    is a nearest one.  Partial: for the others it is not, see below. *)
Theorem C124_nearest_partial masters slaves cs : (forall f q, In f masters -> boxed f q -> of_face f q) ->
  makeCells masters slaves (Ok cs) ->
  Forall2 (fun n c => exists f q, In f masters /\ joins f n c /\ of_face f q /\
    forall g q', In g masters -> of_face g q' -> sqd (snd n) q <= sqd (snd n) q') (concat slaves) cs.
Proof.
  intros A H. apply C124_bound in H. eapply forall2_impl; [|exact H].
  intros n c (f & q & I & J & B & M). exists f, q. split; [assumption|]. split; [assumption|]. split; [now apply A|assumption].
Qed.

(** With a face on the master surface, and master faces of three or four nodes, every
    execution makes the cells, and there is one. *)
Theorem C124_succeeds masters slaves : (exists f, In f masters /\ f <> []) ->
  (forall f, In f masters -> f <> [] -> length f = 3%nat \/ length f = 4%nat) ->
  (exists cs, makeCells masters slaves (Ok cs)) /\
  forall r, makeCells masters slaves r -> exists cs, r = Ok cs.
Proof.
  intros (f0 & I0 & N0) Q. unfold makeCells. pose proof (nearest_face masters) as NF. pose proof (fill_masters masters) as FM.
  cbn zeta in NF, FM. destruct (fill masters [] []) as [faces tree]. cbn [fst snd] in NF, FM. destruct FM as [E T].
  assert (C : forall p i n, nearest faces tree p i -> exists c, slide_cell (nth i faces []) n = Ok c).
  { intros p i n H. destruct (NF p i H) as (I & N & _). unfold slide_cell. destruct (Q _ I N) as [-> | ->]; eauto. }
  assert (NT : tree <> []).
  { intros ->. assert (In f0 (filter nonempty masters)) as J by now apply nonempty_in.
    apply (proj2 (T 0%nat)). destruct (filter nonempty masters); [destruct J|cbn; lia]. }
  split.
  - induction (concat slaves) as [|n r (cs & IH)]; [exists []; constructor|].
    destruct (least_exists (fun j => box_d2 (nth j faces []) (snd n)) tree NT) as (i & I & M).
    destruct (C (snd n) i n (conj I M)) as [c Ec]. exists (c :: cs).
    pose proof (slides_cons faces tree n r i (Ok cs) (conj I M) IH) as S. rewrite Ec in S. exact S.
  - intros r H. induction H as [|n l T0|n l i rest N H (cs & ->)]; [eauto|contradiction|].
    destruct (C (snd n) i n N) as [c ->]. cbn. eauto.
Qed.

(** The nodes of a cell are distinct when those of the face are and the slave node is not
    one of them. *)
Theorem C124_distinct masters slaves cs : makeCells masters slaves (Ok cs) ->
  (forall f, In f masters -> NoDup (map fst f)) ->
  (forall f n, In f masters -> In n (concat slaves) -> ~ In (fst n) (map fst f)) ->
  forall c, In c cs -> NoDup (sc_nodes c).
Proof.
  intros H D S. apply C124_cells in H. revert S. induction H as [|n c l cs (f & q & I & [J _] & _) H IH]; intros S x X; [destruct X|].
  destruct X as [<-|X].
  - rewrite J. eapply Permutation_NoDup; [apply Permutation_cons_append|]. constructor; [|now apply D].
    apply S; [assumption|now left].
  - apply IH; [|assumption]. intros g m G M. apply S; [assumption|now right].
Qed.

(** ** What does not hold *)

Definition tri1 : face := [(1%Z, V3 0 0 0); (2%Z, V3 10 0 10); (3%Z, V3 0 10 10)].
Definition tri2 : face := [(4%Z, V3 9 9 2); (5%Z, V3 10 9 2); (6%Z, V3 9 10 2)].
Definition slave1 : face := [(7%Z, V3 9 9 1)].

Ltac compare_all := repeat match goal with |- context [Rle_dec ?a ?b] =>
  lazymatch constr:((a, b)) with context [Rle_dec _ _] => fail | _ => destruct (Rle_dec a b); try (exfalso; lra) end end; try lra.
Lemma tri1_d2 : box_d2 tri1 (V3 9 9 1) = 0.
Proof.
  assert (forall ax, In ax [vx; vy; vz] -> gap (low ax tri1) (high ax tri1) (ax (V3 9 9 1)) = 0) as K.
  { intros ax I. cbn in I. destruct I as [<-|[<-|[<-|[]]]]; unfold low, high, gap; cbn; unfold Rmin, Rmax;
      compare_all. }
  unfold box_d2. rewrite !K by (cbn; tauto). lra.
Qed.
Lemma box_d2_pos f p : 0 <= box_d2 f p.
Proof.
  unfold box_d2. pose proof (Rle_0_sqr (gap (low vx f) (high vx f) (vx p))). pose proof (Rle_0_sqr (gap (low vy f) (high vy f) (vy p))).
  pose proof (Rle_0_sqr (gap (low vz f) (high vz f) (vz p))). unfold Rsqr in *. lra.
Qed.
Lemma tri1_nearest l : nearest (tri1 :: l) [0%nat; 0%nat; 1%nat] (V3 9 9 1) 0.
Proof. split; [now left|]. intros j _. cbn [nth]. rewrite tri1_d2. apply box_d2_pos. Qed.

(** The face joined is not always the nearest one: with a tilted master face, whose box
    holds the slave node, a face more than nine times nearer is not joined. *)
Theorem C124_nearest_refuted : exists masters slaves cs n f g m, makeCells masters slaves (Ok cs) /\
  concat slaves = [n] /\ In f masters /\ Forall (joins f n) cs /\ cs <> [] /\ In g masters /\ In m g /\
  forall q, of_face f q -> 90 * sqd (snd n) (snd m) < sqd (snd n) q.
Proof.
  exists [tri1; tri2], [slave1], [mkSlideCell TETRA4 [1; 2; 3; 7]%Z], (7%Z, V3 9 9 1), tri1, tri2, (4%Z, V3 9 9 2).
  split; [|split; [reflexivity|split; [now left|split; [|split; [discriminate|split; [right; now left|split; [now left|]]]]]]].
  - unfold makeCells. cbn [fill concat app length seq].
    exact (slides_cons _ _ (7%Z, V3 9 9 1) [] 0 (Ok []) (tri1_nearest [tri2]) (slides_nil _ _)).
  - repeat constructor.
  - intros q F. destruct (F 1 1 (-1)) as (n1 & I1 & L1). destruct (F (-1) (-1) 1) as (n2 & I2 & L2).
    assert (vx q + vy q = vz q) as E.
    { cbn in I1, I2. destruct I1 as [<-|[<-|[<-|[]]]]; destruct I2 as [<-|[<-|[<-|[]]]]; cbn in L1, L2; lra. }
    unfold sqd. cbn. rewrite <- E. set (x := vx q). set (y := vy q).
    pose proof (Rle_0_sqr (x - y)). pose proof (Rle_0_sqr (9 - x + (1 - (x + y)))). pose proof (Rle_0_sqr (9 - y + (1 - (x + y)))). unfold Rsqr in *. lra.
Qed.
(** A master surface without any face found is undefined behaviour. *)
Theorem C124_no_master_refuted : exists masters slaves, concat slaves <> [] /\ masters <> [] /\ makeCells masters slaves UB /\
  forall r, makeCells masters slaves r -> r = UB.
Proof.
  exists [[]], [slave1]. split; [discriminate|]. split; [discriminate|]. split; [now constructor|].
  intros r H. inversion H as [|? ? ?|n l i rest N ? E]; [reflexivity|]. subst. destruct N as [[] _].
Qed.
(** A node shared by two slave faces gets two cells with the same nodes. *)
Theorem C124_once_refuted : exists masters slaves c, makeCells masters slaves (Ok [c; c]) /\
  Forall (fun f => NoDup (map fst f)) slaves.
Proof.
  exists [tri1; tri2], [slave1; slave1], (mkSlideCell TETRA4 [1; 2; 3; 7]%Z). split; [|repeat constructor; intros []].
  unfold makeCells. cbn [fill concat app length seq slave1].
  exact (slides_cons _ _ (7%Z, V3 9 9 1) _ 0 (Ok [mkSlideCell TETRA4 [1; 2; 3; 7]%Z]) (tri1_nearest [tri2])
    (slides_cons _ _ (7%Z, V3 9 9 1) [] 0 (Ok []) (tri1_nearest [tri2]) (slides_nil _ _))).
Qed.
(** A slave node which is a node of the master face makes a cell with a node twice. *)
Theorem C124_distinct_refuted : exists masters slaves c, makeCells masters slaves (Ok [c]) /\ ~ NoDup (sc_nodes c) /\
  Forall (fun f => NoDup (map fst f)) (masters ++ slaves).
Proof.
  exists [tri1], [[(1%Z, V3 0 0 0)]], (mkSlideCell TETRA4 [1; 2; 3; 1]%Z). split; [|split].
  - unfold makeCells. cbn [fill concat app length seq].
    refine (slides_cons _ _ (1%Z, V3 0 0 0) [] 0 (Ok []) _ (slides_nil _ _)). split; [now left|]. intros j [<-|[]]. lra.
  - cbn. intros N. inversion N as [|? ? H]. apply H. right. right. now left.
  - repeat constructor; cbn; intuition discriminate.
Qed.
(** Master faces with nodes in the middle of their edges stop the conversion. *)
Theorem C124_quadratic_refuted : exists masters slaves, (forall f, In f masters -> length f = 6%nat) /\ makeCells masters slaves Throw /\
  forall r, makeCells masters slaves r -> r = Throw.
Proof.
  exists [tri1 ++ tri2], [slave1]. split; [now intros f [<-|[]]|]. split.
  - unfold makeCells. cbn [fill concat app length seq].
    refine (slides_cons _ _ (7%Z, V3 9 9 1) [] 0 (Ok []) _ (slides_nil _ _)). split; [now left|]. intros j [<-|[]]. lra.
  - intros r H. unfold makeCells in H. cbn [fill concat app length seq] in H. inversion H as [|? ? E|n l i rest N S E]; [discriminate E|].
    destruct N as [[<-|[]] _]. reflexivity.
Qed.

(** The hypotheses of the theorems are met. *)
Definition square : face := [(1%Z, V3 0 0 0); (2%Z, V3 1 0 0); (3%Z, V3 1 1 0); (4%Z, V3 0 1 0)].
Example C124_case : makeCells [square; []] [[(5%Z, V3 0 0 1); (6%Z, V3 1 0 1)]] (Ok [mkSlideCell PYRA5 [1; 2; 3; 4; 5]%Z; mkSlideCell PYRA5 [1; 2; 3; 4; 6]%Z]).
Proof.
  unfold makeCells. cbn [fill concat app length seq square].
  assert (forall p, nearest [square] [0%nat] p 0) as N by (intros p; split; [now left|]; intros j [<-|[]]; lra).
  exact (slides_cons _ _ (5%Z, V3 0 0 1) _ 0 (Ok [mkSlideCell PYRA5 [1; 2; 3; 4; 6]%Z]) (N _)
    (slides_cons _ _ (6%Z, V3 1 0 1) [] 0 (Ok []) (N _) (slides_nil _ _))).
Qed.
Example C124_filled : forall f q, In f [square; []] -> boxed f q -> of_face f q.
Proof.
  intros f q [<-|[<-|[]]] B.
  - apply boxed_in in B. unfold in_box in B.
    assert (low vx square = 0 /\ high vx square = 1 /\ low vy square = 0 /\ high vy square = 1 /\ low vz square = 0 /\ high vz square = 0) as (E1 & E2 & E3 & E4 & E5 & E6).
    { unfold low, high. cbn. unfold Rmin, Rmax. repeat split;
        compare_all. }
    rewrite E1, E2, E3, E4, E5, E6 in B. destruct B as ([X0 X1] & [Y0 Y1] & [Z0 Z1]).
    intros a b c. assert (vz q = 0) as -> by lra.
    destruct (Rle_dec 0 a), (Rle_dec 0 b).
    + exists (3%Z, V3 1 1 0). split; [cbn; tauto|]. cbn. nra.
    + exists (2%Z, V3 1 0 0). split; [cbn; tauto|]. cbn. nra.
    + exists (4%Z, V3 0 1 0). split; [cbn; tauto|]. cbn. nra.
    + exists (1%Z, V3 0 0 0). split; [cbn; tauto|]. cbn. nra.
  - exfalso. destruct (B vx (or_introl eq_refl)) as [(n & [] & _) _].
Qed.

Print Assumptions C124_cells.
Print Assumptions C124_count.
Print Assumptions C124_bound.
Print Assumptions C124_nearest_partial.
Print Assumptions C124_succeeds.
Print Assumptions C124_distinct.
Print Assumptions C124_nearest_refuted.
Print Assumptions C124_no_master_refuted.
Print Assumptions C124_once_refuted.
Print Assumptions C124_distinct_refuted.
Print Assumptions C124_quadratic_refuted.
