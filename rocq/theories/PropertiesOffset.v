(** C106: the offsets of the cells become offsets of their shells. *)
From Coq Require Import ZArith QArith Qround Qabs Lqa List Bool Arith Lia Sorted.
From Verif Require Import Base ZMap ReferenceModel ReferenceProofs OffsetModel OffsetProofs.
Import ListNotations.
Open Scope Z_scope.

(** The specification.  [k] is the integer nearest the sixth power of the offset. *)
Definition class (x : Q) (k : Z) : Prop :=
  (inject_Z k - (1 # 2) <= x * x * x * x * x * x /\ x * x * x * x * x * x < inject_Z k + (1 # 2))%Q.
Definition same_class (x y : Q) : Prop := exists k, class x k /\ class y k.

Section Spec.
Context {D : Type}.
Notation eset := (object (plate D)).
Definition cells_of (o : eset) : list nat := pl_cells (payload o).
(** A shell or composite with a cell whose offset is not null. *)
Definition offset_set (off : nat -> Q) (o : eset) : Prop :=
  (otype o = 9 \/ otype o = 20) /\ exists c, In c (cells_of o) /\ (5 # 4503599627370496 < Qabs (off c))%Q.
(** The first cell, among the sets of its type and by internal number, of its class. *)
Definition opens (off : nat -> Q) (L : list eset) (s : eset) (a : nat) : Prop :=
  (forall p, In p L -> offset_set off p -> otype p = otype s -> oid p < oid s ->
     forall d, In d (cells_of p) -> ~ same_class (off d) (off a)) /\
  (exists l1 l2, cells_of s = l1 ++ a :: l2 /\ forall d, In d l1 -> ~ same_class (off d) (off a)).
(** The set which replaces: that of [s] with the cells of the class of [a]. *)
Definition replaces (off : nat -> Q) (L : list eset) (s : eset) (a : nat) (o : eset) : Prop :=
  otype o = otype s /\ ooid o = ooid s /\ oid o = oid s /\ pl_data (payload o) = pl_data (payload s) /\
  (pl_offset (payload o) == pl_offset (payload s) + off a)%Q /\
  forall c, In c (cells_of o) <->
    exists p, In p L /\ offset_set off p /\ otype p = otype s /\ In c (cells_of p) /\ same_class (off c) (off a).
End Spec.

Lemma class_rounded x k : class x k <-> rounded x = k.
Proof.
  unfold class, rounded. set (y := (x * x * x * x * x * x)%Q). split.
  - intros [A B]. apply Z.le_antisymm.
    + apply Z.lt_succ_r. rewrite Zlt_Qlt. eapply Qle_lt_trans; [apply Qfloor_le|].
      unfold Z.succ. rewrite inject_Z_plus. change (inject_Z 1) with 1%Q. lra.
    + rewrite <- (Qfloor_Z k). apply Qfloor_resp_le. lra.
  - intros <-. pose proof (Qfloor_le (y + (1 # 2))). pose proof (Qlt_floor (y + (1 # 2))) as H1.
    rewrite inject_Z_plus in H1. change (inject_Z 1) with 1%Q in H1. lra.
Qed.

Lemma same_class_rounded x y : same_class x y <-> rounded x = rounded y.
Proof.
  unfold same_class. split.
  - intros (k & A & B). apply class_rounded in A, B. congruence.
  - intros E. exists (rounded x). split; apply class_rounded; congruence.
Qed.

Section Pass.
Context {D : Type}.
Variable off : nat -> Q.
Notation eset := (object (plate D)).
Variable h : list (@cop (plate D)).
Hypothesis Hv : numbers_valid h.
Hypothesis Hc : numbers_consistent h.
Hypothesis He : erases_live [] h.
Let c := crun h.
Let L := live h.
Let I : Inv c L := history_inv h Hv Hc He.

Lemma has_offset_spec (o : eset) :
  has_offset off o = true <-> exists c, In c (cells_of o) /\ (5 # 4503599627370496 < Qabs (off c))%Q.
Proof.
  unfold has_offset, is_null. rewrite existsb_exists. split; intros (d & Hd & H); exists d; (split; [exact Hd|]).
  - apply negb_true_iff in H. apply Qnot_le_lt. intros C. apply Qle_bool_iff in C. unfold tolerance in H.
    assert (E : Qle_bool (Qabs (off d)) ((5 # 1) * (1 # 2 ^ 52)) = Qle_bool (Qabs (off d)) (5 # 4503599627370496)) by reflexivity.
    congruence.
  - apply negb_true_iff. destruct (Qle_bool (Qabs (off d)) tolerance) eqn:E; [|reflexivity].
    apply Qle_bool_iff in E. change tolerance with (5 # 4503599627370496)%Q in E. exfalso. apply Qlt_not_le in H. contradiction.
Qed.

Lemma concerned_in t (o : eset) : In o (concerned off c t) <->
  In o L /\ otype o = t /\ exists c, In c (cells_of o) /\ (5 # 4503599627370496 < Qabs (off c))%Q.
Proof.
  unfold concerned, cfilter. rewrite !filter_In, Z.eqb_eq, has_offset_spec.
  destruct (elements_spec _ _ I) as [_ E]. rewrite E. tauto.
Qed.

Lemma concerned_sorted t : StronglySorted (fun a b : eset => oid a < oid b) (concerned off c t).
Proof.
  unfold concerned, cfilter. destruct (elements_spec _ _ I) as [S _].
  assert (F : forall (f : eset -> bool) l, StronglySorted (fun a b : eset => oid a < oid b) l ->
              StronglySorted (fun a b : eset => oid a < oid b) (filter f l)).
  { intros f l Sl. induction Sl as [|x l Sl IHl Fx]; [constructor|]. cbn. destruct (f x); [|exact IHl].
    constructor; [exact IHl|]. rewrite Forall_forall in *. intros y Hy. apply filter_In in Hy. apply Fx. tauto. }
  auto.
Qed.

Lemma offset_concerned (o : eset) : In o L ->
  (offset_set off o <-> In o (concerned off c SHELL) \/ In o (concerned off c COMPOSITE)).
Proof. intros Ho. rewrite !concerned_in. unfold offset_set, SHELL, COMPOSITE. tauto. Qed.

Lemma concerned_type t o : (t = SHELL \/ t = COMPOSITE) ->
  (In o (concerned off c t) <-> In o L /\ offset_set off o /\ otype o = t).
Proof. intros Ht. rewrite concerned_in. unfold offset_set. unfold SHELL, COMPOSITE in Ht. intuition congruence. Qed.

(** The opening cells are the first visits. *)
Lemma sorted_app {A} (R : A -> A -> Prop) l1 x l2 : StronglySorted R (l1 ++ x :: l2) -> forall y, In y l1 -> R y x.
Proof.
  induction l1 as [|z l1 IH]; intros S y; [intros []|]. inversion S; subst. intros [->|Hy]; [|auto].
  rewrite Forall_forall in H2. apply H2. apply in_or_app. right. now left.
Qed.
Lemma sorted_rest {A} (R : A -> A -> Prop) l1 x l2 : StronglySorted R (l1 ++ x :: l2) -> forall y, In y l2 -> R x y.
Proof.
  induction l1 as [|z l1 IH]; intros S y Hy; inversion S; subst; [|auto].
  rewrite Forall_forall in H2. auto.
Qed.

Lemma visits_app (a b : list eset) : visits (a ++ b) = visits a ++ visits b.
Proof. unfold visits. now rewrite flat_map_app. Qed.

(** A cell before (s, a) in the visits is in an earlier set or earlier in s. *)
Lemma visits_before : forall (os : list eset) v1 s a v2,
  StronglySorted (fun a b : eset => oid a < oid b) os ->
  visits os = v1 ++ (s, a) :: v2 ->
  exists o1 o2 l1 l2, os = o1 ++ s :: o2 /\ cells_of s = l1 ++ a :: l2 /\ v1 = visits o1 ++ map (pair s) l1.
Proof.
  induction os as [|o os IH]; intros v1 s a v2 S E.
  - destruct v1; discriminate.
  - cbn in E. inversion S; subst.
    assert (G : forall (l : list nat) v1, map (pair o) l ++ flat_map (fun o => map (pair o) (pl_cells (payload o))) os = v1 ++ (s, a) :: v2 ->
      (exists l1 l2, s = o /\ l = l1 ++ a :: l2 /\ v1 = map (pair o) l1) \/
      (exists w, v1 = map (pair o) l ++ w /\ visits os = w ++ (s, a) :: v2)).
    { clear. induction l as [|x l IHl]; intros v1 E.
      - right. exists v1. split; [reflexivity|exact E].
      - destruct v1 as [|y v1]; cbn in E.
        + injection E as E1 E2 E3. left. exists [], l. subst. auto.
        + injection E as E1 E2. destruct (IHl v1 E2) as [(l1 & l2 & -> & -> & ->)|(w & -> & E3)].
          * left. exists (x :: l1), l2. subst y. auto.
          * right. exists w. subst y. split; [reflexivity|exact E3]. }
    destruct (G _ _ E) as [(l1 & l2 & -> & El & ->)|(w & -> & Ew)].
    + exists [], os, l1, l2. auto.
    + destruct (IH w s a v2 H1 Ew) as (o1 & o2 & l1 & l2 & -> & El & ->).
      exists (o :: o1), o2, l1, l2. split; [reflexivity|]. split; [exact El|].
      unfold visits. cbn. now rewrite app_assoc.
Qed.

Lemma opens_firsts t s a : (t = SHELL \/ t = COMPOSITE) ->
  (In (s, a) (firsts off (visits (concerned off c t))) <->
   In s L /\ offset_set off s /\ otype s = t /\ opens off L s a).
Proof.
  intros Ht. pose proof (concerned_sorted t) as S. split.
  - intros H. pose proof (firsts_in _ _ _ H) as Hin. apply visits_in in Hin. destruct Hin as [Hs Ha].
    apply (concerned_type t s Ht) in Hs. destruct Hs as (Hs & Os & Ts). split; [exact Hs|]. split; [exact Os|]. split; [exact Ts|]. split.
    + destruct (firsts_split _ _ _ H) as (v1 & v2 & E & F).
      destruct (visits_before _ _ _ _ _ S E) as (o1 & o2 & l1 & l2 & Eo & El & ->).
      intros p Hp Op Tp Lt d Hd Sc. apply same_class_rounded in Sc.
      apply (F (p, d)); [|exact Sc]. apply in_or_app. left. apply visits_in. split; [|exact Hd].
      assert (Pc : In p (concerned off c t)) by (apply (concerned_type t p Ht); intuition congruence).
      rewrite Eo in Pc, S. apply in_app_iff in Pc. destruct Pc as [Pc|[->|Pc]]; [exact Pc|lia|].
      pose proof (sorted_rest _ _ _ _ S _ Pc). cbv beta in *. lia.
    + destruct (firsts_split _ _ _ H) as (v1 & v2 & E & F).
      destruct (visits_before _ _ _ _ _ S E) as (o1 & o2 & l1 & l2 & Eo & El & ->).
      exists l1, l2. split; [exact El|]. intros d Hd Sc. apply same_class_rounded in Sc.
      apply (F (s, d)); [|exact Sc]. apply in_or_app. right. now apply in_map.
  - intros (Hs & Os & Ts & O1 & l1 & l2 & El & O2).
    assert (Pc : In s (concerned off c t)) by (apply (concerned_type t s Ht); auto).
    apply in_split in Pc. destruct Pc as (o1 & o2 & Eo). rewrite Eo.
    rewrite visits_app. unfold visits at 2. cbn [flat_map]. fold (visits o2). unfold cells_of in El. rewrite El, map_app. cbn [map].
    rewrite <- app_assoc, app_assoc. cbn [app]. apply split_firsts. intros [p d] Hy K. apply in_app_iff in Hy.
    destruct Hy as [Hy|Hy].
    + apply visits_in in Hy. destruct Hy as [Hp Hd]. apply (O1 p) with (d := d).
      * apply (concerned_in t). rewrite Eo. apply in_or_app. now left.
      * apply (concerned_type t p Ht). rewrite Eo. apply in_or_app. now left.
      * subst t. apply (concerned_in (otype s)). rewrite Eo. apply in_or_app. now left.
      * rewrite Eo in S. apply (sorted_app _ _ _ _ S). exact Hp.
      * exact Hd.
      * apply same_class_rounded. exact K.
    + apply in_map_iff in Hy. destruct Hy as (e & [= <- <-] & Hd). apply (O2 e Hd). apply same_class_rounded. exact K.
Qed.

Lemma cell_opened t s b : (t = SHELL \/ t = COMPOSITE) -> In s L -> offset_set off s -> otype s = t -> In b (cells_of s) ->
  exists p a, In (p, a) (firsts off (visits (concerned off c t))) /\ same_class (off b) (off a).
Proof.
  intros Ht Hs Os Ts Hb. destruct (firsts_keys off (visits (concerned off c t)) (rounded (off b))) as [_ K].
  destruct K as ([p a] & Hp & Kp).
  - exists (s, b). split; [|reflexivity]. apply visits_in. split; [|exact Hb]. apply (concerned_type t s Ht). auto.
  - exists p, a. split; [exact Hp|]. apply same_class_rounded. symmetry. exact Kp.
Qed.

Lemma gathered_replaces t s a : (t = SHELL \/ t = COMPOSITE) -> otype s = t ->
  replaces off L s a (gathered off (visits (concerned off c t)) (s, a)).
Proof.
  intros Ht Ts. unfold replaces, gathered, cells_of. cbn. repeat split; try reflexivity.
  - intros H. apply mates_in in H. destruct H as (p & Hp & K). apply visits_in in Hp. destruct Hp as [Hp Hd].
    apply (concerned_type t p Ht) in Hp. exists p. destruct Hp as (Hp & Op & Tp).
    split; [exact Hp|]. split; [exact Op|]. split; [congruence|]. split; [exact Hd|]. now apply same_class_rounded.
  - intros (p & Hp & Op & Tp & Hd & K). apply mates_in. exists p. split; [|now apply same_class_rounded].
    apply visits_in. split; [|exact Hd]. apply (concerned_type t p Ht). split; [exact Hp|]. split; [exact Op|congruence].
Qed.

Definition added : list eset :=
  map (gathered off (visits (concerned off c SHELL))) (firsts off (visits (concerned off c SHELL))) ++
  map (gathered off (visits (concerned off c COMPOSITE))) (firsts off (visits (concerned off c COMPOSITE))).

Lemma added_in o : In o added <-> exists t s a, (t = SHELL \/ t = COMPOSITE) /\
  In (s, a) (firsts off (visits (concerned off c t))) /\ o = gathered off (visits (concerned off c t)) (s, a).
Proof.
  unfold added. rewrite in_app_iff, !in_map_iff. split.
  - intros [([s a] & E & H)|([s a] & E & H)]; [exists SHELL|exists COMPOSITE]; exists s, a; auto.
  - intros (t & s & a & [-> | ->] & H & E); [left|right]; exists (s, a); auto.
Qed.

Lemma split_cases :
  let removed := concerned off c SHELL ++ concerned off c COMPOSITE in
  (NoDup (map oid added) -> exists c', split_offsets off c = Ok c' /\
     forall o, In o (celements c') <-> In o added \/ (In o L /\ ~ offset_set off o)) /\
  (~ NoDup (map oid added) -> split_offsets off c = Throw).
Proof.
  intros removed.
  assert (Nr : NoDup removed).
  { unfold removed. assert (N : forall t, NoDup (concerned off c t)).
    { intros t. pose proof (concerned_sorted t) as S. induction S as [|x l S IHl F]; constructor; [|exact IHl].
      intros Hx. rewrite Forall_forall in F. specialize (F x Hx). lia. }
    assert (Dj : forall o, In o (concerned off c SHELL) -> ~ In o (concerned off c COMPOSITE)).
    { intros o A B. apply concerned_in in A, B. unfold SHELL, COMPOSITE in *. destruct A as (_ & A & _), B as (_ & B & _). congruence. }
    revert Dj. generalize (N SHELL). generalize (concerned off c SHELL) as l. induction l as [|x l IHl]; intros Nl Dj; [apply N|].
    inversion Nl; subst. cbn. constructor.
    - rewrite in_app_iff. intros [B|B]; [contradiction|]. apply (Dj x); [now left|exact B].
    - apply IHl; [assumption|]. intros o Ho. apply Dj. now right. }
  assert (Rin : forall o, In o removed <-> In o L /\ offset_set off o).
  { intros o. unfold removed. rewrite in_app_iff. split.
    - intros H. assert (Ho : In o L) by (destruct H as [H|H]; apply concerned_in in H; tauto). split; [exact Ho|]. now apply offset_concerned.
    - intros [Ho Oo]. now apply offset_concerned. }
  assert (Lv : forall o, In o L -> oid o <> NO_ID).
  { clear - Hv. unfold L, live. intros o.
    assert (G : forall (hs : list (@cop (plate D))) (LL : list eset), (forall x, In x LL -> oid x <> NO_ID) -> (forall a, In a hs -> oid (op_obj a) <> NO_ID) ->
                forall x, In x (fold_left live_step hs LL) -> oid x <> NO_ID).
    { induction hs as [|op hs IH]; intros LL A B x; [apply A|]. cbn. apply IH.
      - intros y Hy. apply live_step_in in Hy. destruct Hy as [Hy| ->]; [auto|]. apply B. now left.
      - intros y Hy. apply B. now right. }
    apply G; [intros x []|exact Hv]. }
  assert (Lu : forall a b, In a L -> In b L -> oid a = oid b -> a = b) by (intros a b; apply (inv_number _ _ a b I)).
  destruct (fold_erase_inv removed c L I) as [I1 H1]; try assumption.
  { intros o Ho. now apply Rin. }
  set (c1 := fold_left (fun c o => cerase c (getReference o)) removed c) in *.
  set (L1 := fold_left live_step (map CErase removed) L) in *.
  assert (Src : forall o, In o added -> exists s, In s removed /\ otype o = otype s /\ ooid o = ooid s /\ oid o = oid s).
  { intros o Ho. apply added_in in Ho. destruct Ho as (t & s & a & Ht & Hs & ->). exists s.
    split; [|cbn; auto]. apply firsts_in in Hs. apply visits_in in Hs. destruct Hs as [Hs _].
    unfold removed. apply in_or_app. destruct Ht as [-> | ->]; tauto. }
  assert (E : split_offsets off c = foldM cadd added c1).
  { unfold split_offsets, added. rewrite !loop_visits, !loop_shape. cbn [app]. reflexivity. }
  destruct (add_all added c1 L1 I1) as [A1 A2].
  - intros d Hd. destruct (Src d Hd) as (s & Hs & _ & _ & ->). apply Lv. now apply Rin in Hs.
  - pose proof (inv_alike _ _ I) as Al.
    assert (Al2 : forall o, In o (added ++ L1) -> exists s, In s L /\ otype o = otype s /\ ooid o = ooid s /\ oid o = oid s).
    { intros o Ho. apply in_app_iff in Ho. destruct Ho as [Ho|Ho].
      - destruct (Src o Ho) as (s & Hs & Q). exists s. split; [now apply Rin in Hs|exact Q].
      - exists o. apply H1 in Ho. tauto. }
    intros a b Ha Hb Na. destruct (Al2 a Ha) as (s & Hs & Q1 & Q2 & Q3). destruct (Al2 b Hb) as (p & Hp & P1 & P2 & P3).
    rewrite Q1, Q2, Q3, P1, P2, P3. apply Al; congruence.
  - intros d x Hd Hx Ex. destruct (Src d Hd) as (s & Hs & _ & _ & Es). apply H1 in Hx. destruct Hx as [Hx Nx].
    apply Nx. assert (x = s); [|now subst]. apply Lu; [exact Hx|now apply Rin in Hs|congruence].
  - rewrite E. split; [|exact A2]. intros N. destruct (A1 N) as (c' & E' & L' & I' & H'). exists c'. split; [exact E'|].
    intros o. destruct (elements_spec _ _ I') as [_ El]. rewrite El, H', H1, Rin.
    split; [|tauto]. intros [Ho|[Ho Hn]]; tauto.
Qed.

Lemma nodup_dec (l : list Z) : {NoDup l} + {~ NoDup l}.
Proof.
  induction l as [|x l [N|N]]; [left; constructor| |right; intros H; now inversion H].
  destruct (in_dec Z.eq_dec x l) as [Hx|Hx]; [right; intros H; now inversion H|left; now constructor].
Qed.
Lemma NoDup_parts {A} (a b : list A) : NoDup (a ++ b) -> NoDup a /\ NoDup b.
Proof.
  induction a as [|x a IH]; cbn; intros N; [split; [constructor|exact N]|]. inversion N; subst.
  destruct (IH H2) as [N1 N2]. split; [|exact N2]. constructor; [|exact N1].
  intros Hx. apply H1. apply in_or_app. now left.
Qed.
Definition torn : Prop := exists s a b, In s L /\ offset_set off s /\ In a (cells_of s) /\ In b (cells_of s) /\
  ~ same_class (off a) (off b) /\
  forall p, In p L -> offset_set off p -> otype p = otype s -> oid p < oid s ->
    forall d, In d (cells_of p) -> ~ same_class (off d) (off a) /\ ~ same_class (off d) (off b).

Lemma first_cell (s : eset) b : In b (cells_of s) -> exists a l1 l2, cells_of s = l1 ++ a :: l2 /\
  same_class (off a) (off b) /\ forall d, In d l1 -> ~ same_class (off d) (off a).
Proof.
  generalize (cells_of s). induction l as [|x l IH]; [intros []|]. intros H.
  destruct (Z.eq_dec (rounded (off x)) (rounded (off b))) as [E|N].
  - exists x, [], l. split; [reflexivity|]. split; [now apply same_class_rounded|intros d []].
  - destruct H as [->|H]; [congruence|]. destruct (IH H) as (a & l1 & l2 & -> & Sc & F).
    exists a, (x :: l1), l2. split; [reflexivity|]. split; [exact Sc|]. intros d [<-|Hd]; [|auto].
    intros Sx. apply same_class_rounded in Sx, Sc. congruence.
Qed.

Lemma torn_dup : torn <-> ~ NoDup (map oid added).
Proof.
  assert (Lu : forall a b, In a L -> In b L -> oid a = oid b -> a = b) by (intros a b; apply (inv_number _ _ a b I)).
  split.
  - intros (s & a & b & Hs & Os & Ha & Hb & Nab & Ear) N.
    destruct (first_cell s a Ha) as (a' & l1 & l2 & Ea & Sa & Fa).
    destruct (first_cell s b Hb) as (b' & m1 & m2 & Eb & Sb & Fb).
    assert (Ht : otype s = SHELL \/ otype s = COMPOSITE) by (destruct Os as [[H|H] _]; [left|right]; exact H).
    assert (Oa : In (s, a') (firsts off (visits (concerned off c (otype s))))).
    { apply opens_firsts; [exact Ht|]. split; [exact Hs|]. split; [exact Os|]. split; [reflexivity|]. split; [|now exists l1, l2].
      intros p Hp Op Tp Lt d Hd Sc. apply (proj1 (Ear p Hp Op Tp Lt d Hd)). apply same_class_rounded in Sc, Sa. apply same_class_rounded. congruence. }
    assert (Ob : In (s, b') (firsts off (visits (concerned off c (otype s))))).
    { apply opens_firsts; [exact Ht|]. split; [exact Hs|]. split; [exact Os|]. split; [reflexivity|]. split; [|now exists m1, m2].
      intros p Hp Op Tp Lt d Hd Sc. apply (proj2 (Ear p Hp Op Tp Lt d Hd)). apply same_class_rounded in Sc, Sb. apply same_class_rounded. congruence. }
    set (v := visits (concerned off c (otype s))) in *.
    assert (N1 : NoDup (map (fun x : eset * nat => oid (fst x)) (firsts off v))).
    { unfold added in N. rewrite map_app, !map_map in N. cbn [gathered oid fst] in N.
      unfold v. destruct Ht as [-> | ->].
      - exact (proj1 (NoDup_parts _ _ N)).
      - exact (proj2 (NoDup_parts _ _ N)). }
    assert (Eq : (s, a') = (s, b')).
    { apply In_nth_error in Oa, Ob. destruct Oa as [i Hi], Ob as [j Hj]. rewrite NoDup_nth_error in N1.
      assert (i = j); [|congruence]. apply N1.
      - rewrite map_length. apply nth_error_Some. congruence.
      - rewrite !nth_error_map, Hi, Hj. reflexivity. }
    injection Eq as Eab. apply Nab. apply same_class_rounded. apply same_class_rounded in Sa, Sb. congruence.
  - intros N. 
    assert (Dd : forall t, (t = SHELL \/ t = COMPOSITE) ->
      ((exists s a b, In (s, a) (firsts off (visits (concerned off c t))) /\ In (s, b) (firsts off (visits (concerned off c t))) /\
         rounded (off a) <> rounded (off b)) -> torn)).
    { intros t Ht (s & a & b & Ha & Hb & Nab). apply (opens_firsts t s a Ht) in Ha. apply (opens_firsts t s b Ht) in Hb.
      destruct Ha as (Hs & Os & Ts & A1 & l1 & l2 & Ea & _). destruct Hb as (_ & _ & _ & B1 & m1 & m2 & Eb & _).
      exists s, a, b. split; [exact Hs|]. split; [exact Os|]. split; [|split; [|split; [|intros p Hp Op Tp Lt d Hd; split]]].
      - rewrite Ea. apply in_or_app. right. now left.
      - rewrite Eb. apply in_or_app. right. now left.
      - intros Sc. apply same_class_rounded in Sc. contradiction.
      - eapply A1; eassumption.
      - eapply B1; eassumption. }
    assert (Dec : forall t, (t = SHELL \/ t = COMPOSITE) -> torn \/ NoDup (map (fun x : eset * nat => oid (fst x)) (firsts off (visits (concerned off c t))))).
    { intros t Ht. set (fs := firsts off (visits (concerned off c t))) in *.
      pose proof (firsts_nodup off (visits (concerned off c t))) as Nk. fold fs in Nk.
      assert (G : forall l, (forall x, In x l -> In x fs) -> NoDup (map (key off) l) -> torn \/ NoDup (map (fun x : eset * nat => oid (fst x)) l)).
      { induction l as [|[s a] l IHl]; intros Sub Nl; [right; constructor|]. cbn in Nl. inversion Nl; subst.
        destruct IHl as [T|Nd]; [intros x Hx; apply Sub; now right|assumption|now left|].
        destruct (in_dec Z.eq_dec (oid s) (map (fun x : eset * nat => oid (fst x)) l)) as [Hi|Ni]; [|right; cbn; now constructor].
        left. apply in_map_iff in Hi. destruct Hi as ([p b] & Ep & Hp). cbn in Ep.
        assert (p = s).
        { assert (In (p, b) fs) as Pf by (apply Sub; now right). assert (In (s, a) fs) as Sf by (apply Sub; now left).
          apply (opens_firsts t _ _ Ht) in Pf, Sf. apply Lu; [apply Pf|apply Sf|exact Ep]. }
        subst p. apply (Dd t Ht). exists s, a, b. repeat split; [apply Sub; now left|apply Sub; now right|].
        intros Er. apply H1. apply in_map_iff. exists (s, b). split; [|exact Hp]. unfold key. cbn. congruence. }
      apply G; auto. }
    destruct (Dec SHELL) as [T|N1]; [now left|exact T|]. destruct (Dec COMPOSITE) as [T|N2]; [now right|exact T|].
    exfalso. apply N. unfold added. rewrite map_app, !map_map. cbn [gathered oid fst].
    assert (Dj : forall k, In k (map (fun x : eset * nat => oid (fst x)) (firsts off (visits (concerned off c SHELL)))) ->
                 ~ In k (map (fun x : eset * nat => oid (fst x)) (firsts off (visits (concerned off c COMPOSITE))))).
    { intros k A B. apply in_map_iff in A, B. destruct A as ([s a] & Es & A). destruct B as ([p b] & Ep & B). cbn in Es, Ep.
      apply (opens_firsts SHELL) in A; [|now left]. apply (opens_firsts COMPOSITE) in B; [|now right].
      assert (s = p) by (apply Lu; [apply A|apply B|congruence]). subst p. destruct A as (_ & _ & A & _), B as (_ & _ & B & _).
      unfold SHELL, COMPOSITE in *. congruence. }
    revert Dj. induction N1 as [|x l Hx N1 IHl]; intros Dj; [exact N2|]. cbn. constructor.
    + rewrite in_app_iff. intros [B|B]; [contradiction|]. apply (Dj x); [now left|exact B].
    + apply IHl. intros k Hk. apply Dj. now right.
Qed.
End Pass.

(** When the pass stops the conversion: exactly when a set brings cells of two classes
    that no earlier set of its type has. *)
Theorem C106_stops : forall D (off : nat -> Q) (h : list (@cop (plate D))),
  numbers_valid h -> numbers_consistent h -> erases_live [] h ->
  (split_offsets off (crun h) = Throw <->
   exists s a b, In s (live h) /\ offset_set off s /\ In a (cells_of s) /\ In b (cells_of s) /\
     ~ same_class (off a) (off b) /\
     forall p, In p (live h) -> offset_set off p -> otype p = otype s -> oid p < oid s ->
       forall d, In d (cells_of p) -> ~ same_class (off d) (off a) /\ ~ same_class (off d) (off b)).
Proof.
  intros D off h Hv Hc He. pose proof (split_cases off h Hv Hc He) as [A B].
  pose proof (torn_dup off h Hv Hc He) as T. unfold torn in T. rewrite T. split; [|exact B].
  intros E N. destruct (A N) as (c' & E' & _). congruence.
Qed.

(** Otherwise it gives, with the untouched sets, one set for each first cell of a class. *)
Theorem C106_sets : forall D (off : nat -> Q) (h : list (@cop (plate D))),
  numbers_valid h -> numbers_consistent h -> erases_live [] h ->
  split_offsets off (crun h) = Throw \/
  exists c', split_offsets off (crun h) = Ok c' /\
    (forall o, In o (live h) -> ~ offset_set off o -> In o (celements c')) /\
    (forall o, In o (celements c') ->
       (In o (live h) /\ ~ offset_set off o) \/
       (exists s a, In s (live h) /\ offset_set off s /\ opens off (live h) s a /\ replaces off (live h) s a o)) /\
    (forall s a, In s (live h) -> offset_set off s -> opens off (live h) s a ->
       exists o, In o (celements c') /\ replaces off (live h) s a o).
Proof.
  intros D off h Hv Hc He. pose proof (split_cases off h Hv Hc He) as [A B].
  destruct (nodup_dec (map oid (added off h))) as [N|N]; [|left; auto].
  right. destruct (A N) as (c' & E & H). exists c'. split; [exact E|].
  split; [intros o Ho No; apply H; auto|]. split.
  - intros o Ho. apply H in Ho. destruct Ho as [Ho|Ho]; [right|now left].
    apply added_in in Ho. destruct Ho as (t & s & a & Ht & Hf & ->). exists s, a.
    apply (opens_firsts off h Hv Hc He t s a Ht) in Hf. destruct Hf as (Hs & Os & Ts & Op). repeat (split; [assumption|]).
    now apply gathered_replaces.
  - intros s a Hs Os Op.
    assert (Ht : otype s = SHELL \/ otype s = COMPOSITE) by (destruct Os as [[Q|Q] _]; [left|right]; exact Q).
    exists (gathered off (visits (concerned off (crun h) (otype s))) (s, a)). split; [|now apply gathered_replaces].
    apply H. left. apply added_in. exists (otype s), s, a. split; [exact Ht|]. split; [|reflexivity].
    now apply opens_firsts.
Qed.

(** No cell is lost: each is in a set of its type whose offset is that of a cell of its class. *)
Theorem C106_cells : forall D (off : nat -> Q) (h : list (@cop (plate D))),
  numbers_valid h -> numbers_consistent h -> erases_live [] h ->
  forall c' s b, split_offsets off (crun h) = Ok c' ->
  In s (live h) -> offset_set off s -> In b (cells_of s) ->
  exists o p a, In o (celements c') /\ otype o = otype s /\ In b (cells_of o) /\
    In p (live h) /\ In a (cells_of p) /\ same_class (off b) (off a) /\
    (pl_offset (payload o) == pl_offset (payload p) + off a)%Q /\ pl_data (payload o) = pl_data (payload p).
Proof.
  intros D off h Hv Hc He c' s b E Hs Os Hb. destruct (C106_sets D off h Hv Hc He) as [T|(c2 & E2 & _ & _ & K)]; [congruence|].
  assert (c2 = c') by congruence. subst c2.
  assert (Ht : otype s = SHELL \/ otype s = COMPOSITE) by (destruct Os as [[Q|Q] _]; [left|right]; exact Q).
  destruct (cell_opened off h Hv Hc He (otype s) s b Ht Hs Os eq_refl Hb) as (p & a & Hf & Sc).
  pose proof (firsts_in _ _ _ Hf) as Hin. apply visits_in in Hin. destruct Hin as [_ Ha].
  apply (opens_firsts off h Hv Hc He _ p a Ht) in Hf. destruct Hf as (Hp & Op & Tp & On).
  destruct (K p a Hp Op On) as (o & Ho & R1 & R2 & R3 & R4 & R5 & R6).
  exists o, p, a. repeat (split; [solve [assumption | congruence]|]). split; [|repeat (split; [assumption|]); assumption].
  apply R6. exists s. repeat (split; [solve [assumption | congruence]|]). exact Sc.
Qed.

(** What is expected: when the cells of each set have one offset and two sets of a type
    are never of the same class, each set keeps its cells and its data and takes
    the offset.  Missing: sets whose cells have several offsets, or sets of near offsets;
    both fail, see the refutations. *)
Theorem C106_right_partial : forall D (off : nat -> Q) (h : list (@cop (plate D))),
  numbers_valid h -> numbers_consistent h -> erases_live [] h ->
  (forall s a b, In s (live h) -> offset_set off s -> In a (cells_of s) -> In b (cells_of s) -> (off a == off b)%Q) ->
  (forall s p a b, In s (live h) -> In p (live h) -> offset_set off s -> offset_set off p -> otype s = otype p -> s <> p ->
     In a (cells_of s) -> In b (cells_of p) -> ~ same_class (off a) (off b)) ->
  exists c', split_offsets off (crun h) = Ok c' /\
    (forall o, In o (live h) -> ~ offset_set off o -> In o (celements c')) /\
    (forall s, In s (live h) -> offset_set off s ->
       exists o, In o (celements c') /\ otype o = otype s /\ ooid o = ooid s /\ oid o = oid s /\
         pl_data (payload o) = pl_data (payload s) /\
         (forall b, In b (cells_of s) -> (pl_offset (payload o) == pl_offset (payload s) + off b)%Q) /\
         (forall b, In b (cells_of o) <-> In b (cells_of s))) /\
    length (celements c') = length (celements (crun h)).
Proof.
  intros D off h Hv Hc He Same Apart.
  assert (Cl : forall x y, (x == y)%Q -> same_class x y).
  { intros x y E. apply same_class_rounded. unfold rounded. apply Qfloor_comp. now rewrite E. }
  destruct (C106_sets D off h Hv Hc He) as [T|(c' & E & K1 & K2 & K3)].
  - exfalso. apply (C106_stops D off h Hv Hc He) in T. destruct T as (s & a & b & Hs & Os & Ha & Hb & N & _).
    apply N, Cl. now apply (Same s).
  - exists c'. split; [exact E|]. split; [exact K1|].
    assert (One : forall s, In s (live h) -> offset_set off s ->
       exists o, In o (celements c') /\ otype o = otype s /\ ooid o = ooid s /\ oid o = oid s /\
         pl_data (payload o) = pl_data (payload s) /\
         (forall b, In b (cells_of s) -> (pl_offset (payload o) == pl_offset (payload s) + off b)%Q) /\
         (forall b, In b (cells_of o) <-> In b (cells_of s))).
    { intros s Hs Os. assert (Os' := Os). destruct Os' as (Ts & e & Hce & _).
      destruct (cells_of s) as [|a l] eqn:El; [destruct Hce|].
      destruct (K3 s a Hs Os) as (o & Ho & R1 & R2 & R3 & R4 & R5 & R6).
      { split; [|exists [], l; split; [exact El|intros d []]].
        intros p Hp Op Tp Lt d Hd. apply (Apart p s); auto; [intros ->; lia|rewrite El; now left]. }
      exists o. repeat (split; [assumption|]). split.
      - intros b Hb. rewrite R5. assert (Eab : (off a == off b)%Q); [|now rewrite Eab].
        apply (Same s); auto; rewrite El; [now left|exact Hb].
      - intros b. rewrite R6. split.
        + intros (p & Hp & Op & Tp & Hb & Sc). rewrite <- El.
          destruct (Z.eq_dec (oid p) (oid s)) as [Ei|Ni].
          * assert (p = s); [|now subst p]. pose proof (history_inv h Hv Hc He) as I. apply (inv_number _ _ p s I); auto.
          * exfalso. apply (Apart p s b a); auto; [congruence|rewrite El; now left].
        + intros Hb. exists s. repeat (split; [solve [assumption|reflexivity|rewrite El; assumption]|]).
          apply Cl. apply (Same s); auto; rewrite El; [exact Hb|now left]. }
    split; [exact One|].
    (* the same internal numbers *)
    pose proof (history_inv h Hv Hc He) as I. destruct (elements_spec _ _ I) as [S0 E0].
    pose proof (split_cases off h Hv Hc He) as [A B].
    assert (S1 : NoDup (map oid (celements c'))).
    { unfold split_offsets in E. 
      (* by_id stays sorted under erase and add *)
      assert (Wf : zmap_wf (by_id c') /\ forall k o, In (k, o) (by_id c') -> oid o = k).
      { revert E. set (c1 := fold_left _ _ _).
        assert (W1 : zmap_wf (by_id c1) /\ forall k o, In (k, o) (by_id c1) -> oid o = k).
        { unfold c1. assert (W0 : zmap_wf (by_id (crun h)) /\ forall k o, In (k, o) (by_id (crun h)) -> oid o = k).
          { split; [apply (inv_wf _ _ I)|]. intros k o Hk. apply in_zfind in Hk; [|apply (inv_wf _ _ I)]. now apply (inv_id _ _ I) in Hk. }
          revert W0. generalize (concerned off (crun h) SHELL ++ concerned off (crun h) COMPOSITE) as l. generalize (crun h).
          intros c0 l. revert c0. induction l as [|x l IHl]; intros cc W0; [exact W0|]. cbn. apply IHl. unfold cerase. cbn. destruct W0 as [W0 J0].
          split; [now apply zerase_wf|]. intros k o Hk. apply J0.
          revert Hk. generalize (by_id cc) as z. induction z as [|[k1 o1] z IHz]; [intros []|]. cbn.
          destruct (k1 =? oid x); [now right|]. intros [Q|Q]; [now left|right; auto]. }
        revert W1. generalize c1. generalize (loop off (concerned off (crun h) COMPOSITE) (loop off (concerned off (crun h) SHELL) [])) as l.
        induction l as [|x l IHl]; intros cc W1 E; [cbn in E; now injection E as <-|].
        cbn [foldM] in E. unfold cadd at 1 in E. destruct (cfind cc (getReference x)) as [[y|]| | |] eqn:Ef; try discriminate. cbn [bind] in E.
        apply IHl in E; [exact E|]. cbn [by_id]. destruct W1 as [W1 J1]. split; [now apply zinsert_wf|].
        intros k o Hk. apply in_zfind in Hk; [|now apply zinsert_wf]. rewrite zfind_put in Hk by exact W1.
        destruct (Z.eqb_spec (oid x) k); [congruence|]. apply zfind_in in Hk. auto. }
      destruct Wf as [Wf J]. unfold celements. rewrite map_map.
      rewrite (map_ext_in _ fst).
      - clear - Wf. induction Wf as [|x l Wf IHl F]; [constructor|]. cbn. constructor; [|exact IHl].
        intros Hx. apply in_map_iff in Hx. destruct Hx as (y & Ey & Hy). rewrite Forall_forall in F. specialize (F y Hy). lia.
      - intros [k o] Hk. cbn. now apply J. }
    assert (S2 : NoDup (map oid (celements (crun h)))).
    { clear - S0. induction S0 as [|x l S0 IHl F]; [constructor|]. cbn. constructor; [|exact IHl].
      intros Hx. apply in_map_iff in Hx. destruct Hx as (y & Ey & Hy). rewrite Forall_forall in F. specialize (F y Hy). lia. }
    assert (Dec : forall s, In s (live h) -> offset_set off s \/ ~ offset_set off s).
    { intros s Hs. destruct (has_offset off s) eqn:Ho.
      - apply has_offset_spec in Ho. destruct (Z.eq_dec (otype s) 9) as [T|T]; [left; split; auto|].
        destruct (Z.eq_dec (otype s) 20) as [T2|T2]; [left; split; auto|]. right. intros [[Q|Q] _]; congruence.
      - right. intros [_ Q]. apply has_offset_spec in Q. congruence. }
    rewrite <- (map_length oid (celements c')), <- (map_length oid (celements (crun h))).
    apply Nat.le_antisymm; apply NoDup_incl_length; auto; intros k Hk; apply in_map_iff in Hk; destruct Hk as (o & <- & Ho); apply in_map_iff.
    + destruct (K2 o Ho) as [[Ho' _]|(s & a & Hs & _ & _ & (_ & _ & R & _))].
      * exists o. split; [reflexivity|now apply E0].
      * exists s. split; [now symmetry|now apply E0].
    + apply E0 in Ho. destruct (Dec o Ho) as [Q|Q].
      * destruct (One o Ho Q) as (o' & Ho' & _ & _ & Eo & _). now exists o'.
      * exists o. split; [reflexivity|auto].
Qed.

(** The classes are coarse: all the offsets up to 0.89 are in one. *)
Theorem C106_small_class : forall x y, (Qabs x <= 89 # 100)%Q -> (Qabs y <= 89 # 100)%Q -> same_class x y.
Proof.
  assert (K : forall x, (Qabs x <= 89 # 100)%Q -> class x 0).
  { intros x H. apply Qabs_Qle_condition in H. destruct H as [H1 H2]. unfold class. change (inject_Z 0) with 0%Q.
    assert (S0 : (0 <= x * x)%Q) by nra. assert (S1 : (x * x <= 7921 # 10000)%Q) by nra.
    assert (Ey : (x * x * x * x * x * x == (x * x) * (x * x) * (x * x))%Q) by ring. rewrite Ey. clear Ey.
    set (y := (x * x)%Q) in *.
    assert (S2 : (0 <= y * y)%Q) by nra. assert (S3 : (y * y <= (7921 # 10000) * (7921 # 10000))%Q) by nra.
    set (z := (y * y)%Q) in *. assert (S4 : (0 <= z * y)%Q) by nra.
    assert (S5 : (z * y <= (7921 # 10000) * (7921 # 10000) * (7921 # 10000))%Q) by nra.
    split; [lra|]. eapply Qle_lt_trans; [exact S5|]. reflexivity. }
  intros x y Hx Hy. exists 0. split; auto.
Qed.

(** Opposite offsets are in one class. *)
Theorem C106_opposite_class : forall x, same_class x (- x).
Proof.
  intros x. apply same_class_rounded. unfold rounded. apply Qfloor_comp. ring.
Qed.

Definition shell (n : Z) (d : Z) (cells : list nat) : object (plate Z) := mkObj 9 n n (mkPlate d 0 cells).

Example C106_right_case :
  let off := fun c => nth c [2#1; 2#1; 3#1; 0#1]%Q 0%Q in
  let h := [CAdd (shell 1 10 [0; 1]%nat); CAdd (shell 2 20 [2]%nat); CAdd (shell 3 30 [3]%nat)] in
  numbers_valid h /\ numbers_consistent h /\ erases_live [] h /\
  exists c', split_offsets off (crun h) = Ok c' /\
    map (fun o => (oid o, pl_data (payload o), pl_cells (payload o))) (celements c') = [(1, 10, [0; 1]%nat); (2, 20, [2]%nat); (3, 30, [3]%nat)] /\
    map (fun o => Qred (pl_offset (payload o))) (celements c') = [2#1; 3#1; 0#1]%Q.
Proof.
  cbv zeta. split; [intros a Ha; cbn in Ha; repeat destruct Ha as [<-|Ha]; try contradiction; vm_compute; discriminate|].
  split; [intros a b Ha Hb; cbn in Ha, Hb; repeat destruct Ha as [<-|Ha]; try contradiction; repeat destruct Hb as [<-|Hb]; try contradiction; cbn; intros E; try discriminate; reflexivity|].
  split; [cbn; tauto|]. eexists. split; [reflexivity|]. split; vm_compute; reflexivity.
Qed.

(** Two cells of a shell, one offset by a tenth: both get the offset of the first. *)
Theorem C106_offset_refuted : exists (off : nat -> Q) (c' : container (plate Z)) o,
  split_offsets off (crun [CAdd (shell 1 10 [0; 1]%nat)]) = Ok c' /\ celements c' = [o] /\ cells_of o = [0; 1]%nat /\
  (pl_offset (payload o) == off 0%nat)%Q /\ ~ (off 0%nat == off 1%nat)%Q.
Proof.
  exists (fun c => nth c [0#1; 1#10]%Q 0%Q). eexists. eexists. split; [reflexivity|]. split; [reflexivity|].
  split; [reflexivity|]. split; [reflexivity|]. vm_compute. discriminate.
Qed.

(** Two cells on the opposite sides of the plane are put on the same side. *)
Theorem C106_side_refuted : exists (off : nat -> Q) (c' : container (plate Z)) o,
  split_offsets off (crun [CAdd (shell 1 10 [0; 1]%nat)]) = Ok c' /\ celements c' = [o] /\ cells_of o = [0; 1]%nat /\
  (0 < pl_offset (payload o))%Q /\ (0 < off 0%nat)%Q /\ (off 1%nat < 0)%Q.
Proof.
  exists (fun c => nth c [2#1; -2#1]%Q 0%Q). eexists. eexists. split; [reflexivity|]. split; [reflexivity|].
  split; [reflexivity|]. split; [reflexivity|]. split; reflexivity.
Qed.

(** Two shells of different thickness and the same offset: the second is gone and its
    cell has the thickness of the first. *)
Theorem C106_thickness_refuted : exists (off : nat -> Q) (c' : container (plate Z)) o,
  split_offsets off (crun [CAdd (shell 1 10 [0]%nat); CAdd (shell 2 20 [1]%nat)]) = Ok c' /\
  celements c' = [o] /\ cells_of o = [0; 1]%nat /\ pl_data (payload o) = 10.
Proof.
  exists (fun _ => 1#2)%Q. eexists. eexists. split; [reflexivity|]. split; [reflexivity|]. split; reflexivity.
Qed.

(** A shell with a cell offset by 1 and a cell without offset stops the conversion. *)
Theorem C106_two_offsets_refuted : exists (off : nat -> Q),
  (off 0%nat == 0)%Q /\ (off 1%nat == 1)%Q /\
  split_offsets off (crun [CAdd (shell 1 10 [0; 1]%nat)]) = Throw.
Proof.
  exists (fun c => nth c [0#1; 1#1]%Q 0%Q). split; [reflexivity|]. split; [reflexivity|]. vm_compute. reflexivity.
Qed.

Print Assumptions C106_stops.
Print Assumptions C106_sets.
Print Assumptions C106_cells.
Print Assumptions C106_right_partial.
Print Assumptions C106_small_class.
Print Assumptions C106_opposite_class.
Print Assumptions C106_right_case.
Print Assumptions C106_offset_refuted.
Print Assumptions C106_side_refuted.
Print Assumptions C106_thickness_refuted.
Print Assumptions C106_two_offsets_refuted.
