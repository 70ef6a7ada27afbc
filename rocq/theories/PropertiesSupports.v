(** C44, C47 and C68: taking supports away.  What is observed is the relation
    [supports] of SupportProofs: in an analysis, a degree of freedom of a node is
    held at a value by some support belonging to one of the sets of the analysis. *)
From Coq Require Import ZArith List Bool Lia Arith.
From Verif Require Import Base SupportModel SupportProofs LiftProofs.
Import ListNotations.
Open Scope Z_scope.

(** ** C44: removing degrees of freedom of one support for one analysis *)
Theorem C44_removal_partial {V} (m : model V) a c n D m' :
  wf m -> flat m -> In a (analyses m) -> remove_node_dofs m a c n D = Ok m' ->
  (forall o, In o (analyses m) -> o <> a ->
     forall t e v, supports m' o t e v <-> supports m o t e v)
  /\ (forall t e v, supports m' a t e v <->
        exists k, supporter m a t e k v /\ ~ (k = c /\ t = n /\ In e D)).
Proof.
  intros W F Ia H.
  destruct (remove_spec _ _ _ _ _ _ W F Ia H) as (_ & _ & _ & _ & _ & _ & _ & _ & _ & Fm).
  split.
  - intros o Io No t e v. split; intros (k & S).
    + apply (Fm o t e k v Io) in S.
      destruct S as [[S _]|[(-> & _ & _ & S)|(_ & -> & _ & _ & S)]]; [exists k|exists c|exists c]; exact S.
    + destruct (Z.eq_dec k c) as [->|Nk]; [destruct (Z.eq_dec t n) as [->|Nt]|].
      * destruct (memd e D) eqn:ED.
        -- exists (next_c m + 1). apply (Fm o n e _ v Io). auto 10.
        -- exists (next_c m). apply (Fm o n e _ v Io). auto 10.
      * exists c. apply (Fm o t e _ v Io). left. split; [exact S|tauto].
      * exists k. apply (Fm o t e _ v Io). left. split; [exact S|tauto].
  - intros t e v. split.
    + intros (k & S). apply (Fm a t e k v Ia) in S.
      destruct S as [[S N]|[(-> & -> & E & S)|(X & _)]]; [|apply memd_false in E|congruence].
      * exists k. split; [exact S|tauto].
      * exists c. split; [exact S|tauto].
    + intros (k & S & N).
      destruct (Z.eq_dec k c) as [->|Nk]; [destruct (Z.eq_dec t n) as [->|Nt]|].
      * exists (next_c m). apply (Fm a n e _ v Ia). right; left. repeat split; auto.
        apply memd_false. tauto.
      * exists c. apply (Fm a t e _ v Ia). left. split; [exact S|tauto].
      * exists k. apply (Fm a t e _ v Ia). left. split; [exact S|tauto].
Qed.

Lemma copy_spc_succeeds {V} (p : spc V) n l :
  (forall d, In d l -> exists v, sval_of p d = Val v) -> exists q, copy_spc p n l = Ok q.
Proof.
  intros H. unfold copy_spc.
  assert (exists vs, mapM (fun d => do v <- get_double p d; Ok (d, v)) l = Ok vs) as (vs & ->).
  { induction l as [|d l IH]; [eexists; reflexivity|]. cbn.
    destruct (H d (or_introl eq_refl)) as (v & Ev). unfold get_double at 1. rewrite Ev. cbn.
    destruct IH as (vs & ->); [intros e He; apply H; now right|]. cbn. eauto. }
  cbn. eauto.
Qed.

(** The removal is carried out whenever the node is listed in the support, all
    the supported values are numbers and only supported degrees of freedom are
    removed. *)
Theorem C44_accepted {V} (m : model V) a c n D p :
  wf m -> spc_of m c = Some p -> In n (own p) ->
  (forall d, sval_of p d = Free \/ exists v, sval_of p d = Val v) ->
  (forall d, In d D -> sval_of p d <> Free) ->
  exists m', remove_node_dofs m a c n D = Ok m'.
Proof.
  intros W Ec En Hn HD. unfold remove_node_dofs. rewrite Ec. cbn [of_option bind].
  assert (HDv : forall d, In d D -> exists v, sval_of p d = Val v).
  { intros d Hd. destruct (Hn d) as [X|X]; [|exact X]. exfalso. now apply (HD d). }
  assert (HRv : forall d, In d (filter (fun d => negb (memd d D)) (dofs_of p)) -> exists v, sval_of p d = Val v).
  { intros d Hd. apply filter_In in Hd. destruct Hd as [Hd _]. apply dofs_of_in in Hd.
    destruct (Hn d) as [X|X]; [rewrite X in Hd; cbn in Hd; destruct Hd; discriminate|exact X]. }
  destruct (copy_spc_succeeds p n _ HRv) as (q1 & E1).
  destruct (copy_spc_succeeds p n _ HDv) as (q2 & E2).
  assert (Hall : forall mm : model V, analyses mm = analyses m -> sets_of mm = sets_of m ->
     (forall x, members m x <> None -> members mm x <> None) ->
     forallb (fun o => (o =? a) ||
       forallb (fun x => match members mm x with Some _ => true | None => false end) (sets_of mm o))
       (analyses mm) = true).
  { intros mm EA ES EM. apply forallb_forall. intros o _. apply orb_true_iff. right.
    apply forallb_forall. intros x Hx. rewrite ES in Hx. apply (w_sets m W) in Hx. apply EM in Hx.
    destruct (members mm x); [reflexivity|congruence]. }
  apply mem_in in En.
  destruct (filter (fun d => negb (memd d D)) (dofs_of p)) as [|r0 r] eqn:Er; cbn [bind].
  - destruct (2 <=? length (analyses m))%nat; cbn [bind].
    + rewrite E2. cbn [bind]. rewrite Hall; auto. cbn [bind]. rewrite En. eauto.
    + rewrite En. eauto.
  - rewrite E1. cbn [bind].
    destruct (2 <=? length (analyses m))%nat; cbn [bind].
    + rewrite E2. cbn [bind]. rewrite Hall; auto.
      * cbn [bind]. rewrite En. eauto.
      * cbn. intros x Hx. destruct (members m x); congruence.
    + rewrite En. eauto.
Qed.

(** Two analyses share a set; a third set is used by the first only. *)
Definition sv (l : list (nat * Z)) : nat -> sval Z :=
  fun d => match find (fun dv => Nat.eqb (fst dv) d) l with Some (_, v) => Val v | None => Free end.
Definition spc_a : spc Z := mkSpc (sv [(0%nat, 0); (1%nat, 0)]) [100; 101] [].
Definition spc_b : spc Z := mkSpc (sv [(0%nat, 0); (2%nat, 5)]) [100] [102].
Definition two_analyses : model Z :=
  mkModel (fun c => if c =? 1 then Some spc_a else if c =? 2 then Some spc_b else None)
    (fun x => if x =? 10 then Some [1] else if x =? 20 then Some [2] else None)
    (fun _ => []) [1; 2]
    (fun o => if o =? 1 then [10; 20] else if o =? 2 then [20] else [])
    3 21.

Ltac cases :=
  repeat match goal with
  | H : context [?a =? ?b] |- _ => destruct (Z.eqb_spec a b); subst
  | |- context [?a =? ?b] => destruct (Z.eqb_spec a b); subst
  end.

Ltac fin := repeat match goal with
  | H : _ \/ _ |- _ => destruct H
  | H : False |- _ => destruct H
  end; try discriminate; try lia.

Lemma two_analyses_wf : wf two_analyses.
Proof.
  constructor; cbn -[Z.eqb].
  - intros x l c E H. cases; try discriminate; injection E as <-; cbn in H; fin.
  - intros c. cases; try lia; congruence.
  - intros x. cases; try lia; congruence.
  - intros o x H. cases; cbn in H; fin.
  - intros o. cases; repeat constructor; cbn; intuition; discriminate.
  - intros x l. cases; intros E; try discriminate; injection E as <-; repeat constructor.
  - intros c p. cases; intros E; try discriminate; injection E as <-; repeat constructor.
  - intros c p n. cases; intros E; try discriminate; injection E as <-; cbn; intuition; subst; cbn in *; discriminate.
Qed.
Lemma two_analyses_flat : flat two_analyses.
Proof. intros x. reflexivity. Qed.

Ltac supported x c := exists c, x; eexists; split; [cbn; auto|split; [left; eexists; split; [reflexivity|cbn; auto]|
  split; [reflexivity|split; [cbn; auto|split; [lia|reflexivity]]]]].

(** Removing the translation x of the node 100 from the second support for the
    first analysis: the second analysis still holds it, and both still hold the
    translation z. *)
Example C44_example :
  exists m', remove_node_dofs two_analyses 1 2 100 [0%nat] = Ok m'
  /\ supports two_analyses 2 100 0 0 /\ supports m' 2 100 0 0
  /\ supports m' 1 100 2 5 /\ supports m' 2 100 2 5.
Proof.
  destruct (C44_accepted two_analyses 1 2 100 [0%nat] spc_b two_analyses_wf eq_refl) as (m' & E).
  - now left.
  - intros [|[|[|d]]]; cbn; eauto.
  - intros d [<-|[]]. discriminate.
  - exists m'. split; [exact E|].
    destruct (C44_removal_partial _ _ _ _ _ _ two_analyses_wf two_analyses_flat (or_introl eq_refl) E) as [Ho Ha].
    assert (S2 : supports two_analyses 2 100 0 0) by (supported 20 2).
    split; [exact S2|]. split; [apply Ho; [cbn; auto|lia|exact S2]|]. split.
    + apply Ha. exists 2. split; [|intros (_ & _ & [X|[]]); discriminate].
      exists 20, spc_b. repeat split; cbn; auto; try lia. left. exists [2]. cbn. auto.
    + apply Ho; [cbn; auto|lia|]. supported 20 2.
Qed.

(** An analysis that reaches the support through a set including another one
    (SPCADD) loses it when it is removed for a different analysis. *)
Definition included : model Z :=
  mkModel (fun c => if c =? 1 then Some (mkSpc (sv [(0%nat, 0)]) [100] []) else None)
    (fun x => if x =? 10 then Some [1] else if x =? 30 then Some [] else None)
    (fun x => if x =? 30 then [10] else []) [1; 2]
    (fun o => if o =? 1 then [10] else if o =? 2 then [30] else [])
    2 31.
Lemma included_wf : wf included.
Proof.
  constructor; cbn -[Z.eqb].
  - intros x l c E H. cases; try discriminate; injection E as <-; cbn in H; fin.
  - intros c. cases; try lia; congruence.
  - intros x. cases; try lia; congruence.
  - intros o x H. cases; cbn in H; fin.
  - intros o. cases; repeat constructor; cbn; intuition; discriminate.
  - intros x l. cases; intros E; try discriminate; injection E as <-; repeat constructor.
  - intros c p. cases; intros E; try discriminate; injection E as <-; repeat constructor.
  - intros c p n. cases; intros E; try discriminate; injection E as <-; cbn; tauto.
Qed.

Theorem C44_included_refuted :
  exists (m m' : model Z), wf m /\ remove_node_dofs m 1 1 100 [0%nat] = Ok m'
  /\ In 2 (analyses m) /\ supports m 2 100 0 0 /\ ~ supports m' 2 100 0 0.
Proof.
  exists included. eexists. split; [apply included_wf|]. split; [reflexivity|].
  split; [cbn; auto|]. split.
  - exists 1, 30. eexists. split; [cbn; auto|]. split; [right; exists 10, [1]; cbn; auto|].
    split; [reflexivity|]. repeat split; cbn; auto; lia.
  - intros (c & x & p & Hx & B & Ep & (Hn & _ & _)). cbn in Hx. destruct Hx as [<-|[]].
    assert (Hc : c = 1).
    { destruct B as [(l & E & H)|(y & l & Hy & E & H)].
      - cbn in E. injection E as <-. contradiction.
      - cbn in Hy. destruct Hy as [<-|[]]. cbn in E. injection E as <-. destruct H as [<-|[]]. reflexivity. }
    subst c. cbn in Ep. injection Ep as <-. cbn in Hn. tauto.
Qed.

Print Assumptions C44_removal_partial.
Print Assumptions C44_accepted.
Print Assumptions C44_included_refuted.

(** ** C47: removing redundant supports *)
(** After the pass every analysis holds the same degrees of freedom, at the same
    values up to the comparison [same] used for them, and each is held by one
    support only. *)
Theorem C47_redundant_partial {V} (same : V -> V -> bool) (m m' : model V) :
  wf m -> flat m -> (forall o, In o (analyses m) -> disjoint m o) -> NoDup (analyses m) ->
  remove_redundant same m = Ok m' ->
  forall o, In o (analyses m) ->
    (forall t e v, supports m' o t e v -> supports m o t e v)
    /\ (forall t e v, supports m o t e v ->
          exists w, supports m' o t e w /\ (v = w \/ same v w = true))
    /\ (forall t e k1 k2 v1 v2, supporter m' o t e k1 v1 -> supporter m' o t e k2 v2 ->
          k1 = k2 /\ v1 = v2).
Proof.
  intros W F Dj N H o Io. unfold remove_redundant in H.
  destruct (redundant_loop same _ m m' W F Dj N (incl_refl _) H) as (W' & F' & A' & R).
  destruct (R o Io) as (Ri & Ro & Rs). split; [exact Ri|]. split.
  - intros t e v S. destruct (Ro t e v S) as (w & S' & [X|[_ X]]); exists w; auto.
  - intros t e k1 k2 v1 v2 S1 S2.
    assert (k1 = k2) by (eapply Rs; eauto). split; [assumption|]. subst k2.
    destruct S1 as (x1 & p1 & _ & _ & E1 & _ & _ & V1).
    destruct S2 as (x2 & p2 & _ & _ & E2 & _ & _ & V2). congruence.
Qed.

(** The pass refuses models with contradictory supports: when it succeeds, all
    the values given for a degree of freedom agree with one of them. *)
Theorem C47_no_contradiction_partial {V} (same : V -> V -> bool) (m m' : model V) :
  wf m -> flat m -> (forall o, In o (analyses m) -> disjoint m o) -> NoDup (analyses m) ->
  remove_redundant same m = Ok m' ->
  forall o t e v1 v2, In o (analyses m) -> supports m o t e v1 -> supports m o t e v2 ->
  exists w, supports m o t e w /\ (v1 = w \/ same v1 w = true) /\ (v2 = w \/ same v2 w = true).
Proof.
  intros W F Dj N H o t e v1 v2 Io S1 S2.
  destruct (C47_redundant_partial same m m' W F Dj N H o Io) as (Ri & Ro & Rs).
  destruct (Ro t e v1 S1) as (w1 & (k1 & X1) & E1). destruct (Ro t e v2 S2) as (w2 & (k2 & X2) & E2).
  destruct (Rs t e k1 k2 w1 w2 X1 X2) as [_ ->]. exists w2. split; [apply Ri; exists k2; exact X2|auto].
Qed.

Lemma two_analyses_disjoint o : In o (analyses two_analyses) -> disjoint two_analyses o.
Proof.
  intros Io x y c Hx Hy Bx By.
  apply (flat_belongs _ _ _ two_analyses_flat) in Bx, By.
  destruct Bx as (l1 & E1 & H1), By as (l2 & E2 & H2). cbn -[Z.eqb] in E1, E2.
  cases; try discriminate; try reflexivity; injection E1 as <-; injection E2 as <-;
    cbn in H1, H2; intuition; subst; cbn in *; discriminate.
Qed.

(** The pass succeeds on the two analyses: the translation x of the node 100,
    held twice in the first, is held once afterwards, and the second analysis
    still holds it. *)
Definition is_ok {A} (o : outcome A) : bool := match o with Ok _ => true | _ => false end.
Lemma is_ok_ex {A} (o : outcome A) : is_ok o = true -> exists a, o = Ok a.
Proof. destruct o; try discriminate. eauto. Qed.
Example C47_example :
  exists m', remove_redundant Z.eqb two_analyses = Ok m'
  /\ supporter two_analyses 1 100 0 1 0 /\ supporter two_analyses 1 100 0 2 0
  /\ supports m' 1 100 0 0 /\ supports m' 2 100 0 0
  /\ (forall k1 k2, supporter m' 1 100 0 k1 0 -> supporter m' 1 100 0 k2 0 -> k1 = k2).
Proof.
  destruct (is_ok_ex (remove_redundant Z.eqb two_analyses)) as (m' & E); [vm_compute; reflexivity|].
  exists m'. split; [exact E|].
  assert (N : NoDup (analyses two_analyses)) by (clear E; cbn; repeat constructor; cbn; intuition; discriminate).
  pose proof (C47_redundant_partial Z.eqb two_analyses m' two_analyses_wf two_analyses_flat
                two_analyses_disjoint N E) as R.
  destruct (R 1 (or_introl eq_refl)) as (_ & R1 & R2).
  destruct (R 2 (or_intror (or_introl eq_refl))) as (_ & R3 & _).
  assert (S1 : supporter two_analyses 1 100 0 1 0).
  { exists 10, spc_a. repeat split; cbn; auto; try lia. left. exists [1]. cbn. auto. }
  assert (S2 : supporter two_analyses 1 100 0 2 0).
  { exists 20, spc_b. repeat split; cbn; auto; try lia. left. exists [2]. cbn. auto. }
  split; [exact S1|]. split; [exact S2|]. split; [|split].
  - destruct (R1 100 0%nat 0) as (w & S & X); [exists 1; exact S1|].
    destruct X as [<-|X]; [exact S|]. apply Z.eqb_eq in X. subst. exact S.
  - destruct (R3 100 0%nat 0) as (w & S & X); [supported 20 2|].
    destruct X as [<-|X]; [exact S|]. apply Z.eqb_eq in X. subst. exact S.
  - intros k1 k2 X1 X2. exact (proj1 (R2 100 0%nat k1 k2 0 0 X1 X2)).
Qed.

(** A support that an analysis reaches through two sets is taken for redundant
    with itself, and is lost. *)
Definition shared : model Z :=
  mkModel (fun c => if c =? 1 then Some (mkSpc (sv [(0%nat, 0)]) [100] []) else None)
    (fun x => if x =? 10 then Some [1] else if x =? 20 then Some [1] else None)
    (fun _ => []) [1] (fun o => if o =? 1 then [10; 20] else []) 2 21.
Lemma shared_wf : wf shared.
Proof.
  constructor; cbn -[Z.eqb].
  - intros x l c E H. cases; try discriminate; injection E as <-; cbn in H; fin.
  - intros c. cases; try lia; congruence.
  - intros x. cases; try lia; congruence.
  - intros o x H. cases; cbn in H; fin.
  - intros o. cases; repeat constructor; cbn; intuition; discriminate.
  - intros x l. cases; intros E; try discriminate; injection E as <-; repeat constructor.
  - intros c p. cases; intros E; try discriminate; injection E as <-; repeat constructor.
  - intros c p n. cases; intros E; try discriminate; injection E as <-; cbn; tauto.
Qed.
Theorem C47_shared_refuted :
  exists (m m' : model Z), wf m /\ flat m /\ remove_redundant Z.eqb m = Ok m'
  /\ In 1 (analyses m) /\ supports m 1 100 0 0 /\ forall v, ~ supports m' 1 100 0 v.
Proof.
  exists shared. eexists. split; [apply shared_wf|]. split; [intros x; reflexivity|].
  split; [vm_compute; reflexivity|]. split; [cbn; auto|]. split.
  - supported 10 1.
  - intros v (c & x & p & Hx & B & Ep & (Hn & _)).
    assert (Hc : c = 1).
    { destruct B as [(l & E & H)|(y & l & [] & _)]. cbn in Hx.
      destruct Hx as [<-|[<-|[]]]; cbn in E; injection E as <-; destruct H as [<-|[]]; reflexivity. }
    subst c. cbn in Ep. injection Ep as <-. cbn in Hn. tauto.
Qed.

Print Assumptions C47_redundant_partial.
Print Assumptions C47_no_contradiction_partial.
Print Assumptions C47_shared_refuted.

(** ** C68: supports are lifted where a displacement is imposed *)
(** A displacement is imposed on [e] at [t] by some load of the list. *)
Definition imposed (l : list (Z * list nat)) (t : Z) (e : nat) : Prop :=
  exists D, In (t, D) l /\ In e D.

Lemma imposed_at_spec l t : NoDup (map fst l) -> forall e, In e (imposed_at l t) <-> imposed l t e.
Proof.
  unfold imposed_at, imposed.
  assert (G : forall (l : list (Z * list nat)) (cur : list nat), NoDup (map fst l) -> forall e : nat,
    In e (fold_left (fun cur nd => if fst nd =? t then snd nd else cur) l cur) <->
    (exists D, In (t, D) l /\ In e D) \/ (~ In t (map fst l) /\ In e cur)).
  { clear l. intros l. induction l as [|[n D] l IH]; intros cur N e; cbn.
    - firstorder.
    - inversion N as [|? ? Nn Nl]; subst. rewrite (IH _ Nl). destruct (Z.eqb_spec n t) as [->|Nt].
      + split.
        * intros [(D1 & H1 & H2)|[H1 H2]]; left; [exists D1|exists D]; auto.
        * intros [(D1 & [H1|H1] & H2)|[H1 H2]].
          -- injection H1 as <-. right. auto.
          -- left. exists D1. auto.
          -- exfalso. auto.
      + split.
        * intros [(D1 & H1 & H2)|[H1 H2]]; [left; exists D1; auto|right]. split; [|exact H2].
          intros [X|X]; [congruence|contradiction].
        * intros [(D1 & [H1|H1] & H2)|[H1 H2]]; [congruence|left; exists D1; auto|right]. split; [|exact H2].
          intros X. apply H1. now right. }
  intros N e. rewrite (G l [] N e). firstorder.
Qed.

Theorem C68_imposed_partial {V} (loads : Z -> list (Z * list nat)) (m m' : model V) :
  wf m -> flat m -> NoDup (analyses m) -> (forall o, NoDup (map fst (loads o))) ->
  remove_imposed loads m = Ok m' ->
  forall o t e v, In o (analyses m) ->
    (supports m' o t e v <-> supports m o t e v /\ ~ imposed (loads o) t e).
Proof.
  intros W F N NL H o t e v Io. unfold remove_imposed in H.
  destruct (lift_loop loads _ m m' W F N (incl_refl _) H) as (_ & _ & _ & R).
  rewrite (R o Io t e v), (imposed_at_spec _ _ (NL o)). tauto.
Qed.

Definition one_load (o : Z) : list (Z * list nat) := if o =? 1 then [(100, [0%nat; 3%nat])] else [].
Example C68_example :
  exists m', remove_imposed one_load two_analyses = Ok m'
  /\ (forall v, ~ supports m' 1 100 0 v) /\ supports m' 1 100 1 0 /\ supports m' 2 100 0 0.
Proof.
  destruct (is_ok_ex (remove_imposed one_load two_analyses)) as (m' & E); [vm_compute; reflexivity|].
  exists m'. split; [exact E|].
  assert (R := C68_imposed_partial one_load two_analyses m' two_analyses_wf two_analyses_flat).
  assert (R' : forall o t e v, In o [1; 2] ->
    (supports m' o t e v <-> supports two_analyses o t e v /\ ~ imposed (one_load o) t e)).
  { apply R; auto.
    - clear. cbn. repeat constructor; cbn; intuition; discriminate.
    - clear. intros o. unfold one_load. cases; repeat constructor; cbn; auto. }
  clear E R. split; [|split].
  - intros v S. apply R' in S; [|cbn; auto]. destruct S as [_ S]. apply S.
    exists [0%nat; 3%nat]. cbn. auto.
  - apply R'; [cbn; auto|]. split; [supported 10 1|].
    intros (D & [X|[]] & Y). injection X as <-. cbn in Y. intuition; discriminate.
  - apply R'; [cbn; auto|]. split; [supported 20 2|]. intros (D & [] & _).
Qed.

(** Two displacements imposed on the same node: only the second is looked at. *)
Definition two_loads (o : Z) : list (Z * list nat) := [(100, [0%nat]); (100, [1%nat])].
Definition held : model Z :=
  mkModel (fun c => if c =? 1 then Some (mkSpc (sv [(0%nat, 0); (1%nat, 0)]) [100] []) else None)
    (fun x => if x =? 10 then Some [1] else None)
    (fun _ => []) [1] (fun o => if o =? 1 then [10] else []) 2 11.
Lemma held_wf : wf held.
Proof.
  constructor; cbn -[Z.eqb].
  - intros x l c E H. cases; try discriminate; injection E as <-; cbn in H; fin.
  - intros c. cases; try lia; congruence.
  - intros x. cases; try lia; congruence.
  - intros o x H. cases; cbn in H; fin.
  - intros o. cases; repeat constructor; cbn; intuition; discriminate.
  - intros x l. cases; intros E; try discriminate; injection E as <-; repeat constructor.
  - intros c p. cases; intros E; try discriminate; injection E as <-; repeat constructor.
  - intros c p n. cases; intros E; try discriminate; injection E as <-; cbn; tauto.
Qed.
Theorem C68_two_loads_refuted :
  exists (loads : Z -> list (Z * list nat)) (m m' : model Z),
    wf m /\ flat m /\ remove_imposed loads m = Ok m'
    /\ In 1 (analyses m) /\ imposed (loads 1) 100 0 /\ supports m' 1 100 0 0.
Proof.
  exists two_loads, held. eexists. split; [apply held_wf|]. split; [intros x; reflexivity|].
  split; [vm_compute; reflexivity|]. split; [cbn; auto|]. split.
  - exists [0%nat]. cbn. auto.
  - supported 10 2.
Qed.

Print Assumptions C68_imposed_partial.
Print Assumptions C68_two_loads_refuted.
