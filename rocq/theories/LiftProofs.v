(** Lemmas on the pass that lifts supports where a displacement is imposed. *)
From Coq Require Import ZArith List Bool Lia Arith.
From Verif Require Import Base SupportModel SupportProofs.
Import ListNotations.
Open Scope Z_scope.

Section L.
Context {V : Type}.
Implicit Types m : model V.

Section Pass.
Variables (L : list (Z * list nat)) (m0 : model V) (a : Z).
Hypothesis W0 : wf m0.
Hypothesis F0 : flat m0.
Hypothesis A0 : In a (analyses m0).

Record LInv m (done : list (Z * Z)) : Prop := {
  l_wf : wf m;
  l_flat : flat m;
  l_an : analyses m = analyses m0;
  l_sets : sets_of m a = sets_of m0 a;
  l_in : forall t e v, supports m a t e v -> supports m0 a t e v;
  l_out : forall t e v, supports m0 a t e v -> ~ In e (imposed_at L t) -> supports m a t e v;
  l_oth : forall o, In o (analyses m0) -> o <> a ->
    forall t e v, supports m o t e v <-> supports m0 o t e v;
  l_lift : forall k t e v, supporter m a t e k v -> In e (imposed_at L t) ->
    supporter m0 a t e k v /\ ~ In (k, t) done;
  l_bel : forall x k, In x (sets_of m0 a) -> belongs m0 x k -> belongs m x k;
  l_nodes : forall k p0 t, spc_of m0 k = Some p0 -> at_ p0 t -> ~ In (k, t) done ->
    exists p, spc_of m k = Some p /\ at_ p t
}.

Lemma lift_step m done c n m' : LInv m done -> lift_node L a c m n = Ok m' ->
  LInv m' ((c, n) :: done).
Proof.
  intros I H. unfold lift_node in H.
  destruct (spc_of m c) as [p|] eqn:Ep; cbn [of_option bind] in H; [|discriminate].
  set (D := filter (fun d => memd d (imposed_at L n)) (dofs_of p)) in H.
  assert (HDin : forall e, In e D <-> In e (dofs_of p) /\ In e (imposed_at L n)).
  { intros e. unfold D. rewrite filter_In, memd_in. tauto. }
  assert (Sd : forall e v, supporter m a n e c v -> In e (dofs_of p)).
  { intros e v (y & r & _ & _ & Er & _ & Le & Hv). rewrite Ep in Er. injection Er as <-.
    apply dofs_of_in. rewrite Hv. auto. }
  destruct D as [|d0 D'] eqn:ED.
  - injection H as <-. constructor; try apply I.
    + intros k t e v S Hi. destruct (l_lift _ _ I k t e v S Hi) as [S0 N]. split; [exact S0|].
      intros [X|X]; [|contradiction]. injection X as <- <-.
      apply (proj2 (HDin e)). split; [eapply Sd; eauto|exact Hi].
    + intros k p0 t E Hat N. apply (l_nodes _ _ I k p0 t E Hat). intros X. apply N. now right.
  - clear ED. remember (d0 :: D') as D1 eqn:E1. clear E1 d0 D' D.
    assert (Am : In a (analyses m)) by (rewrite (l_an _ _ I); exact A0).
    destruct (remove_spec _ _ _ _ _ _ (l_wf _ _ I) (l_flat _ _ I) Am H)
      as (W' & F' & HA & _ & HT & HC & HB & HSo & (p' & Ep' & En & Ec') & Fm).
    rewrite Ep in Ep'. injection Ep' as <-.
    constructor.
    + exact W'.
    + exact F'.
    + rewrite HA. apply (l_an _ _ I).
    + rewrite HT. apply (l_sets _ _ I).
    + intros t e v (k & S). apply (l_in _ _ I). apply (Fm a t e k v Am) in S.
      destruct S as [[S _]|[(-> & _ & _ & S)|(_ & -> & _ & _ & S)]]; [exists k|exists c|exists c]; exact S.
    + intros t e v S Hi. destruct (l_out _ _ I t e v S Hi) as (k & Sk).
      destruct (Z.eq_dec k c) as [->|Nk]; [destruct (Z.eq_dec t n) as [->|Nt]|].
      * exists (next_c m). apply (Fm a n e _ v Am). right; left. repeat split; auto.
        apply memd_false. intros X. apply HDin in X. tauto.
      * exists c. apply (Fm a t e _ v Am). left. split; [exact Sk|tauto].
      * exists k. apply (Fm a t e _ v Am). left. split; [exact Sk|tauto].
    + intros o Io No t e v. rewrite <- (l_oth _ _ I o Io No t e v).
      assert (Io' : In o (analyses m)) by (rewrite (l_an _ _ I); exact Io).
      split; intros (k & S).
      * apply (Fm o t e k v Io') in S.
        destruct S as [[S _]|[(-> & _ & _ & S)|(_ & -> & _ & _ & S)]]; [exists k|exists c|exists c]; exact S.
      * destruct (Z.eq_dec k c) as [->|Nk]; [destruct (Z.eq_dec t n) as [->|Nt]|].
        -- destruct (memd e D1) eqn:EM.
           ++ exists (next_c m + 1). apply (Fm o n e _ v Io'). auto 10.
           ++ exists (next_c m). apply (Fm o n e _ v Io'). auto 10.
        -- exists c. apply (Fm o t e _ v Io'). left. split; [exact S|tauto].
        -- exists k. apply (Fm o t e _ v Io'). left. split; [exact S|tauto].
    + intros k t e v S Hi. apply (Fm a t e k v Am) in S.
      destruct S as [[S N]|[(-> & -> & E & S)|(X & _)]].
      * destruct (l_lift _ _ I k t e v S Hi) as [S0 N0]. split; [exact S0|].
        intros [X|X]; [|contradiction]. injection X as <- <-. tauto.
      * exfalso. apply memd_false in E. apply E, HDin. split; [eapply Sd; eauto|exact Hi].
      * congruence.
    + intros x k Hx B. apply HB; [rewrite (l_sets _ _ I); exact Hx|]. left.
      apply (l_bel _ _ I); assumption.
    + intros k p0 t E Hat N.
      assert (N' : ~ In (k, t) done) by (intros X; apply N; now right).
      destruct (l_nodes _ _ I k p0 t E Hat N') as (r & Er & Hr).
      destruct (Z.eq_dec k c) as [->|Nk].
      * exists (removed_at p n). split; [exact Ec'|]. rewrite Ep in Er. injection Er as <-.
        assert (t <> n) by (intros ->; apply N; now left).
        unfold at_, removed_at. cbn. rewrite filter_In.
        destruct (Z.eqb_spec t n); [contradiction|]. cbn. destruct Hr; auto.
      * exists r. split; [|exact Hr]. rewrite HSo; [exact Er|exact Nk|].
        apply (w_c m (l_wf _ _ I)). congruence.
Qed.

Lemma lift_nodes_loop c : forall l m done m', LInv m done -> foldM (lift_node L a c) l m = Ok m' ->
  exists done', LInv m' done' /\ (forall k t, In (k, t) done' <-> In (k, t) done \/ (k = c /\ In t l)).
Proof.
  induction l as [|n l IH]; intros m done m' I H; cbn in H.
  - injection H as <-. exists done. split; [exact I|]. cbn. tauto.
  - destruct (lift_node L a c m n) as [m1| | |] eqn:E; cbn in H; try discriminate.
    destruct (IH m1 _ m' (lift_step _ _ _ _ _ I E) H) as (done' & I' & Hd).
    exists done'. split; [exact I'|]. intros k t. rewrite Hd. cbn. split.
    + intros [[X|X]|[-> X]]; auto. injection X as <- <-. auto.
    + intros [X|[-> [->|X]]]; auto.
Qed.

Lemma lift_spcs_loop : forall l m done m', LInv m done -> foldM (lift_spc L a) l m = Ok m' ->
  exists done', LInv m' done' /\ (forall k t, In (k, t) done -> In (k, t) done')
    /\ (forall c p0 t, In c l -> spc_of m0 c = Some p0 -> at_ p0 t -> In (c, t) done').
Proof.
  induction l as [|c l IH]; intros m done m' I H; cbn in H.
  - injection H as <-. exists done. split; [exact I|]. split; [auto|]. intros ? ? ? [].
  - destruct (lift_spc L a m c) as [m1| | |] eqn:E; cbn in H; try discriminate.
    unfold lift_spc in E. destruct (spc_of m c) as [p|] eqn:Ep; cbn [of_option bind] in E; [|discriminate].
    destruct (lift_nodes_loop _ _ _ _ _ I E) as (d1 & I1 & H1).
    destruct (IH m1 d1 m' I1 H) as (d' & I' & Hk & Hc).
    exists d'. split; [exact I'|]. split; [intros k t X; apply Hk, H1; auto|].
    intros k p0 t [<-|Hkl] Ek Hat; [|eapply Hc; eauto].
    apply Hk, H1. destruct (in_dec pair_dec (c, t) done) as [X|X]; [now left|right].
    split; [reflexivity|]. destruct (l_nodes _ _ I c p0 t Ek Hat X) as (r & Er & Hr).
    rewrite Ep in Er. injection Er as <-. apply in_positions, Hr.
Qed.

Lemma lift_sets_loop : forall l m done m', (forall x, In x l -> In x (sets_of m0 a)) ->
  LInv m done -> foldM (lift_set L a) l m = Ok m' ->
  exists done', LInv m' done' /\ (forall k t, In (k, t) done -> In (k, t) done')
    /\ (forall x c p0 t, In x l -> belongs m0 x c -> spc_of m0 c = Some p0 -> at_ p0 t -> In (c, t) done').
Proof.
  induction l as [|x l IH]; intros m done m' Hl I H; cbn in H.
  - injection H as <-. exists done. split; [exact I|]. split; [auto|]. intros ? ? ? ? [].
  - destruct (lift_set L a m x) as [m1| | |] eqn:E; cbn in H; try discriminate.
    unfold lift_set in E. destruct (members m x) as [lx|] eqn:Ex; [|discriminate].
    assert (Ecx : constraints_of m x = lx).
    { unfold constraints_of, by_set. rewrite (l_flat _ _ I x), Ex. reflexivity. }
    rewrite Ecx in E.
    destruct (lift_spcs_loop _ _ _ _ I E) as (d1 & I1 & Hk1 & Hc1).
    destruct (IH m1 d1 m') as (d' & I' & Hk & Hc); auto.
    { intros y Hy. apply Hl. now right. }
    exists d'. split; [exact I'|]. split; [auto|].
    intros y c p0 t [<-|Hy] B Ec Hat; [|eapply Hc; eauto].
    apply Hk. eapply Hc1; eauto.
    apply (l_bel _ _ I) in B; [|apply Hl; now left]. apply flat_belongs in B; [|apply (l_flat _ _ I)].
    destruct B as (l0 & E0 & Hin). rewrite Ex in E0. injection E0 as <-. exact Hin.
Qed.

Lemma lift_analysis m' : foldM (lift_set L a) (sets_of m0 a) m0 = Ok m' ->
  wf m' /\ flat m' /\ analyses m' = analyses m0
  /\ (forall t e v, supports m' a t e v <-> supports m0 a t e v /\ ~ In e (imposed_at L t))
  /\ (forall o, In o (analyses m0) -> o <> a ->
        forall t e v, supports m' o t e v <-> supports m0 o t e v).
Proof.
  intros H.
  assert (I0 : LInv m0 []).
  { constructor; auto; try reflexivity; try tauto. intros k p0 t E Hat _. eauto. }
  destruct (lift_sets_loop _ _ _ _ (fun x Hx => Hx) I0 H) as (d & I & _ & Hc).
  split; [apply I|]. split; [apply I|]. split; [apply I|]. split; [|apply I].
  intros t e v. split.
  - intros S. split; [apply (l_in _ _ I), S|]. intros Hi. destruct S as (k & S).
    destruct (l_lift _ _ I k t e v S Hi) as [S0 N]. apply N.
    destruct S0 as (x & p & Hx & B & Ep & Hat & _). eapply Hc; eauto.
  - intros [S N]. apply (l_out _ _ I); assumption.
Qed.
End Pass.

Lemma lift_loop imp : forall l m m', wf m -> flat m -> NoDup l -> incl l (analyses m) ->
  foldM (fun m a => foldM (lift_set (imp a) a) (sets_of m a) m) l m = Ok m' ->
  wf m' /\ flat m' /\ analyses m' = analyses m
  /\ (forall o, In o (analyses m) -> forall t e v,
        supports m' o t e v <-> supports m o t e v /\ ~ (In o l /\ In e (imposed_at (imp o) t))).
Proof.
  induction l as [|a l IH]; intros m m' W F N Hl H; cbn in H.
  - injection H as <-. split; [exact W|]. split; [exact F|]. split; [reflexivity|]. cbn. tauto.
  - inversion N as [|? ? Na Nl]; subst.
    destruct (foldM (lift_set (imp a) a) (sets_of m a) m) as [m1| | |] eqn:E; cbn in H; try discriminate.
    assert (Ia : In a (analyses m)) by (apply Hl; now left).
    destruct (lift_analysis _ _ _ W F Ia _ E) as (W1 & F1 & A1 & Aa & Oth).
    destruct (IH m1 m' W1 F1 Nl) as (W' & F' & A' & R); auto.
    { rewrite A1. intros y Hy. apply Hl. now right. }
    split; [exact W'|]. split; [exact F'|]. split; [congruence|].
    intros o Io t e v. rewrite R by (rewrite A1; exact Io). cbn [In].
    destruct (Z.eq_dec o a) as [->|No].
    + rewrite Aa. tauto.
    + rewrite (Oth o Io No). intuition congruence.
Qed.
End L.
