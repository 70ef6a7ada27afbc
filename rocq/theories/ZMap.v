(** std::map<int, A>: a list of pairs sorted by key.  Used by the models of the
    registries; [find], [insert] (operator[] assignment) and [erase] are the
    std::map operations of the same names and the list itself is the iteration
    order (ascending keys). *)
From Coq Require Import ZArith List Bool Lia Sorted.
Import ListNotations.
Open Scope Z_scope.

Section ZMap.
Context {A : Type}.
Definition zmap := list (Z * A).

Fixpoint zfind (m : zmap) (k : Z) : option A :=
  match m with
  | [] => None
  | (k', a) :: r => if k' =? k then Some a else zfind r k
  end.

Fixpoint zinsert (m : zmap) (k : Z) (a : A) : zmap :=
  match m with
  | [] => [(k, a)]
  | (k', a') :: r =>
      if k <? k' then (k, a) :: (k', a') :: r
      else if k =? k' then (k, a) :: r
      else (k', a') :: zinsert r k a
  end.

Fixpoint zerase (m : zmap) (k : Z) : zmap :=
  match m with
  | [] => []
  | (k', a') :: r => if k' =? k then r else (k', a') :: zerase r k
  end.

Definition zmap_wf (m : zmap) : Prop := StronglySorted (fun x y => fst x < fst y) m.

Lemma zfind_in m k a : zfind m k = Some a -> In (k, a) m.
Proof.
  induction m as [|[k' a'] m IH]; cbn; [discriminate|].
  destruct (Z.eqb_spec k' k); intros E; [inversion E; subst; now left|right; auto].
Qed.

Lemma wf_head k a m x : zmap_wf ((k, a) :: m) -> In x m -> k < fst x.
Proof. intros H Hx. inversion H; subst. rewrite Forall_forall in H3. apply (H3 x Hx). Qed.

Lemma wf_tail x m : zmap_wf (x :: m) -> zmap_wf m.
Proof. intros H. inversion H; subst. assumption. Qed.

Lemma in_zfind m k a : zmap_wf m -> In (k, a) m -> zfind m k = Some a.
Proof.
  induction m as [|[k' a'] m IH]; cbn; intros W H; [contradiction|].
  destruct H as [H|H].
  - inversion H; subst. now rewrite Z.eqb_refl.
  - pose proof (wf_head _ _ _ _ W H). cbn in H0. destruct (Z.eqb_spec k' k); [lia|].
    apply IH; [eapply wf_tail; exact W|exact H].
Qed.

Lemma zfind_iff m k a : zmap_wf m -> zfind m k = Some a <-> In (k, a) m.
Proof. intros W. split; [apply zfind_in|now apply in_zfind]. Qed.

Lemma zfind_insert m k a k' : zmap_wf m ->
  zfind (zinsert m k a) k' = if k =? k' then Some a else zfind m k'.
Proof.
  induction m as [|[k0 a0] m IH]; intros W; cbn [zinsert zfind].
  - destruct (k =? k'); reflexivity.
  - destruct (Z.ltb_spec k k0).
    + cbn [zfind]. destruct (Z.eqb_spec k k'); reflexivity.
    + destruct (Z.eqb_spec k k0).
      * subst. cbn [zfind]. destruct (k0 =? k'); reflexivity.
      * cbn [zfind]. rewrite IH by (eapply wf_tail; exact W).
        destruct (Z.eqb_spec k0 k'), (Z.eqb_spec k k'); try reflexivity. lia.
Qed.

Lemma zinsert_in m k a x : In x (zinsert m k a) -> In x m \/ x = (k, a).
Proof.
  induction m as [|[k0 a0] m IH]; cbn; [intuition|].
  destruct (k <? k0); [cbn; intuition|]. destruct (k =? k0); cbn; [intuition|].
  intros [H|H]; [intuition|]. apply IH in H. intuition.
Qed.

Lemma zinsert_wf m k a : zmap_wf m -> zmap_wf (zinsert m k a).
Proof.
  induction m as [|[k0 a0] m IH]; intros W; cbn.
  - repeat constructor.
  - destruct (Z.ltb_spec k k0).
    + constructor; [exact W|]. constructor; [exact H|].
      apply Forall_forall. intros x Hx. pose proof (wf_head _ _ _ _ W Hx). cbn. lia.
    + destruct (Z.eqb_spec k k0).
      * subst. constructor; [eapply wf_tail; exact W|]. apply Forall_forall.
        intros x Hx. exact (wf_head _ _ _ _ W Hx).
      * constructor; [apply IH; eapply wf_tail; exact W|]. apply Forall_forall.
        intros x Hx. apply zinsert_in in Hx. destruct Hx as [Hx| ->]; cbn; [|lia].
        exact (wf_head _ _ _ _ W Hx).
Qed.

Lemma zerase_in m k x : In x (zerase m k) -> In x m.
Proof.
  induction m as [|[k0 a0] m IH]; cbn; [auto|]. destruct (k0 =? k); cbn; intuition.
Qed.

Lemma zerase_wf m k : zmap_wf m -> zmap_wf (zerase m k).
Proof.
  induction m as [|[k0 a0] m IH]; intros W; cbn; [exact W|].
  destruct (k0 =? k); [eapply wf_tail; exact W|].
  constructor; [apply IH; eapply wf_tail; exact W|]. apply Forall_forall.
  intros x Hx. apply zerase_in in Hx. exact (wf_head _ _ _ _ W Hx).
Qed.

Lemma zfind_erase m k k' : zmap_wf m ->
  zfind (zerase m k) k' = if k =? k' then None else zfind m k'.
Proof.
  induction m as [|[k0 a0] m IH]; intros W; cbn [zerase zfind].
  - destruct (k =? k'); reflexivity.
  - destruct (Z.eqb_spec k0 k).
    + subst. destruct (Z.eqb_spec k k').
      * subst. destruct (zfind m k') eqn:E; [|reflexivity]. apply zfind_in in E.
        pose proof (wf_head _ _ _ _ W E). cbn in H. lia.
      * reflexivity.
    + cbn [zfind]. rewrite IH by (eapply wf_tail; exact W).
      destruct (Z.eqb_spec k0 k'), (Z.eqb_spec k k'); try reflexivity. lia.
Qed.

Lemma zmap_wf_nil : zmap_wf [].
Proof. constructor. Qed.

Lemma zmap_nodup m : zmap_wf m -> NoDup (map fst m).
Proof.
  induction m as [|[k a] m IH]; intros W; cbn; constructor.
  - intros H. apply in_map_iff in H. destruct H as [x [E Hx]].
    pose proof (wf_head _ _ _ _ W Hx). lia.
  - apply IH. eapply wf_tail; exact W.
Qed.
End ZMap.
Arguments zmap A : clear implicits.
