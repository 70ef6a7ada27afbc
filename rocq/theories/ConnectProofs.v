From Coq Require Import ZArith List Bool Arith Lia.
From Verif Require Import Base MeshNodeModel MeshNodeProofs MeshCellModel ConnectModel.
Import ListNotations.
Open Scope nat_scope.

(** A table is a permutation of 0..n-1. *)
Definition is_perm (n : nat) (p : list nat) : Prop :=
  length p = n /\ NoDup p /\ forall k, In k p -> k < n.

Lemma set_nth_nth (l : list Z) k x j : nth_error (set_nth l k x) j =
  if Nat.eqb k j then (if k <? length l then Some x else None) else nth_error l j.
Proof.
  revert k j. induction l as [|a l IH]; intros [|k] [|j]; cbn; try reflexivity.
  - destruct (k =? j); reflexivity.
  - rewrite IH. reflexivity.
Qed.

Lemma scatter_partial n p inp m : is_perm n p -> length inp = n -> m <= n ->
  exists v, foldM (fun v i => do k <- of_option (nth_error p i); do x <- of_option (nth_error inp i); store v k x)
     (seq 0 m) (repeat 0%Z n) = Ok v /\ length v = n /\
   forall i k, i < m -> nth_error p i = Some k -> nth_error v k = nth_error inp i.
Proof.
  intros (Lp & Np & Hp) Li. induction m as [|m IH]; intros Hm.
  - cbn. eexists. split; [reflexivity|]. split; [apply repeat_length|]. intros; lia.
  - destruct IH as (v & E & Lv & Hv); [lia|]. rewrite seq_S, foldM_app, E. cbn [bind plus foldM].
    destruct (nth_error p m) as [k|] eqn:Ek; [|apply nth_error_None in Ek; lia].
    destruct (nth_error inp m) as [x|] eqn:Ex; [|apply nth_error_None in Ex; lia].
    cbn [of_option bind]. unfold store. assert (Hk : k < n) by (apply Hp; eapply nth_error_In; eauto).
    rewrite Lv. rewrite (proj2 (Nat.ltb_lt _ _) Hk). cbn [bind]. eexists. split; [reflexivity|].
    split; [rewrite set_nth_length; exact Lv|].
    intros i k' Hi Hk'. rewrite set_nth_nth, Lv, (proj2 (Nat.ltb_lt _ _) Hk).
    destruct (Nat.eqb_spec k k') as [<-|N].
    + assert (i = m). { apply (proj1 (NoDup_nth_error p) Np); [apply nth_error_Some; congruence|congruence]. }
      subst. congruence.
    + apply Hv; [|exact Hk']. assert (i <> m) by (intros ->; congruence). lia.
Qed.

Lemma scatter_spec n p inp : is_perm n p -> length inp = n ->
  exists v, scatter n p inp = Ok v /\ length v = n /\
   forall i k, nth_error p i = Some k -> nth_error v k = nth_error inp i.
Proof.
  intros Hp Hl. destruct (scatter_partial n p inp n Hp Hl (le_n _)) as (v & E & Lv & Hv).
  exists v. split; [exact E|]. split; [exact Lv|]. intros i k H. apply Hv; [|exact H].
  destruct Hp as (<- & _). apply nth_error_Some. congruence.
Qed.

Lemma nth_error_ext {A} (l l' : list A) : (forall i, nth_error l i = nth_error l' i) -> l = l'.
Proof.
  revert l'. induction l as [|a l IH]; intros [|b l'] H; try reflexivity; try (specialize (H 0); discriminate).
  pose proof (H 0) as H0. injection H0 as <-. f_equal. apply IH. intros i. exact (H (S i)).
Qed.

(** Two tables inverse of each other. *)
Definition inverse_tables (n : nat) (p q : list nat) : Prop :=
  forall i k, nth_error p i = Some k -> nth_error q k = Some i.

Lemma scatter_inverse n p q inp : is_perm n p -> is_perm n q -> inverse_tables n p q -> length inp = n ->
  exists v, scatter n p inp = Ok v /\ scatter n q v = Ok inp.
Proof.
  intros Hp Hq Hi Hl. destruct (scatter_spec n p inp Hp Hl) as (v & E & Lv & Hv).
  exists v. split; [exact E|]. destruct (scatter_spec n q v Hq Lv) as (w & E' & Lw & Hw). rewrite E'. f_equal.
  apply nth_error_ext. intros i. destruct (Nat.lt_ge_cases i n) as [H|H].
  - destruct Hp as (Lp & _). destruct (nth_error p i) as [k|] eqn:Ek; [|apply nth_error_None in Ek; lia].
    rewrite (Hw k i (Hi _ _ Ek)). now apply Hv.
  - rewrite (proj2 (nth_error_None w i)), (proj2 (nth_error_None inp i)); [reflexivity| |]; lia.
Qed.

Definition permb (n : nat) (p : list nat) : bool :=
  (length p =? n) && forallb (fun k => k <? n) p && forallb (fun k => existsb (Nat.eqb k) p) (seq 0 n).
Lemma permb_ok n p : permb n p = true -> is_perm n p.
Proof.
  unfold permb. rewrite !andb_true_iff, Nat.eqb_eq, !forallb_forall. intros ((L & H) & S0).
  assert (incl (seq 0 n) p).
  { intros k Hk. apply S0 in Hk. apply existsb_exists in Hk. destruct Hk as (x & Hx & E). apply Nat.eqb_eq in E. now subst. }
  split; [exact L|]. split.
  - apply NoDup_incl_NoDup with (l := seq 0 n); [apply seq_NoDup|rewrite seq_length; lia|assumption].
  - intros k Hk. apply Nat.ltb_lt, H, Hk.
Qed.
Definition invb (p q : list nat) : bool :=
  forallb (fun i => match nth_error p i with Some k => match nth_error q k with Some j => j =? i | None => false end | None => false end) (seq 0 (length p)).
Lemma invb_ok n p q : invb p q = true -> inverse_tables n p q.
Proof.
  unfold invb. rewrite forallb_forall. intros H i k E.
  assert (i < length p) by (apply nth_error_Some; congruence).
  specialize (H i). rewrite in_seq, E in H. specialize (H ltac:(lia)).
  destruct (nth_error q k); [|discriminate]. apply Nat.eqb_eq in H. congruence.
Qed.
