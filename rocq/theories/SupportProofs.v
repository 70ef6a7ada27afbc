(** Lemmas on SupportModel: what one removal does to the supports of every
    analysis, and the invariant of the pass removing redundant supports. *)
From Coq Require Import ZArith List Bool Lia Sorted Arith.
From Verif Require Import Base SupportModel.
Import ListNotations.
Open Scope Z_scope.

(** ** Ascending lists *)
Definition asc (l : list Z) : Prop := StronglySorted Z.lt l.

Lemma in_ins x y l : In y (ins x l) <-> y = x \/ In y l.
Proof.
  induction l as [|z l IH]; cbn [ins]; [cbn; intuition congruence|].
  destruct (x <? z); [cbn; intuition congruence|].
  destruct (Z.eqb_spec x z); [subst; cbn; intuition congruence|].
  cbn [In]. rewrite IH. intuition congruence.
Qed.

Lemma asc_ins x l : asc l -> asc (ins x l).
Proof.
  unfold asc. induction l as [|z l IH]; intros H; cbn [ins]; [repeat constructor|].
  inversion H as [|? ? H1 H2]; subst.
  destruct (Z.ltb_spec x z).
  - constructor; [exact H|]. constructor; [exact H0|].
    eapply Forall_impl; [|exact H2]. cbn. intros. lia.
  - destruct (Z.eqb_spec x z); [exact H|].
    constructor; [apply IH; exact H1|].
    apply Forall_forall. intros y Hy. apply in_ins in Hy. destruct Hy as [->|Hy]; [lia|].
    rewrite Forall_forall in H2. auto.
Qed.

Lemma asc_nodup l : asc l -> NoDup l.
Proof.
  induction l as [|z l IH]; intros H; [constructor|].
  inversion H as [|? ? H1 H2]; subst. constructor; [|apply IH; exact H1].
  intros Hz. rewrite Forall_forall in H2. specialize (H2 _ Hz). lia.
Qed.

Lemma asc_filter f l : asc l -> asc (filter f l).
Proof.
  induction l as [|z l IH]; intros H; cbn; [constructor|].
  inversion H as [|? ? H1 H2]; subst. destruct (f z); [|apply IH; exact H1].
  constructor; [apply IH; exact H1|].
  apply Forall_forall. intros y Hy. apply filter_In in Hy. destruct Hy as [Hy _].
  rewrite Forall_forall in H2. auto.
Qed.

Lemma in_union y r : forall l, In y (union l r) <-> In y l \/ In y r.
Proof.
  unfold union. induction r as [|z r IH]; intros l; cbn [fold_left In]; [tauto|].
  rewrite IH, in_ins. intuition congruence.
Qed.

Lemma asc_union r : forall l, asc l -> asc (union l r).
Proof.
  unfold union. induction r as [|z r IH]; intros l H; cbn [fold_left]; [exact H|].
  apply IH, asc_ins, H.
Qed.

Lemma mem_in x l : mem x l = true <-> In x l.
Proof.
  unfold mem. rewrite existsb_exists. split.
  - intros (y & Hy & E). apply Z.eqb_eq in E. now subst.
  - intros H. exists x. split; [exact H|apply Z.eqb_refl].
Qed.
Lemma mem_false x l : mem x l = false <-> ~ In x l.
Proof. rewrite <- mem_in. destruct (mem x l); intuition congruence. Qed.
Lemma memd_in x l : memd x l = true <-> In x l.
Proof.
  unfold memd. rewrite existsb_exists. split.
  - intros (y & Hy & E). apply Nat.eqb_eq in E. now subst.
  - intros H. exists x. split; [exact H|apply Nat.eqb_refl].
Qed.
Lemma memd_false x l : memd x l = false <-> ~ In x l.
Proof. rewrite <- memd_in. destruct (memd x l); intuition congruence. Qed.

Section S.
Context {V : Type}.
Implicit Types m : model V.
Implicit Types p q : spc V.

(** ** What is observed: the supports of an analysis *)
(** [c] belongs to the set [x], directly or through a set that [x] includes. *)
Definition belongs m (x c : Z) : Prop :=
  (exists l, members m x = Some l /\ In c l)
  \/ exists y l, In y (includes m x) /\ members m y = Some l /\ In c l.
Definition holds_at p (n : Z) (d : nat) (v : V) : Prop :=
  (In n (own p) \/ In n (grouped p)) /\ (d < 6)%nat /\ sval_of p d = Val v.
(** The support [c] holds the degree of freedom [d] of the node [n] at [v] in
    the analysis [o]. *)
Definition supporter m (o n : Z) (d : nat) (c : Z) (v : V) : Prop :=
  exists x p, In x (sets_of m o) /\ belongs m x c /\ spc_of m c = Some p /\ holds_at p n d v.
Definition supports m (o n : Z) (d : nat) (v : V) : Prop := exists c, supporter m o n d c v.

(** Models built by the readers: members exist, numbers are below the counters,
    node lists are sets, analyses use existing sets once, and a node is not
    listed both directly and through a group of the same support. *)
Record wf m : Prop := {
  w_mem : forall x l c, members m x = Some l -> In c l -> spc_of m c <> None;
  w_c : forall c, spc_of m c <> None -> c < next_c m;
  w_s : forall x, members m x <> None -> x < next_s m;
  w_sets : forall o x, In x (sets_of m o) -> members m x <> None;
  w_nodup : forall o, NoDup (sets_of m o);
  w_asc : forall x l, members m x = Some l -> asc l;
  w_own : forall c p, spc_of m c = Some p -> asc (own p);
  w_once : forall c p n, spc_of m c = Some p -> In n (own p) -> ~ In n (grouped p)
}.
(** No set includes another (SPCADD). *)
Definition flat m : Prop := forall x, includes m x = [].
(** No support is reached by an analysis through two of its sets. *)
Definition disjoint m (o : Z) : Prop :=
  forall x y c, In x (sets_of m o) -> In y (sets_of m o) ->
    belongs m x c -> belongs m y c -> x = y.

Lemma flat_belongs m x c : flat m ->
  (belongs m x c <-> exists l, members m x = Some l /\ In c l).
Proof.
  intros F. unfold belongs. split; [|auto].
  intros [H|(y & l & H & _)]; [exact H|]. rewrite (F x) in H. contradiction.
Qed.

(** ** One removal *)
Lemma copy_spc_ok p n l q : copy_spc p n l = Ok q ->
  own q = [n] /\ grouped q = []
  /\ forall d, sval_of q d = if memd d l then sval_of p d else Free.
Proof.
  unfold copy_spc.
  destruct (mapM _ l) as [vs| | |] eqn:E; cbn [bind]; try discriminate.
  intros H. injection H as <-. cbn. split; [reflexivity|split; [reflexivity|]].
  revert vs E. induction l as [|d l IH]; intros vs E e; cbn in E.
  - injection E as <-. reflexivity.
  - unfold get_double in E at 1. destruct (sval_of p d) as [|v|] eqn:Ed; cbn in E; try discriminate.
    destruct (mapM _ l) as [ws| | |] eqn:E2; cbn in E; try discriminate.
    injection E as <-. cbn [find fst memd existsb].
    rewrite (Nat.eqb_sym e d). destruct (Nat.eqb_spec d e).
    + subst. cbn. symmetry. exact Ed.
    + cbn [orb]. exact (IH ws eq_refl e).
Qed.

Lemma copy_spc_val p n l q d : copy_spc p n l = Ok q -> In d l -> exists v, sval_of p d = Val v.
Proof.
  unfold copy_spc.
  destruct (mapM _ l) as [vs| | |] eqn:E; cbn [bind]; try discriminate. intros _.
  revert vs E. induction l as [|e l IH]; intros vs E H; cbn in E; [contradiction|].
  unfold get_double in E at 1. destruct (sval_of p e) as [|v|] eqn:Ed; cbn in E; try discriminate.
  destruct (mapM _ l) as [ws| | |] eqn:E2; cbn in E; try discriminate.
  destruct H as [->|H]; [eauto|exact (IH ws eq_refl H)].
Qed.

Definition multi m : bool := (2 <=? length (analyses m))%nat.
Definition rest p (D : list nat) : list nat := filter (fun d => negb (memd d D)) (dofs_of p).

Lemma remove_shape m a c n D m' : wf m -> remove_node_dofs m a c n D = Ok m' ->
  exists p q1 q2, spc_of m c = Some p /\ In n (own p)
  /\ (rest p D <> [] -> copy_spc p n (rest p D) = Ok q1)
  /\ (multi m = true -> copy_spc p n D = Ok q2)
  /\ (forall k, spc_of m' k =
        if k =? c then Some (mkSpc (sval_of p) (filter (fun y => negb (y =? n)) (own p)) (grouped p))
        else if (k =? next_c m + 1) && multi m then Some q2
        else if (k =? next_c m) && negb (match rest p D with [] => true | _ => false end) then Some q1
        else spc_of m k)
  /\ (forall x, members m' x =
        if (x =? next_s m) && multi m then Some [next_c m + 1]
        else match members m x with
             | Some l => Some (if mem c l && negb (match rest p D with [] => true | _ => false end)
                               then ins (next_c m) l else l)
             | None => None
             end)
  /\ (forall x, includes m' x = includes m x)
  /\ analyses m' = analyses m
  /\ (forall o, sets_of m' o =
        if multi m && mem o (analyses m) && negb (o =? a) && existsb (affected m c) (sets_of m o)
        then sets_of m o ++ [next_s m] else sets_of m o)
  /\ next_c m' = next_c m + 2 /\ next_s m' = next_s m + 1.
Proof.
  intros W. unfold remove_node_dofs.
  destruct (spc_of m c) as [p|] eqn:Ec; cbn [of_option bind]; [|discriminate].
  assert (Lc : c < next_c m) by (apply (w_c m W); congruence).
  fold (multi m). fold (rest p D).
  set (empty := match rest p D with [] => true | _ => false end).
  intros H.
  (* the first stage *)
  assert (exists q1 m1,
     match rest p D with
     | [] => Ok m
     | _ :: _ =>
        do q <- copy_spc p n (rest p D);
        Ok (mkModel (upd (spc_of m) (next_c m) (Some q))
             (fun x => match members m x with
                       | Some l => Some (if mem c l then ins (next_c m) l else l)
                       | None => None end)
             (includes m) (analyses m) (sets_of m) (next_c m) (next_s m))
     end = Ok m1
     /\ (empty = false -> copy_spc p n (rest p D) = Ok q1)
     /\ (forall k, spc_of m1 k = if (k =? next_c m) && negb empty then Some q1 else spc_of m k)
     /\ (forall x, members m1 x = match members m x with
             | Some l => Some (if mem c l && negb empty then ins (next_c m) l else l)
             | None => None end)
     /\ includes m1 = includes m /\ analyses m1 = analyses m /\ sets_of m1 = sets_of m
     /\ next_c m1 = next_c m /\ next_s m1 = next_s m) as (q1 & m1 & E1 & Q1 & S1 & M1 & I1 & A1 & T1 & N1 & N2).
  { destruct (rest p D) as [|r0 r] eqn:Er.
    - subst empty. exists p, m. repeat split; try reflexivity; try discriminate.
      + intros k. rewrite andb_false_r. reflexivity.
      + intros x. destruct (members m x); [|reflexivity]. rewrite andb_false_r. reflexivity.
    - destruct (copy_spc p n (r0 :: r)) as [q1| | |] eqn:Eq; cbn [bind] in H |- *; try discriminate H.
      exists q1. eexists. split; [reflexivity|]. subst empty. cbn.
      repeat split; try reflexivity.
      + intros k. unfold upd. destruct (k =? next_c m); reflexivity.
      + intros x. destruct (members m x); [|reflexivity]. rewrite andb_true_r. reflexivity. }
  match type of H with bind ?X _ = _ => replace X with (Ok m1) in H end.
  cbn [bind] in H.
  (* the second stage *)
  assert (exists q2 m2,
     (if multi m then
        do q <- copy_spc p n D;
        if forallb (fun o => (o =? a) ||
             forallb (fun x => match members m1 x with Some _ => true | None => false end)
               (sets_of m1 o)) (analyses m1)
        then Ok (mkModel (upd (spc_of m1) (next_c m + 1) (Some q))
                   (upd (members m1) (next_s m) (Some [next_c m + 1]))
                   (includes m1) (analyses m1)
                   (fun o => if mem o (analyses m1) && negb (o =? a)
                                && existsb (affected m c) (sets_of m1 o)
                             then sets_of m1 o ++ [next_s m] else sets_of m1 o)
                   (next_c m1) (next_s m1))
        else UB
      else Ok m1) = Ok m2
     /\ (multi m = true -> copy_spc p n D = Ok q2)
     /\ (forall k, spc_of m2 k = if (k =? next_c m + 1) && multi m then Some q2 else spc_of m1 k)
     /\ (forall x, members m2 x = if (x =? next_s m) && multi m then Some [next_c m + 1] else members m1 x)
     /\ includes m2 = includes m /\ analyses m2 = analyses m
     /\ (forall o, sets_of m2 o =
           if multi m && mem o (analyses m) && negb (o =? a) && existsb (affected m c) (sets_of m o)
           then sets_of m o ++ [next_s m] else sets_of m o)
     /\ next_c m2 = next_c m /\ next_s m2 = next_s m)
    as (q2 & m2 & E2 & Q2 & S2 & M2 & I2 & A2 & T2 & N3 & N4).
  { destruct (multi m) eqn:Em.
    - destruct (copy_spc p n D) as [q2| | |] eqn:Eq; cbn [bind] in H |- *; try discriminate H.
      match type of H with bind (if ?b then _ else _) _ = _ => destruct b; [|discriminate H] end.
      exists q2. eexists. split; [reflexivity|]. cbn. rewrite A1, T1, I1.
      repeat split; auto.
      + intros k. unfold upd. rewrite andb_true_r. reflexivity.
      + intros x. unfold upd. rewrite andb_true_r. reflexivity.
    - exists p, m1. rewrite I1, A1, T1. repeat split; auto; try discriminate.
      + intros k. rewrite andb_false_r. reflexivity.
      + intros k. rewrite andb_false_r. reflexivity. }
  rewrite E2 in H. cbn [bind] in H.
  destruct (mem n (own p)) eqn:En; [|discriminate H].
  injection H as <-. exists p, q1, q2. cbn. rewrite I2, A2, N3, N4.
  split; [reflexivity|]. split; [apply mem_in; exact En|].
  split; [intros Hr; apply Q1; unfold empty; destruct (rest p D) eqn:Er; [exfalso; apply Hr; exact Er|reflexivity]|].
  split; [exact Q2|]. split.
  { intros k. unfold upd. destruct (k =? c); [reflexivity|]. rewrite S2, S1. reflexivity. }
  split. { intros x. rewrite M2, M1. reflexivity. }
  repeat split; auto.
Qed.

Definition removed_at (p : spc V) n : spc V :=
  mkSpc (sval_of p) (filter (fun y => negb (y =? n)) (own p)) (grouped p).

Lemma removed_holds p n t e v : ~ In n (grouped p) ->
  (holds_at (removed_at p n) t e v <-> holds_at p t e v /\ t <> n).
Proof.
  intros G. unfold holds_at, removed_at. cbn. rewrite filter_In.
  destruct (Z.eqb_spec t n); cbn [negb].
  - subst. intuition congruence.
  - intuition congruence.
Qed.

Lemma dofs_of_in p d : In d (dofs_of p) <-> (d < 6)%nat /\ is_free (sval_of p d) = false.
Proof.
  unfold dofs_of. rewrite filter_In.
  assert (In d six <-> (d < 6)%nat).
  { unfold six. cbn. lia. }
  rewrite H. destruct (is_free (sval_of p d)); cbn; intuition congruence.
Qed.

Lemma in_rest p D d v : (d < 6)%nat -> sval_of p d = Val v ->
  (In d (rest p D) <-> memd d D = false).
Proof.
  intros L E. unfold rest. rewrite filter_In, dofs_of_in, E. cbn.
  destruct (memd d D); cbn; intuition congruence.
Qed.

(** A copy supports one node, for the listed degrees of freedom only. *)
Lemma copy_holds p n l q t e v : copy_spc p n l = Ok q ->
  (holds_at q t e v <-> t = n /\ (e < 6)%nat /\ In e l /\ sval_of p e = Val v).
Proof.
  intros H. destruct (copy_spc_ok _ _ _ _ H) as (Ho & Hg & Hv).
  unfold holds_at. rewrite Ho, Hg, Hv. cbn [In].
  destruct (memd e l) eqn:E.
  - apply memd_in in E. intuition congruence.
  - apply memd_false in E. intuition congruence.
Qed.

Lemma empty_false (A : Type) (l : list A) : l <> [] -> negb (match l with [] => true | _ => false end) = true.
Proof. destruct l; intros H; [exfalso; now apply H|reflexivity]. Qed.
Lemma empty_true (A : Type) (l : list A) : negb (match l with [] => true | _ => false end) = true -> l <> [].
Proof. destruct l; discriminate. Qed.

Lemma multi_two m a o : In a (analyses m) -> In o (analyses m) -> o <> a -> multi m = true.
Proof.
  unfold multi. intros Ha Ho N. destruct (analyses m) as [|x [|y l]]; cbn in *; intuition; congruence.
Qed.

Lemma affected_belongs m c x : affected m c x = true <-> exists l, members m x = Some l /\ In c l.
Proof.
  unfold affected. split.
  - destruct (members m x) as [l|]; [|discriminate]. intros H. exists l. now rewrite <- mem_in.
  - intros (l & -> & H). now apply mem_in.
Qed.

Section One.
Variables (m : model V) (a c n : Z) (D : list nat) (m' : model V) (p q1 q2 : spc V).
Hypothesis W : wf m.
Hypothesis F : flat m.
Hypothesis Ia : In a (analyses m).
Hypothesis Ec : spc_of m c = Some p.
Hypothesis En : In n (own p).
Hypothesis Q1 : rest p D <> [] -> copy_spc p n (rest p D) = Ok q1.
Hypothesis Q2 : multi m = true -> copy_spc p n D = Ok q2.
Hypothesis HS : forall k, spc_of m' k =
        if k =? c then Some (removed_at p n)
        else if (k =? next_c m + 1) && multi m then Some q2
        else if (k =? next_c m) && negb (match rest p D with [] => true | _ => false end) then Some q1
        else spc_of m k.
Hypothesis HM : forall x, members m' x =
        if (x =? next_s m) && multi m then Some [next_c m + 1]
        else match members m x with
             | Some l => Some (if mem c l && negb (match rest p D with [] => true | _ => false end)
                               then ins (next_c m) l else l)
             | None => None
             end.
Hypothesis HI : forall x, includes m' x = includes m x.
Hypothesis HA : analyses m' = analyses m.
Hypothesis HT : forall o, sets_of m' o =
        if multi m && mem o (analyses m) && negb (o =? a) && existsb (affected m c) (sets_of m o)
        then sets_of m o ++ [next_s m] else sets_of m o.
Hypothesis HC : next_c m' = next_c m + 2.
Hypothesis HN : next_s m' = next_s m + 1.

Lemma Lc : c < next_c m.
Proof. apply (w_c m W). congruence. Qed.
Lemma none_c k : next_c m <= k -> spc_of m k = None.
Proof.
  intros H. destruct (spc_of m k) eqn:E; [|reflexivity].
  assert (k < next_c m) by (apply (w_c m W); congruence). lia.
Qed.
Lemma none_s : members m (next_s m) = None.
Proof.
  destruct (members m (next_s m)) eqn:E; [|reflexivity].
  assert (next_s m < next_s m) by (apply (w_s m W); congruence). lia.
Qed.
Lemma member_low x l k : members m x = Some l -> In k l -> k < next_c m.
Proof. intros E H. apply (w_c m W). eapply (w_mem m W); eauto. Qed.
Lemma flat' : flat m'.
Proof. intros x. rewrite HI. apply F. Qed.

Lemma wf' : wf m'.
Proof.
  pose proof Lc as Lc. constructor.
  - intros x l k. rewrite HM, HS.
    destruct ((x =? next_s m) && multi m) eqn:X.
    + intros H; injection H as <-. intros [<-|[]]. apply andb_prop in X. destruct X as [_ X].
      rewrite Z.eqb_refl, X. cbn. destruct (_ =? c); discriminate.
    + destruct (members m x) as [l0|] eqn:Em; [|discriminate].
      destruct (k =? c); [discriminate|].
      destruct ((k =? next_c m + 1) && multi m); [discriminate|].
      destruct (mem c l0 && _) eqn:Y; intros H; injection H as <-; intros Hk.
      * apply in_ins in Hk. apply andb_prop in Y. destruct Y as [_ Y]. rewrite Y.
        destruct (Z.eqb_spec k (next_c m)); [discriminate|]. cbn.
        destruct Hk as [->|Hk]; [congruence|]. eapply (w_mem m W); eauto.
      * destruct ((k =? next_c m) && _); [discriminate|]. eapply (w_mem m W); eauto.
  - intros k. rewrite HS, HC.
    destruct (Z.eqb_spec k c); [lia|].
    destruct (Z.eqb_spec k (next_c m + 1)); [lia|]. cbn.
    destruct (Z.eqb_spec k (next_c m)); [lia|]. cbn.
    intros H. pose proof (w_c m W k H). lia.
  - intros x. rewrite HM, HN. destruct (Z.eqb_spec x (next_s m)); [lia|]. cbn.
    intros H. destruct (members m x) as [l0|] eqn:E; [|congruence].
    assert (x < next_s m) by (apply (w_s m W); congruence). lia.
  - intros o x. rewrite HT, HM.
    destruct (multi m) eqn:Em; cbn [andb].
    + destruct (_ && _).
      * rewrite in_app_iff. intros [H|[<-|[]]].
        -- destruct ((x =? next_s m) && true); [discriminate|].
           pose proof (w_sets m W o x H). destruct (members m x); congruence.
        -- rewrite Z.eqb_refl. cbn. discriminate.
      * intros H. destruct ((x =? next_s m) && true); [discriminate|].
        pose proof (w_sets m W o x H). destruct (members m x); congruence.
    + rewrite andb_false_r. intros H.
      pose proof (w_sets m W o x H). destruct (members m x); congruence.
  - intros o. rewrite HT. destruct (_ && _ && _ && _); [|apply (w_nodup m W)].
    assert (~ In (next_s m) (sets_of m o)).
    { intros H. apply (w_sets m W) in H. apply H. apply none_s. }
    clear -H W. pose proof (w_nodup m W o) as N. induction (sets_of m o) as [|y l IH]; cbn.
    + constructor; [intros []|constructor].
    + inversion N; subst. constructor.
      * rewrite in_app_iff. cbn. intros [Hy|[Hy|[]]]; [tauto|]. apply H. left. congruence.
      * apply IH; [intros X; apply H; right; exact X|assumption].
  - intros x l. rewrite HM. destruct (_ && _).
    + intros H; injection H as <-. repeat constructor.
    + destruct (members m x) as [l0|] eqn:E; [|discriminate].
      pose proof (w_asc m W x l0 E). destruct (_ && _); intros H'; injection H' as <-; [now apply asc_ins|assumption].
  - intros k r. rewrite HS. destruct (k =? c).
    + intros H; injection H as <-. cbn. apply asc_filter. eapply (w_own m W); eauto.
    + destruct ((k =? next_c m + 1) && multi m) eqn:X.
      * intros H; injection H as <-. apply andb_prop in X. destruct X as [_ X].
        destruct (copy_spc_ok _ _ _ _ (Q2 X)) as (-> & _). repeat constructor.
      * destruct ((k =? next_c m) && _) eqn:Y.
        -- intros H; injection H as <-. apply andb_prop in Y. destruct Y as [_ Y].
           destruct (copy_spc_ok _ _ _ _ (Q1 (empty_true _ _ Y))) as (-> & _). repeat constructor.
        -- apply (w_own m W).
  - intros k r t. rewrite HS. destruct (k =? c).
    + intros H; injection H as <-. cbn. rewrite filter_In. intros [Ht _]. eapply (w_once m W); eauto.
    + destruct ((k =? next_c m + 1) && multi m) eqn:X.
      * intros H; injection H as <-. apply andb_prop in X. destruct X as [_ X].
        destruct (copy_spc_ok _ _ _ _ (Q2 X)) as (_ & -> & _). intros _ [].
      * destruct ((k =? next_c m) && _) eqn:Y.
        -- intros H; injection H as <-. apply andb_prop in Y. destruct Y as [_ Y].
           destruct (copy_spc_ok _ _ _ _ (Q1 (empty_true _ _ Y))) as (_ & -> & _). intros _ [].
        -- apply (w_once m W).
Qed.

(** Membership after the removal, in an old set. *)
Lemma belongs_old x k : members m x <> None ->
  (belongs m' x k <-> belongs m x k \/ (k = next_c m /\ rest p D <> [] /\ belongs m x c)).
Proof.
  intros H. rewrite (flat_belongs m' x k flat'), (flat_belongs m x k F), (flat_belongs m x c F).
  assert (x <> next_s m). { intros ->. apply H, none_s. }
  rewrite HM. destruct (Z.eqb_spec x (next_s m)); [contradiction|]. cbn [andb].
  destruct (members m x) as [l|] eqn:E; [|congruence].
  destruct (mem c l && _) eqn:Y.
  - apply andb_prop in Y. destruct Y as [Y1 Y2]. apply empty_true in Y2. apply mem_in in Y1. split.
    + intros (l0 & E0 & Hk). injection E0 as <-. apply in_ins in Hk. destruct Hk as [->|Hk]; [right|left]; eauto.
    + intros [(l0 & E0 & Hk)|(-> & _)]; eexists; (split; [reflexivity|]); apply in_ins; [right|now left].
      injection E0 as <-. exact Hk.
  - split; [intros; now left|]. intros [H1|(-> & Hr & l0 & E0 & Hk)]; [exact H1|].
    injection E0 as <-. apply mem_in in Hk. rewrite Hk in Y. apply empty_false in Hr. rewrite Hr in Y. discriminate.
Qed.
Lemma belongs_new k : multi m = true -> (belongs m' (next_s m) k <-> k = next_c m + 1).
Proof.
  intros X. rewrite (flat_belongs m' _ k flat'), HM, Z.eqb_refl, X. cbn. split.
  - intros (l & E & Hk). injection E as <-. destruct Hk as [<-|[]]. reflexivity.
  - intros ->. exists [next_c m + 1]. split; [reflexivity|now left].
Qed.
Lemma belongs_low x k : belongs m x k -> k < next_c m.
Proof. rewrite (flat_belongs m x k F). intros (l & E & H). eapply member_low; eauto. Qed.

Lemma sets_in o x : In x (sets_of m' o) <->
  In x (sets_of m o)
  \/ (x = next_s m /\ multi m = true /\ In o (analyses m) /\ o <> a
      /\ exists y, In y (sets_of m o) /\ belongs m y c).
Proof.
  rewrite HT.
  destruct (multi m && mem o (analyses m) && negb (o =? a) && existsb (affected m c) (sets_of m o)) eqn:X.
  - repeat (apply andb_prop in X; destruct X as [X ?]).
    rewrite in_app_iff. cbn. apply mem_in in H1. apply negb_true_iff, Z.eqb_neq in H0.
    apply existsb_exists in H. destruct H as (y & Hy & Hc). apply affected_belongs in Hc.
    split; [|intuition congruence].
    intros [Hx|[<-|[]]]; [now left|right]. repeat split; auto. exists y. split; [exact Hy|].
    now apply flat_belongs.
  - split; [now left|]. intros [H|(-> & H1 & H2 & H3 & y & Hy & Hc)]; [exact H|].
    exfalso. apply mem_in in H2. rewrite H1, H2 in X. apply Z.eqb_neq in H3. rewrite H3 in X.
    assert (existsb (affected m c) (sets_of m o) = true) as Y.
    { apply existsb_exists. exists y. split; [exact Hy|]. apply affected_belongs.
      now apply (flat_belongs m y c F). }
    rewrite Y in X. discriminate.
Qed.

Lemma spc_c : spc_of m' c = Some (removed_at p n).
Proof. rewrite HS, Z.eqb_refl. reflexivity. Qed.
Lemma spc_other k : k <> c -> k < next_c m -> spc_of m' k = spc_of m k.
Proof.
  intros H L. rewrite HS. destruct (Z.eqb_spec k c); [contradiction|].
  destruct (Z.eqb_spec k (next_c m + 1)); [lia|]. cbn.
  destruct (Z.eqb_spec k (next_c m)); [lia|]. reflexivity.
Qed.
Lemma spc_rem : rest p D <> [] -> spc_of m' (next_c m) = Some q1.
Proof.
  intros H. pose proof Lc. rewrite HS. destruct (Z.eqb_spec (next_c m) c); [lia|].
  destruct (Z.eqb_spec (next_c m) (next_c m + 1)); [lia|]. cbn [andb].
  rewrite Z.eqb_refl, (empty_false _ _ H). reflexivity.
Qed.
Lemma spc_oth : multi m = true -> spc_of m' (next_c m + 1) = Some q2.
Proof.
  intros H. pose proof Lc. rewrite HS. destruct (Z.eqb_spec (next_c m + 1) c); [lia|].
  rewrite Z.eqb_refl, H. reflexivity.
Qed.

Lemma formula o t e k v : In o (analyses m) ->
  (supporter m' o t e k v <->
     (supporter m o t e k v /\ ~ (k = c /\ t = n))
     \/ (t = n /\ k = next_c m /\ memd e D = false /\ supporter m o n e c v)
     \/ (o <> a /\ t = n /\ k = next_c m + 1 /\ memd e D = true /\ supporter m o n e c v)).
Proof.
  intros Io. pose proof Lc as Lc. pose proof (w_once m W c p n Ec En) as Gn. split.
  - intros (x & r & Hx & Hb & Hr & Hh). apply sets_in in Hx.
    destruct Hx as [Hx|(-> & Hm & _ & No & y & Hy & Hyc)].
    + apply belongs_old in Hb; [|eapply (w_sets m W); eauto].
      destruct Hb as [Hb|(-> & Hne & Hb)].
      * left. pose proof (belongs_low _ _ Hb) as Lk.
        destruct (Z.eq_dec k c) as [->|Nk].
        -- rewrite spc_c in Hr. injection Hr as <-. apply removed_holds in Hh; [|exact Gn].
           destruct Hh as [Hh Nt]. split; [|tauto]. exists x, p. auto.
        -- rewrite spc_other in Hr by assumption. split; [|tauto]. exists x, r. auto.
      * right; left. rewrite spc_rem in Hr by assumption. injection Hr as <-.
        apply (copy_holds _ _ _ _ _ _ _ (Q1 Hne)) in Hh. destruct Hh as (-> & Le & Hi & Hv).
        rewrite (in_rest _ _ _ _ Le Hv) in Hi. repeat split; auto.
        exists x, p. unfold holds_at. auto 10.
    + apply belongs_new in Hb; [|exact Hm]. subst k. right; right.
      rewrite spc_oth in Hr by exact Hm. injection Hr as <-.
      apply (copy_holds _ _ _ _ _ _ _ (Q2 Hm)) in Hh. destruct Hh as (-> & Le & Hi & Hv).
      repeat split; auto. { now apply memd_in. }
      exists y, p. unfold holds_at. auto 10.
  - intros [[(x & r & Hx & Hb & Hr & Hh) N]|[(-> & -> & HD & x & r & Hx & Hb & Hr & Hh)|(No & -> & -> & HD & x & r & Hx & Hb & Hr & Hh)]].
    + pose proof (belongs_low _ _ Hb) as Lk.
      destruct (Z.eq_dec k c) as [->|Nk].
      * exists x, (removed_at p n). rewrite sets_in, spc_c. split; [auto|].
        split; [apply belongs_old; [eapply (w_sets m W); eauto|auto]|]. split; [reflexivity|].
        apply removed_holds; [exact Gn|]. rewrite Ec in Hr. injection Hr as <-. split; [exact Hh|tauto].
      * exists x, r. rewrite sets_in, spc_other by assumption.
        split; [auto|]. split; [apply belongs_old; [eapply (w_sets m W); eauto|auto]|]. auto.
    + rewrite Ec in Hr. injection Hr as <-. destruct Hh as (_ & Le & Hv).
      pose proof (proj2 (in_rest p D e v Le Hv) HD) as Hi.
      assert (Hne : rest p D <> []) by (intros X; rewrite X in Hi; contradiction).
      exists x, q1. rewrite sets_in, spc_rem by assumption. split; [auto|].
      split; [apply belongs_old; [eapply (w_sets m W); eauto|auto]|]. split; [reflexivity|].
      apply (copy_holds _ _ _ _ _ _ _ (Q1 Hne)). auto.
    + rewrite Ec in Hr. injection Hr as <-. destruct Hh as (_ & Le & Hv).
      pose proof (multi_two m a o Ia Io No) as Hm.
      exists (next_s m), q2. rewrite sets_in, spc_oth by assumption. split.
      { right. repeat split; auto. exists x. auto. }
      split; [now apply belongs_new|]. split; [reflexivity|].
      apply (copy_holds _ _ _ _ _ _ _ (Q2 Hm)). apply memd_in in HD. auto.
Qed.

Lemma disjoint' o : disjoint m o -> disjoint m' o.
Proof.
  intros H x y k Hx Hy Bx By. apply sets_in in Hx, Hy.
  destruct Hx as [Hx|(-> & Hm & _)], Hy as [Hy|(-> & Hm' & _)]; try reflexivity.
  - apply belongs_old in Bx; [|eapply (w_sets m W); eauto].
    apply belongs_old in By; [|eapply (w_sets m W); eauto].
    destruct Bx as [Bx|(-> & _ & Bx)], By as [By|(E & _ & By)].
    + eapply H; eauto.
    + apply belongs_low in Bx. lia.
    + apply belongs_low in By. lia.
    + eapply H; eauto.
  - apply belongs_new in By; [|exact Hm']. subst.
    apply belongs_old in Bx; [|eapply (w_sets m W); eauto].
    destruct Bx as [Bx|(E & _)]; [apply belongs_low in Bx; lia|lia].
  - apply belongs_new in Bx; [|exact Hm]. subst.
    apply belongs_old in By; [|eapply (w_sets m W); eauto].
    destruct By as [By|(E & _)]; [apply belongs_low in By; lia|lia].
Qed.
End One.

(** Everything the pass needs to know about one removal. *)
Lemma remove_spec m a c n D m' : wf m -> flat m -> In a (analyses m) ->
  remove_node_dofs m a c n D = Ok m' ->
  wf m' /\ flat m' /\ analyses m' = analyses m
  /\ (forall o, disjoint m o -> disjoint m' o)
  /\ sets_of m' a = sets_of m a
  /\ next_c m' = next_c m + 2
  /\ (forall x k, In x (sets_of m a) ->
        (belongs m' x k <-> belongs m x k
           \/ (k = next_c m /\ belongs m x c /\ exists p, spc_of m c = Some p /\ rest p D <> [])))
  /\ (forall k, k <> c -> k < next_c m -> spc_of m' k = spc_of m k)
  /\ (exists p, spc_of m c = Some p /\ In n (own p) /\ spc_of m' c = Some (removed_at p n))
  /\ forall o t e k v, In o (analyses m) ->
     (supporter m' o t e k v <->
        (supporter m o t e k v /\ ~ (k = c /\ t = n))
        \/ (t = n /\ k = next_c m /\ memd e D = false /\ supporter m o n e c v)
        \/ (o <> a /\ t = n /\ k = next_c m + 1 /\ memd e D = true /\ supporter m o n e c v)).
Proof.
  intros W F Ia H.
  destruct (remove_shape _ _ _ _ _ _ W H) as
    (p & q1 & q2 & Ec & En & Q1 & Q2 & HS & HM & HI & HA & HT & HC & HN).
  split; [eapply wf'; eauto|]. split; [eapply flat'; eauto|]. split; [exact HA|].
  split; [intros o; eapply disjoint'; eauto|].
  split. { rewrite HT. rewrite Z.eqb_refl. cbn. rewrite andb_false_r. reflexivity. }
  split; [exact HC|].
  split.
  { intros x k Hx. rewrite (belongs_old m c D m' p W F HM HI x k).
    - split.
      + intros [X|(X1 & X2 & X3)]; [now left|right]. eauto 6.
      + intros [X|(X1 & X3 & p' & X4 & X2)]; [now left|right]. rewrite Ec in X4. injection X4 as <-. auto.
    - eapply (w_sets m W); eauto. }
  split; [intros k; eapply spc_other; eauto|].
  split. { exists p. split; [exact Ec|]. split; [exact En|]. eapply spc_c; eauto. }
  intros o t e k v Io. eapply formula; eauto.
Qed.

(** ** The pass removing redundant supports *)
Definition single m (o : Z) : Prop :=
  forall t e k1 k2 v1 v2, supporter m o t e k1 v1 -> supporter m o t e k2 v2 -> k1 = k2.

Lemma claim_fold same p n : forall l T D0 T' D, NoDup l ->
  foldM (claim same p n) l (T, D0) = Ok (T', D) ->
  (forall t e, T' t e = T t e \/ (t = n /\ In e l /\ T n e = None))
  /\ (forall e, T n e = None -> In e l -> exists v, sval_of p e = Val v /\ T' n e = Some v)
  /\ (forall e, In e D <-> In e D0 \/ (In e l /\ T n e <> None))
  /\ (forall e, In e l -> T n e <> None ->
        exists v w, sval_of p e = Val v /\ T n e = Some w /\ same v w = true).
Proof.
  induction l as [|d l IH]; intros T D0 T' D N H; cbn in H.
  - injection H as <- <-. repeat split; auto; try contradiction.
    intros [X|[[] _]]. exact X.
  - inversion N as [|? ? Nd Nl]; subst. unfold claim in H at 1. unfold get_double in H.
    destruct (sval_of p d) as [|v|] eqn:Ed; cbn in H; try discriminate.
    destruct (T n d) as [w|] eqn:ET; cbn in H.
    + destruct (same v w) eqn:Es; cbn in H; [|discriminate].
      destruct (IH _ _ _ _ Nl H) as (I1 & I2 & I3 & I4). repeat split.
      * intros t e. destruct (I1 t e) as [X|(X1 & X2 & X3)]; [now left|right]. cbn. auto.
      * intros e E [->|Hi]; [congruence|]. apply I2; assumption.
      * intros He. apply I3 in He. rewrite in_app_iff in He. cbn in *.
        destruct He as [[X|[X|[]]]|[X1 X2]]; subst; [auto| |auto]. right. split; [auto|congruence].
      * intros [X|[[->|X] Y]]; apply I3; rewrite in_app_iff; cbn; auto.
      * intros e [->|Hi] E; [exists v, w; auto|]. apply I4; assumption.
    + destruct (IH _ _ _ _ Nl H) as (I1 & I2 & I3 & I4).
      assert (Eo : forall e, e <> d -> tset T n d v n e = T n e).
      { intros e X. unfold tset. destruct (Nat.eqb_spec e d); [contradiction|].
        rewrite andb_false_r. reflexivity. }
      assert (Ed' : tset T n d v n d = Some v).
      { unfold tset. rewrite Z.eqb_refl, Nat.eqb_refl. reflexivity. }
      repeat split.
      * intros t e. destruct (I1 t e) as [X|(-> & X2 & X3)].
        -- rewrite X. unfold tset. destruct ((t =? n) && Nat.eqb e d) eqn:Y; [|now left].
           apply andb_prop in Y. destruct Y as [Y1 Y2]. apply Z.eqb_eq in Y1. apply Nat.eqb_eq in Y2.
           subst. right. cbn. auto.
        -- assert (e <> d) by congruence. rewrite Eo in X3 by assumption. right. cbn. auto.
      * intros e E [->|Hi].
        -- exists v. split; [exact Ed|]. destruct (I1 n e) as [X|(_ & X & _)]; [|contradiction].
           rewrite X. exact Ed'.
        -- apply I2; [|exact Hi]. rewrite Eo; [exact E|]. intros ->. contradiction.
      * intros He. apply I3 in He. destruct He as [X|[X1 X2]]; [auto|]. right.
        cbn. split; [auto|]. rewrite Eo in X2; [exact X2|]. intros ->. contradiction.
      * intros [X|[[->|X] Y]]; [apply I3; auto|congruence|]. apply I3. right. split; [exact X|].
        rewrite Eo; [exact Y|]. intros ->. contradiction.
      * intros e [->|Hi] E; [congruence|].
        assert (e <> d) by (intros ->; contradiction).
        rewrite <- (Eo e) in E |- * by assumption. apply I4; assumption.
Qed.

Lemma pair_dec (x y : Z * Z) : {x = y} + {x <> y}.
Proof. decide equality; apply Z.eq_dec. Qed.

Lemma dofs_nodup p : NoDup (dofs_of p).
Proof. apply NoDup_filter. unfold six. repeat constructor; cbn; lia. Qed.

Definition at_ p t : Prop := In t (own p) \/ In t (grouped p).

Section Pass.
Variables (same : V -> V -> bool) (m0 : model V) (a : Z).
Hypothesis W0 : wf m0.
Hypothesis F0 : flat m0.
Hypothesis A0 : In a (analyses m0).
Hypothesis D0 : disjoint m0 a.

Definition Done (done : list (Z * Z)) (k t : Z) : Prop := next_c m0 <= k \/ In (k, t) done.

Record Inv m (T : table V) (done : list (Z * Z)) : Prop := {
  i_wf : wf m;
  i_flat : flat m;
  i_an : analyses m = analyses m0;
  i_sets : sets_of m a = sets_of m0 a;
  i_dis : forall o, disjoint m0 o -> disjoint m o;
  i_c : next_c m0 <= next_c m;
  i_in : forall t e v, supports m a t e v -> supports m0 a t e v;
  i_out : forall t e v, supports m0 a t e v ->
    exists k w, supporter m a t e k w /\ (v = w \/ (same v w = true /\ Done done k t));
  i_oth : forall o, In o (analyses m0) -> o <> a ->
    forall t e v, supports m o t e v <-> supports m0 o t e v;
  i_oneoth : forall o, In o (analyses m0) -> o <> a -> single m0 o -> single m o;
  i_T : forall t e v, T t e = Some v <-> exists k, supporter m a t e k v /\ Done done k t;
  i_one : forall t e k1 k2 v1 v2, supporter m a t e k1 v1 -> supporter m a t e k2 v2 ->
    Done done k1 t -> Done done k2 t -> k1 = k2;
  i_un : forall k t, ~ Done done k t -> forall e v, supporter m a t e k v <-> supporter m0 a t e k v;
  i_bel : forall x k, In x (sets_of m0 a) -> k < next_c m0 -> (belongs m x k <-> belongs m0 x k);
  i_new : forall x k, In x (sets_of m0 a) -> belongs m x k -> next_c m0 <= k ->
    exists c t, belongs m0 x c /\ In (c, t) done;
  i_nodes : forall k t p0, k < next_c m0 -> spc_of m0 k = Some p0 -> ~ In (k, t) done ->
    exists p, spc_of m k = Some p /\ (at_ p t <-> at_ p0 t)
}.

Lemma Inv_start : Inv m0 (fun _ _ => None) [].
Proof.
  constructor; auto; try reflexivity; try lia; try tauto.
  - intros t e v (k & H). exists k, v. auto.
  - intros t e v. split; [discriminate|]. intros (k & H & [L|[]]).
    destruct H as (x & p & Hx & Hb & Hp & _).
    assert (k < next_c m0) by (apply (w_c m0 W0); congruence). lia.
  - intros t e k1 k2 v1 v2 H1 H2 [L|[]]. destruct H1 as (x & p & Hx & Hb & Hp & _).
    assert (k1 < next_c m0) by (apply (w_c m0 W0); congruence). lia.
  - intros x k Hx Hb L. destruct Hb as [(l & E & Hk)|(y & l & _ & E & Hk)];
      pose proof (w_mem m0 W0 _ _ _ E Hk) as Q; apply (w_c m0 W0) in Q; lia.
  - intros k t p0 L E _. exists p0. tauto.
Qed.

Lemma visit_step m T done c x n p0 m' T' :
  Inv m T done ->
  In x (sets_of m0 a) -> belongs m0 x c -> spc_of m0 c = Some p0 -> at_ p0 n ->
  ~ In (c, n) done ->
  visit_node same a c (m, T) n = Ok (m', T') ->
  Inv m' T' ((c, n) :: done).
Proof.
  intros I Hx Hb Ep0 Hat Nd H.
  assert (Lc : c < next_c m0) by (apply (w_c m0 W0); congruence).
  destruct (i_nodes _ _ _ I c n p0 Lc Ep0 Nd) as (p & Ep & Hp).
  apply Hp in Hat. clear Hp.
  assert (NDc : ~ Done done c n) by (intros [X|X]; [lia|contradiction]).
  unfold visit_node in H. cbn [fst snd] in H. rewrite Ep in H. cbn [of_option bind] in H.
  destruct (foldM (claim same p n) (dofs_of p) (T, [])) as [[T1 D]| | |] eqn:EF; cbn [bind] in H; try discriminate.
  cbn [fst snd] in H.
  destruct (claim_fold _ _ _ _ _ _ _ _ (dofs_nodup p) EF) as (K1 & K1' & K2 & K3).
  assert (K2' : forall e, In e D <-> In e (dofs_of p) /\ T n e <> None).
  { intros e. rewrite K2. cbn. tauto. }
  clear K2 EF.
  (* the support visited, seen from the analysis *)
  assert (Sc : forall e v, supporter m a n e c v <-> (e < 6)%nat /\ sval_of p e = Val v).
  { intros e v. split.
    - intros (y & r & _ & _ & Er & _ & L & Hv). rewrite Ep in Er. injection Er as <-. auto.
    - intros [L Hv]. exists x, p. rewrite (i_sets _ _ _ I). split; [exact Hx|].
      split; [apply (i_bel _ _ _ I); assumption|]. split; [exact Ep|]. unfold holds_at. auto. }
  assert (Sd : forall e v, supporter m a n e c v -> In e (dofs_of p)).
  { intros e v S. apply Sc in S. destruct S as [L Hv]. apply dofs_of_in. rewrite Hv. auto. }
  assert (Dx : forall k t, Done ((c, n) :: done) k t <-> Done done k t \/ (k = c /\ t = n)).
  { intros k t. unfold Done. cbn. split.
    - intros [X|[X|X]]; auto. injection X as <- <-. auto.
    - intros [[X|X]|[-> ->]]; auto. }
  assert (Tkeep : forall t e v, T t e = Some v -> T1 t e = Some v).
  { intros t e v E. destruct (K1 t e) as [X|(-> & _ & X)]; congruence. }
  destruct D as [|d0 D'].
  - (* nothing to remove *)
    injection H as <- <-.
    assert (Nn : forall e, In e (dofs_of p) -> T n e = None).
    { intros e He. destruct (T n e) as [w|] eqn:E; [|reflexivity].
      exfalso. apply (proj2 (K2' e)). split; [exact He|congruence]. }
    constructor; try apply I.
    + intros t e v S. destruct (i_out _ _ _ I t e v S) as (k & w & S' & [->|[Es Dk]]).
      * exists k, w. auto.
      * exists k, w. split; [exact S'|]. right. rewrite Dx. auto.
    + intros t e v. split.
      * intros E. destruct (K1 t e) as [X|(-> & X1 & X2)].
        -- rewrite X in E. apply (i_T _ _ _ I) in E. destruct E as (k & S & Dk).
           exists k. rewrite Dx. auto.
        -- destruct (K1' e X2 X1) as (v' & Hv & Ev). rewrite Ev in E. injection E as ->.
           exists c. rewrite Dx. split; [|auto]. apply Sc. apply dofs_of_in in X1. tauto.
      * intros (k & S & Dk). apply Dx in Dk. destruct Dk as [Dk|[-> ->]].
        -- apply Tkeep. apply (i_T _ _ _ I). eauto.
        -- pose proof (Sd _ _ S) as He. destruct (K1' e (Nn e He) He) as (v' & Hv & Ev).
           apply Sc in S. destruct S as [_ S]. rewrite Hv in S. injection S as ->. exact Ev.
    + intros t e k1 k2 v1 v2 S1 S2 X1 X2. apply Dx in X1, X2.
      destruct X1 as [X1|[-> ->]], X2 as [X2|[-> E2]].
      * eapply (i_one _ _ _ I); eauto.
      * subst t. assert (T n e = Some v1) by (apply (i_T _ _ _ I); eauto).
        rewrite (Nn e (Sd _ _ S2)) in H. discriminate.
      * assert (T n e = Some v2) by (apply (i_T _ _ _ I); eauto).
        rewrite (Nn e (Sd _ _ S1)) in H. discriminate.
      * reflexivity.
    + intros k t X. apply (i_un _ _ _ I). intros Y. apply X, Dx. auto.
    + intros y k Hy By L. destruct (i_new _ _ _ I y k Hy By L) as (c' & t & B' & Hin).
      exists c', t. cbn. auto.
    + intros k t p1 L E X. apply (i_nodes _ _ _ I); auto. intros Y. apply X. now right.
  - remember (d0 :: D') as D eqn:ED. clear ED.
    destruct (remove_node_dofs m a c n D) as [m1| | |] eqn:ER; cbn [bind] in H; try discriminate.
    injection H as <- <-.
    assert (Am : In a (analyses m)) by (rewrite (i_an _ _ _ I); exact A0).
    destruct (remove_spec _ _ _ _ _ _ (i_wf _ _ _ I) (i_flat _ _ _ I) Am ER)
      as (W' & F' & HA & HD & HT & HC & HB & HSo & (p' & Ep' & En & Ec') & Fm).
    rewrite Ep in Ep'. injection Ep' as <-.
    pose proof (i_c _ _ _ I) as Lm.
    assert (Fa : forall t e k v, supporter m1 a t e k v <->
        (supporter m a t e k v /\ ~ (k = c /\ t = n))
        \/ (t = n /\ k = next_c m /\ memd e D = false /\ supporter m a n e c v)).
    { intros t e k v. rewrite (Fm a t e k v Am). intuition congruence. }
    assert (Dn : forall e v, supporter m a n e c v -> memd e D = false -> T n e = None).
    { intros e v S X. apply memd_false in X. destruct (T n e) as [w|] eqn:E; [|reflexivity].
      exfalso. apply X, K2'. split; [eapply Sd; eauto|congruence]. }
    constructor.
    + exact W'.
    + exact F'.
    + rewrite HA. apply (i_an _ _ _ I).
    + rewrite HT. apply (i_sets _ _ _ I).
    + intros o X. apply HD, (i_dis _ _ _ I), X.
    + lia.
    + intros t e v (k & S). apply (i_in _ _ _ I). apply Fa in S.
      destruct S as [[S _]|(-> & _ & _ & S)]; [exists k|exists c]; exact S.
    + intros t e v S. destruct (i_out _ _ _ I t e v S) as (k & w & S' & [<-|[Es Dk]]).
      * destruct (Z.eq_dec k c) as [->|Nk]; [destruct (Z.eq_dec t n) as [->|Nt]|].
        -- destruct (memd e D) eqn:ED.
           ++ apply memd_in, K2' in ED. destruct ED as [E1 E2].
              destruct (K3 e E1 E2) as (v' & w & Hv & Ew & Es).
              apply Sc in S'. destruct S' as [_ S']. rewrite Hv in S'. injection S' as ->.
              apply (i_T _ _ _ I) in Ew. destruct Ew as (k & Sk & Dk).
              exists k, w. split.
              ** apply Fa. left. split; [exact Sk|]. intros [-> _]. contradiction.
              ** right. split; [exact Es|]. apply Dx. auto.
           ++ exists (next_c m), v. split; [|auto]. apply Fa. right. auto.
        -- exists c, v. split; [|auto]. apply Fa. left. split; [exact S'|tauto].
        -- exists k, v. split; [|auto]. apply Fa. left. split; [exact S'|tauto].
      * exists k, w. split; [|right; split; [exact Es|apply Dx; auto]].
        apply Fa. left. split; [exact S'|]. intros [-> ->]. contradiction.
    + intros o Io No t e v. rewrite <- (i_oth _ _ _ I o Io No t e v).
      assert (Io' : In o (analyses m)) by (rewrite (i_an _ _ _ I); exact Io).
      split; intros (k & S).
      * apply (Fm o t e k v Io') in S.
        destruct S as [[S _]|[(-> & _ & _ & S)|(_ & -> & _ & _ & S)]]; [exists k|exists c|exists c]; exact S.
      * destruct (Z.eq_dec k c) as [->|Nk]; [destruct (Z.eq_dec t n) as [->|Nt]|].
        -- destruct (memd e D) eqn:ED.
           ++ exists (next_c m + 1). apply (Fm o n e _ v Io'). auto 10.
           ++ exists (next_c m). apply (Fm o n e _ v Io'). auto 10.
        -- exists c. apply (Fm o t e _ v Io'). left. split; [exact S|tauto].
        -- exists k. apply (Fm o t e _ v Io'). left. split; [exact S|tauto].
    + intros o Io No X. pose proof (i_oneoth _ _ _ I o Io No X) as X'.
      assert (Io' : In o (analyses m)) by (rewrite (i_an _ _ _ I); exact Io).
      intros t e k1 k2 v1 v2 S1 S2.
      apply (Fm o _ _ _ _ Io') in S1. apply (Fm o _ _ _ _ Io') in S2.
      destruct S1 as [[S1 N1]|[(-> & -> & E1 & S1)|(_ & -> & -> & E1 & S1)]],
               S2 as [[S2 N2]|[(R2 & -> & E2 & S2)|(_ & R2 & -> & E2 & S2)]];
        try reflexivity; try congruence; subst.
      * eapply X'; eauto.
      * exfalso. apply N1. split; [eapply X'; eauto|reflexivity].
      * exfalso. apply N1. split; [eapply X'; eauto|reflexivity].
      * exfalso. apply N2. split; [eapply X'; eauto|reflexivity].
      * exfalso. apply N2. split; [eapply X'; eauto|reflexivity].
    + intros t e v. split.
      * intros E. destruct (K1 t e) as [X|(-> & X1 & X2)].
        -- rewrite X in E. apply (i_T _ _ _ I) in E. destruct E as (k & S & Dk).
           exists k. rewrite Dx. split; [|auto]. apply Fa. left. split; [exact S|].
           intros [-> ->]. contradiction.
        -- destruct (K1' e X2 X1) as (v' & Hv & Ev). rewrite Ev in E. injection E as ->.
           exists (next_c m). split; [|left; lia]. apply Fa. right. repeat split; auto.
           ++ apply memd_false. intros Y. apply K2' in Y. tauto.
           ++ apply Sc. apply dofs_of_in in X1. tauto.
      * intros (k & S & Dk). apply Fa in S.
        destruct S as [[S Nk]|(-> & -> & E & S)].
        -- apply Dx in Dk. destruct Dk as [Dk|Dk]; [|contradiction].
           apply Tkeep. apply (i_T _ _ _ I). eauto.
        -- pose proof (Sd _ _ S) as He. destruct (K1' e (Dn _ _ S E) He) as (v' & Hv & Ev).
           apply Sc in S. destruct S as [_ S]. rewrite Hv in S. injection S as ->. exact Ev.
    + intros t e k1 k2 v1 v2 S1 S2 X1 X2. apply Dx in X1, X2. apply Fa in S1, S2.
      destruct S1 as [[S1 N1]|(-> & -> & E1 & S1)], S2 as [[S2 N2]|(R & -> & E2 & S2)].
      * destruct X1 as [X1|X1]; [|contradiction]. destruct X2 as [X2|X2]; [|contradiction].
        eapply (i_one _ _ _ I); eauto.
      * subst t. destruct X1 as [X1|X1]; [|contradiction].
        assert (T n e = Some v1) by (apply (i_T _ _ _ I); eauto).
        rewrite (Dn _ _ S2 E2) in H. discriminate.
      * destruct X2 as [X2|X2]; [|contradiction].
        assert (T n e = Some v2) by (apply (i_T _ _ _ I); eauto).
        rewrite (Dn _ _ S1 E1) in H. discriminate.
      * reflexivity.
    + intros k t X e v. rewrite <- (i_un _ _ _ I k t) by (intros Y; apply X, Dx; auto).
      rewrite Fa. split.
      * intros [[S _]|(_ & -> & _)]; [exact S|]. exfalso. apply X. left. lia.
      * intros S. left. split; [exact S|]. intros Y. apply X, Dx. auto.
    + intros y k Hy L. rewrite <- (i_bel _ _ _ I y k Hy L).
      rewrite HB by (rewrite (i_sets _ _ _ I); exact Hy). split; [|auto].
      intros [X|(-> & _)]; [exact X|lia].
    + intros y k Hy By L. apply HB in By; [|rewrite (i_sets _ _ _ I); exact Hy].
      destruct By as [By|(-> & By & _)].
      * destruct (i_new _ _ _ I y k Hy By L) as (c' & t & B' & Hin). exists c', t. cbn. auto.
      * exists c, n. split; [|now left]. apply (i_bel _ _ _ I); assumption.
    + intros k t p1 L E X.
      assert (X' : ~ In (k, t) done) by (intros Y; apply X; now right).
      destruct (i_nodes _ _ _ I k t p1 L E X') as (r & Er & Hr).
      destruct (Z.eq_dec k c) as [->|Nk].
      * exists (removed_at p n). split; [exact Ec'|]. rewrite <- Hr. rewrite Ep in Er. injection Er as <-.
        assert (t <> n) by (intros ->; apply X; now left).
        unfold at_, removed_at. cbn. rewrite filter_In.
        destruct (Z.eqb_spec t n); [contradiction|]. cbn. tauto.
      * exists r. split; [|exact Hr]. rewrite HSo by (assumption || lia). exact Er.
Qed.

Lemma in_positions p t : In t (node_positions p) <-> at_ p t.
Proof. unfold node_positions, at_. apply in_union. Qed.

Lemma nodes_loop c x p0 : In x (sets_of m0 a) -> belongs m0 x c -> spc_of m0 c = Some p0 ->
  forall l m T done m' T', NoDup l -> (forall t, In t l -> at_ p0 t) ->
  Inv m T done -> (forall t, In t l -> ~ In (c, t) done) ->
  foldM (visit_node same a c) l (m, T) = Ok (m', T') ->
  exists done', Inv m' T' done'
    /\ (forall k t, In (k, t) done' <-> In (k, t) done \/ (k = c /\ In t l)).
Proof.
  intros Hx Hb Ep0 l. induction l as [|n l IH]; intros m T done m' T' N Hat I Hd H; cbn in H.
  - injection H as <- <-. exists done. split; [exact I|]. cbn. tauto.
  - inversion N as [|? ? Nn Nl]; subst.
    destruct (visit_node same a c (m, T) n) as [[m1 T1]| | |] eqn:E; cbn in H; try discriminate.
    assert (I1 : Inv m1 T1 ((c, n) :: done)).
    { eapply (visit_step m T done c x n p0); eauto; [apply Hat; now left|apply Hd; now left]. }
    destruct (IH m1 T1 ((c, n) :: done) m' T' Nl) as (done' & I' & Hd'); auto.
    + intros t Ht. apply Hat. now right.
    + intros t Ht [X|X]; [congruence|]. apply (Hd t); [now right|exact X].
    + exists done'. split; [exact I'|]. intros k t. rewrite Hd'. cbn.
      split; [intros [[X|X]|[-> X]]; auto; injection X as <- <-; auto|].
      intros [X|[-> [->|X]]]; auto.
Qed.

Lemma spcs_loop x : In x (sets_of m0 a) ->
  forall l m T done m' T', NoDup l -> (forall c, In c l -> belongs m0 x c) ->
  Inv m T done -> (forall c t, In c l -> ~ In (c, t) done) ->
  foldM (visit_spc same a) l (m, T) = Ok (m', T') ->
  exists done', Inv m' T' done'
    /\ (forall k t, In (k, t) done' -> In (k, t) done \/ In k l)
    /\ (forall k t, In (k, t) done -> In (k, t) done')
    /\ (forall c p0 t, In c l -> spc_of m0 c = Some p0 -> at_ p0 t -> In (c, t) done').
Proof.
  intros Hx l. induction l as [|c l IH]; intros m T done m' T' N Hb I Hd H; cbn in H.
  - injection H as <- <-. exists done. split; [exact I|]. split; [auto|]. split; [auto|]. intros ? ? ? [].
  - inversion N as [|? ? Nc Nl]; subst.
    destruct (visit_spc same a (m, T) c) as [[m1 T1]| | |] eqn:E; cbn in H; try discriminate.
    unfold visit_spc in E. cbn [fst] in E.
    destruct (spc_of m c) as [p|] eqn:Ep; cbn [of_option bind] in E; [|discriminate].
    assert (Hbc : belongs m0 x c) by (apply Hb; now left).
    destruct (spc_of m0 c) as [p0|] eqn:Ep0.
    2:{ exfalso. apply flat_belongs in Hbc; [|exact F0]. destruct Hbc as (l0 & E0 & Hc).
        apply (w_mem m0 W0 _ _ _ E0 Hc). exact Ep0. }
    assert (Lc : c < next_c m0) by (apply (w_c m0 W0); congruence).
    assert (Pat : forall t, at_ p t <-> at_ p0 t).
    { intros t. destruct (i_nodes _ _ _ I c t p0 Lc Ep0 (Hd c t (or_introl eq_refl))) as (r & Er & Hr).
      rewrite Ep in Er. injection Er as <-. exact Hr. }
    destruct (nodes_loop c x p0 Hx Hbc Ep0 (node_positions p) m T done m1 T1) as (done1 & I1 & Hd1); auto.
    + apply asc_nodup, asc_union. eapply (w_own m (i_wf _ _ _ I)); eauto.
    + intros t Ht. apply Pat, in_positions, Ht.
    + intros t Ht. apply Hd. now left.
    + destruct (IH m1 T1 done1 m' T' Nl) as (done' & I' & Ha & Hk & Hc'); auto.
      * intros k Hkl. apply Hb. now right.
      * intros k t Hkl X. apply Hd1 in X. destruct X as [X|[-> _]]; [|contradiction].
        apply (Hd k t); [now right|exact X].
      * exists done'. split; [exact I'|]. repeat split.
        -- intros k t X. apply Ha in X. destruct X as [X|X]; [|right; now right].
           apply Hd1 in X. destruct X as [X|[-> _]]; [now left|right; now left].
        -- intros k t X. apply Hk, Hd1. auto.
        -- intros k pk t [<-|Hkl] Ek Hat.
           ++ apply Hk, Hd1. right. split; [reflexivity|]. apply in_positions, Pat.
              rewrite Ep0 in Ek. injection Ek as <-. exact Hat.
           ++ eapply Hc'; eauto.
Qed.

Lemma sets_loop : forall l m T done m' T', NoDup l -> (forall x, In x l -> In x (sets_of m0 a)) ->
  Inv m T done -> (forall x c t, In x l -> In (c, t) done -> ~ belongs m0 x c) ->
  foldM (visit_set same a) l (m, T) = Ok (m', T') ->
  exists done', Inv m' T' done'
    /\ (forall k t, In (k, t) done -> In (k, t) done')
    /\ (forall x c p0 t, In x l -> belongs m0 x c -> spc_of m0 c = Some p0 -> at_ p0 t -> In (c, t) done').
Proof.
  induction l as [|x l IH]; intros m T done m' T' N Hl I Hd H; cbn in H.
  - injection H as <- <-. exists done. split; [exact I|]. split; [auto|]. intros ? ? ? ? [].
  - inversion N as [|? ? Nx Nl]; subst.
    destruct (visit_set same a (m, T) x) as [[m1 T1]| | |] eqn:E; cbn in H; try discriminate.
    unfold visit_set in E. cbn [fst] in E.
    destruct (members m x) as [lx|] eqn:Ex; [|discriminate].
    assert (Hx : In x (sets_of m0 a)) by (apply Hl; now left).
    assert (Ecx : constraints_of m x = lx).
    { unfold constraints_of, by_set. rewrite (i_flat _ _ _ I x), Ex. reflexivity. }
    rewrite Ecx in E.
    assert (Bx : forall k, In k lx <-> belongs m0 x k).
    { intros k. split.
      - intros Hk. assert (B : belongs m x k) by (left; eauto).
        destruct (Z_lt_ge_dec k (next_c m0)) as [L|L].
        + apply (i_bel _ _ _ I); assumption.
        + exfalso. destruct (i_new _ _ _ I x k Hx B) as (c & t & Bc & Hin); [lia|].
          apply (Hd x c t); [now left|exact Hin|exact Bc].
      - intros B. assert (L : k < next_c m0).
        { apply flat_belongs in B; [|exact F0]. destruct B as (l0 & E0 & Hk).
          apply (w_c m0 W0). eapply (w_mem m0 W0); eauto. }
        apply (i_bel _ _ _ I) in B; auto. apply flat_belongs in B; [|apply (i_flat _ _ _ I)].
        destruct B as (l0 & E0 & Hk). rewrite Ex in E0. injection E0 as <-. exact Hk. }
    destruct (spcs_loop x Hx lx m T done m1 T1) as (done1 & I1 & Ha & Hk & Hc); auto.
    + apply asc_nodup. eapply (w_asc m (i_wf _ _ _ I)); eauto.
    + intros c Hc. apply Bx, Hc.
    + intros c t Hc X. apply (Hd x c t); [now left|exact X|apply Bx, Hc].
    + destruct (IH m1 T1 done1 m' T' Nl) as (done' & I' & Hk' & Hc'); auto.
      * intros y Hy. apply Hl. now right.
      * intros y c t Hy X B. apply Ha in X. destruct X as [X|X].
        -- apply (Hd y c t); [now right|exact X|exact B].
        -- apply Bx in X. assert (x = y) by (apply (D0 x y c); auto; apply Hl; now right).
           subst. contradiction.
      * exists done'. split; [exact I'|]. split; [auto|].
        intros y c p0 t [<-|Hy] B Ec Hat.
        -- apply Hk'. eapply Hc; eauto. apply Bx, B.
        -- eapply Hc'; eauto.
Qed.

Lemma analysis_spec m' : visit_analysis same m0 a = Ok m' ->
  wf m' /\ flat m' /\ analyses m' = analyses m0
  /\ (forall o, disjoint m0 o -> disjoint m' o)
  /\ (forall t e v, supports m' a t e v -> supports m0 a t e v)
  /\ (forall t e v, supports m0 a t e v ->
        exists w, supports m' a t e w /\ (v = w \/ same v w = true))
  /\ single m' a
  /\ (forall o, In o (analyses m0) -> o <> a ->
        (forall t e v, supports m' o t e v <-> supports m0 o t e v)
        /\ (single m0 o -> single m' o)).
Proof.
  unfold visit_analysis. intros H.
  destruct (foldM (visit_set same a) (sets_of m0 a) (m0, fun _ _ => None)) as [[m1 T1]| | |] eqn:E;
    cbn [bind] in H; try discriminate. injection H as <-. cbn [fst].
  destruct (sets_loop (sets_of m0 a) m0 (fun _ _ => None) [] m1 T1) as (done & I & _ & Hc); auto.
  - apply (w_nodup m0 W0).
  - apply Inv_start.
  - split; [apply I|]. split; [apply I|]. split; [apply I|]. split; [apply I|]. split; [apply I|].
    split.
    { intros t e v S. destruct (i_out _ _ _ I t e v S) as (k & w & S' & X).
      exists w. split; [exists k; exact S'|]. destruct X as [X|[X _]]; auto. }
    split.
    + assert (All : forall t e k v, supporter m1 a t e k v -> Done done k t).
      { intros t e k v S. destruct (Z_lt_ge_dec k (next_c m0)) as [L|L]; [|left; lia].
        destruct (in_dec pair_dec (k, t) done) as [X|X];
          [now right|].
        assert (ND : ~ Done done k t) by (intros [Y|Y]; [lia|contradiction]).
        apply (i_un _ _ _ I k t ND) in S. destruct S as (x & p & Hx & B & Ep & Hat & _).
        exfalso. apply X. eapply Hc; eauto. }
      intros t e k1 k2 v1 v2 S1 S2. eapply (i_one _ _ _ I); eauto.
    + intros o Io No. split; [apply (i_oth _ _ _ I o Io No)|apply (i_oneoth _ _ _ I o Io No)].
Qed.
End Pass.

(** The whole pass, over all analyses. *)
Lemma redundant_loop same : forall l m m', wf m -> flat m ->
  (forall o, In o (analyses m) -> disjoint m o) -> NoDup l -> incl l (analyses m) ->
  foldM (visit_analysis same) l m = Ok m' ->
  wf m' /\ flat m' /\ analyses m' = analyses m
  /\ (forall o, In o (analyses m) ->
        (forall t e v, supports m' o t e v -> supports m o t e v)
        /\ (forall t e v, supports m o t e v ->
              exists w, supports m' o t e w /\ (v = w \/ (In o l /\ same v w = true)))
        /\ (In o l \/ single m o -> single m' o)).
Proof.
  induction l as [|a l IH]; intros m m' W F Dj N Hl H; cbn in H.
  - injection H as <-. split; [exact W|]. split; [exact F|]. split; [reflexivity|].
    intros o Io. split; [auto|]. split.
    + intros t e v S. exists v. auto.
    + intros [[]|X]. exact X.
  - inversion N as [|? ? Na Nl]; subst.
    destruct (visit_analysis same m a) as [m1| | |] eqn:E; cbn in H; try discriminate.
    assert (Ia : In a (analyses m)) by (apply Hl; now left).
    destruct (analysis_spec same m a W F Ia (Dj a Ia) m1 E)
      as (W1 & F1 & A1 & D1 & Ai & Ao & As & Oth).
    destruct (IH m1 m' W1 F1) as (W' & F' & A' & R); auto.
    + rewrite A1. intros o Io. apply D1, Dj, Io.
    + rewrite A1. intros y Hy. apply Hl. now right.
    + split; [exact W'|]. split; [exact F'|]. split; [congruence|].
      intros o Io. destruct (R o) as (Ri & Ro & Rs); [rewrite A1; exact Io|].
      destruct (Z.eq_dec o a) as [->|No].
      * split; [intros t e v S; apply Ai, Ri, S|]. split.
        -- intros t e v S. destruct (Ao t e v S) as (w & S1 & X).
           destruct (Ro t e w S1) as (w' & S2 & [<-|[Y _]]); [|contradiction].
           exists w. split; [exact S2|]. destruct X as [X|X]; [now left|right; cbn; auto].
        -- intros _. apply Rs. now right.
      * destruct (Oth o Io No) as [O1 O2]. split; [intros t e v S; apply O1, Ri, S|]. split.
        -- intros t e v S. apply O1 in S. destruct (Ro t e v S) as (w & S2 & [X|[Y Z]]);
             exists w; (split; [exact S2|]); [now left|right; cbn; auto].
        -- intros [[->|X]|X]; [congruence|apply Rs; now left|apply Rs; right; apply O2, X].
Qed.
End S.
