(** Proofs about the direct matrices. *)
From Coq Require Import ZArith List Bool Lia Permutation Arith.
From Verif Require Import Base DofModel DofProofs MatrixElementModel.
Import ListNotations.
Open Scope Z_scope.

(** ------------------------------------------------------------------ *)
(** Specification vocabulary. *)
Section Spec.
Context {V : Type}.

(** One coefficient given between (node, component) and (node, component). *)
Definition write := (Z * dof * Z * dof * V)%type.

(** The two addresses denote the same coefficient of a symmetric matrix. *)
Definition same_entry (n1 : Z) (d1 : dof) (n2 : Z) (d2 : dof) (p1 : Z) (e1 : dof) (p2 : Z) (e2 : dof) : Prop :=
  (n1 = p1 /\ d1 = e1 /\ n2 = p2 /\ d2 = e2) \/ (n1 = p2 /\ d1 = e2 /\ n2 = p1 /\ d2 = e1).

(** [last_value h ... o]: the last value given to an entry in the history [h]
    (oldest first), [None] when never given. *)
Inductive last_value : list write -> Z -> dof -> Z -> dof -> option V -> Prop :=
| lv_nil : forall p1 e1 p2 e2, last_value [] p1 e1 p2 e2 None
| lv_hit : forall h n1 d1 n2 d2 v p1 e1 p2 e2, same_entry n1 d1 n2 d2 p1 e1 p2 e2 ->
    last_value (h ++ [(n1, d1, n2, d2, v)]) p1 e1 p2 e2 (Some v)
| lv_miss : forall h n1 d1 n2 d2 v p1 e1 p2 e2 o, ~ same_entry n1 d1 n2 d2 p1 e1 p2 e2 ->
    last_value h p1 e1 p2 e2 o -> last_value (h ++ [(n1, d1, n2, d2, v)]) p1 e1 p2 e2 o.

(** The terms a writer sees: for every pair of nodes of the element and every
    component of the block of this pair. *)
Definition terms (m : melement V) : list write :=
  flat_map (fun np => map (fun kv => (fst np, fst (fst kv), snd np, snd (fst kv), snd kv))
                          (comps (findSubmatrix m (fst np) (snd np)))) (nodePairs m).

(** Nodes named by the terms. *)
Definition touches (m : melement V) (p : Z) : Prop :=
  exists n1 d1 n2 d2 v, In (n1, d1, n2, d2, v) (terms m) /\ (n1 = p \/ n2 = p).
End Spec.
Arguments write V : clear implicits.

Fixpoint build {V} (is_zero : V -> bool) (m : melement V) (h : list (write V)) : outcome (melement V) :=
  match h with
  | [] => Ok m
  | (n1, d1, n2, d2, v) :: r => do m' <- me_add is_zero m n1 d1 n2 d2 v; build is_zero m' r
  end.

(** ------------------------------------------------------------------ *)
(** Pair maps. *)
Lemma npair_eqb_spec p q : npair_eqb p q = true <-> p = q.
Proof.
  unfold npair_eqb. destruct p, q; cbn. rewrite andb_true_iff, !Z.eqb_eq. split.
  - intros [-> ->]; reflexivity.
  - intros E; inversion E; tauto.
Qed.
Lemma npair_eqb_refl p : npair_eqb p p = true.
Proof. now apply npair_eqb_spec. Qed.
Lemma npair_ltb_neq p q : npair_ltb p q = true -> p <> q.
Proof.
  unfold npair_ltb. destruct p, q; cbn. rewrite orb_true_iff, andb_true_iff, !Z.ltb_lt, Z.eqb_eq.
  intros H E. inversion E; subst. lia.
Qed.
Lemma npair_ltb_trans p q r : npair_ltb p q = true -> npair_ltb q r = true -> npair_ltb p r = true.
Proof.
  unfold npair_ltb. destruct p, q, r; cbn. rewrite !orb_true_iff, !andb_true_iff, !Z.ltb_lt, !Z.eqb_eq. lia.
Qed.
Lemma npair_ltb_total p q : npair_ltb p q = false -> npair_eqb q p = false -> npair_ltb q p = true.
Proof.
  unfold npair_ltb, npair_eqb. destruct p, q; cbn.
  rewrite orb_false_iff, !andb_false_iff, orb_true_iff, andb_true_iff, !Z.ltb_lt, !Z.ltb_ge, !Z.eqb_neq, !Z.eqb_eq. lia.
Qed.

Section PMap.
Context {A : Type}.
Implicit Types m : list (npair * A).

Inductive psorted : list (npair * A) -> Prop :=
| ps_nil : psorted []
| ps_cons k a m : (forall k' a', In (k', a') m -> npair_ltb k k' = true) -> psorted m -> psorted ((k, a) :: m).

Lemma pfind_in m k a : pfind m k = Some a -> In (k, a) m.
Proof.
  induction m as [|[k' a'] m IH]; cbn; [discriminate|].
  destruct (npair_eqb k' k) eqn:E; intros H; [|auto].
  apply npair_eqb_spec in E. inversion H; subst. now left.
Qed.
Lemma in_pfind m k a : psorted m -> In (k, a) m -> pfind m k = Some a.
Proof.
  induction 1 as [|k' a' m L S IH]; cbn; intros H; [contradiction|].
  destruct H as [H|H].
  - inversion H; subst. now rewrite npair_eqb_refl.
  - destruct (npair_eqb k' k) eqn:E; [|auto]. apply npair_eqb_spec in E. subst k'.
    exfalso. apply (npair_ltb_neq k k (L _ _ H)). reflexivity.
Qed.
Lemma pfind_none m k : pfind m k = None <-> ~ In k (map fst m).
Proof.
  induction m as [|[k' a'] m IH]; cbn; [tauto|].
  destruct (npair_eqb k' k) eqn:E.
  - apply npair_eqb_spec in E. subst. split; [discriminate|tauto].
  - rewrite IH. assert (k' <> k) by (intros ->; now rewrite npair_eqb_refl in E). tauto.
Qed.
Lemma pset_in m k a x : In x (pset m k a) -> x = (k, a) \/ In x m.
Proof.
  induction m as [|[k' a'] m IH]; cbn; [intuition congruence|].
  destruct (npair_ltb k k'); [cbn; intuition congruence|]. destruct (npair_eqb k' k) eqn:E; cbn.
  - apply npair_eqb_spec in E. subst. intuition.
  - tauto.
Qed.
Lemma pset_keys m k a x : In x (map fst (pset m k a)) <-> x = k \/ In x (map fst m).
Proof.
  induction m as [|[k' a'] m IH]; cbn; [intuition|].
  destruct (npair_ltb k k'); [cbn; intuition|]. destruct (npair_eqb k' k) eqn:E; cbn.
  - apply npair_eqb_spec in E. subst. intuition.
  - rewrite IH. tauto.
Qed.
Lemma pset_sorted m k a : psorted m -> psorted (pset m k a).
Proof.
  induction 1 as [|k' a' m L S IH]; cbn; [constructor; [intros ? ? []|constructor]|].
  destruct (npair_ltb k k') eqn:E1.
  - constructor; [|constructor; assumption]. intros k2 a2 [H|H]; [inversion H; subst; exact E1|].
    eapply npair_ltb_trans; [exact E1|eauto].
  - destruct (npair_eqb k' k) eqn:E2; [constructor; assumption|].
    constructor; [|exact IH]. intros k2 a2 H. apply pset_in in H. destruct H as [H|H]; [|eauto].
    inversion H; subst. now apply npair_ltb_total.
Qed.
Lemma pfind_pset m k a k' : psorted m -> pfind (pset m k a) k' = if npair_eqb k k' then Some a else pfind m k'.
Proof.
  induction 1 as [|k0 a0 m L S IH]; cbn; [reflexivity|].
  destruct (npair_ltb k k0) eqn:E1; [reflexivity|].
  destruct (npair_eqb k0 k) eqn:E2; cbn.
  - apply npair_eqb_spec in E2. subst k0. destruct (npair_eqb k k'); reflexivity.
  - rewrite IH. destruct (npair_eqb k0 k') eqn:E3, (npair_eqb k k') eqn:E4; try reflexivity.
    apply npair_eqb_spec in E3. apply npair_eqb_spec in E4. subst. now rewrite npair_eqb_refl in E2.
Qed.
Lemma pset_perm m k a : pfind m k = None -> Permutation (pset m k a) ((k, a) :: m).
Proof.
  induction m as [|[k' a'] m IH]; cbn; intros H; [reflexivity|].
  destruct (npair_eqb k' k) eqn:E; [discriminate|].
  destruct (npair_ltb k k'); [reflexivity|].
  rewrite (IH H). apply perm_swap.
Qed.
Lemma pset_pset m k a b : psorted m -> pset (pset m k a) k b = pset m k b.
Proof.
  induction 1 as [|k0 a0 m L S IH]; cbn.
  - assert (npair_ltb k k = false) as ->.
    { destruct (npair_ltb k k) eqn:E; [|reflexivity]. now apply npair_ltb_neq in E. }
    now rewrite npair_eqb_refl.
  - assert (npair_ltb k k = false) as N.
    { destruct (npair_ltb k k) eqn:E; [|reflexivity]. now apply npair_ltb_neq in E. }
    destruct (npair_ltb k k0) eqn:E1; cbn; [now rewrite N, npair_eqb_refl|].
    destruct (npair_eqb k0 k) eqn:E2; cbn; rewrite E1, E2; [reflexivity|now rewrite IH].
Qed.
Lemma psorted_nodup m : psorted m -> NoDup (map fst m).
Proof.
  induction 1 as [|k0 a0 m L S IH]; cbn; constructor; [|exact IH].
  intros H. apply in_map_iff in H. destruct H as [[k a] [E H]]. cbn in E. subst.
  now apply (npair_ltb_neq k0 k0 (L _ _ H)).
Qed.
End PMap.

(** ------------------------------------------------------------------ *)
(** Well-formed elements. *)
Section Element.
Context {V : Type}.
Implicit Types (m : melement V) (is_zero : V -> bool).

Definition block_type (k : npair) : matrix_type := if fst k =? snd k then SYMMETRIC else FULL.

Definition me_wf m : Prop :=
  psorted m /\
  (forall k s, In (k, s) m -> fst k <= snd k /\ mtype s = block_type k /\ comps s <> [] /\
     NoDup (map fst (comps s)) /\
     (forall a b v, In ((a, b), v) (comps s) -> norm_key (block_type k) a b = (a, b))).

Definition entry m (p1 : Z) (d1 : dof) (p2 : Z) (d2 : dof) : option V :=
  match pfind m (p1, p2) with Some s => comp_find (comps s) (d1, d2) | None => None end.

(** normal form of an address *)
Definition norm_addr (n1 : Z) (d1 : dof) (n2 : Z) (d2 : dof) : Z * dof * Z * dof :=
  if n2 <? n1 then (n2, d2, n1, d1)
  else let k := norm_key (block_type (n1, n2)) d1 d2 in (n1, fst k, n2, snd k).

Lemma norm_addr_same n1 d1 n2 d2 p1 e1 p2 e2 :
  norm_addr n1 d1 n2 d2 = norm_addr p1 e1 p2 e2 <-> same_entry n1 d1 n2 d2 p1 e1 p2 e2.
Proof.
  unfold norm_addr, same_entry, block_type. cbn [fst snd].
  assert (K : forall a b c d, norm_key SYMMETRIC a b = norm_key SYMMETRIC c d <-> (a = c /\ b = d) \/ (a = d /\ b = c)).
  { intros a b c d. pose proof (norm_key_same SYMMETRIC a b c d) as H.
    rewrite <- key_eqb_spec, H, (same_cellb_spec (V:=bool) true (fun x => x)). unfold same_cell. clear. firstorder. }
  specialize (K d1 d2 e1 e2).
  destruct (Z.ltb_spec n2 n1), (Z.ltb_spec p2 p1).
  - split; [intros E; inversion E; subst; tauto|]. intros [[-> [-> [-> ->]]]|[-> [-> [-> ->]]]]; [reflexivity|lia].
  - destruct (Z.eqb_spec p1 p2).
    + split; [intros E; inversion E; subst; lia|]. intros [[-> [-> [-> ->]]]|[-> [-> [-> ->]]]]; lia.
    + cbn. split; [intros E; inversion E; subst; tauto|]. intros [[-> [-> [-> ->]]]|[-> [-> [-> ->]]]]; [lia|reflexivity].
  - destruct (Z.eqb_spec n1 n2).
    + split; [intros E; inversion E; subst; lia|]. intros [[-> [-> [-> ->]]]|[-> [-> [-> ->]]]]; lia.
    + cbn. split; [intros E; inversion E; subst; tauto|]. intros [[-> [-> [-> ->]]]|[-> [-> [-> ->]]]]; [lia|reflexivity].
  - destruct (Z.eqb_spec n1 n2), (Z.eqb_spec p1 p2).
    + subst. split.
      * intros E.
        assert (G : forall (x y : dof * dof), (n2, fst x, n2, snd x) = (p2, fst y, p2, snd y) -> n2 = p2 /\ x = y).
        { intros [? ?] [? ?] X. cbn in X. inversion X. auto. }
        apply G in E. destruct E as [-> E]. apply K in E. intuition.
      * intros H1. assert (n2 = p2) by intuition. subst.
        assert (norm_key SYMMETRIC d1 d2 = norm_key SYMMETRIC e1 e2) as -> by (apply K; intuition). reflexivity.
    + cbn. split; [intros E; inversion E; subst; lia|]. intros [[-> [-> [-> ->]]]|[-> [-> [-> ->]]]]; lia.
    + cbn. split; [intros E; inversion E; subst; lia|]. intros [[-> [-> [-> ->]]]|[-> [-> [-> ->]]]]; lia.
    + cbn. split; [intros E; inversion E; subst; tauto|]. intros [[-> [-> [-> ->]]]|[-> [-> [-> ->]]]]; [reflexivity|lia].
Qed.

Lemma comp_set_nonempty (l : list ((dof * dof) * V)) k v : comp_set l k v <> [].
Proof. destruct l as [|[k' v'] l]; cbn; [discriminate|]. destruct (key_eqb k' k); discriminate. Qed.

Lemma me_add_spec is_zero m n1 d1 n2 d2 v : me_wf m ->
  exists m', me_add is_zero m n1 d1 n2 d2 v = Ok m' /\ me_wf m' /\
    (forall p1 e1 p2 e2, entry m' p1 e1 p2 e2 =
      if (let '(q1, f1, q2, f2) := norm_addr n1 d1 n2 d2 in
          (q1 =? p1) && (q2 =? p2) && key_eqb (f1, f2) (e1, e2))
      then Some v else entry m p1 e1 p2 e2).
Proof.
  intros [S W]. unfold me_add.
  set (sw := n2 <? n1).
  set (p1 := if sw then n2 else n1). set (p2 := if sw then n1 else n2).
  set (c1 := if sw then d2 else d1). set (c2 := if sw then d1 else d2).
  replace (if sw then (n2, n1, d2, d1) else (n1, n2, d1, d2)) with (p1, p2, c1, c2)
    by (subst p1 p2 c1 c2; destruct sw; reflexivity).
  assert (L : p1 <= p2) by (subst p1 p2 sw; destruct (Z.ltb_spec n2 n1); lia).
  set (sub := match pfind m (p1, p2) with Some s => s | None => newMatrix (if p1 =? p2 then SYMMETRIC else FULL) end).
  assert (T : mtype sub = block_type (p1, p2)).
  { subst sub. destruct (pfind m (p1, p2)) eqn:E; [|reflexivity]. apply pfind_in in E. apply W in E. tauto. }
  assert (K : NoDup (map fst (comps sub)) /\
     (forall a b v, In ((a, b), v) (comps sub) -> norm_key (block_type (p1, p2)) a b = (a, b))).
  { subst sub. destruct (pfind m (p1, p2)) eqn:E; [apply pfind_in in E; apply W in E; tauto|].
    cbn. split; [constructor|intros ? ? ? []]. }
  assert (ND : mtype sub <> DIAGONAL) by (rewrite T; unfold block_type; destruct (_ =? _); discriminate).
  assert (E : exists s, addComponent is_zero sub c1 c2 v = Ok s).
  { unfold addComponent. destruct (mtype sub); try congruence; cbn; [eauto|].
    destruct (dof_ltb c2 c1); eauto. }
  destruct E as [s E]. rewrite E. cbn [bind]. exists (pset m (p1, p2) s). split; [reflexivity|].
  apply add_spec in E. destruct E as [T' [C _]]. rewrite T in *. split.
  - split; [now apply pset_sorted|]. intros k s0 H. apply pset_in in H. destruct H as [H|H]; [|now apply W].
    inversion H; subst. cbn [fst snd]. split; [exact L|]. split; [exact T'|]. rewrite C.
    split; [apply comp_set_nonempty|]. split; [apply comp_set_nodup; tauto|].
    intros a b w Hi. apply (comp_set_in v is_zero) in Hi. destruct Hi as [Hi|[Hi _]]; [now apply K in Hi|].
    pose proof (norm_key_idem (block_type (p1, p2)) c1 c2) as I. rewrite <- Hi in I. exact I.
  - intros q1 e1 q2 e2. unfold entry. rewrite pfind_pset by exact S.
    assert (NA : norm_addr n1 d1 n2 d2
               = (p1, fst (norm_key (block_type (p1, p2)) c1 c2), p2, snd (norm_key (block_type (p1, p2)) c1 c2))).
    { unfold norm_addr. fold sw. subst p1 p2 c1 c2. destruct sw eqn:Sw; [|reflexivity].
      subst sw. apply Z.ltb_lt in Sw. unfold block_type; cbn [fst snd].
      replace (n2 =? n1) with false by (symmetry; apply Z.eqb_neq; lia). reflexivity. }
    rewrite NA. rewrite <- surjective_pairing. unfold npair_eqb at 1. cbn [fst snd].
    destruct ((p1 =? q1) && (p2 =? q2)) eqn:Eq; cbn [andb].
    + rewrite C, comp_find_set. apply andb_true_iff in Eq. destruct Eq as [Eq1 Eq2].
      apply Z.eqb_eq in Eq1, Eq2. subst q1 q2.
      destruct (key_eqb _ _); [reflexivity|].
      subst sub. destruct (pfind m (p1, p2)); reflexivity.
    + reflexivity.
Qed.

Lemma me_wf_nil : me_wf [].
Proof. split; [constructor|intros ? ? []]. Qed.

Lemma build_wf is_zero h : forall m, me_wf m -> exists m', build is_zero m h = Ok m' /\ me_wf m'.
Proof.
  induction h as [|[[[[n1 d1] n2] d2] v] h IH]; intros m W; cbn; [eauto|].
  destruct (me_add_spec is_zero m n1 d1 n2 d2 v W) as [m1 [E [W1 _]]]. rewrite E. cbn. auto.
Qed.

Lemma build_app is_zero h1 : forall h2 m, build is_zero m (h1 ++ h2) = do m' <- build is_zero m h1; build is_zero m' h2.
Proof.
  induction h1 as [|[[[[n1 d1] n2] d2] v] h IH]; intros h2 m; cbn; [reflexivity|].
  destruct (me_add _ _ _ _ _ _ _); cbn; auto.
Qed.

Lemma comp_find_some (l : list ((dof * dof) * V)) k v : comp_find l k = Some v -> In (k, v) l.
Proof.
  induction l as [|[k' w] l IH]; cbn; intros H; [discriminate|].
  destruct (key_eqb k' k) eqn:E; [apply key_eqb_spec in E; inversion H; subst; now left|right; auto].
Qed.

(** The terms in terms of entries *)
Lemma in_terms m : me_wf m -> forall n1 d1 n2 d2 v,
  In (n1, d1, n2, d2, v) (terms m) <-> entry m n1 d1 n2 d2 = Some v.
Proof.
  intros [S W] n1 d1 n2 d2 v. unfold terms, entry, nodePairs. rewrite in_flat_map. split.
  - intros [np [H1 H2]]. apply in_map_iff in H2. destruct H2 as [[[a b] w] [E H2]].
    cbn in E. inversion E; subst. destruct np as [q1 q2]; cbn [fst snd] in *.
    unfold findSubmatrix in H2. cbn in H2. destruct (pfind m (q1, q2)) as [s|] eqn:F; [|contradiction].
    apply comp_find_in; [|exact H2]. apply pfind_in in F. apply W in F. tauto.
  - intros H. destruct (pfind m (n1, n2)) as [s|] eqn:F; [|discriminate].
    exists (n1, n2). split; [apply pfind_in in F; apply in_map_iff; exists ((n1, n2), s); auto|].
    unfold findSubmatrix. cbn [fst snd]. rewrite F. cbn [comps].
    apply in_map_iff. exists ((d1, d2), v). split; [reflexivity|].
    now apply comp_find_some.
Qed.

Lemma entry_norm m : me_wf m -> forall n1 d1 n2 d2 v, entry m n1 d1 n2 d2 = Some v ->
  norm_addr n1 d1 n2 d2 = (n1, d1, n2, d2).
Proof.
  intros [S W] n1 d1 n2 d2 v H. unfold entry in H.
  destruct (pfind m (n1, n2)) as [s|] eqn:F; [|discriminate].
  apply pfind_in, W in F. destruct F as [L [_ [_ [N K]]]]. cbn in L.
  assert (norm_key (block_type (n1, n2)) d1 d2 = (d1, d2)) as E.
  { apply (K _ _ v). now apply comp_find_some. }
  unfold norm_addr. replace (n2 <? n1) with false by (symmetry; apply Z.ltb_ge; lia). now rewrite E.
Qed.

(** value of an entry addressed either way *)
Definition lookup m p1 e1 p2 e2 : option V :=
  let '(q1, f1, q2, f2) := norm_addr p1 e1 p2 e2 in entry m q1 f1 q2 f2.

Lemma lookup_add is_zero m n1 d1 n2 d2 v m' : me_wf m -> me_add is_zero m n1 d1 n2 d2 v = Ok m' ->
  forall p1 e1 p2 e2,
  (same_entry n1 d1 n2 d2 p1 e1 p2 e2 -> lookup m' p1 e1 p2 e2 = Some v) /\
  (~ same_entry n1 d1 n2 d2 p1 e1 p2 e2 -> lookup m' p1 e1 p2 e2 = lookup m p1 e1 p2 e2).
Proof.
  intros W E p1 e1 p2 e2. destruct (me_add_spec is_zero m n1 d1 n2 d2 v W) as [m1 [E1 [W1 H]]].
  rewrite E in E1. injection E1 as <-. rewrite <- norm_addr_same. unfold lookup.
  destruct (norm_addr p1 e1 p2 e2) as [[[q1 f1] q2] f2].
  rewrite H. destruct (norm_addr n1 d1 n2 d2) as [[[r1 g1] r2] g2]. split.
  - intros Eq. inversion Eq; subst. rewrite !Z.eqb_refl. cbn [andb].
    now replace (key_eqb (f1, f2) (f1, f2)) with true by (symmetry; now apply key_eqb_spec).
  - intros N. destruct ((r1 =? q1) && (r2 =? q2) && key_eqb (g1, g2) (f1, f2)) eqn:B; [|reflexivity].
    exfalso. apply N. rewrite !andb_true_iff, !Z.eqb_eq, key_eqb_spec in B.
    destruct B as [[-> ->] B]. inversion B. reflexivity.
Qed.

Lemma lookup_terms m : me_wf m -> forall p1 e1 p2 e2 v,
  lookup m p1 e1 p2 e2 = Some v <-> In (p1, e1, p2, e2, v) (terms m) \/ In (p2, e2, p1, e1, v) (terms m).
Proof.
  intros W p1 e1 p2 e2 v. rewrite !in_terms by exact W. unfold lookup.
  assert (S : norm_addr p1 e1 p2 e2 = norm_addr p2 e2 p1 e1).
  { apply norm_addr_same. right. auto. }
  split.
  - intros H. destruct (norm_addr p1 e1 p2 e2) as [[[q1 f1] q2] f2] eqn:E.
    pose proof (entry_norm m W _ _ _ _ _ H) as N. rewrite <- E in N. apply norm_addr_same in N.
    destruct N as [[-> [-> [-> ->]]]|[-> [-> [-> ->]]]]; auto.
  - intros [H|H].
    + now rewrite (entry_norm m W _ _ _ _ _ H).
    + rewrite S. now rewrite (entry_norm m W _ _ _ _ _ H).
Qed.

Lemma lookup_nil p1 e1 p2 e2 : lookup [] p1 e1 p2 e2 = None.
Proof. unfold lookup. destruct (norm_addr p1 e1 p2 e2) as [[[? ?] ?] ?]. reflexivity. Qed.

Lemma build_lookup is_zero h m : build is_zero [] h = Ok m ->
  forall p1 e1 p2 e2 o, last_value h p1 e1 p2 e2 o -> lookup m p1 e1 p2 e2 = o.
Proof.
  intros B p1 e1 p2 e2 o L. revert m B. induction L as [|h n1 d1 n2 d2 v p1 e1 p2 e2 S|h n1 d1 n2 d2 v p1 e1 p2 e2 o S L IH]; intros m B.
  - cbn in B. injection B as <-. apply lookup_nil.
  - rewrite build_app in B. destruct (build_wf is_zero h [] me_wf_nil) as [m1 [E1 W1]]. rewrite E1 in B. cbn in B.
    destruct (me_add is_zero m1 n1 d1 n2 d2 v) as [m2| | |] eqn:E; try discriminate. cbn in B. injection B as <-.
    now apply (lookup_add is_zero _ _ _ _ _ _ _ W1 E).
  - rewrite build_app in B. destruct (build_wf is_zero h [] me_wf_nil) as [m1 [E1 W1]]. rewrite E1 in B. cbn in B.
    destruct (me_add is_zero m1 n1 d1 n2 d2 v) as [m2| | |] eqn:E; try discriminate. cbn in B. injection B as <-.
    rewrite (proj2 (lookup_add is_zero _ _ _ _ _ _ _ W1 E _ _ _ _) S). now apply IH.
Qed.

Lemma same_entry_dec n1 d1 n2 d2 p1 e1 p2 e2 :
  {same_entry n1 d1 n2 d2 p1 e1 p2 e2} + {~ same_entry n1 d1 n2 d2 p1 e1 p2 e2}.
Proof.
  assert (D : forall a b : Z * dof * Z * dof, {a = b} + {a <> b}) by (repeat decide equality).
  destruct (D (norm_addr n1 d1 n2 d2) (norm_addr p1 e1 p2 e2)) as [E|E]; rewrite norm_addr_same in E; auto.
Qed.

Lemma last_value_total (h : list (write V)) p1 e1 p2 e2 : exists o, last_value h p1 e1 p2 e2 o.
Proof.
  induction h as [|[[[[n1 d1] n2] d2] v] h IH] using rev_ind; [exists None; constructor|].
  destruct IH as [o L]. destruct (same_entry_dec n1 d1 n2 d2 p1 e1 p2 e2).
  - exists (Some v). now constructor.
  - exists o. now constructor.
Qed.

(** Addresses of the terms are pairwise different coefficients. *)
Definition addr_of (t : write V) := let '(n1, d1, n2, d2, _) := t in (n1, d1, n2, d2).

Lemma nodup_flat {A B} (f : A -> list B) l :
  NoDup l -> (forall a, In a l -> NoDup (f a)) ->
  (forall a b x, In a l -> In b l -> In x (f a) -> In x (f b) -> a = b) -> NoDup (flat_map f l).
Proof.
  induction l as [|a l IH]; intros N F D; cbn; [constructor|]. inversion N; subst.
  assert (G : forall (x y : list B), NoDup x -> NoDup y -> (forall z, In z x -> ~ In z y) -> NoDup (x ++ y)).
  { clear. induction x as [|z x IH]; cbn; intros y Nx Ny D; [exact Ny|]. inversion Nx; subst.
    constructor; [rewrite in_app_iff; intros [H|H]; [contradiction|apply (D z); auto]|].
    apply IH; auto. }
  apply G.
  - apply F. now left.
  - apply IH; [assumption|intros; apply F; now right|intros; eapply D; eauto; now right].
  - intros x Hx Hy. apply in_flat_map in Hy. destruct Hy as [b [Hb Hy]].
    assert (a = b) by (eapply D; eauto; [now left|now right]). subst. contradiction.
Qed.

Lemma map_flat_map {A B C} (g : B -> C) (f : A -> list B) l :
  map g (flat_map f l) = flat_map (fun x => map g (f x)) l.
Proof. induction l as [|a l IH]; cbn; [reflexivity|]. now rewrite map_app, IH. Qed.

Lemma terms_nodup m : me_wf m -> NoDup (map addr_of (terms m)).
Proof.
  intros [S W]. unfold terms, nodePairs.
  assert (map addr_of (flat_map (fun np => map (fun kv => (fst np, fst (fst kv), snd np, snd (fst kv), snd kv))
                          (comps (findSubmatrix m (fst np) (snd np)))) (map fst m)) =
          flat_map (fun np => map (fun kv => (fst np, fst (fst kv), snd np, snd (fst kv)))
                          (comps (findSubmatrix m (fst np) (snd np)))) (map fst m)) as ->.
  { rewrite map_flat_map. apply flat_map_ext. intros np. rewrite map_map. reflexivity. }
  apply nodup_flat.
  - now apply psorted_nodup.
  - intros np H. unfold findSubmatrix. cbn [comps].
    destruct (pfind m (fst np, snd np)) as [s|] eqn:F; [|constructor].
    apply pfind_in, W in F. destruct F as [_ [_ [_ [N _]]]].
    clear - N. induction (comps s) as [|[[a b] v] l IH]; cbn in *; [constructor|].
    inversion N; subst. constructor; [|auto]. intros H. apply H1.
    apply in_map_iff in H. destruct H as [[[a' b'] v'] [E H]]. cbn in E. inversion E; subst.
    apply in_map_iff. exists ((a, b), v'). auto.
  - intros [a1 a2] [b1 b2] x _ _ Ha Hb. apply in_map_iff in Ha, Hb.
    destruct Ha as [[[? ?] ?] [Ea _]], Hb as [[[? ?] ?] [Eb _]]. cbn in *. congruence.
Qed.
End Element.
