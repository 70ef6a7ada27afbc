(** Analyses: C41, C42, C43, C50, C69. *)
From Coq Require Import ZArith List Bool Lia.
From Verif Require Import Base ZMap DofModel DofProofs SupportModel SupportProofs AnalysisModel.
Import ListNotations.
Open Scope Z_scope.

(** ** C41 *)
Definition declare (h : list (Z * dofs)) : boundary := fold_left (fun b ns => add_boundary b (fst ns) (snd ns)) h [].

Lemma declare_spec : forall h b, zmap_wf b ->
  let b' := fold_left (fun b ns => add_boundary b (fst ns) (snd ns)) h b in
  zmap_wf b'
  /\ (forall n d, member d (find_boundary b' n) <->
        member d (find_boundary b n) \/ exists s, In (n, s) h /\ member d s)
  /\ (forall n, In n (boundary_nodes b') <-> In n (boundary_nodes b) \/ In n (map fst h)).
Proof.
  induction h as [|[m s] h IH]; intros b W b'.
  - subst b'. cbn. split; [exact W|]. split; intros; [|tauto].
    split; [auto|]. intros [H|(? & [] & _)]; exact H.
  - specialize (IH (add_boundary b m s) (zinsert_wf _ _ _ W)). cbn zeta in IH.
    change (fold_left _ h _) with b' in IH. destruct IH as (W' & F & N). split; [exact W'|]. split.
    + intros n d. rewrite F. clear F N. unfold find_boundary, add_boundary. rewrite zfind_insert by exact W.
      fold (find_boundary b m). cbn [fst snd].
      destruct (Z.eqb_spec m n) as [<-|Nn].
      * fold (find_boundary b m). rewrite member_add. cbn [In]. split.
        -- intros [[H|H]|(t & Ht & Hd)]; eauto.
        -- intros [H|(t & [E|Ht] & Hd)]; eauto. injection E as <-. auto.
      * fold (find_boundary b n). cbn [In]. split.
        -- intros [H|(t & Ht & Hd)]; eauto.
        -- intros [H|(t & [E|Ht] & Hd)]; eauto. congruence.
    + intros n. rewrite N. cbn [map fst In]. unfold boundary_nodes.
      assert (X : In n (map fst (add_boundary b m s)) <-> n = m \/ In n (map fst b)).
      { split.
        - intros H. apply in_map_iff in H. destruct H as ([k v] & <- & H). apply zinsert_in in H.
          destruct H as [H|H]; [right; apply (in_map fst _ _ H)|left; injection H; auto].
        - assert (G : forall v, zfind (add_boundary b m s) n = Some v -> In n (map fst (add_boundary b m s))).
          { intros v H. apply zfind_in in H. apply (in_map fst _ _ H). }
          unfold add_boundary in G at 1. rewrite zfind_insert in G by exact W.
          intros [->|H].
          + rewrite Z.eqb_refl in G. eapply G. reflexivity.
          + destruct (m =? n); [eapply G; reflexivity|]. apply in_map_iff in H. destruct H as ([k v] & <- & H).
            apply (in_zfind _ _ _ W) in H. eapply G, H. }
      rewrite X. intuition.
Qed.

(** The degrees of freedom found at a node are exactly those declared for it in
    any of the declarations; the nodes listed are those declared. *)
Theorem C41_union h n d :
  contains (find_boundary (declare h) n) d = true <-> exists s, In (n, s) h /\ contains s d = true.
Proof.
  rewrite contains_iff. unfold declare.
  destruct (declare_spec h [] zmap_wf_nil) as (_ & F & _). cbn zeta in F. rewrite F.
  split.
  - intros [H|(s & H & M)]; [|exists s; split; [exact H|apply contains_iff; exact M]].
    unfold find_boundary in H. cbn in H. unfold member, NO_DOFS in H. rewrite Z.bits_0 in H. discriminate.
  - intros (s & H & M). right. exists s. split; [exact H|]. apply contains_iff. exact M.
Qed.

Lemma find_declared_set h n : (forall k s, In (k, s) h -> is_set s) -> is_set (find_boundary (declare h) n).
Proof.
  unfold declare. assert (G : forall h b, (forall k s, In (k, s) h -> is_set s) ->
    zmap_wf b -> (forall n, is_set (find_boundary b n)) ->
    is_set (find_boundary (fold_left (fun b ns => add_boundary b (fst ns) (snd ns)) h b) n)).
  { clear. induction h as [|[k s] h IH]; intros b H W B; cbn [fold_left fst snd]; [apply B|].
    apply IH.
    - intros k' s' X. apply (H k' s'). now right.
    - apply zinsert_wf, W.
    - intros m. unfold find_boundary, add_boundary. rewrite zfind_insert by exact W.
      destruct (k =? m); [|apply B]. apply lor_set; [apply B|apply (H k s); now left]. }
  intros H. apply G; [exact H|apply zmap_wf_nil|]. intros m. cbn. unfold is_set, NO_DOFS. lia.
Qed.

(** So neither the order nor the repetition of declarations matters. *)
Theorem C41_order h h' : (forall k s, In (k, s) h -> is_set s) ->
  (forall x, In x h <-> In x h') ->
  (forall n, find_boundary (declare h) n = find_boundary (declare h') n)
  /\ (forall n, In n (boundary_nodes (declare h)) <-> In n (boundary_nodes (declare h'))).
Proof.
  intros S E. split.
  - intros n. apply set_ext.
    + apply find_declared_set, S.
    + apply find_declared_set. intros k s X. apply (S k s), E, X.
    + intros d. rewrite <- !contains_iff, !C41_union.
      split; intros (s & H & M); exists s; (split; [apply E; exact H|exact M]).
  - intros n. unfold declare.
    destruct (declare_spec h [] zmap_wf_nil) as (_ & _ & N). cbn zeta in N. rewrite N.
    destruct (declare_spec h' [] zmap_wf_nil) as (_ & _ & N'). cbn zeta in N'. rewrite N'.
    cbn. split; (intros [[]|H]; right; apply in_map_iff in H; destruct H as (x & <- & H); apply in_map, E, H).
Qed.

Theorem C41_nodes h : NoDup (boundary_nodes (declare h))
  /\ forall n, In n (boundary_nodes (declare h)) <-> exists s, In (n, s) h.
Proof.
  unfold declare. destruct (declare_spec h [] zmap_wf_nil) as (W & _ & N). cbn zeta in N, W. split.
  - apply zmap_nodup, W.
  - intros n. rewrite N. cbn. rewrite in_map_iff. split.
    + intros [[]|([k s] & <- & H)]. exists s. exact H.
    + intros (s & H). right. exists (n, s). auto.
Qed.

Example C41_example :
  find_boundary (declare [(3, 1); (5, 2); (3, 4); (3, 1)]) 3 = 5
  /\ boundary_nodes (declare [(3, 1); (5, 2); (3, 4); (3, 1)]) = [3; 5]
  /\ (forall k s, In (k, s) [(3, 1); (5, 2); (3, 4); (3, 1)] -> is_set s).
Proof.
  split; [reflexivity|]. split; [reflexivity|]. unfold is_set.
  intros k s H. repeat destruct H as [H|H]; try (injection H; intros; subst; lia). destruct H.
Qed.

(** ** C42 *)
Section C42.
Context {T : Type}.
(** The last value given to a parameter in a history of settings. *)
Definition last_set (h : list (Z * T)) (p : Z) : option T :=
  fold_left (fun cur pv => if fst pv =? p then Some (snd pv) else cur) h None.
Definition settings (h : list (Z * T)) : @zmap T := fold_left (fun t pv => set_parameter t (fst pv) (snd pv)) h [].

Lemma settings_find h p : zfind (settings h) p = last_set h p.
Proof.
  unfold settings, last_set.
  assert (G : forall (h : list (Z * T)) (t : @zmap T), zmap_wf t ->
    zfind (fold_left (fun t pv => set_parameter t (fst pv) (snd pv)) h t) p
    = fold_left (fun cur pv => if fst pv =? p then Some (snd pv) else cur) h (zfind t p)).
  { clear h. induction h as [|[q v] h IH]; intros t W; cbn [fold_left fst snd]; [reflexivity|].
    rewrite IH by (apply zinsert_wf, W). unfold set_parameter. rewrite zfind_insert by exact W. reflexivity. }
  apply (G h []), zmap_wf_nil.
Qed.

Theorem C42_precedence (none : T) mine common p :
  analysis_parameter none (settings mine) (settings common) p
  = match last_set mine p, last_set common p with
    | Some v, _ => v
    | None, Some v => v
    | None, None => none
    end
  /\ (analysis_contains (settings mine) (settings common) p = true <->
      (exists v, In (p, v) mine) \/ exists v, In (p, v) common).
Proof.
  unfold analysis_parameter, model_parameter, analysis_contains, model_contains. rewrite !settings_find.
  split; [destruct (last_set mine p); [reflexivity|destruct (last_set common p); reflexivity]|].
  assert (G : forall h : list (Z * T), (exists v, In (p, v) h) <-> last_set h p <> None).
  { clear. intros h. unfold last_set.
    assert (K : forall (h : list (Z * T)) (c : option T), fold_left (fun cur pv => if fst pv =? p then Some (snd pv) else cur) h c <> None
                       <-> c <> None \/ exists v : T, In (p, v) h).
    { clear. induction h as [|[q v] h IH]; intros c; cbn [fold_left fst snd In]; [|rewrite IH; destruct (Z.eqb_spec q p)].
      - split; [auto|intros [H|(? & [])]; exact H].
      - subst. split; [intros _; right; exists v; auto|]. intros _. left. discriminate.
      - split.
        + intros [H|(w & H)]; eauto.
        + intros [H|(w & [E|H])]; eauto. congruence. }
    rewrite K. intuition. }
  rewrite !G. destruct (last_set mine p), (last_set common p); split; intros; auto; try discriminate;
    try (left; discriminate); try (right; discriminate); try reflexivity. destruct H; contradiction.
Qed.
End C42.

Example C42_example : analysis_parameter 0 (settings [(1, 10); (1, 11)]) (settings [(1, 20); (2, 21)]) 1 = 11
  /\ analysis_parameter 0 (settings [(1, 10); (1, 11)]) (settings [(1, 20); (2, 21)]) 2 = 21
  /\ analysis_contains (settings [(1, 10); (1, 11)]) (settings [(1, 20); (2, 21)]) 3 = false.
Proof. repeat split. Qed.

(** ** C43 *)
Section C43.
Context {V : Type}.
(** The constraints of a set: its own and those of the sets it combines,
    directly or indirectly. *)
Inductive combined (m : model V) : Z -> Z -> Prop :=
| comb_own x c : In c (by_set m x) -> combined m x c
| comb_via x y c : In y (includes m x) -> combined m y c -> combined m x c.

Lemma constraints_in (m : model V) x c :
  In c (constraints_of m x) <-> In c (by_set m x) \/ exists y, In y (includes m x) /\ In c (by_set m y).
Proof.
  unfold constraints_of.
  assert (G : forall l acc, In c (fold_left (fun acc y => union acc (by_set m y)) l acc)
                       <-> In c acc \/ exists y, In y l /\ In c (by_set m y)).
  { induction l as [|y l IH]; intros acc; cbn [fold_left In].
    - split; [auto|]. intros [H|(? & [] & _)]; exact H.
    - rewrite IH, in_union. split.
      + intros [[H|H]|(z & Hz & H)]; eauto.
      + intros [H|(z & [<-|Hz] & H)]; eauto. }
  apply G.
Qed.

(** Only constraints of combined sets are given, and all of them when the sets
    combined do not combine others; each is given once.
    Left out: combinations of combinations. *)
Theorem C43_members_partial (m : model V) x :
  (forall c, In c (constraints_of m x) -> combined m x c)
  /\ ((forall y, In y (includes m x) -> includes m y = []) ->
      forall c, combined m x c -> In c (constraints_of m x))
  /\ ((forall y, asc (by_set m y)) -> NoDup (constraints_of m x)).
Proof.
  split; [|split].
  - intros c H. apply constraints_in in H. destruct H as [H|(y & Hy & H)]; [now apply comb_own|].
    eapply comb_via; [exact Hy|]. now apply comb_own.
  - intros F c H. apply constraints_in. inversion H as [? ? H1|? y ? Hy H1]; subst; [now left|].
    right. exists y. split; [exact Hy|]. inversion H1 as [? ? H2|? z ? Hz H2]; subst; [exact H2|].
    rewrite (F y Hy) in Hz. contradiction.
  - intros A. apply asc_nodup. unfold constraints_of.
    assert (G : forall l acc, asc acc -> asc (fold_left (fun acc y => union acc (by_set m y)) l acc)).
    { induction l as [|y l IH]; intros acc H; cbn [fold_left]; [exact H|]. apply IH, asc_union, H. }
    apply G, A.
Qed.
End C43.

Definition e43 : model Z :=
  mkModel (fun _ => None)
    (fun x => if x =? 1 then Some [] else if x =? 2 then Some [11; 13] else if x =? 3 then Some [12; 13] else Some [])
    (fun x => if x =? 1 then [2; 3] else if x =? 4 then [1] else []) [] (fun _ => []) 20 10.
Example C43_example : (forall y, In y (includes e43 1) -> includes e43 y = [])
  /\ (forall y, asc (by_set e43 y)) /\ constraints_of e43 1 = [11; 12; 13].
Proof.
  split; [intros y [<-|[<-|[]]]; reflexivity|]. split; [|reflexivity].
  intros y. unfold by_set. cbn. destruct (y =? 1); [constructor|]. destruct (y =? 2).
  - repeat constructor.
  - destruct (y =? 3); repeat constructor.
Qed.

(** C43 fails for a set that combines combined sets. *)
Theorem C43_depth_refuted : exists (m : model Z) x c, combined m x c /\ ~ In c (constraints_of m x).
Proof.
  exists e43, 4, 11. split.
  - apply (comb_via e43 4 1); [now left|]. apply (comb_via e43 1 2); [now left|]. apply comb_own. now left.
  - intros [].
Qed.

(** ** C50 *)
Lemma active_spec l : forall acc, NoDup acc ->
  let r := fold_left (fun acc x => if mem x acc then acc else acc ++ [x]) l acc in
  NoDup r /\ forall x, In x r <-> In x acc \/ In x l.
Proof.
  induction l as [|y l IH]; intros acc N r; [subst r; cbn; split; [exact N|tauto]|].
  cbn [fold_left] in r. destruct (mem y acc) eqn:E.
  - destruct (IH acc N) as (N' & I). split; [exact N'|]. intros x. unfold r. rewrite I. cbn [In].
    apply mem_in in E. split; [tauto|]. intros [H|[<-|H]]; auto.
  - assert (Ny : ~ In y acc) by (intros H; apply mem_in in H; congruence).
    destruct (IH (acc ++ [y])) as (N' & I).
    + apply NoDup_rev in N. rewrite <- (rev_involutive (acc ++ [y])). apply NoDup_rev.
      rewrite rev_app_distr. cbn. constructor; [rewrite <- in_rev; exact Ny|exact N].
    + split; [exact N'|]. intros x. unfold r. rewrite I, in_app_iff. cbn [In]. tauto.
Qed.

Lemma count_app x l r : count x (l :: r) = (length (filter (Z.eqb x) l) + count x r)%nat.
Proof.
  unfold count. cbn [concat]. induction l as [|y l IH]; [reflexivity|]. cbn.
  destruct (x =? y); cbn; rewrite IH; reflexivity.
Qed.
Lemma count_one x l : NoDup l -> length (filter (Z.eqb x) l) = if in_dec Z.eq_dec x l then 1%nat else 0%nat.
Proof.
  induction l as [|y l IH]; intros N; [reflexivity|]. inversion N as [|? ? Ny Nl]; subst. cbn [filter].
  specialize (IH Nl). destruct (Z.eqb_spec x y) as [->|Nxy].
  - cbn [length]. rewrite IH. destruct (in_dec Z.eq_dec y l); [contradiction|].
    destruct (in_dec Z.eq_dec y (y :: l)) as [_|X]; [reflexivity|]. exfalso. apply X. now left.
  - rewrite IH. destruct (in_dec Z.eq_dec x l) as [H|H]; destruct (in_dec Z.eq_dec x (y :: l)) as [H'|H'];
      try reflexivity.
    + exfalso. apply H'. now right.
    + destruct H' as [H'|H']; [congruence|contradiction].
Qed.

(** A set listed at most once by each analysis is counted once for each analysis
    that uses it. *)
Lemma count_spec x l : (forall s, In s l -> NoDup s) ->
  (count x l <= length l)%nat
  /\ ((0 < count x l)%nat <-> exists s, In s l /\ In x s)
  /\ (count x l = length l <-> forall s, In s l -> In x s).
Proof.
  induction l as [|s l IH]; intros N.
  - cbn. split; [lia|]. split; [split; [lia|intros (? & [] & _)]|]. split; [intros _ s []|reflexivity].
  - destruct IH as (L & P & A); [intros t H; apply N; now right|].
    rewrite count_app, (count_one x s) by (apply N; now left). cbn [length].
    destruct (in_dec Z.eq_dec x s) as [H|H].
    + split; [lia|]. split.
      * split; [intros _; exists s; split; [now left|exact H]|lia].
      * split.
        -- intros E t [<-|Ht]; [exact H|]. apply A; [lia|exact Ht].
        -- intros F. assert (count x l = length l) by (apply A; intros t Ht; apply F; now right). lia.
    + split; [lia|]. split.
      * rewrite Nat.add_0_l, P. split; intros (t & Ht & X); [exists t; split; [now right|exact X]|].
        destruct Ht as [<-|Ht]; [contradiction|eauto].
      * split; [lia|]. intros F. exfalso. apply H, F. now left.
Qed.

(** Sets used by an analysis, by all, by some but not all. *)
Definition used (l : list (list Z)) (x : Z) : Prop := exists s, In s l /\ In x s.
Definition used_by_all (l : list (list Z)) (x : Z) : Prop := l <> [] /\ forall s, In s l -> In x s.
Definition used_by_some (l : list (list Z)) (x : Z) : Prop := used l x /\ exists s, In s l /\ ~ In x s.

Lemma not_all x l : (forall s, In s l -> NoDup s) -> (count x l < length l)%nat <-> exists s, In s l /\ ~ In x s.
Proof.
  intros N. destruct (count_spec x l N) as (L & _ & A). split.
  - intros H. destruct (Exists_dec (fun s => ~ In x s) l) as [E|E].
    + intros s. destruct (in_dec Z.eq_dec x s); [right|left]; tauto.
    + apply Exists_exists in E. exact E.
    + exfalso. assert (count x l = length l); [|lia]. apply A. intros s Hs.
      destruct (in_dec Z.eq_dec x s) as [X|X]; [exact X|]. exfalso. apply E, Exists_exists. eauto.
  - intros (s & Hs & X). destruct (Nat.eq_dec (count x l) (length l)) as [E|E]; [|lia].
    exfalso. apply X. apply A; assumption.
Qed.

(** The active sets are those that some analysis uses, each once; a set of the
    model is common when all the analyses use it and uncommon when some do but
    not all, so that each active set is exactly one of the two. *)
Theorem C50_constraint_sets registered l : NoDup registered ->
  (forall s, In s l -> NoDup s /\ forall x, In x s -> In x registered) ->
  (NoDup (active l) /\ forall x, In x (active l) <-> used l x)
  /\ (forall x, In x (common_constraint_sets registered l) <-> used_by_all l x)
  /\ (forall x, In x (uncommon_constraint_sets registered l) <-> used_by_some l x)
  /\ NoDup (common_constraint_sets registered l ++ uncommon_constraint_sets registered l)
  /\ (forall x, In x (active l) <->
        In x (common_constraint_sets registered l ++ uncommon_constraint_sets registered l)).
Proof.
  intros NR H. assert (N : forall s, In s l -> NoDup s) by (intros s Hs; apply H, Hs).
  assert (Reg : forall x, used l x -> In x registered) by (intros x (s & Hs & Hx); apply (H s Hs), Hx).
  assert (A : NoDup (active l) /\ forall x, In x (active l) <-> used l x).
  { destruct (active_spec (concat l) [] (NoDup_nil _)) as (Na & I). split; [exact Na|].
    intros x. unfold active. rewrite I. cbn [In]. rewrite in_concat. unfold used. intuition. }
  assert (C : forall x, In x (common_constraint_sets registered l) <-> used_by_all l x).
  { intros x. unfold common_constraint_sets. rewrite filter_In, andb_true_iff, Nat.ltb_lt, Nat.eqb_eq.
    destruct (count_spec x l N) as (_ & P & E). rewrite P, E. unfold used_by_all. split.
    - intros (_ & (s & Hs & _) & F). split; [intros X; subst; contradiction|exact F].
    - intros (Ne & F). assert (U : used l x).
      { destruct l as [|s l']; [congruence|]. exists s. split; [now left|apply F; now left]. }
      split; [apply Reg, U|]. split; [exact U|exact F]. }
  assert (U : forall x, In x (uncommon_constraint_sets registered l) <-> used_by_some l x).
  { intros x. unfold uncommon_constraint_sets. rewrite filter_In, andb_true_iff, !Nat.ltb_lt.
    rewrite not_all by exact N. destruct (count_spec x l N) as (_ & P & _). rewrite P.
    unfold used_by_some. split; [tauto|]. intros (Us & X). split; [apply Reg, Us|]. split; [exact Us|exact X]. }
  split; [exact A|]. split; [exact C|]. split; [exact U|]. split.
  - assert (D : forall x, In x (common_constraint_sets registered l) ->
                  In x (uncommon_constraint_sets registered l) -> False).
    { intros x Hc Hu. apply C in Hc. apply U in Hu. destruct Hc as (_ & F). destruct Hu as (_ & s & Hs & X).
      apply X, F, Hs. }
    assert (N1 : NoDup (common_constraint_sets registered l)) by apply NoDup_filter, NR.
    assert (N2 : NoDup (uncommon_constraint_sets registered l)) by apply NoDup_filter, NR.
    revert D N1 N2. generalize (uncommon_constraint_sets registered l) as r.
    generalize (common_constraint_sets registered l) as q. clear.
    induction q as [|y q IH]; intros r D N1 N2; [exact N2|]. inversion N1; subst. cbn. constructor.
    + intros X. apply in_app_iff in X. destruct X as [X|X]; [contradiction|]. apply (D y); [now left|exact X].
    + apply IH; auto. intros x Hq Hr. apply (D x); [now right|exact Hr].
  - intros x. rewrite (proj2 A x), in_app_iff, C, U. unfold used_by_all, used_by_some. split.
    + intros Us. destruct (Exists_dec (fun s => ~ In x s) l) as [E|E].
      * intros s. destruct (in_dec Z.eq_dec x s); [right|left]; tauto.
      * right. split; [exact Us|]. apply Exists_exists in E. exact E.
      * left. split; [intros X; subst; destruct Us as (s & [] & _)|]. intros s Hs.
        destruct (in_dec Z.eq_dec x s) as [X|X]; [exact X|]. exfalso. apply E, Exists_exists. eauto.
    + intros [(Ne & F)|(Us & _)]; [|exact Us]. destruct l as [|s l']; [congruence|].
      exists s. split; [now left|apply F; now left].
Qed.

(** Load sets: the active ones are those used, each once. *)
Theorem C50_active_load_sets common (rs : list refs) :
  let l := map (load_sets common) rs in
  NoDup (active l)
  /\ forall x, In x (active l) <-> (rs <> [] /\ common = Some x) \/ exists r, In r rs /\ In (Some x) r.
Proof.
  cbn zeta. destruct (active_spec (concat (map (load_sets common) rs)) [] (NoDup_nil _)) as (Na & I).
  split; [exact Na|]. intros x. unfold active. rewrite I. cbn [In]. rewrite in_concat.
  assert (L : forall r, In x (load_sets common r) <-> common = Some x \/ In (Some x) r).
  { intros r. unfold load_sets. rewrite in_app_iff, in_flat_map.
    assert ((exists y, In y r /\ In x (match y with Some z => [z] | None => [] end)) <-> In (Some x) r) as ->.
    { split.
      - intros (y & Hy & X). destruct y; [|contradiction]. destruct X as [<-|[]]. exact Hy.
      - intros H. exists (Some x). split; [exact H|now left]. }
    destruct common as [c|]; cbn; [|intuition discriminate]. split.
    - intros [[->|[]]|H]; auto.
    - intros [E|H]; auto. injection E as ->. auto. }
  split.
  - intros [[]|(s & Hs & Hx)]. apply in_map_iff in Hs. destruct Hs as (r & <- & Hr). apply L in Hx.
    destruct Hx as [E|Hx]; [left; split; [intros ->; contradiction|exact E]|right; eauto].
  - intros [(Ne & E)|(r & Hr & Hx)]; right.
    + destruct rs as [|r rs]; [congruence|]. exists (load_sets common r). split; [now left|]. apply L. auto.
    + exists (load_sets common r). split; [apply in_map, Hr|]. apply L. auto.
Qed.

(** The sets of an analysis whose references are all known, not repeated and not
    the common one are as the theorems above require. *)
Theorem C50_sets_of_analysis common registered r l :
  deref (constraint_sets common r) = Ok l ->
  (forall x, In (Some x) r -> In x registered) -> NoDup r ->
  (forall c, common = Some c -> In c registered /\ ~ In (Some c) r) ->
  NoDup l /\ (forall x, In x l -> In x registered)
  /\ forall x, In x l <-> common = Some x \/ In (Some x) r.
Proof.
  intros D R N C.
  assert (G : forall q l, deref q = Ok l -> q = map Some l).
  { clear. induction q as [|o q IH]; intros l; cbn; [intros H; injection H as <-; reflexivity|].
    destruct o as [x|]; cbn; [|discriminate]. fold (deref q). destruct (deref q) as [t| | |] eqn:E; cbn; try discriminate.
    intros H. injection H as <-. cbn. f_equal. apply IH. reflexivity. }
  apply G in D.
  assert (M : forall x, In x l <-> In (Some x) (constraint_sets common r)).
  { intros x. rewrite D. split; [apply in_map|]. intros H. apply in_map_iff in H. destruct H as (y & E & H). congruence. }
  assert (K : forall x, In x l <-> common = Some x \/ In (Some x) r).
  { intros x. rewrite M. unfold constraint_sets. destruct common as [c|]; [|intuition discriminate].
    cbn. tauto. }
  split; [|split; [|exact K]].
  - assert (NC : NoDup (constraint_sets common r)).
    { unfold constraint_sets. destruct common as [c|]; [|exact N]. constructor; [apply (C c eq_refl)|exact N]. }
    rewrite D in NC. clear -NC. induction l as [|x l IH]; [constructor|]. cbn in NC. inversion NC; subst.
    constructor; [|apply IH; assumption]. intros X. apply H1, in_map, X.
  - intros x Hx. apply K in Hx. destruct Hx as [E|H]; [apply (C x E)|apply R, H].
Qed.

Example C50_example :
  let l := [[1; 4]; [1; 5]; [1; 4; 6]] in
  NoDup [1; 4; 5; 6; 7] /\ (forall s, In s l -> NoDup s /\ forall x, In x s -> In x [1; 4; 5; 6; 7])
  /\ active l = [1; 4; 5; 6] /\ common_constraint_sets [1; 4; 5; 6; 7] l = [1]
  /\ uncommon_constraint_sets [1; 4; 5; 6; 7] l = [4; 5; 6]
  /\ deref (constraint_sets (Some 1) [Some 4; Some 6]) = Ok [1; 4; 6].
Proof.
  split; [repeat constructor; cbn; lia|]. split; [|repeat split].
  intros s H. repeat destruct H as [<-|H]; try contradiction;
    (split; [repeat constructor; cbn; lia|intros x Hx; cbn in *; lia]).
Qed.

(** C50 fails for load sets: a set of static loads that all the analyses use is
    neither common nor uncommon, and neither is a DLOAD set that only some use. *)
Theorem C50_load_sets_refuted : exists dload registered l x y,
  NoDup registered /\ (forall s, In s l -> NoDup s /\ forall z, In z s -> In z registered)
  /\ used_by_all l x /\ dload x = false /\ used_by_some l y /\ dload y = true
  /\ ~ In x (common_load_sets dload registered l ++ uncommon_load_sets dload registered l)
  /\ ~ In y (common_load_sets dload registered l ++ uncommon_load_sets dload registered l).
Proof.
  exists (fun x => x =? 9), [1; 9], [[1]; [1; 9]], 1, 9.
  split; [repeat constructor; cbn; lia|]. split.
  { intros s [<-|[<-|[]]]; (split; [repeat constructor; cbn; lia|intros z Hz; cbn in *; lia]). }
  split. { split; [discriminate|]. intros s [<-|[<-|[]]]; cbn; auto. }
  split; [reflexivity|]. split.
  { split; [exists [1; 9]; cbn; auto|]. exists [1]. cbn. split; [auto|lia]. }
  split; [reflexivity|]. cbn. tauto.
Qed.

(** An analysis that names an unknown set of constraints makes the query read
    through a null pointer. *)
Theorem C50_unknown_set_refuted : exists common r, In None r /\ deref (constraint_sets common r) = UB.
Proof. exists (Some 1), [Some 4; None]. split; [cbn; auto|reflexivity]. Qed.

(** ** C69 *)
(** What the modes of an analysis depend on, as far as analyses describe it. *)
Definition same_modes (a b : analysis) : Prop :=
  search a = search b /\ power a = power b /\ csets a = csets b.

Lemma same_sets_spec : forall l r, same_sets l r = Ok true -> l = r /\ ~ In None l.
Proof.
  induction l as [|x l IH]; intros [|y r]; cbn; try discriminate; [intros _; split; [reflexivity|intros []]|].
  destruct x as [a|], y as [b|]; cbn; try discriminate.
  destruct (Z.eqb_spec a b) as [->|N]; [|discriminate]. intros H. apply IH in H. destruct H as [-> H].
  split; [reflexivity|]. intros [X|X]; [discriminate|contradiction].
Qed.
Lemma same_sets_refl : forall l, ~ In None l -> same_sets l l = Ok true.
Proof.
  induction l as [|[x|] l IH]; intros H; cbn; [reflexivity| |exfalso; apply H; now left].
  rewrite Z.eqb_refl. apply IH. intros X. apply H. now right.
Qed.

(** Reuse is decided exactly by the kind of the analyses and by the modes being
    the same. *)
Theorem C69_decision a b :
  can_reuse a b = Ok true <->
  dynamic a = true /\ modal b = true /\ buckling b = false /\ same_modes a b
  /\ search a <> None /\ ~ In None (csets a).
Proof.
  unfold can_reuse, same_modes. split.
  - destruct (dynamic a); cbn; [|discriminate]. destruct (modal b); cbn; [|discriminate].
    destruct (buckling b); [discriminate|]. destruct (Bool.eqb (power a) (power b)) eqn:EP; cbn; [|discriminate].
    apply Bool.eqb_prop in EP. destruct (search a) as [s|]; cbn; [|discriminate].
    destruct (search b) as [t|]; cbn; [|discriminate]. destruct (Z.eqb_spec s t) as [->|N]; cbn; [|discriminate].
    destruct (Nat.eqb _ _); cbn; [|discriminate]. intros H. apply same_sets_spec in H. destruct H as [E Nn].
    rewrite <- E. repeat split; auto. discriminate.
  - intros (-> & -> & -> & (Es & -> & Ec) & Ns & Nn). cbn. rewrite Bool.eqb_reflx. cbn.
    rewrite <- Es, <- Ec. destruct (search a) as [s|]; [|congruence]. cbn. rewrite Z.eqb_refl, Nat.eqb_refl. cbn.
    apply same_sets_refl, Nn.
Qed.

(** The analysis found to reuse comes before, can be reused, and is the first
    such. *)
Theorem C69_previous l a r : reusable_for l a = Ok r ->
  match r with
  | Some b => exists before after, l = before ++ b :: after /\ can_reuse a b = Ok true
      /\ number b <> number a
      /\ forall c, In c before -> can_reuse a c = Ok false /\ number c <> number a
  | None => exists before after, l = before ++ after
      /\ (forall c, In c before -> can_reuse a c = Ok false /\ number c <> number a)
      /\ match after with [] => True | c :: _ => number c = number a end
  end.
Proof.
  revert r. induction l as [|b l IH]; intros r; cbn.
  - intros H. injection H as <-. exists [], []. split; [reflexivity|]. split; [intros c []|exact I].
  - destruct (Z.eqb_spec (number b) (number a)) as [E|N].
    + intros H. injection H as <-. exists [], (b :: l). split; [reflexivity|]. split; [intros c []|exact E].
    + destruct (can_reuse a b) as [[|]| | |] eqn:Ec; cbn; try discriminate.
      * intros H. injection H as <-. exists [], l. split; [reflexivity|]. split; [exact Ec|]. split; [exact N|]. intros c [].
      * intros H. apply IH in H. destruct r as [x|].
        -- destruct H as (u & v & -> & H1 & H2 & H3). exists (b :: u), v. split; [reflexivity|].
           split; [exact H1|]. split; [exact H2|]. intros c [<-|Hc]; auto.
        -- destruct H as (u & v & -> & H1 & H2). exists (b :: u), v. split; [reflexivity|].
           split; [|exact H2]. intros c [<-|Hc]; auto.
Qed.

(** Results are kept for reuse exactly when a later analysis reuses them. *)
Lemma reused_after all a : forall l r, reused_loop all l a true = Ok r ->
  ~ In (number a) (map number l) ->
  (r = true <-> exists o b, In o l /\ reusable_for all o = Ok (Some b) /\ number b = number a).
Proof.
  induction l as [|o l IH]; intros r; cbn.
  - intros H _. injection H as <-. split; [discriminate|]. intros (? & ? & [] & _).
  - intros H N. destruct (Z.eqb_spec (number o) (number a)) as [E|_]; [exfalso; apply N; now left|].
    assert (N' : ~ In (number a) (map number l)) by (intros X; apply N; now right).
    destruct (reusable_for all o) as [[b|]| | |] eqn:Er; cbn in H; try discriminate.
    + destruct (Z.eqb_spec (number b) (number a)) as [E|Nb].
      * injection H as <-. split; [intros _|reflexivity]. exists o, b. auto.
      * rewrite (IH r H N'). split.
        -- intros (o' & b' & Ho & H1 & H2). exists o', b'. auto.
        -- intros (o' & b' & [<-|Ho] & H1 & H2); [congruence|]. exists o', b'. auto.
    + rewrite (IH r H N'). split.
      * intros (o' & b' & Ho & H1 & H2). exists o', b'. auto.
      * intros (o' & b' & [<-|Ho] & H1 & H2); [congruence|]. exists o', b'. auto.
Qed.

Theorem C69_kept before a later r : NoDup (map number (before ++ a :: later)) ->
  can_be_reused (before ++ a :: later) a = Ok r ->
  (r = true <-> exists o b, In o later
     /\ reusable_for (before ++ a :: later) o = Ok (Some b) /\ number b = number a).
Proof.
  intros N. unfold can_be_reused. generalize (before ++ a :: later) at 1 3 as all. intros all H.
  revert N H. induction before as [|b l IH]; intros N H; cbn in *.
  - rewrite Z.eqb_refl in H. inversion N; subst. apply (reused_after all a later r H). assumption.
  - inversion N as [|? ? Nb Nl]; subst. destruct (Z.eqb_spec (number b) (number a)) as [E|_].
    + exfalso. apply Nb. rewrite E, map_app, in_app_iff. right. now left.
    + apply IH; assumption.
Qed.

Definition e69 (n : Z) (dyn : bool) : analysis := mkAnalysis n dyn true false false (Some 3) [Some 1; Some 2].
Example C69_example :
  can_reuse (e69 2 true) (e69 1 false) = Ok true
  /\ reusable_for [e69 1 false; e69 2 true] (e69 2 true) = Ok (Some (e69 1 false))
  /\ can_be_reused [e69 1 false; e69 2 true] (e69 1 false) = Ok true
  /\ can_be_reused [e69 1 false; e69 2 true] (e69 2 true) = Ok false
  /\ NoDup (map number [e69 1 false; e69 2 true]).
Proof. repeat split. repeat constructor; cbn; lia. Qed.

Print Assumptions C41_union.
Print Assumptions C41_order.
Print Assumptions C41_nodes.
Print Assumptions C42_precedence.
Print Assumptions C43_members_partial.
Print Assumptions C43_depth_refuted.
Print Assumptions C50_constraint_sets.
Print Assumptions C50_active_load_sets.
Print Assumptions C50_sets_of_analysis.
Print Assumptions C50_load_sets_refuted.
Print Assumptions C50_unknown_set_refuted.
Print Assumptions C69_decision.
Print Assumptions C69_previous.
Print Assumptions C69_kept.
