(** C117: the last passes over a model that has been read. *)
From Coq Require Import Ascii String ZArith List Bool Arith Lia.
From Verif Require Import Base ZMap TextModel DofModel DofProofs PropertiesDof AnalysisModel MeshNodeModel MeshNodeProofs MeshCellModel MeshCellProofs PropertiesMeshCells MeshGroupModel MeshGroupProofs PropertiesMeshGroups SegmentModel SegmentProofs PropertiesSegment ContactSurfModel ContactSurfProofs PropertiesContactSurf FinishModel.
Import ListNotations.
Open Scope Z_scope.
Open Scope list_scope.

(** ** Specification *)
(** An assertion can be checked in an analysis: at each of its nodes, every degree of freedom
    it needs is one of the node or of a boundary condition of the analysis. *)
Definition checkable (nodes : list dofs) (b : boundary) (a : assertion) : Prop :=
  forall p s d x, In (p, s) (a_needs a) -> nth_error nodes p = Some d -> member x s -> member x d \/ member x (find_boundary b (Z.of_nat p)).
(** The assertions as they are made. *)
Record asserted (nodes : list dofs) (analyses : list analysis) (all : list assertion) : Prop := {
  as_refs : NoDup (map a_ref all);
  as_nodes : forall d, In d nodes -> is_set d;
  as_bounds : forall n p, In n analyses -> is_set (find_boundary (n_boundary n) p);
  as_needs : forall a p s, In a all -> In (p, s) (a_needs a) -> is_set s /\ (p < length nodes)%nat }.

(** No term. *)
Definition no_term {V} (vzero : V) (m : dofmatrix V) : Prop := forall d1 d2, findComponent vzero m d1 d2 = vzero.
(** A rigid link for each cell: from its first node to each of the others. *)
Definition links_of (cells : list (list Z)) (ls : list link) : Prop :=
  Forall2 (fun ids l => exists r, ids = l_master l :: r /\ NoDup (l_slaves l) /\ forall i, In i (l_slaves l) <-> In i r) cells ls.

(** A node group that holds exactly these positions. *)
Definition node_group (gs : groups) (name : string) (ps : list nat) : Prop :=
  exists h g, findGroup gs name = Some h /\ nth_error (heap gs) h = Some g /\ g_kind g = NodeG /\ g_name g = name /\ forall q, In q (g_pos g) <-> In q ps.

(** ** Assertions *)
Lemma keep_filter : forall gone (all : list assertion),
  fold_left (fun l r => filter (fun a => negb (Nat.eqb (a_ref a) r)) l) gone all = filter (fun a => negb (existsb (Nat.eqb (a_ref a)) gone)) all.
Proof.
  induction gone as [|r gone IH]; intros all; cbn [fold_left existsb].
  - induction all as [|a all IHa]; [reflexivity|]. cbn. f_equal. exact IHa.
  - rewrite IH. clear. induction all as [|a all IHa]; [reflexivity|]. cbn [filter]. destruct (Nat.eqb (a_ref a) r) eqn:E; cbn [negb orb filter]; [exact IHa|].
    rewrite IHa. reflexivity.
Qed.
Lemma mapM_in {A B} (f : A -> outcome B) : forall l r, mapM f l = Ok r -> forall y, In y r <-> exists x, In x l /\ f x = Ok y.
Proof.
  induction l as [|x l IH]; intros r H y; cbn [mapM] in H.
  - injection H as <-. split; [intros []|intros (x & [] & _)].
  - destruct (f x) as [z| | |] eqn:E; try discriminate H. cbn [bind] in H. destruct (mapM f l) as [r'| | |] eqn:E'; try discriminate H. cbn [bind] in H. injection H as <-.
    cbn [In]. rewrite (IH _ eq_refl y). split.
    + intros [<- |(x' & A' & B')]; [exists x; auto|exists x'; auto].
    + intros (x' & [<- |A'] & B'); [left; congruence|right; now exists x'].
Qed.
Section Assert.
Context (nodes : list dofs) (analyses : list analysis) (all : list assertion).
Hypothesis As : asserted nodes analyses all.

Lemma lacks_spec n p s : In n analyses -> is_set s -> (p < length nodes)%nat ->
  exists b d, lacks nodes (n_boundary n) (p, s) = Ok b /\ nth_error nodes p = Some d /\
    (b = false <-> forall x, member x s -> member x d \/ member x (find_boundary (n_boundary n) (Z.of_nat p))).
Proof.
  intros Hn Hs Hp. unfold lacks. cbn [fst snd]. destruct (nth_error nodes p) as [d|] eqn:E; [|apply nth_error_None in E; lia].
  assert (Hd : is_set d) by (eapply (as_nodes _ _ _ As), nth_error_In, E). pose proof (as_bounds _ _ _ As n (Z.of_nat p) Hn) as Hb.
  assert (Ha : is_set (dofs_add d (find_boundary (n_boundary n) (Z.of_nat p)))).
  { unfold dofs_add. revert Hd Hb. generalize (find_boundary (n_boundary n) (Z.of_nat p)). intros b Hd Hb. unfold is_set in *.
    split; [apply Z.lor_nonneg; lia|]. destruct (Z.eq_dec (Z.lor d b) 0) as [->|Hz]; [lia|].
    assert (0 < Z.lor d b) by (assert (0 <= Z.lor d b) by (apply Z.lor_nonneg; lia); lia).
    change 64 with (2 ^ 6). apply Z.log2_lt_pow2; [assumption|]. rewrite Z.log2_lor by lia.
    apply Z.max_lub_lt.
    - destruct (Z.eq_dec d 0) as [->|]; [reflexivity|]. apply Z.log2_lt_pow2; lia.
    - destruct (Z.eq_dec b 0) as [->|]; [reflexivity|]. apply Z.log2_lt_pow2; lia. }
  destruct (s =? NO_DOFS) eqn:Z0.
  - apply Z.eqb_eq in Z0. subst s. exists false, d. split; [reflexivity|]. split; [reflexivity|]. split; [|reflexivity]. intros _ x X. unfold member in X. now rewrite Z.bits_0 in X.
  - exists (negb (containsAll (dofs_add d (find_boundary (n_boundary n) (Z.of_nat p))) s)), d. split; [reflexivity|]. split; [reflexivity|].
    rewrite negb_false_iff, (containsAll_iff _ _ Ha Hs). setoid_rewrite member_add. reflexivity.
Qed.
Lemma doomed_spec : exists gone, doomed nodes analyses all = Ok gone /\
  forall r, In r gone <-> exists n a, In n analyses /\ In a all /\ a_ref a = r /\ In r (n_asserts n) /\ ~ checkable nodes (n_boundary n) a.
Proof.
  assert (A1 : forall n a, In n analyses -> In a all -> exists bs, mapM (lacks nodes (n_boundary n)) (a_needs a) = Ok bs /\
    (In true bs <-> ~ checkable nodes (n_boundary n) a)).
  { intros n a Hn Ha. pose proof (fun p s => as_needs _ _ _ As a p s Ha) as Nd. destruct (mapM_total (lacks nodes (n_boundary n)) (a_needs a)) as [bs E].
    { intros [p s] Hx. destruct (Nd p s Hx) as [H1 H2]. destruct (lacks_spec n p s Hn H1 H2) as (b & d & X & _). now exists b. }
    exists bs. split; [exact E|]. rewrite (mapM_in _ _ _ E). split.
    - intros ([p s] & Hx & L) C. destruct (Nd p s Hx) as [H1 H2]. destruct (lacks_spec n p s Hn H1 H2) as (b & d & X & Ed & Q).
      assert (Q0 : Ok b = Ok true) by (rewrite <- X; exact L). injection Q0 as ->. destruct Q as [_ Q]. assert (true = false); [|discriminate]. apply Q. intros x Hm. exact (C p s d x Hx Ed Hm).
    - intros C. destruct (in_dec bool_dec true bs) as [I|I]; [now apply (mapM_in _ _ _ E) in I|]. exfalso. apply C. intros p s d x Hx Ed Hm.
      destruct (Nd p s Hx) as [H1 H2]. destruct (lacks_spec n p s Hn H1 H2) as (b & d' & X & Ed' & Q). destruct b.
      + exfalso. apply I. apply (mapM_in _ _ _ E). exists (p, s). split; [exact Hx|exact X].
      + assert (d' = d) by congruence. subst d'. now apply Q. }
  unfold doomed.
  assert (A2 : forall n, In n analyses -> exists l, mapM (fun a => do bs <- mapM (lacks nodes (n_boundary n)) (a_needs a); Ok (map (fun _ => a_ref a) (filter (fun b => b) bs)))
        (filter (fun a => existsb (Nat.eqb (a_ref a)) (n_asserts n)) all) = Ok l /\
     forall r, In r (concat l) <-> exists a, In a all /\ a_ref a = r /\ In r (n_asserts n) /\ ~ checkable nodes (n_boundary n) a).
  { intros n Hn. match goal with |- exists l, mapM ?f ?k = _ /\ _ => destruct (mapM_total f k) as [l E] end.
    { intros a Ha. apply filter_In in Ha. destruct (A1 n a Hn (proj1 Ha)) as (bs & E & _). rewrite E. cbn [bind]. eauto. }
    exists l. split; [exact E|]. intros r. rewrite in_concat. split.
    - intros (x & Hx & Hr). apply (mapM_in _ _ _ E) in Hx. destruct Hx as (a & Ha & F). apply filter_In in Ha. destruct Ha as [Ha Hb]. destruct (A1 n a Hn Ha) as (bs & Eb & Q).
      rewrite Eb in F. cbn [bind] in F. injection F as <-. apply in_map_iff in Hr. destruct Hr as (b & Er & Hb'). apply filter_In in Hb'. destruct Hb' as [Hb' Tb]. subst b.
      exists a. split; [exact Ha|]. split; [exact Er|]. split; [|now apply Q]. apply existsb_exists in Hb. destruct Hb as (k & Hk & Ek). apply Nat.eqb_eq in Ek. now rewrite <- Er, Ek.
    - intros (a & Ha & Er & Hi & C). destruct (A1 n a Hn Ha) as (bs & Eb & Q). apply Q in C. exists (map (fun _ => a_ref a) (filter (fun b : bool => b) bs)). split.
      + apply (mapM_in _ _ _ E). exists a. split; [apply filter_In; split; [exact Ha|]; apply existsb_exists; exists r; split; [exact Hi|]; now apply Nat.eqb_eq|]. now rewrite Eb.
      + apply in_map_iff. exists true. split; [exact Er|]. now apply filter_In. }
  match goal with |- context [mapM ?f analyses] => destruct (mapM_total f analyses) as [ll E] end.
  { intros n Hn. destruct (A2 n Hn) as (l & E & _). rewrite E. cbn [bind]. eauto. }
  rewrite E. cbn [bind]. exists (concat ll). split; [reflexivity|]. intros r. rewrite in_concat. split.
  - intros (x & Hx & Hr). apply (mapM_in _ _ _ E) in Hx. destruct Hx as (n & Hn & F). destruct (A2 n Hn) as (l & El & Q). rewrite El in F. cbn [bind] in F. injection F as <-.
    apply Q in Hr. destruct Hr as (a & Hr). exists n, a. tauto.
  - intros (n & a & Hn & Hr). destruct (A2 n Hn) as (l & El & Q). exists (concat l). split; [apply (mapM_in _ _ _ E); exists n; split; [exact Hn|]; now rewrite El|].
    apply Q. now exists a.
Qed.
End Assert.

(** The assertions left are those that every analysis they belong to can check, in the
    order they had. *)
Theorem C117_assertions : forall nodes analyses all, asserted nodes analyses all ->
  exists f, remove_assertions nodes analyses all = Ok (filter f all) /\
    forall a, In a all -> (f a = true <-> forall n, In n analyses -> In (a_ref a) (n_asserts n) -> checkable nodes (n_boundary n) a).
Proof.
  intros nodes analyses all As. destruct (doomed_spec nodes analyses all As) as (gone & E & Q).
  exists (fun a => negb (existsb (Nat.eqb (a_ref a)) gone)). unfold remove_assertions. rewrite E. cbn [bind]. rewrite keep_filter. split; [reflexivity|].
  intros a Ha. rewrite negb_true_iff. split.
  - intros X n Hn Hr. assert (D : checkable nodes (n_boundary n) a \/ ~ checkable nodes (n_boundary n) a).
    { assert (K : forall l, (forall y, In y l -> In y (a_needs a)) ->
        (forall p s d x, In (p, s) l -> nth_error nodes p = Some d -> member x s -> member x d \/ member x (find_boundary (n_boundary n) (Z.of_nat p))) \/
        ~ (forall p s d x, In (p, s) l -> nth_error nodes p = Some d -> member x s -> member x d \/ member x (find_boundary (n_boundary n) (Z.of_nat p)))).
      { induction l as [|[p s] l IH]; intros Sub; [left; intros p s d x []|]. destruct IH as [L|R]; [intros y Hy; apply Sub; now right| |right; intros X'; apply R; intros; eapply X'; eauto; now right].
        destruct (as_needs _ _ _ As a p s Ha (Sub _ (or_introl eq_refl))) as [H1 H2]. destruct (lacks_spec nodes analyses all As n p s Hn H1 H2) as (b & d & _ & Ed & Qb). destruct b.
        - right. intros X'. assert (true = false); [|discriminate]. apply Qb. intros x Hx. eapply X'; eauto. now left.
        - left. intros p' s' d' x [E'|I'] Ed' Hx; [injection E' as <- <-; assert (d' = d) by congruence; subst d'; now apply Qb|eauto]. }
      exact (K (a_needs a) (fun y Hy => Hy)). }
    destruct D as [D|D]; [exact D|]. exfalso. assert (In (a_ref a) gone) by (apply Q; now exists n, a).
    assert (Y : existsb (Nat.eqb (a_ref a)) gone = true) by (apply existsb_exists; exists (a_ref a); split; [assumption|apply Nat.eqb_refl]). congruence.
  - intros X. destruct (existsb (Nat.eqb (a_ref a)) gone) eqn:Y; [|reflexivity]. exfalso. apply existsb_exists in Y. destruct Y as (r & Hr & Er). apply Nat.eqb_eq in Er. subst r.
    apply Q in Hr. destruct Hr as (n & a' & Hn & Ha' & Er & Hi & C). apply C. enough (a' = a) by (subst a'; now apply X).
    pose proof (as_refs _ _ _ As) as N. clear - N Ha Ha' Er. induction all as [|b l IH]; [destruct Ha|]. cbn in N. inversion N as [|u v N1 N2]; subst.
    destruct Ha as [->|Ha], Ha' as [->|Ha']; auto.
    + exfalso. apply N1. rewrite <- Er. now apply in_map.
    + exfalso. apply N1. rewrite Er. now apply in_map.
Qed.
(** Refuted: "an assertion that an analysis can check is checked in that analysis"; one that
    another analysis cannot check is removed from both. *)
Theorem C117_assertion_refuted : exists nodes a n n', asserted nodes [n; n'] [a] /\ In (a_ref a) (n_asserts n) /\ checkable nodes (n_boundary n) a /\
  remove_assertions nodes [n; n'] [a] = Ok [].
Proof.
  exists [7], (mkAssert 0 [(0%nat, 8)]), (mkAnalysis [0%nat] [(0, 8)]), (mkAnalysis [0%nat] []). split; [|split; [now left|split; [|reflexivity]]].
  - constructor.
    + constructor; [intros []|constructor].
    + intros d [<- |[]]. unfold is_set. lia.
    + intros n p [<- |[<- |[]]]; unfold find_boundary; cbn [n_boundary]; [|unfold is_set, NO_DOFS; cbn; lia]. cbn [zfind]. repeat match goal with |- context [if ?c then _ else _] => destruct c end; unfold is_set, NO_DOFS; cbn; lia.
    + intros a p s [<- |[]] [[= <- <-]|[]]. unfold is_set. cbn. lia.
  - intros p s d x [[= <- <-]|[]] Ed Hx. right. exact Hx.
Qed.

(** ** Analyses *)
(** With the detection of analyses (the three output solvers ask for it), the finished model
    has the analyses that were read or, if none was, one: non linear when parameters of
    non-linear calculation were read, else modal when a search of frequencies was, else static. *)
Theorem C117_analyses : forall nonlinear search loaded constrained l,
  let l' := finish_analyses true nonlinear search loaded constrained l in
  (l <> [] -> l' = l) /\
  (l = [] -> (nonlinear = true -> l' = [KNonLinear]) /\ (nonlinear = false -> search = true -> l' = [KModal]) /\ (nonlinear = false -> search = false -> l' = [KStatic])).
Proof.
  intros nl se lo co [|k l]; cbn zeta; (split; [intros H|intros H]); try congruence; try reflexivity.
  - split; [intros ->; reflexivity|]. split; [intros -> ->; reflexivity|intros -> ->; reflexivity].
Qed.
(** Without it, the model has an analysis unless none was read and it has both loads and
    constraints. *)
Theorem C117_no_analysis : forall nonlinear search loaded constrained l,
  finish_analyses false nonlinear search loaded constrained l = [] <-> l = [] /\ loaded = true /\ constrained = true.
Proof.
  intros nl se lo co l. destruct l as [|k l]; [|cbn; split; [discriminate|intros (H & _); discriminate H]].
  cbn. destruct lo, co; cbn; split; try discriminate; auto; intros (_ & H & H'); congruence.
Qed.
(** Refuted: "a finished model has an analysis". *)
Theorem C117_no_analysis_refuted : exists loaded constrained, finish_analyses false false false loaded constrained [] = [].
Proof. exists true, true. reflexivity. Qed.

(** ** Rigid segments *)
Section Rigid.
Context {V : Type} (vzero : V) (is_zero is_max : V -> bool).
Hypothesis max_not_zero : forall v, is_max v = true -> is_zero v = false.
Hypothesis zero_is_zero : is_zero vzero = true.

(** What happens to one set of segments, whose stiffness was written term by term. *)
Definition treated (f : stiff V) (h : list (dof * dof * V)) (x : stiff V * list link) : Prop :=
  let replaced := no_term vzero (f_stiffness (fst x)) /\ no_term vzero (f_mass (fst x)) /\ no_term vzero (f_damping (fst x)) /\ f_cells (fst x) = f_cells f /\ links_of (f_cells f) (snd x) in
  let as_was := fst x = f /\ snd x = [] in
  (replaced /\ (forall d1 d2, findComponent vzero (f_stiffness f) d1 d2 = vzero \/ d1 = d2 /\ is_max (findComponent vzero (f_stiffness f) d1 d2) = true) \/ as_was) /\
  ((forall d1 d2 v, In (d1, d2, v) h -> d1 = d2 /\ is_max v = true) -> replaced) /\
  (forall d1 d2, is_zero (findComponent vzero (f_stiffness f) d1 d2) = false -> (d1 <> d2 \/ is_max (findComponent vzero (f_stiffness f) d1 d2) = false) -> as_was).

Lemma zeroed_no_term (m : dofmatrix V) : no_term vzero (setAllZero vzero m).
Proof.
  assert (A : forall l k, match comp_find (map (fun kv : (dof * dof) * V => (fst kv, vzero)) l) k with Some v => v | None => vzero end = vzero).
  { induction l as [|[k' v] l IH]; intros k; cbn; [reflexivity|]. destruct (key_eqb k' k); [reflexivity|apply IH]. }
  intros d1 d2. unfold findComponent, setAllZero. cbn [mtype comps]. destruct (matrix_type_eqb (mtype m) DIAGONAL && negb (dof_eqb d1 d2)); [reflexivity|]. apply A.
Qed.
Lemma stored_written : forall h (m m' : dofmatrix V), writes is_zero m h = Ok m' -> (forall k v, In (k, v) (comps m) -> fst k = snd k /\ is_max v = true) ->
  (forall d1 d2 v, In (d1, d2, v) h -> d1 = d2 /\ is_max v = true) -> forall k v, In (k, v) (comps m') -> fst k = snd k /\ is_max v = true.
Proof.
  induction h as [|[[a b] w] h IH]; cbn [writes]; intros m m' E C H k v I; [injection E as <-; eauto|].
  cbn [writes foldM] in E. destruct (addComponent is_zero m a b w) as [m1| | |] eqn:E1; try discriminate E. cbn [bind] in E.
  refine (IH m1 m' E _ _ k v I); [|intros; apply H; now right]. intros k0 v0 I0. apply add_spec in E1. destruct E1 as (T & Cm & _). rewrite Cm in I0.
  apply comp_set_in in I0. destruct I0 as [I0|[-> ->]]; [eauto|]. destruct (H a b w (or_introl eq_refl)) as [<- M]. split; [|exact M]. destruct (mtype m); cbn [norm_key]; try reflexivity; now destruct (dof_ltb a a).
  Unshelve. all: assumption.
Qed.

(** Each set of segments is replaced as a whole, or not touched; one whose stiffness has a
    term that is not infinite, or one off the diagonal, is not touched; one written with
    infinite terms only is replaced by one rigid link for each of its cells, and keeps no term. *)
Theorem C117_rigid_segments : forall l hs ts, (forall f, In f l -> Forall (fun ids => ids <> []) (f_cells f)) ->
  Forall2 (fun f ht => writes is_zero (newMatrix (snd ht)) (fst ht) = Ok (f_stiffness f)) l (combine hs ts) -> length hs = length ts ->
  exists r, replace_rigid vzero is_zero is_max l = Ok (map fst r, concat (map snd r)) /\
    Forall2 (fun fh x => treated (fst fh) (snd fh) x) (combine l hs) r /\ length r = length l.
Proof.
  assert (One : forall f h t, Forall (fun ids => ids <> []) (f_cells f) -> writes is_zero (newMatrix t) h = Ok (f_stiffness f) ->
    exists x, replace_one vzero is_zero is_max f = Ok x /\ treated f h x).
  { intros f h t C W. assert (Lk : exists ls, mapM link_of (f_cells f) = Ok ls /\ links_of (f_cells f) ls).
    { clear W. induction C as [|ids cells N C IH]; [exists []; split; [reflexivity|constructor]|]. destruct IH as (ls & E & L). destruct ids as [|i ids]; [congruence|].
      exists (mkLink i (nodup Z.eq_dec ids) :: ls). cbn [mapM link_of bind]. rewrite E. split; [reflexivity|]. constructor; [|exact L]. exists ids. split; [reflexivity|]. split; [apply NoDup_nodup|]. intros j. apply nodup_In. }
    destruct Lk as (ls & El & Ll). unfold replace_one. destruct (isMaxDiagonal is_zero is_max (f_stiffness f)) eqn:M.
    - rewrite El. cbn [bind]. eexists. split; [reflexivity|]. unfold treated. cbn [fst snd zeroed f_stiffness f_mass f_damping f_cells]. cbn zeta.
      assert (Rp : no_term vzero (setAllZero vzero (f_stiffness f)) /\ no_term vzero (setAllZero vzero (f_mass f)) /\ no_term vzero (setAllZero vzero (f_damping f)) /\ f_cells f = f_cells f /\ links_of (f_cells f) ls) by (repeat split; try apply zeroed_no_term; exact Ll).
      pose proof (C05_max_diagonal_asked vzero is_zero is_max t h _ W max_not_zero M) as Q. split; [left; split; [exact Rp|exact Q]|]. split; [intros _; exact Rp|].
      intros d1 d2 Nz Ot. exfalso. destruct (Q d1 d2) as [X|[X Y]]; [rewrite X in Nz; congruence|]. destruct Ot; congruence.
    - eexists. split; [reflexivity|]. unfold treated. cbn [fst snd]. cbn zeta. split; [right; split; reflexivity|]. split; [|split; reflexivity].
      intros H. exfalso. enough (isMaxDiagonal is_zero is_max (f_stiffness f) = true) by congruence. unfold isMaxDiagonal. apply forallb_forall. intros [k v] I.
      destruct (stored_written h (newMatrix t) _ W ltac:(intros ? ? []) H k v I) as [Ek Ev]. cbn [fst snd]. rewrite Ev, (max_not_zero _ Ev), Ek, dof_eqb_refl. reflexivity. }
  intros l. induction l as [|f l IH]; intros hs ts C F L.
  - exists []. split; [reflexivity|]. split; [constructor|reflexivity].
  - destruct hs as [|h hs], ts as [|t ts]; cbn [combine] in F; try (inversion F; fail); try discriminate L. inversion F as [|a b c d W F' Ea Eb]; subst. cbn [fst snd] in W.
    destruct (One f h t (C f (or_introl eq_refl)) W) as (x & Ex & Tx). destruct (IH hs ts (fun g Hg => C g (or_intror Hg)) F' ltac:(cbn in L; lia)) as (r & Er & Fr & Lr).
    exists (x :: r). unfold replace_rigid in *. cbn [mapM]. rewrite Ex. cbn [bind]. destruct (mapM (replace_one vzero is_zero is_max) l) as [r'| | |]; try discriminate Er. cbn [bind] in Er |- *.
    injection Er as E1 E2. split; [cbn [map concat]; now rewrite E1, E2|]. split; [cbn [combine]; constructor; [exact Tx|exact Fr]|cbn; now rewrite Lr].
Qed.

(** Whatever its damping and its mass, a set of segments whose stiffness was never written,
    such as that of a PVISC card (NastranParser.cpp:2655-2668), is replaced by rigid links
    and loses them. *)
Theorem C117_no_stiffness : forall t mass damping a b, exists f',
  replace_rigid vzero is_zero is_max [mkStiff (newMatrix t) mass damping [[a; b]]] = Ok ([f'], [mkLink a [b]]) /\ no_term vzero (f_damping f') /\ no_term vzero (f_mass f').
Proof. intros t mass damping a b. eexists. split; [reflexivity|]. split; apply zeroed_no_term. Qed.
End Rigid.
(** Refuted: "a segment without stiffness is not rigid, and keeps its damping". *)
Theorem C117_damper_refuted : exists (f f' : stiff Z) l, no_term 0 (f_stiffness f) /\ findComponent 0 (f_damping f) DX DX = 3 /\ f_cells f = [[8; 9]] /\
  replace_rigid 0 (Z.eqb 0) (Z.eqb 9) [f] = Ok ([f'], [l]) /\ l_master l = 8 /\ l_slaves l = [9] /\ findComponent 0 (f_damping f') DX DX = 0.
Proof.
  exists (mkStiff (newMatrix DIAGONAL) (newMatrix DIAGONAL) (mkMatrix DIAGONAL [((DX, DX), 3)]) [[8; 9]]). eexists _, _.
  split; [intros [] []; reflexivity|]. split; [reflexivity|]. split; [reflexivity|]. split; [reflexivity|]. split; [reflexivity|]. split; reflexivity.
Qed.

(** ** Cells of direct matrices *)
Section Direct.
Context {D : Type} (R z : D).
(** A matrix between nodes of the mesh, given with their numbers; the type of its cell has as many nodes. *)
Definition between (m : mesh D) (x : dmatrix) (ids : list Z) : Prop :=
  NoDup (x_nodes x) /\ Forall2 (fun q i => findNodeId (mnodes m) q = Ok i /\ i <> AUTO_ID) (x_nodes x) ids.
Definition wanted (x : dmatrix) : bool := negb (x_cells x) && match x_nodes x with [] => false | _ => true end.

Lemma ids_nodup (m : mesh D) : cinv m -> forall ns ids, NoDup ns -> Forall2 (fun q i => findNodeId (mnodes m) q = Ok i /\ i <> AUTO_ID) ns ids -> NoDup ids.
Proof.
  intros I. destruct (ci_nodes _ I) as [_ B].
  assert (J : forall p q i, findNodeId (mnodes m) p = Ok i -> findNodeId (mnodes m) q = Ok i -> p = q).
  { intros p q i A1 A2. unfold findNodeId in *. destruct (nth_error (ndatas (mnodes m)) p) as [d|] eqn:E1; [|discriminate]. destruct (nth_error (ndatas (mnodes m)) q) as [d'|] eqn:E2; [|discriminate].
    injection A1 as A1. injection A2 as A2. pose proof (proj2 (B i p) (ex_intro _ d (conj E1 A1))). pose proof (proj2 (B i q) (ex_intro _ d' (conj E2 A2))). congruence. }
  induction 2 as [|q i ns ids [Q1 Q2] F IH]; [constructor|]. inversion H as [|u v N1 N2]; subst. constructor; [|auto]. intros Hi. apply N1.
  clear - F Hi J Q1. induction F as [|q' i' ns ids [A _] F IH]; [destruct Hi|]. destruct Hi as [->|Hi]; [left; symmetry; eauto|right; auto].
Qed.
Lemma poly_sound n : (1 <= n <= 20)%nat -> exists t, polyType n = Ok t /\ numNodes t = n /\ t <> POLY 0.
Proof.
  intros H. destruct n as [|[|[|n]]]; [lia| | |].
  - exists POINT1. split; [reflexivity|]. split; [reflexivity|discriminate].
  - exists SEG2. split; [reflexivity|]. split; [reflexivity|discriminate].
  - exists (POLY (S (S (S n)))). split; [|split; [reflexivity|discriminate]]. cbn [polyType]. destruct (Nat.leb_spec 3 (S (S (S n)))); [|lia]. destruct (Nat.leb_spec (S (S (S n))) 20); [reflexivity|lia].
Qed.
Lemma make_cell_spec k x (s : state D) ids : 0 <= k -> cinv (fst s) -> ginv (snd s) -> between (fst s) x ids -> (1 <= length (x_nodes x) <= 20)%nat ->
  findGroup (snd s) (numbered "DM" k) = None ->
  exists s' t, make_cell R z k x s = Ok s' /\ kept s s' /\ numNodes t = length ids /\ cover s' (numbered "DM" k) [(t, ids)] /\
    (forall n, n <> numbered "DM" k -> findGroup (snd s') n = findGroup (snd s) n).
Proof.
  intros Hk I G [Nd Fi] Hl Fr. destruct (poly_sound _ Hl) as (t & Et & Nt & Pt). unfold make_cell.
  destruct (create_kept (snd s) (numbered "DM" k) G ltac:(discriminate) Fr) as (g1 & h1 & E1 & G1 & Hh1 & K1 & N1 & o1 & Ho1 & Kd1 & Po1 & L1).
  rewrite E1. cbn [bind fst snd]. rewrite Et. cbn [bind]. rewrite (ids_read _ _ _ Fi). cbn [bind].
  assert (Li : length ids = length (x_nodes x)) by (clear - Fi; induction Fi; cbn; congruence).
  destruct (fill_cells R z (fst s, g1) (numbered "DM" k) h1 o1 [(t, ids)]) as (s1 & A1 & C1 & I1 & X1 & T1 & G3 & N3 & H3); cbn [fst snd]; auto.
  { constructor; [|constructor]. split; [cbn [fst snd]; congruence|]. split; [exact Pt|]. split; [|right; eapply ids_nodup; eauto]. cbn [snd]. clear - Fi. induction Fi as [|q i ns ids [_ N] F IH]; constructor; auto. }
  { now rewrite N1, String.eqb_refl. }
  cbn [fst snd] in *. exists s1, t. split; [exact A1|]. split; [|split; [congruence|split; [exact C1|]]].
  - split; [exact I1|]. split; [exact X1|]. split; [exact T1|]. split; [exact G3|]. intros n q y B1 B2. destruct (K1 n q y B1 B2) as [U1 U2]. split; [now rewrite N3|].
    apply H3; [|exact U2]. assert (q < length (heap (snd s)))%nat by (apply nth_error_Some; congruence). lia.
  - intros n Na. rewrite N3, N1. destruct (String.eqb_spec (numbered "DM" k) n); [congruence|reflexivity].
Qed.
Lemma between_kept (s s' : state D) x ids : cinv (fst s) -> kept s s' -> between (fst s) x ids -> between (fst s') x ids.
Proof.
  intros I K [Nd F]. split; [exact Nd|]. destruct (kept_all s s' I K) as (A & _). clear Nd. induction F as [|q i ns l [Q1 Q2] F IH]; constructor; auto.
Qed.
Lemma make_cells_spec : forall l idss k (s : state D), 0 <= k -> cinv (fst s) -> ginv (snd s) -> Forall2 (between (fst s)) l idss ->
  (forall x, In x l -> wanted x = true -> (length (x_nodes x) <= 20)%nat) -> (forall j, k < j -> findGroup (snd s) (numbered "DM" j) = None) ->
  exists s' names, make_cells R z k l s = Ok (s', names) /\ kept s s' /\ (forall n, (forall j, k < j -> n <> numbered "DM" j) -> findGroup (snd s') n = findGroup (snd s) n) /\
    Forall2 (fun xi o => if wanted (fst xi) then exists n t, o = Some n /\ numNodes t = length (snd xi) /\ cover s' n [(t, snd xi)] else o = None) (combine l idss) names /\
    length names = length l /\
    NoDup (flat_map (fun o : option string => match o with Some n => [n] | None => [] end) names) /\
    (forall n, In (Some n) names -> exists j, k < j /\ n = numbered "DM" j).
Proof.
  induction l as [|x l IH]; intros idss k s Hk I G F Big Fr.
  - exists s, []. split; [reflexivity|]. split; [now apply kept_refl|]. split; [reflexivity|]. split; [constructor|]. split; [reflexivity|]. split; [constructor|]. intros n [].
  - inversion F as [|x0 ids l0 idss0 B F']; subst. cbn [make_cells]. destruct (wanted x) eqn:W.
    + assert (Wx : x_cells x || match x_nodes x with [] => true | _ => false end = false).
      { unfold wanted in W. apply andb_true_iff in W. destruct W as [W1 W2]. apply negb_true_iff in W1. rewrite W1. now destruct (x_nodes x). }
      assert (Ln : (1 <= length (x_nodes x) <= 20)%nat).
      { specialize (Big x (or_introl eq_refl) W). unfold wanted in W. apply andb_true_iff in W. destruct W as [_ W]. destruct (x_nodes x); [discriminate|]. cbn in *. lia. }
      destruct (make_cell_spec (k + 1) x s ids ltac:(lia) I G B Ln (Fr (k + 1) ltac:(lia))) as (s1 & t & E1 & K1 & Lt & C1 & N1).
      destruct (IH idss0 (k + 1) s1 ltac:(lia) (proj1 K1) (proj1 (proj2 (proj2 (proj2 K1))))) as (s' & names & E2 & K2 & N2 & F2 & L2 & Nd & Rg).
      { clear - F' I K1. induction F'; constructor; auto. eapply between_kept; eauto. }
      { intros y Hy. apply Big. now right. }
      { intros j Hj. rewrite N1; [apply Fr; lia|]. intros X. apply numbered_inj in X; lia. }
      rewrite Wx, E1. cbn [bind]. rewrite E2. cbn [bind fst snd]. exists s', (Some (numbered "DM" (k + 1)) :: names). split; [reflexivity|]. split; [eapply kept_trans; eauto|]. split.
      { intros n Hn. rewrite N2; [apply N1, Hn; lia|]. intros j Hj. apply Hn. lia. }
      split; [cbn [combine]; constructor; [cbn [fst snd]; rewrite W; exists (numbered "DM" (k + 1)), t; split; [reflexivity|]; split; [exact Lt|]; eapply cover_kept; [exact (proj1 K1)|exact K2|exact C1]|exact F2]|].
      split; [cbn; now rewrite L2|]. split.
      * cbn [flat_map app]. constructor; [|exact Nd]. intros H. apply in_flat_map in H. destruct H as ([n|] & H & H'); [|destruct H']. destruct H' as [->|[]].
        destruct (Rg _ H) as (j & Hj & X). apply numbered_inj in X; lia.
      * intros n [H|H]; [injection H as <-; exists (k + 1); split; [lia|reflexivity]|]. destruct (Rg n H) as (j & Hj & X). exists j. split; [lia|exact X].
    + assert (Wx : x_cells x || match x_nodes x with [] => true | _ => false end = true).
      { unfold wanted in W. apply andb_false_iff in W. destruct W as [W|W]; [apply negb_false_iff in W; now rewrite W|]. destruct (x_nodes x); [apply orb_true_r|discriminate]. }
      destruct (IH idss0 k s Hk I G F' (fun y Hy => Big y (or_intror Hy)) Fr) as (s' & names & E2 & K2 & N2 & F2 & L2 & Nd & Rg).
      rewrite Wx, E2. cbn [bind fst snd]. exists s', (None :: names). split; [reflexivity|]. split; [exact K2|]. split; [exact N2|].
      split; [cbn [combine]; constructor; [cbn [fst snd]; now rewrite W|exact F2]|]. split; [cbn; now rewrite L2|]. split; [exact Nd|]. intros n [H|H]; [discriminate|auto].
Qed.

(** Each direct matrix that has no cell and has nodes, up to 20, is given a group of its own,
    with one cell over its nodes; the others are given nothing; nothing else changes. *)
Theorem C117_matrix_cells : forall tr h m gs l idss, mbuilt R z tr h m -> gbuilt gs -> Forall2 (between m) l idss ->
  (forall x, In x l -> wanted x = true -> (length (x_nodes x) <= 20)%nat) -> (forall j, 0 < j -> findGroup gs (numbered "DM" j) = None) ->
  exists s' names, make_cells R z 0 l (m, gs) = Ok (s', names) /\ all_kept (m, gs) s' /\
    Forall2 (fun xi o => if wanted (fst xi) then exists n t, o = Some n /\ numNodes t = length (snd xi) /\ group_of_cells s' n [(t, snd xi)] else o = None) (combine l idss) names /\
    NoDup (flat_map (fun o : option string => match o with Some n => [n] | None => [] end) names).
Proof.
  intros tr h m gs l idss B G F Big Fr. destruct (mbuilt_inv _ _ _ _ _ B) as [I _]. pose proof (gbuilt_inv _ G) as Gi.
  destruct (make_cells_spec l idss 0 (m, gs) ltac:(lia) I Gi F Big Fr) as (s' & names & E & K & _ & F2 & _ & Nd & _).
  exists s', names. split; [exact E|]. split; [now apply kept_all|]. split; [|exact Nd]. exact F2.
Qed.
(** A matrix with more than 20 nodes is an error, whatever comes before it. *)
Theorem C117_matrix_too_big : forall tr h m gs l x idss r, mbuilt R z tr h m -> gbuilt gs -> Forall2 (between m) l idss ->
  (forall x, In x l -> wanted x = true -> (length (x_nodes x) <= 20)%nat) -> (forall j, 0 < j -> findGroup gs (numbered "DM" j) = None) ->
  wanted x = true -> (20 < length (x_nodes x))%nat -> make_cells R z 0 (l ++ x :: r) (m, gs) = Throw.
Proof.
  intros tr h m gs l x idss r B G F Big Fr W Lx. destruct (mbuilt_inv _ _ _ _ _ B) as [I _]. pose proof (gbuilt_inv _ G) as Gi.
  assert (K : forall l idss k (s : state D), 0 <= k -> cinv (fst s) -> ginv (snd s) -> Forall2 (between (fst s)) l idss ->
    (forall x, In x l -> wanted x = true -> (length (x_nodes x) <= 20)%nat) -> (forall j, k < j -> findGroup (snd s) (numbered "DM" j) = None) -> make_cells R z k (l ++ x :: r) s = Throw).
  { clear l idss F Big B G Fr I Gi m gs. induction l as [|y l IH]; intros idss k s Hk I G F Big Fr.
    - cbn [app make_cells]. assert (Wx : x_cells x || match x_nodes x with [] => true | _ => false end = false).
      { unfold wanted in W. apply andb_true_iff in W. destruct W as [W1 W2]. apply negb_true_iff in W1. rewrite W1. now destruct (x_nodes x). }
      rewrite Wx. unfold make_cell.
      destruct (create_kept (snd s) (numbered "DM" (k + 1)) G ltac:(discriminate) (Fr (k + 1) ltac:(lia))) as (g1 & h1 & E1 & _). rewrite E1. cbn [bind].
      assert (P : polyType (length (x_nodes x)) = Throw); [|now rewrite P].
      revert Lx. generalize (length (x_nodes x)). intros n0 Lx. destruct n0 as [|[|[|n]]]; [lia..|]. cbn [polyType]. destruct (Nat.leb_spec (S (S (S n))) 20); [lia|]. now rewrite andb_false_r.
    - inversion F as [|x0 ids l0 idss0 B F']; subst. cbn [app make_cells]. destruct (x_cells y || match x_nodes y with [] => true | _ => false end) eqn:Wy.
      + rewrite (IH idss0 k s); auto. intros q Hq. apply Big. now right.
      + assert (W' : wanted y = true). { unfold wanted. apply orb_false_iff in Wy. destruct Wy as [-> Wy]. now destruct (x_nodes y). }
        assert (Ln : (1 <= length (x_nodes y) <= 20)%nat). { specialize (Big y (or_introl eq_refl) W'). destruct (x_nodes y); [rewrite orb_true_r in Wy; discriminate|]. cbn in *. lia. }
        destruct (make_cell_spec (k + 1) y s ids ltac:(lia) I G B Ln (Fr (k + 1) ltac:(lia))) as (s1 & t & E1 & K1 & Lt & C1 & N1).
        rewrite E1. cbn [bind]. rewrite (IH idss0 (k + 1) s1 ltac:(lia) (proj1 K1) (proj1 (proj2 (proj2 (proj2 K1))))); auto.
        * clear - F' I K1. induction F'; constructor; auto. eapply between_kept; eauto.
        * intros q Hq. apply Big. now right.
        * intros j Hj. rewrite N1; [apply Fr; lia|]. intros X. apply numbered_inj in X; lia. }
  now apply (K l idss 0 (m, gs)).
Qed.
End Direct.

(** ** Node groups of the sets *)
Lemma set_name_inj a b : 0 <= b_num a -> 0 <= b_num b -> set_name a = set_name b -> b_kind a = b_kind b /\ b_num a = b_num b.
Proof.
  unfold set_name. destruct a as [oa ka na la], b as [ob kb nb lb]. cbn [b_kind b_num]. intros Ha Hb E.
  destruct ka, kb; try (discriminate E); (split; [reflexivity|]); now apply numbered_inj in E.
Qed.
Lemma adds_spec h : forall ps gs, ginv gs -> (h < length (heap gs))%nat ->
  let gs' := fold_left (fun a p => groupAdd a h p) ps gs in
  ginv gs' /\ (forall n, findGroup gs' n = findGroup gs n) /\
  (forall k g, nth_error (heap gs) k = Some g -> exists g', nth_error (heap gs') k = Some g' /\ g_name g' = g_name g /\ g_kind g' = g_kind g /\
     (forall q, In q (g_pos g') <-> In q (g_pos g) \/ k = h /\ In q ps) /\ (k <> h -> g' = g)).
Proof.
  induction ps as [|p ps IH]; intros gs G Hh; cbn [fold_left]; cbn zeta.
  - split; [exact G|]. split; [reflexivity|]. intros k g Hg. exists g. split; [exact Hg|]. split; [reflexivity|]. split; [reflexivity|]. split; [|reflexivity]. intros q. cbn. tauto.
  - destruct (groupAdd_spec gs h p G) as [G1 H1]. destruct (IH (groupAdd gs h p) G1) as (G2 & N2 & H2); [cbn [groupAdd heap]; now rewrite upd_length|].
    split; [exact G2|]. split; [intros n; rewrite N2; reflexivity|]. intros k g Hg. destruct (H1 k g Hg) as (g1 & Hg1 & A1 & A2 & _ & A3).
    destruct (H2 k g1 Hg1) as (g2 & Hg2 & B1 & B2 & B3 & B4). exists g2. split; [exact Hg2|]. split; [congruence|]. split; [congruence|]. split.
    + intros q. rewrite B3, A3. cbn [In]. intuition congruence.
    + intros N. rewrite (B4 N). cbn [groupAdd heap] in Hg1. rewrite upd_nth, Hg in Hg1. destruct (Nat.eqb_spec h k); [congruence|]. cbn in Hg1. congruence.
Qed.
Lemma set_group_spec gs b : ginv gs -> findGroup gs (set_name b) = None -> b_original b = true ->
  exists gs', set_group gs b = Ok gs' /\ ginv gs' /\ kept_groups gs gs' /\ node_group gs' (set_name b) (concat (b_nodes b)) /\
    (forall n, n <> set_name b -> findGroup gs' n = findGroup gs n).
Proof.
  intros G F O. unfold set_group. rewrite O.
  assert (Ne : set_name b <> ""%string) by (unfold set_name; destruct (b_kind b); discriminate).
  destruct (createGroup_spec gs NodeG (set_name b) NO_ORIGINAL G Ne F) as (g1 & h & E & G1 & Hh & Hp & N & _); [congruence|]. rewrite E. cbn [bind fst snd].
  destruct (adds_spec h (concat (b_nodes b)) g1 G1) as (G2 & N2 & H2); [rewrite Hp, app_length; cbn; lia|]. cbn zeta in *.
  eexists. split; [reflexivity|]. split; [exact G2|]. split; [|split].
  - intros n k x A B. rewrite N2, N. destruct (String.eqb_spec (set_name b) n); [congruence|]. split; [exact A|].
    assert (L : (k < length (heap gs))%nat) by (apply nth_error_Some; congruence).
    destruct (H2 k x) as (x' & Hx' & _ & _ & _ & S); [rewrite Hp, nth_error_app1; assumption|]. rewrite S in Hx' by lia. exact Hx'.
  - destruct (H2 h (mkG (set_name b) NodeG NO_ORIGINAL (gauto gs + 1) [])) as (x' & Hx' & A1 & A2 & A3 & _); [rewrite Hp, Hh, nth_error_app2, Nat.sub_diag by lia; reflexivity|].
    exists h, x'. split; [rewrite N2, N; now rewrite String.eqb_refl|]. split; [exact Hx'|]. split; [exact A2|]. split; [exact A1|]. intros q. rewrite A3. cbn [g_pos In]. tauto.
  - intros n Hn. rewrite N2, N. destruct (String.eqb_spec (set_name b) n); [congruence|reflexivity].
Qed.

(** Each set that was read has, at the end, a node group of its own that holds exactly the
    nodes of its loads or constraints; the sets made on the way have none. *)
Theorem C117_set_groups : forall gs loads constraints, gbuilt gs ->
  (forall b, In b (loads ++ constraints) -> 0 <= b_num b /\ (b_original b = true -> findGroup gs (set_name b) = None)) ->
  NoDup (map (fun b => (b_kind b, b_num b)) (filter b_original (loads ++ constraints))) ->
  exists gs', set_groups loads constraints gs = Ok gs' /\ kept_groups gs gs' /\
    (forall b, In b (loads ++ constraints) -> b_original b = true -> node_group gs' (set_name b) (concat (b_nodes b))) /\
    (forall n, (forall b, In b (loads ++ constraints) -> b_original b = true -> n <> set_name b) -> findGroup gs' n = findGroup gs n).
Proof.
  intros gs loads constraints B. pose proof (gbuilt_inv _ B) as G. unfold set_groups. generalize (loads ++ constraints) as l. clear B loads constraints. intros l. revert gs G.
  induction l as [|b l IH]; intros gs G P N.
  - exists gs. split; [reflexivity|]. split; [intros n h x A1 A2; now split|]. split; [intros b []|reflexivity].
  - cbn [filter] in N. cbn [foldM]. destruct (P b (or_introl eq_refl)) as [P1 P2]. destruct (b_original b) eqn:O.
    + cbn [map] in N. inversion N as [|u v N1 N2]; subst. destruct (set_group_spec gs b G (P2 eq_refl) O) as (g1 & E1 & G1 & K1 & Q1 & F1). rewrite E1. cbn [bind].
      assert (Dn : forall c, In c l -> b_original c = true -> set_name c <> set_name b).
      { intros c Hc Oc X. destruct (P c (or_intror Hc)) as [C1 _]. apply set_name_inj in X; [|assumption..]. destruct X as [X1 X2]. apply N1. rewrite <- X1, <- X2.
        apply (in_map (fun b => (b_kind b, b_num b))). now apply filter_In. }
      destruct (IH g1 G1) as (g2 & E2 & K2 & Q2 & F2).
      { intros c Hc. destruct (P c (or_intror Hc)) as [C1 C2]. split; [exact C1|]. intros Oc. rewrite F1; [auto|]. now apply Dn. }
      { exact N2. }
      exists g2. split; [exact E2|]. split; [intros n h x A1 A2; destruct (K1 n h x A1 A2); now apply K2|]. split.
      * intros c [<- |Hc] Oc; [|now apply Q2]. destruct Q1 as (h & x & A1 & A2 & A3 & A4 & A5). destruct (K2 _ _ _ A1 A2) as [W1 W2]. exists h, x. auto.
      * intros n Hn. rewrite F2; [apply F1; apply Hn; [now left|exact O]|]. intros c Hc. apply Hn. now right.
    + assert (E1 : set_group gs b = Ok gs) by (unfold set_group; now rewrite O). rewrite E1. cbn [bind].
      destruct (IH gs G (fun c Hc => P c (or_intror Hc)) N) as (g2 & E2 & K2 & Q2 & F2). exists g2. split; [exact E2|]. split; [exact K2|]. split.
      * intros c [<- |Hc] Oc; [congruence|now apply Q2].
      * intros n Hn. apply F2. intros c Hc. apply Hn. now right.
Qed.
(** A group of the model that already has the name of a set is an error. *)
Theorem C117_set_name_taken : forall gs b loads constraints h, b_original b = true -> findGroup gs (set_name b) = Some h ->
  set_groups (b :: loads) constraints gs = Throw.
Proof.
  intros gs b loads constraints h O F. unfold set_groups. cbn [app foldM]. unfold set_group. rewrite O. unfold createGroup. destruct (String.eqb_spec (set_name b) ""); [|rewrite F]; reflexivity.
Qed.

(** ** Examples *)
(** A frequency, a displacement of a node that has the degree of freedom, a rotation that only
    the boundary conditions of one analysis hold, and a rotation that nothing holds. *)
Definition C117_nodes : list dofs := [7; 63].
Definition C117_all : list assertion := [mkAssert 0 []; mkAssert 1 [(0%nat, 2)]; mkAssert 2 [(0%nat, 8)]; mkAssert 3 [(0%nat, 16)]; mkAssert 4 [(1%nat, 32)]].
Definition C117_an : list analysis := [mkAnalysis [0; 1; 2; 3]%nat [(0, 8)]; mkAnalysis [1; 4]%nat []].
Example C117_assertions_case : asserted C117_nodes C117_an C117_all /\
  (do l <- remove_assertions C117_nodes C117_an C117_all; Ok (map a_ref l)) = Ok [0; 1; 2; 4]%nat.
Proof.
  split; [|vm_compute; reflexivity]. constructor.
  - cbn. repeat (constructor; [cbn; intuition discriminate|]). constructor.
  - intros d [<- |[<- |[]]]; unfold is_set; lia.
  - intros n p [<- |[<- |[]]]; unfold find_boundary; cbn [n_boundary zfind]; repeat match goal with |- context [if ?c then _ else _] => destruct c end; unfold is_set, NO_DOFS; cbn; lia.
  - intros a p s Ha Hp. cbn in Ha. repeat (destruct Ha as [<- |Ha]; [cbn in Hp; repeat (destruct Hp as [[= <- <-]|Hp]; [unfold is_set; cbn; lia|]); destruct Hp|]). destruct Ha.
Qed.
(** A rigid bush, a soft one and a viscous damper; 9 stands for the infinite stiffness. *)
Definition C117_bush k : dofmatrix Z := mkMatrix DIAGONAL [((DX, DX), 9); ((DY, DY), k)].
Example C117_rigid_case : exists f g d, replace_rigid 0 (Z.eqb 0) (Z.eqb 9)
    [mkStiff (C117_bush 9) (newMatrix DIAGONAL) (newMatrix DIAGONAL) [[1; 2]; [3; 4; 5; 4]]; mkStiff (C117_bush 4) (newMatrix DIAGONAL) (newMatrix DIAGONAL) [[6; 7]];
     mkStiff (newMatrix DIAGONAL) (newMatrix DIAGONAL) (mkMatrix DIAGONAL [((DX, DX), 3)]) [[8; 9]]] =
  Ok ([f; g; d], [mkLink 1 [2]; mkLink 3 [5; 4]; mkLink 8 [9]]) /\
  findComponent 0 (f_stiffness g) DY DY = 4 /\ findComponent 0 (f_damping d) DX DX = 0 /\
  writes (Z.eqb 0) (newMatrix DIAGONAL) [((DX, DX), 9); ((DY, DY), 9)] = Ok (C117_bush 9) /\
  (forall v, Z.eqb 9 v = true -> Z.eqb 0 v = false).
Proof. eexists _, _, _. split; [vm_compute; reflexivity|]. split; [reflexivity|]. split; [reflexivity|]. split; [reflexivity|]. intros v H. apply Z.eqb_eq in H. now subst v. Qed.
Definition C117_h : list (mop Z) := [MNode (Define 10 0 0 0 0 0); MNode (Define 20 5 0 0 0 0); MNode (Define 30 5 7 0 0 0); MCell 1 SEG2 [10; 20] false 0 100 0].
Definition C117_gs : groups := match grun (empty_groups 0) [GCreate CellG "BAR" 4; GAdd 0 0%nat] with Ok g => g | _ => empty_groups 0 end.
Definition C117_ms : list dmatrix := [mkDM false [0; 2]%nat; mkDM true [1]%nat; mkDM false []; mkDM false [0; 1; 2]%nat].
Example C117_matrix_case : exists m, mbuilt (-1) 0 true C117_h m /\ gbuilt C117_gs /\ Forall2 (between m) C117_ms [[10; 30]; [20]; []; [10; 20; 30]] /\
  (forall x, In x C117_ms -> wanted x = true -> (length (x_nodes x) <= 20)%nat) /\ (forall j, 0 < j -> findGroup C117_gs (numbered "DM" j) = None) /\
  exists m' gs', make_cells (-1) 0 0 C117_ms (m, C117_gs) = Ok ((m', gs'), [Some "DM1"; None; None; Some "DM2"]%string) /\
    (do c <- findCell m' 2; Ok (c_type c, c_nodeIds c)) = Ok (POLY 3, [10; 20; 30]).
Proof.
  destruct (mrun (-1) 0 (empty_mesh 9999999 0 9999999 true) C117_h) as [m| | |] eqn:E; [|vm_compute in E; discriminate..].
  exists m. split; [split; [intros o Ho; cbn in Ho; repeat (destruct Ho as [<-|Ho]; [good_tac|]); destruct Ho|exists 9999999, 0, 9999999; exact E]|].
  vm_compute in E. injection E as <-. split; [exists 0, [GCreate CellG "BAR" 4; GAdd 0 0%nat]; vm_compute; reflexivity|]. split.
  { repeat (constructor; [split; [repeat (constructor; [cbn; intuition discriminate|]); constructor|repeat (constructor; [split; [vm_compute; reflexivity|vm_compute; discriminate]|]); constructor]|]). constructor. }
  split; [intros x Hx _; cbn in Hx; repeat (destruct Hx as [<- |Hx]; [cbn; lia|]); destruct Hx|]. split; [intros j _; reflexivity|].
  eexists _, _. vm_compute. split; reflexivity.
Qed.
Definition C117_ls : list bset := [mkSet true LLoad 3 [[4; 5]; [5; 6]]%nat; mkSet false LLoad 9 [[7]]%nat].
Definition C117_cs : list bset := [mkSet true KSpc 3 [[1]]%nat; mkSet true KAll 1 []].
Example C117_sets_case : gbuilt C117_gs /\
  (forall b, In b (C117_ls ++ C117_cs) -> 0 <= b_num b /\ (b_original b = true -> findGroup C117_gs (set_name b) = None)) /\
  NoDup (map (fun b => (b_kind b, b_num b)) (filter b_original (C117_ls ++ C117_cs))) /\
  exists gs', set_groups C117_ls C117_cs C117_gs = Ok gs' /\ map g_name (heap gs') = ["BAR"; "LS_LOAD_3"; "CS_SPC_3"; "CS_ALL_1"]%string /\
    option_map g_pos (nth_error (heap gs') 1) = Some [6; 5; 4]%nat.
Proof.
  split; [exists 0, [GCreate CellG "BAR" 4; GAdd 0 0%nat]; vm_compute; reflexivity|]. split.
  { intros b Hb. cbn in Hb. repeat (destruct Hb as [<- |Hb]; [split; [cbn; lia|intros _; vm_compute; reflexivity]|]). destruct Hb. }
  split; [cbn; repeat (constructor; [cbn; intuition discriminate|]); constructor|]. eexists. vm_compute. split; [reflexivity|]. split; reflexivity.
Qed.
Print Assumptions C117_assertions.
Print Assumptions C117_assertion_refuted.
Print Assumptions C117_analyses.
Print Assumptions C117_no_analysis.
Print Assumptions C117_no_analysis_refuted.
Print Assumptions C117_rigid_segments.
Print Assumptions C117_no_stiffness.
Print Assumptions C117_damper_refuted.
Print Assumptions C117_matrix_cells.
Print Assumptions C117_matrix_too_big.
Print Assumptions C117_set_groups.
Print Assumptions C117_set_name_taken.
