(** Lemmas on the model of the splitting by offsets. *)
From Coq Require Import ZArith QArith Qround Qabs List Bool Arith Lia Sorted.
From Verif Require Import Base ZMap ReferenceModel ReferenceProofs OffsetModel.
Import ListNotations.
Open Scope Z_scope.

Arguments rounded : simpl never.
Section Split.
Context {D : Type}.
Variable off : nat -> Q.
Notation eset := (object (plate D)).

Definition key (x : eset * nat) : Z := rounded (off (snd x)).
Definition visits (os : list eset) : list (eset * nat) :=
  flat_map (fun o => map (pair o) (pl_cells (payload o))) os.
Definition step (st : @state D) (x : eset * nat) : @state D := visit off (fst x) st (snd x).

Lemma loop_visits os add : loop off os add = fst (fold_left step (visits os) (add, [])).
Proof.
  unfold loop. f_equal. generalize (add, @nil (Z * nat)). induction os as [|o os IH]; intros st; [reflexivity|].
  cbn [fold_left visits flat_map]. rewrite fold_left_app. unfold visits in IH. rewrite <- IH. f_equal.
  generalize (pl_cells (payload o)). intros l. revert st.
  induction l as [|c l IHl]; intros st; [reflexivity|]. cbn [fold_left map]. now rewrite <- IHl.
Qed.

(** The first visit of each class. *)
Definition first_step (fs : list (eset * nat)) (x : eset * nat) : list (eset * nat) :=
  if existsb (fun y => key y =? key x) fs then fs else fs ++ [x].
Definition firsts (v : list (eset * nat)) : list (eset * nat) := fold_left first_step v [].

Definition mates (v : list (eset * nat)) (k : Z) : list nat :=
  fold_left (fun l c => put c l) (map snd (filter (fun y => key y =? k) v)) [].
Definition gathered (v : list (eset * nat)) (x : eset * nat) : eset :=
  let o := fst x in
  mkObj (otype o) (ooid o) (oid o)
        (mkPlate (pl_data (payload o)) (pl_offset (payload o) + off (snd x))%Q (mates v (key x))).

Lemma firsts_snoc v x : firsts (v ++ [x]) = first_step (firsts v) x.
Proof. unfold firsts. now rewrite fold_left_app. Qed.

Lemma mates_snoc v x k :
  mates (v ++ [x]) k = if key x =? k then put (snd x) (mates v k) else mates v k.
Proof.
  unfold mates. rewrite filter_app. cbn [filter]. destruct (key x =? k).
  - now rewrite map_app, fold_left_app.
  - now rewrite app_nil_r.
Qed.

Lemma firsts_in v x : In x (firsts v) -> In x v.
Proof.
  induction v as [|y v IH] using rev_ind; [intros []|]. rewrite firsts_snoc. unfold first_step.
  destruct (existsb _ _); intros H.
  - apply in_or_app. left. auto.
  - apply in_app_iff in H. apply in_app_iff. tauto.
Qed.

Lemma firsts_keys v k : (exists x, In x (firsts v) /\ key x = k) <-> (exists x, In x v /\ key x = k).
Proof.
  induction v as [|y v IH] using rev_ind; [tauto|]. rewrite firsts_snoc. unfold first_step.
  destruct (existsb _ _) eqn:E.
  - rewrite IH. split; intros (x & H & K).
    + exists x. split; [apply in_or_app; now left|exact K].
    + apply in_app_iff in H. destruct H as [H|[<-|[]]]; [now exists x|].
      apply existsb_exists in E. destruct E as (z & Hz & Ez). apply Z.eqb_eq in Ez.
      apply IH. exists z. split; [exact Hz|congruence].
  - split; intros (x & H & K).
    + apply in_app_iff in H. destruct H as [H|[<-|[]]].
      * destruct IH as [IH _]. destruct IH as (z & Hz & Kz); [now exists x|]. exists z. split; [apply in_or_app; now left|exact Kz].
      * exists y. split; [apply in_or_app; right; now left|exact K].
    + apply in_app_iff in H. destruct H as [H|[<-|[]]].
      * destruct IH as [_ IH]. destruct IH as (z & Hz & Kz); [now exists x|]. exists z. split; [apply in_or_app; now left|exact Kz].
      * exists y. split; [apply in_or_app; right; now left|exact K].
Qed.

Lemma firsts_nodup v : NoDup (map key (firsts v)).
Proof.
  induction v as [|y v IH] using rev_ind; [constructor|]. rewrite firsts_snoc. unfold first_step.
  destruct (existsb _ _) eqn:E; [exact IH|]. rewrite map_app. cbn [map].
  apply NoDup_Add with (a := key y) (l := map key (firsts v)).
  - replace (map key (firsts v)) with (map key (firsts v) ++ []) at 1 by apply app_nil_r. apply Add_app.
  - split; [exact IH|]. intros H. apply in_map_iff in H. destruct H as (z & Ez & Hz).
    assert (existsb (fun z => key z =? key y) (firsts v) = true); [|congruence].
    apply existsb_exists. exists z. split; [exact Hz|now apply Z.eqb_eq].
Qed.

Lemma update_nth i f (l : list eset) : forall x, nth_error l i = Some x ->
  update i f l = firstn i l ++ f x :: skipn (S i) l.
Proof.
  revert l. induction i as [|i IH]; intros [|y l] x H; try discriminate; cbn in *.
  - now injection H as ->.
  - f_equal. now apply IH.
Qed.

Lemma update_start i f (s l : list eset) : update (length s + i) f (s ++ l) = s ++ update i f l.
Proof. induction s as [|x s IH]; [reflexivity|]. cbn. now rewrite IH. Qed.

Lemma update_map {A} i f (g h : A -> eset) (l : list A) : forall x,
  nth_error l i = Some x -> (forall j y, nth_error l j = Some y -> j <> i -> g y = h y) -> f (g x) = h x ->
  update i f (map g l) = map h l.
Proof.
  revert l. induction i as [|i IH]; intros [|y l] x H A1 A2; try discriminate; cbn in *.
  - injection H as ->. rewrite A2. f_equal. apply map_ext_in. intros z Hz.
    apply In_nth_error in Hz. destruct Hz as [j Hj]. apply (A1 (S j)); [exact Hj|lia].
  - f_equal; [apply (A1 O); [reflexivity|lia]|]. apply (IH l x H); [|exact A2].
    intros j z Hj Nj. apply (A1 (S j)); [exact Hj|lia].
Qed.

Lemma zfind_put {A} (m : zmap A) k a k' : zmap_wf m ->
  zfind (zinsert m k a) k' = if k =? k' then Some a else zfind m k'.
Proof. intros W. rewrite zfind_insert; auto. Qed.

Lemma mates_absent v k : (forall x, In x v -> key x <> k) -> mates v k = [].
Proof.
  intros H. unfold mates. replace (filter (fun y => key y =? k) v) with (@nil (eset * nat)); [reflexivity|].
  symmetry. induction v as [|x v IH]; [reflexivity|]. cbn [filter].
  destruct (Z.eqb_spec (key x) k) as [E|_]; [exfalso; apply (H x); [now left|exact E]|].
  apply IH. intros y Hy. apply H. now right.
Qed.

Lemma loop_shape start v :
  fst (fold_left step v (start, [])) = start ++ map (gathered v) (firsts v).
Proof.
  assert (G : let st := fold_left step v (start, []) in
    fst st = start ++ map (gathered v) (firsts v) /\ zmap_wf (snd st) /\
    forall k i, zfind (snd st) k = Some i <->
      exists j x, i = (length start + j)%nat /\ nth_error (firsts v) j = Some x /\ key x = k).
  2: exact (proj1 G).
  induction v as [|x v IH] using rev_ind; cbv zeta in *.
  - cbn. rewrite app_nil_r. split; [reflexivity|]. split; [constructor|]. intros k i. split; [discriminate|].
    intros (j & x & _ & H & _). destruct j; discriminate.
  - rewrite fold_left_app. cbn [fold_left]. destruct (fold_left step v (start, [])) as [add tab]. cbn [fst snd] in *.
    destruct IH as (E & W & T). rewrite firsts_snoc. unfold step, visit. cbn [fst snd].
    change (rounded (off (snd x))) with (key x).
    unfold first_step. destruct (existsb (fun y => key y =? key x) (firsts v)) eqn:Ex.
    + apply existsb_exists in Ex. destruct Ex as (y & Hy & Ey). apply Z.eqb_eq in Ey.
      apply In_nth_error in Hy. destruct Hy as [j Hj].
      assert (F : zfind tab (key x) = Some (length start + j)%nat) by (apply T; eauto).
      rewrite F. cbn [fst snd]. split; [|split; [exact W|exact T]].
      rewrite E, update_start. f_equal. apply (update_map j _ _ _ _ y Hj).
      * intros i z Hi Ni. unfold gathered. do 2 f_equal. rewrite mates_snoc.
        destruct (Z.eqb_spec (key x) (key z)) as [C|_]; [|reflexivity]. exfalso. apply Ni.
        pose proof (firsts_nodup v) as N. rewrite NoDup_nth_error in N. apply N.
        -- rewrite map_length. apply nth_error_Some. congruence.
        -- rewrite !nth_error_map, Hi, Hj. cbn. congruence.
      * unfold gathered, join. cbn. do 2 f_equal. rewrite mates_snoc. destruct (Z.eqb_spec (key x) (key y)); congruence.
    + assert (Nk : forall y, In y v -> key y <> key x).
      { intros y Hy Ey. destruct (firsts_keys v (key x)) as [_ K]. destruct K as (z & Hz & Kz); [now exists y|].
        assert (existsb (fun y => key y =? key x) (firsts v) = true); [|congruence].
        apply existsb_exists. exists z. split; [exact Hz|now apply Z.eqb_eq]. }
      assert (F : zfind tab (key x) = None).
      { destruct (zfind tab (key x)) as [i|] eqn:F; [|reflexivity]. apply T in F. destruct F as (j & y & _ & Hj & Ky).
        exfalso. apply (Nk y); [|exact Ky]. apply firsts_in. eapply nth_error_In, Hj. }
      rewrite F. cbn [fst snd]. split; [|split; [now apply zinsert_wf|]].
      * rewrite E, map_app, <- app_assoc. f_equal. cbn [map]. f_equal.
        -- apply map_ext_in. intros y Hy. unfold gathered. do 2 f_equal. rewrite mates_snoc.
           destruct (Z.eqb_spec (key x) (key y)) as [C|_]; [|reflexivity].
           exfalso. apply (Nk y); [now apply firsts_in|congruence].
        -- unfold cloned, gathered. do 3 f_equal. rewrite mates_snoc, Z.eqb_refl, mates_absent by exact Nk. reflexivity.
      * intros k i. rewrite zfind_put by exact W. assert (Ll : length add = (length start + length (firsts v))%nat).
        { rewrite E, app_length, map_length. reflexivity. }
        destruct (Z.eqb_spec (key x) k) as [Ek|Nx].
        -- split.
           ++ intros [= <-]. exists (length (firsts v)), x. split; [exact Ll|]. split; [|exact Ek].
              rewrite nth_error_app2 by lia. now rewrite Nat.sub_diag.
           ++ intros (j & y & -> & Hj & Ky). f_equal. rewrite Ll. f_equal.
              destruct (lt_dec j (length (firsts v))) as [L|L].
              ** rewrite nth_error_app1 in Hj by exact L. exfalso. apply (Nk y); [|congruence].
                 apply firsts_in. eapply nth_error_In, Hj.
              ** rewrite nth_error_app2 in Hj by lia. destruct (j - length (firsts v))%nat eqn:Ej; [lia|]. destruct n; discriminate.
        -- rewrite T. split; intros (j & y & -> & Hj & Ky); exists j, y; (split; [reflexivity|]); (split; [|exact Ky]).
           ++ rewrite nth_error_app1; [exact Hj|]. apply nth_error_Some. congruence.
           ++ destruct (lt_dec j (length (firsts v))) as [L|L]; [now rewrite nth_error_app1 in Hj by exact L|].
              rewrite nth_error_app2 in Hj by lia. destruct (j - length (firsts v))%nat eqn:Ej; cbn in Hj; [congruence|]. destruct n; discriminate.
Qed.

Lemma put_in c l d : In d (put c l) <-> d = c \/ In d l.
Proof.
  unfold put. destruct (existsb (Nat.eqb c) l) eqn:E.
  - apply existsb_exists in E. destruct E as (x & Hx & Ex). apply Nat.eqb_eq in Ex. subst x. intuition congruence.
  - rewrite in_app_iff. cbn. intuition congruence.
Qed.

Lemma mates_in v k c : In c (mates v k) <-> exists o, In (o, c) v /\ rounded (off c) = k.
Proof.
  induction v as [|x v IH] using rev_ind.
  - cbn. split; [intros []|intros (o & [] & _)].
  - rewrite mates_snoc. destruct (Z.eqb_spec (key x) k) as [E|N].
    + rewrite put_in, IH. split.
      * intros [->|(o & H & K)]; [exists (fst x); split; [apply in_or_app; right; left; now destruct x|exact E]|].
        exists o. split; [apply in_or_app; now left|exact K].
      * intros (o & H & K). apply in_app_iff in H. destruct H as [H|[->|[]]]; [right; now exists o|now left].
    + rewrite IH. split; intros (o & H & K); exists o; (split; [|exact K]).
      * apply in_or_app. now left.
      * apply in_app_iff in H. destruct H as [H|[->|[]]]; [exact H|]. exfalso. apply N. exact K.
Qed.

Lemma visits_in os o c : In (o, c) (visits os) <-> In o os /\ In c (pl_cells (payload o)).
Proof.
  unfold visits. rewrite in_flat_map. split.
  - intros (x & Hx & H). apply in_map_iff in H. destruct H as (d & [= -> ->] & Hd). now split.
  - intros [Ho Hc]. exists o. split; [exact Ho|]. now apply in_map.
Qed.

(** A first visit comes before the others of its class. *)
Lemma firsts_split v x : In x (firsts v) ->
  exists v1 v2, v = v1 ++ x :: v2 /\ forall y, In y v1 -> key y <> key x.
Proof.
  induction v as [|y v IH] using rev_ind; [intros []|]. rewrite firsts_snoc. unfold first_step.
  assert (K : In x (firsts v) -> exists v1 v2, v ++ [y] = v1 ++ x :: v2 /\ forall y, In y v1 -> key y <> key x).
  { intros H. destruct (IH H) as (v1 & v2 & -> & Hv). exists v1, (v2 ++ [y]). split; [|exact Hv].
    now rewrite <- app_assoc. }
  destruct (existsb _ _) eqn:E; [exact K|]. intros H. apply in_app_iff in H. destruct H as [H|[<-|[]]]; [auto|].
  exists v, []. split; [reflexivity|]. intros z Hz Ez.
  destruct (firsts_keys v (key y)) as [_ F]. destruct F as (w & Hw & Kw); [now exists z|].
  assert (existsb (fun z => key z =? key y) (firsts v) = true); [|congruence].
  apply existsb_exists. exists w. split; [exact Hw|now apply Z.eqb_eq].
Qed.

Lemma split_firsts v1 x v2 : (forall y, In y v1 -> key y <> key x) -> In x (firsts (v1 ++ x :: v2)).
Proof.
  intros H. induction v2 as [|z v2 IH] using rev_ind.
  - rewrite firsts_snoc. unfold first_step. destruct (existsb _ _) eqn:E; [|apply in_or_app; right; now left].
    apply existsb_exists in E. destruct E as (y & Hy & Ey). apply Z.eqb_eq in Ey. exfalso. apply (H y); [|exact Ey].
    now apply firsts_in.
  - replace (v1 ++ x :: v2 ++ [z]) with ((v1 ++ x :: v2) ++ [z]) by now rewrite <- app_assoc.
    rewrite firsts_snoc. unfold first_step. destruct (existsb _ _); [exact IH|]. apply in_or_app. now left.
Qed.
End Split.

(** Adding sets to a registry. *)
Section Adding.
Context {P : Type}.
Notation obj := (object P).
(** Two objects have the same original number and type exactly when they have the
    same internal number. *)
Definition alike (l : list obj) : Prop := forall a b, In a l -> In b l -> ooid a <> NO_ID ->
  (oid a = oid b <-> otype a = otype b /\ ooid a = ooid b).

Lemma same_alike l a b : alike l -> In a l -> In b l -> (same_name a b = true <-> oid a = oid b).
Proof.
  intros A Ha Hb. unfold same_name. destruct (Z.eqb_spec (ooid a) NO_ID) as [E|N]; [apply Z.eqb_eq|].
  rewrite andb_true_iff, !Z.eqb_eq. symmetry. now apply A.
Qed.

Lemma cadd_case c L (o : obj) : Inv c L -> oid o <> NO_ID ->
  (existsb (same_name o) L = true /\ cadd c o = Throw) \/
  (existsb (same_name o) L = false /\ exists c', cadd c o = Ok c' /\ cstep c (CAdd o) = c').
Proof.
  intros I Hid.
  assert (Hv: has_original_id (getReference o) = true \/ has_id (getReference o) = true).
  { right. unfold has_id. cbn. apply negb_true_iff, Z.eqb_neq. exact Hid. }
  destruct (cfind_live c L (getReference o) I Hv) as [res [E Hres]].
  unfold cstep, cadd. rewrite E. cbn [bind].
  assert (Hex: existsb (same_name o) L = true <-> exists x, res = Some x).
  { rewrite existsb_same. split.
    - intros (x & Hx & H). exists x. apply Hres. split; [exact Hx|].
      cbn [has_original_id getReference roid rtype rid]. unfold has_original_id. cbn [roid getReference].
      destruct (Z.eqb_spec (ooid o) NO_ID); cbn [negb]; exact H.
    - intros (x & Hx). apply Hres in Hx. destruct Hx as [Hx H]. exists x. split; [exact Hx|].
      unfold has_original_id in H. cbn [roid getReference rtype rid] in H.
      destruct (Z.eqb_spec (ooid o) NO_ID); cbn [negb] in H; exact H. }
  destruct res as [x|].
  - left. split; [apply Hex; eauto|reflexivity].
  - right. split; [|eauto]. destruct (existsb (same_name o) L); [|reflexivity].
    destruct Hex as [H _]. destruct (H eq_refl) as [x Hx]. discriminate.
Qed.

Lemma add_all : forall (ds : list obj) c L, Inv c L ->
  (forall d, In d ds -> oid d <> NO_ID) -> alike (ds ++ L) ->
  (forall d x, In d ds -> In x L -> oid d <> oid x) ->
  (NoDup (map oid ds) -> exists c', foldM cadd ds c = Ok c' /\ exists L', Inv c' L' /\ forall o, In o L' <-> In o ds \/ In o L) /\
  (~ NoDup (map oid ds) -> foldM cadd ds c = Throw).
Proof.
  induction ds as [|d ds IH]; intros c L I V A F.
  - split; [intros _; exists c; split; [reflexivity|]; exists L; split; [exact I|cbn; tauto]|].
    intros N. exfalso. apply N. constructor.
  - cbn [foldM]. destruct (cadd_case c L d I) as [[Ex _]|[Ex (c' & E & Ec)]].
    + apply V. now left.
    + exfalso. apply existsb_exists in Ex. destruct Ex as (x & Hx & Ex).
      apply (same_alike _ _ _ A) in Ex; [|now left|apply in_or_app; now right].
      apply (F d x); [now left|exact Hx|exact Ex].
    + rewrite E. cbn [bind].
      assert (I' : Inv c' (d :: L)).
      { assert (S := step_inv c L (CAdd d) I). cbn [op_obj live_step] in S. rewrite Ex, Ec in S. apply S.
        - apply V. now left.
        - intros x Hx Exd. exfalso. apply (F d x); [now left|exact Hx|congruence].
        - exact Logic.I. }
      destruct (in_dec Z.eq_dec (oid d) (map oid ds)) as [Dup|Nd].
      * split; [intros N; cbn in N; inversion N; contradiction|]. intros _.
        assert (G : forall es cc LL, Inv cc LL -> In d LL -> (forall e, In e es -> oid e <> NO_ID) -> alike (d :: es ++ LL) ->
                    In (oid d) (map oid es) -> foldM cadd es cc = Throw).
        { clear - P. induction es as [|e es IHe]; intros cc LL J Hd V A H; [destruct H|].
          cbn [foldM]. destruct (cadd_case cc LL e J) as [[Ex Et]|[Ex (c' & E & Ec)]]; [apply V; now left|now rewrite Et|].
          rewrite E. cbn [bind].
          assert (Ne : forall x, In x LL -> oid x <> oid e).
          { intros x Hx Exd. assert (existsb (same_name e) LL = true); [|congruence].
            apply existsb_exists. exists x. split; [exact Hx|]. apply (same_alike _ _ _ A); [right; now left| |congruence].
            right. apply in_or_app. right. exact Hx. }
          destruct H as [H|H]; [exfalso; apply (Ne d Hd); now rewrite H|].
          apply (IHe c' (e :: LL)).
          - assert (S := step_inv cc LL (CAdd e) J). cbn [op_obj live_step] in S. rewrite Ex, Ec in S. apply S.
            + apply V. now left.
            + intros x Hx Exd. exfalso. apply (Ne x Hx Exd).
            + exact Logic.I.
          - now right.
          - intros f Hf. apply V. now right.
          - intros a b Ha Hb. apply A.
            + cbn in Ha |- *. rewrite in_app_iff in *. cbn in *. tauto.
            + cbn in Hb |- *. rewrite in_app_iff in *. cbn in *. tauto.
          - exact H. }
        apply (G ds c' (d :: L) I'); [now left|intros e He; apply V; now right| |exact Dup].
        intros a b Ha Hb. apply A; cbn in *; rewrite in_app_iff in *; cbn in *; tauto.
      * destruct (IH c' (d :: L) I') as [K1 K2].
        -- intros e He. apply V. now right.
        -- intros a b Ha Hb. apply A; cbn in *; rewrite in_app_iff in *; cbn in *; tauto.
        -- intros e x He [<-|Hx].
           ++ intros Ee. apply Nd. rewrite <- Ee. now apply in_map.
           ++ apply F; [now right|exact Hx].
        -- split.
           ++ intros N. inversion N; subst. destruct (K1 H2) as (c2 & E2 & L2 & I2 & H'). exists c2. split; [exact E2|].
              exists L2. split; [exact I2|]. intros o. rewrite H'. cbn. tauto.
           ++ intros N. apply K2. intros N'. apply N. cbn. now constructor.
Qed.

(** The objects of a registry are alike. *)
Lemma inv_alike c (L : list obj) : Inv c L -> alike L.
Proof.
  intros I a b Ha Hb Na. split.
  - intros E. assert (a = b); [|now subst]. destruct (inv_id _ _ I (oid a) a) as [_ A]. destruct (inv_id _ _ I (oid a) b) as [_ B].
    rewrite A in B by auto. assert (Some a = Some b) by (apply B; auto). congruence.
  - intros [Et Eo]. assert (a = b); [|now subst].
    destruct (inv_orig _ _ I (otype a) (ooid a) a) as [_ A]. destruct (inv_orig _ _ I (otype a) (ooid a) b) as [_ B].
    rewrite A in B by auto. assert (Some a = Some b) by (apply B; auto). congruence.
Qed.
Lemma inv_number c (L : list obj) a b : Inv c L -> In a L -> In b L -> oid a = oid b -> a = b.
Proof.
  intros I Ha Hb E. destruct (inv_id _ _ I (oid a) a) as [_ A]. destruct (inv_id _ _ I (oid a) b) as [_ B].
  rewrite A in B by auto. assert (Some a = Some b) by (apply B; auto). congruence.
Qed.
End Adding.
