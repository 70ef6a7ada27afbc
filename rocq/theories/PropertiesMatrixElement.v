(** Properties C33, C61-C64: direct matrices.  Specification vocabulary
    ([same_entry], [last_value], [terms], [touches]: top of
    MatrixElementProofs.v; [numbering], [table_code], [component_number]: top of
    SystusMatrixProofs.v; [discrete_terms], [pairwise]: DisassembleProofs.v).
    [terms m] is what a writer sees: the components of the blocks of all node
    pairs. *)
From Coq Require Import ZArith List Bool Lia Permutation Arith QArith.
From Verif Require Import Base DofModel DofProofs MatrixElementModel MatrixElementProofs MatrixSplitProofs
  SystusMatrixProofs DisassembleProofs.
Import ListNotations.
Open Scope Z_scope.

(** C61: after any sequence of coefficients given in any order and orientation,
    a writer sees each coefficient exactly once, with the last value given. *)
Theorem C61_terms_last_value : forall (V : Type) (is_zero : V -> bool) (h : list (write V)),
  exists m, build is_zero [] h = Ok m /\
    (forall p1 e1 p2 e2 v, last_value h p1 e1 p2 e2 (Some v) <->
       In (p1, e1, p2, e2, v) (terms m) \/ In (p2, e2, p1, e1, v) (terms m)) /\
    (forall l1 n1 d1 n2 d2 v l2, terms m = l1 ++ (n1, d1, n2, d2, v) :: l2 ->
       forall q1 f1 q2 f2 w, In (q1, f1, q2, f2, w) (l1 ++ l2) -> ~ same_entry n1 d1 n2 d2 q1 f1 q2 f2).
Proof.
  intros V is_zero h. destruct (build_wf is_zero h [] me_wf_nil) as [m [B W]]. exists m. split; [exact B|]. split.
  - intros p1 e1 p2 e2 v. rewrite <- lookup_terms by exact W. split.
    + apply (build_lookup is_zero h m B).
    + intros H. destruct (last_value_total h p1 e1 p2 e2) as [o L].
      rewrite (build_lookup is_zero h m B _ _ _ _ _ L) in H. now subst.
  - intros l1 n1 d1 n2 d2 v l2 E q1 f1 q2 f2 w H Se.
    assert (G : forall a b c d x, In (a, b, c, d, x) (terms m) -> norm_addr a b c d = (a, b, c, d)).
    { intros a b c d x X. apply in_terms in X; [|exact W]. eapply entry_norm; eauto. }
    apply norm_addr_same in Se. rewrite (G n1 d1 n2 d2 v) in Se by (rewrite E; apply in_elt).
    rewrite (G q1 f1 q2 f2 w) in Se by (rewrite E; apply in_app_or in H; apply in_or_app; cbn; tauto).
    pose proof (terms_nodup m W) as N. rewrite E, map_app in N. cbn in N. apply NoDup_remove_2 in N.
    apply N. rewrite <- map_app. apply in_map_iff. exists (q1, f1, q2, f2, w). split; [cbn; auto|exact H].
Qed.
Print Assumptions C61_terms_last_value.
Example C61_case :
  let h := [(2, DX, 1, RZ, 5); (1, DY, 1, DX, 7); (1, RZ, 2, DX, 6)] in
  (exists m, build (Z.eqb 0) [] h = Ok m /\ terms m = [(1, DX, 1, DY, 7); (1, RZ, 2, DX, 6)])
  /\ last_value h 2 DX 1 RZ (Some 6) /\ last_value h 1 DX 1 DY (Some 7).
Proof.
  cbv zeta. split; [eexists; split; [vm_compute; reflexivity|reflexivity]|]. split.
  - apply (lv_hit [(2, DX, 1, RZ, 5); (1, DY, 1, DX, 7)]). unfold same_entry. auto.
  - apply (lv_miss [(2, DX, 1, RZ, 5); (1, DY, 1, DX, 7)]); [unfold same_entry; intuition congruence|].
    apply (lv_hit [(2, DX, 1, RZ, 5)]). unfold same_entry. auto.
Qed.

(** C61: reading a coefficient of the block of a node pair.  The block between
    two different nodes is handed out as a symmetric matrix, so the read of
    (DY, DX) looks at (DX, DY). *)
Theorem C61_block_read_refuted : exists (h : list (write Z)) m p1 d1 p2 d2 v,
  build (Z.eqb 0) [] h = Ok m /\ p1 < p2 /\ last_value h p1 d1 p2 d2 (Some v) /\
  findComponent 0 (findSubmatrix m p1 p2) d1 d2 <> v.
Proof.
  exists [(1, DY, 2, DX, 5)]. eexists. exists 1, DY, 2, DX, 5.
  split; [vm_compute; reflexivity|]. split; [lia|]. split.
  - apply (lv_hit []). unfold same_entry. auto.
  - vm_compute. discriminate.
Qed.
Print Assumptions C61_block_read_refuted.

(** C61: the components announced for a node (full statement: a node gets
    exactly the families, translations or rotations, of the coefficients that
    involve it).  Proved: at least those.  Missing: nothing more; false, next
    theorem. *)
Theorem C61_announced_components_partial : forall (V : Type) (is_zero : V -> bool) (h : list (write V)) m,
  build is_zero [] h = Ok m -> (forall p, touches m p -> 0 <= p) ->
  forall p1 e1 p2 e2 v, last_value h p1 e1 p2 e2 (Some v) ->
    contains (me_getDOFSForNode m p1) e1 = true.
Proof.
  intros V is_zero h m B Pos p1 e1 p2 e2 v L.
  destruct (build_wf is_zero h [] me_wf_nil) as [m' [B' W]]. assert (m' = m) by congruence. subst m'.
  pose proof (build_lookup is_zero h m B _ _ _ _ _ L) as T. apply lookup_terms in T; [|exact W].
  set (step := fun (s : dofs) (kv : npair * dofmatrix V) =>
      if (fst (fst kv) =? p1) || negb (snd (fst kv) =? 0) then
        let s1 := if hasRotations (snd kv) then dofs_add s ROTATIONS else s in
        if hasTranslations (snd kv) then dofs_add s1 TRANSLATIONS else s1
      else s).
  assert (Cadd : forall s x, contains s e1 = true -> contains (dofs_add s x) e1 = true).
  { intros s x. rewrite !contains_iff, member_add. auto. }
  assert (Mono : forall l s, contains s e1 = true -> contains (fold_left step l s) e1 = true).
  { induction l as [|kv l IH]; cbn; intros s H; [exact H|]. apply IH. unfold step.
    destruct (_ || _); [|exact H]. cbv zeta. destruct (hasRotations (snd kv)), (hasTranslations (snd kv)); auto. }
  assert (Hit : forall l s k b, In (k, b) l -> (fst k = p1 \/ snd k <> 0) ->
     (exists d1 d2 w, In ((d1, d2), w) (comps b) /\ (d1 = e1 \/ d2 = e1)) -> contains (fold_left step l s) e1 = true).
  { induction l as [|kv l IH]; cbn; intros s k b Hin Hk Hb; [contradiction|].
    destruct Hin as [->|Hin]; [|eapply IH; eauto]. apply Mono. unfold step. cbn [fst snd].
    replace ((fst k =? p1) || negb (snd k =? 0)) with true
      by (symmetry; apply orb_true_iff; rewrite Z.eqb_eq, negb_true_iff, Z.eqb_neq; exact Hk).
    destruct Hb as [d1 [d2 [w [Hi He]]]].
    assert (Fam : (isRotation e1 = true -> hasRotations b = true) /\ (isTranslation e1 = true -> hasTranslations b = true)).
    { unfold hasRotations, hasTranslations. split; intros F; apply existsb_exists; exists ((d1, d2), w);
        (split; [exact Hi|]); cbn; destruct He as [-> | ->]; rewrite F; auto using orb_true_r. }
    cbv zeta. destruct Fam as [F1 F2].
    assert (Top : forall s, isRotation e1 = true -> contains (dofs_add s ROTATIONS) e1 = true).
    { intros s0 Ro. rewrite contains_iff, member_add. right. destruct e1; try discriminate; reflexivity. }
    assert (Top2 : forall s, isTranslation e1 = true -> contains (dofs_add s TRANSLATIONS) e1 = true).
    { intros s0 Tr. rewrite contains_iff, member_add. right. destruct e1; try discriminate; reflexivity. }
    destruct (isRotation e1) eqn:Ro.
    - rewrite (F1 eq_refl). destruct (hasTranslations b); [apply Cadd|]; apply Top; reflexivity.
    - assert (isTranslation e1 = true) as Tr by (unfold isTranslation; now rewrite Ro).
      rewrite (F2 Tr). now apply Top2. }
  unfold me_getDOFSForNode. fold step.
  assert (Blk : forall n1 d1 n2 d2, In (n1, d1, n2, d2, v) (terms m) ->
     exists s, In ((n1, n2), s) m /\ In ((d1, d2), v) (comps s) /\ n1 <= n2 /\ 0 <= n1).
  { intros n1 d1 n2 d2 H.
    assert (0 <= n1) by (apply Pos; exists n1, d1, n2, d2, v; auto).
    rewrite terms_blocks in H by apply W. apply in_flat_map in H.
    destruct H as [[k s] [H1 H2]]. unfold bterm in H2. apply in_map_iff in H2. destruct H2 as [[[a b] w] [E H2]].
    cbn in E. inversion E; subst. destruct k as [k1 k2]. exists s. repeat split; auto. apply (proj2 W _ _ H1). }
  destruct T as [T|T]; apply Blk in T; destruct T as [s [Hi [Hc [Le Ge]]]].
  - eapply Hit; [exact Hi|left; reflexivity|eauto 6].
  - eapply Hit; [exact Hi| |eauto 6]. cbn [fst snd].
    destruct (Z.eq_dec p1 0); [left; lia|right; assumption].
Qed.
Print Assumptions C61_announced_components_partial.
Example C61_announced_case : exists m,
  build (Z.eqb 0) [] [(1, DX, 2, RX, 5)] = Ok m /\ contains (me_getDOFSForNode m 2) RX = true.
Proof. eexists. split; vm_compute; reflexivity. Qed.

Lemma last_value_in {V} (h : list (write V)) p1 e1 p2 e2 v : last_value h p1 e1 p2 e2 (Some v) ->
  exists n1 d1 n2 d2, In (n1, d1, n2, d2, v) h /\ same_entry n1 d1 n2 d2 p1 e1 p2 e2.
Proof.
  intros L. remember (Some v) as o eqn:E. revert v E. induction L; intros v' E; [discriminate| |].
  - injection E as <-. exists n1, d1, n2, d2. split; [apply in_or_app; right; now left|assumption].
  - destruct (IHL _ E) as [a [b [c [d [H1 H2]]]]]. exists a, b, c, d. split; [apply in_or_app; now left|exact H2].
Qed.

(** A node coupled by translations only is announced with rotations because
    another node has some. *)
Theorem C61_announced_components_refuted : exists (h : list (write Z)) m p d,
  build (Z.eqb 0) [] h = Ok m /\ touches m p /\
  (forall e p2 e2 v, last_value h p e p2 e2 (Some v) -> isRotation e = false /\ isRotation e2 = false) /\
  isRotation d = true /\ contains (me_getDOFSForNode m p) d = true.
Proof.
  exists [(1, DX, 1, DX, 5); (2, RX, 2, RX, 6)]. eexists. exists 1, RX.
  split; [vm_compute; reflexivity|]. split.
  - exists 1, DX, 1, DX, 5. split; [vm_compute; auto|auto].
  - split; [|split; vm_compute; reflexivity].
    intros e p2 e2 v L.
    destruct (last_value_in _ _ _ _ _ _ L) as [n1 [d1 [n2 [d2 [Hin Se]]]]]. cbn in Hin.
    destruct Hin as [Hin|[Hin|[]]]; inversion Hin; subst; unfold same_entry in Se;
      destruct Se as [[? [<- [? <-]]]|[? [<- [? <-]]]]; auto; lia.
Qed.
Print Assumptions C61_announced_components_refuted.

(** C33: splitting. *)
Definition built {V} (is_zero : V -> bool) (m : melement V) : Prop := exists h, build is_zero [] h = Ok m.
Definition partition_of {V T} (e : element (V:=V) T) (ps : list (element T)) : Prop :=
  match e with
  | OtherElement _ => ps = [e]
  | Matrix k m => exists ms, ps = map (fun x => Matrix k x) ms /\ Permutation (terms m) (flat_map terms ms)
  end.

Theorem C33_split_partitions : forall (V T : Type) (is_zero : V -> bool) n (es : list (element (V:=V) T)),
  (forall k m, In (Matrix k m) es -> built is_zero m) -> (2 <= n)%nat ->
  exists es', splitDirectMatrices is_zero n es = Ok es' /\
    (forall k m, In (Matrix k m) es' -> exists l, (length l <= n)%nat /\ forall p, touches m p -> In p l) /\
    (exists parts, Forall2 partition_of es parts /\ Permutation es' (concat parts)).
Proof.
  intros V T is_zero n es Hb Hn. unfold splitDirectMatrices.
  replace (Nat.ltb n 2) with false by (symmetry; apply Nat.ltb_ge; exact Hn).
  assert (Main : exists added, mapM (added_of is_zero n) es = Ok added /\
     (forall k m, In (Matrix k m) (flat_map (kept_of n) es ++ concat added) ->
         exists l, (length l <= n)%nat /\ forall p, touches m p -> In p l) /\
     (exists parts, Forall2 partition_of es parts /\
        Permutation (flat_map (kept_of n) es ++ concat added) (concat parts))).
  { induction es as [|e es IH].
    - exists []. split; [reflexivity|]. split; [intros k m []|]. exists []. split; constructor.
    - destruct IH as [added [E [Sz [parts [F P]]]]]; [intros; eapply Hb; right; eauto|].
      destruct e as [k m|t].
      + assert (W : me_wf m).
        { destruct (Hb k m (or_introl eq_refl)) as [h B]. destruct (build_wf is_zero h [] me_wf_nil) as [m' [B' W]].
          congruence. }
        assert (Touch : forall m0 : melement V, me_wf m0 -> (length (nodePositions m0) <= n)%nat ->
                  exists l, (length l <= n)%nat /\ forall p, touches m0 p -> In p l).
        { intros m0 W0 L0. exists (nodePositions m0). split; [exact L0|]. intros p. now apply touches_nodes. }
        destruct (Nat.leb_spec (length (nodePositions m)) n) as [Le|Gt].
        * exists ([] :: added). cbn [mapM added_of flat_map kept_of]. apply Nat.leb_le in Le. rewrite Le.
          cbn [bind]. rewrite E. cbn [bind concat app]. split; [reflexivity|]. split.
          -- intros k0 m0 [X|X]; [inversion X; subst; apply Touch; [exact W|now apply Nat.leb_le]|eauto].
          -- exists ([Matrix k m] :: parts). split; [constructor; [|exact F]|].
             ++ exists [m]. cbn. rewrite app_nil_r. split; [reflexivity|reflexivity].
             ++ cbn. now constructor.
        * destruct (split_matrix_spec is_zero n m Hn W) as [ps [Es [Pp Hps]]].
          exists (map (fun x => Matrix k x) ps :: added). cbn [mapM added_of flat_map kept_of].
          apply Nat.leb_gt in Gt. rewrite Gt. rewrite Es. cbn [bind]. rewrite E. cbn [bind concat app].
          split; [reflexivity|]. split.
          -- intros k0 m0 X. apply in_app_or in X. destruct X as [X|X]; [apply (Sz k0); apply in_or_app; auto|].
             apply in_app_or in X. destruct X as [X|X]; [|apply (Sz k0); apply in_or_app; auto].
             apply in_map_iff in X. destruct X as [p [Ep Hp]]. inversion Ep; subst.
             destruct (Hps _ Hp). now apply Touch.
          -- exists (map (fun x => Matrix k x) ps :: parts). split; [constructor; [exists ps; auto|exact F]|].
             cbn. rewrite <- P, !app_assoc. apply Permutation_app_tail. apply Permutation_app_comm.
      + exists ([] :: added). cbn [mapM added_of flat_map kept_of bind]. rewrite E. cbn [bind concat app].
        split; [reflexivity|]. split.
        * intros k0 m0 [X|X]; [discriminate|eauto].
        * exists ([OtherElement t] :: parts). split; [constructor; [reflexivity|exact F]|]. cbn. now constructor. }
  destruct Main as [added [E [Sz Pt]]]. rewrite E. cbn [bind]. eexists. split; [reflexivity|]. auto.
Qed.
Print Assumptions C33_split_partitions.
(** A matrix on three nodes split into matrices on at most two. *)
Example C33_case :
  let h := [(1, DX, 1, DX, 9); (1, DX, 2, DX, 4); (2, DX, 3, DY, 5); (3, DX, 3, DX, 7); (1, DY, 3, DZ, 8)] in
  exists m m1 m2 m3 m4, build (Z.eqb 0) [] h = Ok m /\
    splitDirectMatrices (T := unit) (Z.eqb 0) 2 [OtherElement tt; Matrix 0 m] =
      Ok [OtherElement tt; Matrix 0 m1; Matrix 0 m2; Matrix 0 m3; Matrix 0 m4]
    /\ terms m1 = [(1, DX, 1, DX, 9); (1, DX, 2, DX, 4)] /\ terms m2 = [(1, DY, 3, DZ, 8)] .
Proof. cbv zeta. do 5 eexists. split; [vm_compute; reflexivity|]. split; [vm_compute; reflexivity|]. split; reflexivity. Qed.

Theorem C33_too_small : forall (V T : Type) (is_zero : V -> bool) n (es : list (element (V:=V) T)),
  (n < 2)%nat -> splitDirectMatrices is_zero n es = Throw.
Proof. intros. unfold splitDirectMatrices. now replace (Nat.ltb n 2) with true by (symmetry; now apply Nat.ltb_lt). Qed.
Print Assumptions C33_too_small.

(** C62 (full statement: for every element).  Systus tables: with at most nine
    nodes the code of an entry names its two nodes and two components in
    decimal, no code occurs twice, and the entries are the coefficients of the
    matrix.  Missing: more than nine nodes, see the refutation. *)
Theorem C62_table_partial : forall (V : Type) (is_zero : V -> bool) (h : list (write V)) m nb,
  build is_zero [] h = Ok m ->
  (exists l, (length l <= 9)%nat /\ forall p, touches m p -> In p l) ->
  (forall p1 e1 p2 e2 v, last_value h p1 e1 p2 e2 (Some v) -> component_number e1 <= nb) ->
  exists num t, numbering m num /\ (forall p, touches m p -> 1 <= num p <= 9) /\
    table_fill m nb = Ok t /\ NoDup (map fst t) /\
    (forall c v, In (c, v) t <-> exists p1 e1 p2 e2,
        In (p1, e1, p2, e2, v) (terms m) /\ c = table_code num p1 e1 p2 e2) /\
    (forall p1 e1 p2 e2 v, last_value h p1 e1 p2 e2 (Some v) ->
        In (table_code num p1 e1 p2 e2, v) t \/ In (table_code num p2 e2 p1 e1, v) t).
Proof.
  intros V is_zero h m nb B [l [Ll Hl]] Hfit.
  destruct (build_wf is_zero h [] me_wf_nil) as [m' [B' W]]. assert (m' = m) by congruence. subst m'.
  assert (L9 : (length (nodePositions m) <= 9)%nat).
  { apply Nat.le_trans with (length l); [|exact Ll]. apply NoDup_incl_length.
    - apply zsorted_nodup, nodePositions_sorted.
    - intros p Hp. apply Hl. now apply touches_nodes. }
  assert (TL : forall p1 e1 p2 e2 v, In (p1, e1, p2, e2, v) (terms m) -> last_value h p1 e1 p2 e2 (Some v)).
  { intros p1 e1 p2 e2 v H. destruct (last_value_total h p1 e1 p2 e2) as [o L].
    pose proof (build_lookup is_zero h m B _ _ _ _ _ L) as X.
    assert (lookup m p1 e1 p2 e2 = Some v) by (apply lookup_terms; auto). congruence. }
  assert (Sym : forall p1 e1 p2 e2 v, last_value h p1 e1 p2 e2 (Some v) -> last_value h p2 e2 p1 e1 (Some v)).
  { intros p1 e1 p2 e2 v L. destruct (last_value_total h p2 e2 p1 e1) as [o L'].
    pose proof (build_lookup is_zero h m B _ _ _ _ _ L) as X. pose proof (build_lookup is_zero h m B _ _ _ _ _ L') as Y.
    rewrite lookup_sym in X. congruence. }
  assert (F : fits nb m).
  { intros n1 d1 n2 d2 v H. apply TL in H. split; [eauto|]. apply Sym in H. eauto. }
  exists (systus_number m). eexists. split; [now apply systus_numbering|]. split.
  { intros p Hp. apply touches_nodes in Hp; [|exact W]. pose proof (number_range m p Hp). lia. }
  split; [now apply table_terms|]. split; [|split].
  - rewrite map_map. erewrite map_ext; [apply table_codes_nodup; assumption|].
    intros [[[[n1 d1] n2] d2] v]. reflexivity.
  - intros c v. rewrite in_map_iff. split.
    + intros [[[[[n1 d1] n2] d2] w] [E H]]. inversion E; subst. exists n1, d1, n2, d2. auto.
    + intros [p1 [e1 [p2 [e2 [H ->]]]]]. exists (p1, e1, p2, e2, v). auto.
  - intros p1 e1 p2 e2 v L. pose proof (build_lookup is_zero h m B _ _ _ _ _ L) as X.
    apply lookup_terms in X; [|exact W].
    destruct X as [X|X]; [left|right]; apply in_map_iff; [exists (p1, e1, p2, e2, v)|exists (p2, e2, p1, e1, v)]; auto.
Qed.
Print Assumptions C62_table_partial.
Example C62_case : exists m, build (Z.eqb 0) [] [(7, DX, 3, RZ, 5); (3, DX, 3, DX, 4)] = Ok m /\
  table_fill m 6 = Ok [(1111, 4); (1261, 5)].
Proof. eexists. split; vm_compute; reflexivity. Qed.

(** C62: a coefficient on a component the output has no room for is refused. *)
Theorem C62_component_refused : forall (V : Type) (is_zero : V -> bool) (h : list (write V)) m nb p1 e1 p2 e2 v,
  build is_zero [] h = Ok m -> last_value h p1 e1 p2 e2 (Some v) -> nb < component_number e1 ->
  table_fill m nb = Throw.
Proof.
  intros V is_zero h m nb p1 e1 p2 e2 v B L Big.
  destruct (build_wf is_zero h [] me_wf_nil) as [m' [B' W]]. assert (m' = m) by congruence. subst m'.
  pose proof (build_lookup is_zero h m B _ _ _ _ _ L) as X. apply lookup_terms in X; [|exact W].
  destruct X as [X|X]; eapply table_throw; eauto.
Qed.
Print Assumptions C62_component_refused.

(** With twelve nodes (systus.SizeMatrix = 12) two coefficients get the same code. *)
Theorem C62_twelve_nodes_refuted : exists (h : list (write Z)) m t c v w,
  build (Z.eqb 0) [] h = Ok m /\ length (nodePositions m) = 12%nat /\ table_fill m 6 = Ok t /\
  In (c, v) t /\ In (c, w) t /\ v <> w.
Proof.
  exists ([(2, DX, 2, DX, 50); (1, DX, 12, DX, 70)] ++ map (fun k => (Z.of_nat k, DX, Z.of_nat k, DX, 1)) (seq 3 9)).
  eexists. eexists. exists 2211, 50, 70.
  split; [vm_compute; reflexivity|]. split; [reflexivity|]. split; [vm_compute; reflexivity|].
  repeat split; cbn; auto 20; discriminate.
Qed.
Print Assumptions C62_twelve_nodes_refuted.

(** C63: Systus matrix files.  The number printed for nodes p2 (line block) and
    p1, components e1 and e2 is the coefficient between (p1, e1) and (p2, e2),
    whichever way it was given, and zero when it was not given. *)
Theorem C63_matrix_file : forall (V : Type) (is_zero : V -> bool) (vzero : V) (h : list (write V)) m nb,
  build is_zero [] h = Ok m -> 0 <= nb ->
  (forall p1 e1 p2 e2 v, last_value h p1 e1 p2 e2 (Some v) -> component_number e1 <= nb) ->
  exists num s, numbering m num /\ smatrix_of vzero m nb = Ok s /\
    forall p1 e1 p2 e2 o, touches m p1 -> touches m p2 -> component_number e1 <= nb -> component_number e2 <= nb ->
      last_value h p1 e1 p2 e2 o ->
      printed s (num p2) (num p1) ((component_number e1 - 1) + nb * (component_number e2 - 1))
        = Some (match o with Some v => v | None => vzero end).
Proof.
  intros V is_zero vzero h m nb B Hnb Hfit.
  destruct (build_wf is_zero h [] me_wf_nil) as [m' [B' W]]. assert (m' = m) by congruence. subst m'.
  assert (TL : forall p1 e1 p2 e2, lookup m p1 e1 p2 e2 = None \/ component_number e1 <= nb).
  { intros p1 e1 p2 e2. destruct (last_value_total h p1 e1 p2 e2) as [o L].
    rewrite (build_lookup is_zero h m B _ _ _ _ _ L). destruct o; [right; eauto|auto]. }
  assert (F : fits nb m).
  { intros n1 d1 n2 d2 v H. assert (X : lookup m n1 d1 n2 d2 = Some v) by (apply lookup_terms; auto). split.
    - destruct (TL n1 d1 n2 d2); [congruence|assumption].
    - destruct (TL n2 d2 n1 d1) as [Y|]; [rewrite lookup_sym in Y; congruence|assumption]. }
  destruct (smatrix_spec vzero m nb W Hnb F) as [s [E [D G]]].
  exists (systus_number m), s. split; [now apply systus_numbering|]. split; [exact E|].
  intros p1 e1 p2 e2 o T1 T2 C1 C2 L.
  replace nb with (nbDOFS s) at 1 by apply D. rewrite printed_get.
  apply touches_nodes in T1; [|exact W]. apply touches_nodes in T2; [|exact W].
  pose proof (G p1 e1 p2 e2 (conj T1 C1) (conj T2 C2)) as X. unfold mget in X. rewrite X.
  now rewrite (build_lookup is_zero h m B _ _ _ _ _ L).
Qed.
Print Assumptions C63_matrix_file.
Example C63_case : exists m s, build (Z.eqb 0) [] [(7, DX, 4, DZ, 5); (4, DX, 4, DX, 4)] = Ok m /\
  smatrix_of 0 m 3 = Ok s /\ printed s 1 2 6 = Some 5 /\ printed s 2 1 2 = Some 5 /\ printed s 1 1 0 = Some 4
  /\ printed s 2 2 0 = Some 0.
Proof. do 2 eexists. split; [vm_compute; reflexivity|]. split; [vm_compute; reflexivity|]. repeat split. Qed.

(** C64 (full statement: for every matrix, the discrete elements that replace it
    assemble to the matrix).  Proved when every node is coupled to at most one
    other node: the non-zero coefficients of the discrete elements are those of
    the matrix.  Missing: nodes coupled to several nodes, where it is false. *)
Theorem C64_replacement_partial : forall (V : Type) (is_nul : V -> bool) (divide : V -> nat -> V) (h : list (write V)) m,
  (forall v, divide v 1%nat = v) ->
  build is_nul [] h = Ok m -> pairwise m ->
  exists ds, replace_matrix is_nul divide m = Ok ds /\
    Permutation (flat_map discrete_terms ds) (filter (fun t => negb (is_nul (snd t))) (terms m)).
Proof.
  intros V is_nul divide h m D1 B P.
  destruct (build_wf is_nul h [] me_wf_nil) as [m' [B' W]]. assert (m' = m) by congruence. subst m'.
  now apply disassemble_perm.
Qed.
Print Assumptions C64_replacement_partial.
Example C64_case : exists m ds,
  build (Z.eqb 0) [] [(1, DX, 1, DX, 4); (1, DX, 2, DY, 5); (2, DY, 2, DY, 6); (3, DX, 3, DX, 7)] = Ok m /\
  replace_matrix (Z.eqb 0) (fun v n => v / Z.of_nat n) m = Ok ds /\
  flat_map discrete_terms ds = [(1, DX, 1, DX, 4); (1, DX, 2, DY, 5); (2, DY, 2, DY, 6); (3, DX, 3, DX, 7)].
Proof. do 2 eexists. split; [vm_compute; reflexivity|]. split; [vm_compute; reflexivity|reflexivity]. Qed.

(** Sum of the contributions to a coefficient. *)
Definition assembled (l : list (write Q)) (p1 : Z) (e1 : dof) (p2 : Z) (e2 : dof) : Q :=
  fold_right (fun t s => let '(n1, d1, n2, d2, v) := t in
     if ((n1 =? p1) && dof_eqb d1 e1 && (n2 =? p2) && dof_eqb d2 e2)
        || ((n1 =? p2) && dof_eqb d1 e2 && (n2 =? p1) && dof_eqb d2 e1)
     then (v + s)%Q else s) 0%Q l.
Definition divide_Q (v : Q) (n : nat) : Q := (v / inject_Z (Z.of_nat n))%Q.

(** Node 1 is coupled to nodes 2 and 3: every coupling coefficient, although
    carried by one discrete element only, is divided by two. *)
Theorem C64_replacement_refuted : exists (h : list (write Q)) m ds p1 e1 p2 e2 v,
  build (fun q => Qeq_bool q 0) [] h = Ok m /\
  replace_matrix (fun q => Qeq_bool q 0) divide_Q m = Ok ds /\
  last_value h p1 e1 p2 e2 (Some v) /\
  ~ (assembled (flat_map discrete_terms ds) p1 e1 p2 e2 == v)%Q.
Proof.
  exists [(1, DX, 2, DX, 6%Q); (1, DX, 3, DX, 6%Q)]. do 2 eexists. exists 1, DX, 2, DX, 6%Q.
  split; [vm_compute; reflexivity|]. split; [vm_compute; reflexivity|]. split.
  - apply (lv_miss [(1, DX, 2, DX, 6%Q)]); [unfold same_entry; intuition congruence|].
    apply (lv_hit []). unfold same_entry. auto.
  - vm_compute. discriminate.
Qed.
Print Assumptions C64_replacement_refuted.
