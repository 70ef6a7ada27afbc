(** Properties C07-C09: references and the object registry.  Vocabulary of the
    statements about the registry ([live], [numbers_valid],
    [numbers_consistent], [erases_live]) is in ReferenceProofs.v. *)
From Coq Require Import ZArith List Bool Lia Sorted.
From Verif Require Import Base ZMap ReferenceModel ReferenceProofs.
Import ListNotations.
Open Scope Z_scope.

(** C07: operator< is a strict total order whose ties are exactly operator==. *)
Theorem C07_reference_order : 
  (forall r, ref_ltb r r = false) /\
  (forall a b c, ref_ltb a b = true -> ref_ltb b c = true -> ref_ltb a c = true) /\
  (forall a b, ref_eqb a b = true <-> ref_ltb a b = false /\ ref_ltb b a = false).
Proof.
  split; [exact ref_lt_irrefl|split; [exact ref_lt_trans|]]. intros a b. split.
  - intros H. split; apply ref_eq_not_lt; [exact H|rewrite ref_eq_sym; exact H].
  - intros [A B]. now apply ref_lt_total.
Qed.
Print Assumptions C07_reference_order.

(** C07: equality is an equivalence and the order does not distinguish equal
    references. *)
Theorem C07_equality_congruence :
  (forall a, ref_eqb a a = true) /\ (forall a b, ref_eqb a b = ref_eqb b a) /\
  (forall a b c, ref_eqb a b = true -> ref_eqb b c = true -> ref_eqb a c = true) /\
  (forall a a' b b', ref_eqb a a' = true -> ref_eqb b b' = true -> ref_ltb a b = ref_ltb a' b').
Proof.
  repeat split; [exact ref_eq_refl|exact ref_eq_sym|exact ref_eq_trans|exact ref_lt_compat].
Qed.
Print Assumptions C07_equality_congruence.
Example C07_case : ref_ltb (mkRef 2 5 9) (mkRef 2 NO_ID 1) = true
  /\ ref_eqb (mkRef 2 5 9) (mkRef 2 5 NO_ID) = true
  /\ ref_ltb (mkRef 2 NO_ID 1) (mkRef 2 NO_ID 3) = true.
Proof. vm_compute. tauto. Qed.

(** C07: what equality means to a user: same type, and same user number, or no
    user number on both sides and same internal number. *)
Theorem C07_equality_meaning : forall a b, ref_eqb a b = true <->
  rtype a = rtype b /\ roid a = roid b /\ (roid a = NO_ID -> rid a = rid b).
Proof.
  intros a b. unfold ref_eqb.
  destruct (Z.eqb_spec (rtype a) (rtype b)), (Z.eqb_spec (roid a) NO_ID),
    (Z.eqb_spec (roid b) NO_ID), (Z.eqb_spec (rid a) (rid b)), (Z.eqb_spec (roid a) (roid b));
    cbn; intuition congruence.
Qed.
Print Assumptions C07_equality_meaning.

(** C08 (full statement: [ref_eqb a b = true -> hash a = hash b]).  Missing in
    this partial version: references whose internal numbers differ. *)
Theorem C08_hash_partial : forall combine hashType a b,
  ref_eqb a b = true -> rid a = rid b ->
  ref_hash combine hashType a = ref_hash combine hashType b.
Proof.
  intros combine hashType a b E R. apply C07_equality_meaning in E. destruct E as [T [O _]].
  unfold ref_hash. now rewrite T, O, R.
Qed.
Print Assumptions C08_hash_partial.
Example C08_case : ref_eqb (mkRef 2 5 9) (mkRef 2 5 9) = true.
Proof. reflexivity. Qed.

(** C08: for every hash of the type names, some equal references hash
    differently: a reference to user number 5 with and without internal number. *)
Theorem C08_hash_refuted : forall hashType t, exists a b,
  rtype a = t /\ ref_eqb a b = true /\
  ref_hash boost_combine hashType a <> ref_hash boost_combine hashType b.
Proof.
  intros hashType t. exists (mkRef t 5 1), (mkRef t 5 2). split; [reflexivity|]. split.
  - unfold ref_eqb. cbn. rewrite Z.eqb_refl. reflexivity.
  - unfold ref_hash. cbn [rtype roid rid].
    generalize (boost_combine (boost_combine 0 (hashType t)) 5). intros s E.
    unfold boost_combine in E.
    assert (X: forall u v, Z.lxor s u = Z.lxor s v -> u = v).
    { intros u v H. apply (f_equal (Z.lxor s)) in H.
      now rewrite <- !Z.lxor_assoc, !Z.lxor_nilpotent, !Z.lxor_0_l in H. }
    apply X in E.
    set (k := Z.shiftl s 6 + Z.shiftr s 2 + 2654435769) in *.
    replace (1 + 2654435769 + Z.shiftl s 6 + Z.shiftr s 2) with (k + 1) in E by (unfold k; lia).
    replace (2 + 2654435769 + Z.shiftl s 6 + Z.shiftr s 2) with (k + 2) in E by (unfold k; lia).
    pose proof (Z.mod_pos_bound (k + 1) (2 ^ 64)) as B1.
    assert (D: (k + 2 - (k + 1)) mod 2 ^ 64 = 0) by (rewrite Zminus_mod, E, Z.sub_diag; reflexivity).
    replace (k + 2 - (k + 1)) with 1 in D by lia. vm_compute in D. discriminate.
Qed.
Print Assumptions C08_hash_refuted.

(** C09: after any history, the registry finds exactly the live objects, by
    typed user number or by internal number. *)
Theorem C09_find_live : forall P (h : list (@cop P)),
  numbers_valid h -> numbers_consistent h -> erases_live [] h ->
  forall r, (roid r <> NO_ID \/ rid r <> NO_ID) ->
  exists res, cfind (crun h) r = Ok res /\
    forall o, res = Some o <-> In o (live h) /\
      (roid r <> NO_ID -> otype o = rtype r /\ ooid o = roid r) /\
      (roid r = NO_ID -> oid o = rid r).
Proof.
  intros P h Hv Hc He r Hr. pose proof (history_inv h Hv Hc He) as I.
  destruct (cfind_live (crun h) (live h) r I) as [res [E H]].
  { unfold has_original_id, has_id. destruct (Z.eqb_spec (roid r) NO_ID), (Z.eqb_spec (rid r) NO_ID);
      cbn; intuition congruence. }
  exists res. split; [exact E|]. intros o. rewrite H. unfold has_original_id.
  destruct (Z.eqb_spec (roid r) NO_ID); cbn; tauto.
Qed.
Print Assumptions C09_find_live.

(** C09: access by internal number, and iteration: the live objects, each once,
    in ascending internal number. *)
Theorem C09_get_and_iterate : forall P (h : list (@cop P)),
  numbers_valid h -> numbers_consistent h -> erases_live [] h ->
  (forall k o, cget (crun h) k = Some o <-> In o (live h) /\ oid o = k) /\
  StronglySorted (fun a b => oid a < oid b) (celements (crun h)) /\
  (forall o, In o (celements (crun h)) <-> In o (live h)) /\
  (forall t o, In o (cfilter (crun h) t) <-> In o (live h) /\ otype o = t) /\
  (forall t, ccontains (crun h) t = true <-> exists o, In o (live h) /\ otype o = t).
Proof.
  intros P h Hv Hc He. pose proof (history_inv h Hv Hc He) as I.
  destruct (elements_spec _ _ I) as [S E].
  split; [exact (inv_id _ _ I)|]. split; [exact S|]. split; [exact E|]. split.
  - intros t o. unfold cfilter. rewrite filter_In, E, Z.eqb_eq. tauto.
  - intros t. unfold ccontains. rewrite existsb_exists. split; intros [o [A B]]; exists o.
    + apply E in A. apply Z.eqb_eq in B. tauto.
    + apply E in A. apply Z.eqb_eq in B. tauto.
Qed.
Print Assumptions C09_get_and_iterate.

Definition C09_h : list (@cop Z) :=
  [CAdd (mkObj 1 7 1 10); CAdd (mkObj 2 7 2 20); CAdd (mkObj 1 7 3 30);
   CAdd (mkObj 1 NO_ID 4 40); CErase (mkObj 2 7 2 20)].
Example C09_case : numbers_valid C09_h /\ numbers_consistent C09_h /\ erases_live [] C09_h /\
  live C09_h = [mkObj 1 NO_ID 4 40; mkObj 1 7 1 10] /\
  cfind (crun C09_h) (mkRef 1 7 NO_ID) = Ok (Some (mkObj 1 7 1 10)).
Proof.
  unfold numbers_valid, numbers_consistent. cbn. unfold NO_ID.
  split; [intros a H; intuition subst; cbn in *; lia|]. split.
  - intros a b Ha Hb. intuition subst; cbn in *; try reflexivity; try lia.
  - split; [tauto|]. vm_compute. tauto.
Qed.

(** C09: adding is refused exactly when an object of the same identity is live. *)
Theorem C09_add_refused_iff : forall P (h : list (@cop P)) o,
  numbers_valid (h ++ [CAdd o]) -> numbers_consistent (h ++ [CAdd o]) -> erases_live [] h ->
  (cadd (crun h) o = Throw <->
   exists x, In x (live h) /\
     ((ooid o <> NO_ID /\ otype x = otype o /\ ooid x = ooid o) \/ (ooid o = NO_ID /\ oid x = oid o))).
Proof.
  intros P h o Hv Hc He.
  assert (I: Inv (crun h) (live h)).
  { apply history_inv; [intros a Ha; apply Hv, in_or_app; auto| |exact He].
    intros a b Ha Hb. apply Hc; apply in_or_app; auto. }
  assert (No: oid o <> NO_ID) by (apply (Hv (CAdd o)), in_or_app; right; now left).
  destruct (cfind_live (crun h) (live h) (getReference o) I) as [res [E H]].
  { right. unfold has_id. cbn. apply negb_true_iff, Z.eqb_neq. exact No. }
  unfold cadd. rewrite E. cbn [bind]. unfold has_original_id in H. cbn [roid rtype rid getReference] in H.
  destruct res as [x|].
  - split; [intros _|reflexivity]. destruct (proj1 (H x) eq_refl) as [A B]. exists x. split; [exact A|].
    destruct (Z.eqb_spec (ooid o) NO_ID); cbn in B; tauto.
  - split; [discriminate|]. intros [x [A B]]. exfalso.
    assert (None = Some x); [|discriminate]. apply H. split; [exact A|].
    destruct (Z.eqb_spec (ooid o) NO_ID); cbn; tauto.
Qed.
Print Assumptions C09_add_refused_iff.
Example C09_add_case :
  cadd (crun [CAdd (mkObj 1 7 1 10)]) (mkObj 1 7 3 30) = Throw /\
  cadd (crun [CAdd (mkObj 1 7 1 10)]) (mkObj 1 8 3 30) <> Throw.
Proof. vm_compute. split; [reflexivity|discriminate]. Qed.

(** C09: cleaning invalid objects in best effort mode removes exactly them. *)
Theorem C09_validate_removes_invalid : forall P (h : list (@cop P)) valid,
  numbers_valid h -> numbers_consistent h -> erases_live [] h ->
  let '(c, ok) := cvalidate false valid (crun h) in
  (forall k o, cget c k = Some o <-> In o (live h) /\ oid o = k /\ valid o = true) /\
  (forall t n, n <> NO_ID -> forall o,
     (exists k, cfind c (mkRef t n k) = Ok (Some o)) <->
     In o (live h) /\ otype o = t /\ ooid o = n /\ valid o = true) /\
  (ok = true <-> forall o, In o (live h) -> valid o = true).
Proof.
  intros P h valid Hv Hc He. pose proof (history_inv h Hv Hc He) as I.
  destruct (elements_spec _ _ I) as [S E].
  assert (HL: forall o, In o (live h) -> exists op, In op h /\ op_obj op = o).
  { unfold live. assert (G: forall l L, (forall o, In o L -> exists op, In op h /\ op_obj op = o) ->
      (forall op, In op l -> In op h) -> forall o, In o (fold_left live_step l L) -> exists op, In op h /\ op_obj op = o).
    { induction l as [|op l IH]; cbn; intros L HL0 Hl o Ho; [auto|].
      apply (IH (live_step L op)); [|intros; apply Hl; now right|exact Ho].
      intros x Hx. apply live_step_in in Hx. destruct Hx as [Hx| ->]; [auto|]. exists op. split; [apply Hl; now left|reflexivity]. }
    apply (G h []); [intros o []|auto]. }
  set (bad := filter (fun o => negb (valid o)) (celements (crun h))).
  assert (Hbad: forall o, In o bad <-> In o (live h) /\ valid o = false).
  { intros o. unfold bad. rewrite filter_In, E, negb_true_iff. tauto. }
  assert (Nbad: NoDup bad).
  { apply NoDup_filter. clear -S. induction S; constructor; auto.
    intros X. rewrite Forall_forall in H. specialize (H a X). lia. }
  destruct (fold_erase_inv bad (crun h) (live h) I) as [I' H'].
  - intros o Ho. apply Hbad in Ho. tauto.
  - exact Nbad.
  - intros o Ho. destruct (HL o Ho) as [op [A <-]]. now apply Hv.
  - intros a b Ha Hb Eq. destruct (HL a Ha) as [o1 [A1 <-]], (HL b Hb) as [o2 [A2 <-]]. now apply Hc.
  - unfold cvalidate. fold bad.
    assert (HV: forall o, In o (fold_left live_step (map CErase bad) (live h)) <-> In o (live h) /\ valid o = true).
    { intros o. rewrite H', Hbad. destruct (valid o); intuition congruence. }
    split; [|split].
    + intros k o. unfold cget. rewrite (inv_id _ _ I'), HV. tauto.
    + intros t n Hn o. pose proof (inv_orig _ _ I' t n o) as IO. rewrite HV in IO.
      unfold cfind, has_original_id. cbn [rtype roid rid].
      destruct (Z.eqb_spec n NO_ID); [contradiction|]. cbn [negb]. unfold orig_find in IO. split.
      * intros [k X]. inversion X as [Y]. apply IO in Y. tauto.
      * intros Y. exists 0. f_equal. apply IO. tauto.
    + split.
      * intros Hok o Ho. destruct (valid o) eqn:V; [reflexivity|].
        assert (X: In o bad) by (apply Hbad; tauto). destruct bad; [destruct X|discriminate].
      * intros Hall. destruct bad as [|b r] eqn:Eb; [reflexivity|].
        assert (X: In b (b :: r)) by now left. apply Hbad in X.
        destruct X as [X Y]. rewrite (Hall b X) in Y. discriminate.
Qed.
Print Assumptions C09_validate_removes_invalid.

(** C09: in strict mode the invalid objects are reported and everything is kept. *)
Theorem C09_validate_strict : forall P (h : list (@cop P)) valid,
  numbers_valid h -> numbers_consistent h -> erases_live [] h ->
  let '(c, ok) := cvalidate true valid (crun h) in
  (forall k o, cget c k = Some o <-> In o (live h) /\ oid o = k) /\
  (ok = true <-> forall o, In o (live h) -> valid o = true).
Proof.
  intros P h valid Hv Hc He. pose proof (history_inv h Hv Hc He) as I. destruct (elements_spec _ _ I) as [S E]. unfold cvalidate. split.
  - intros k o. unfold cget. now rewrite (inv_id _ _ I).
  - set (bad := filter (fun o => negb (valid o)) (celements (crun h))).
    assert (Hbad: forall o, In o bad <-> In o (live h) /\ valid o = false).
    { intros o. unfold bad. rewrite filter_In, E, negb_true_iff. tauto. }
    split.
    + intros Hok o Ho. destruct (valid o) eqn:V; [reflexivity|].
      assert (X: In o bad) by (apply Hbad; tauto). destruct bad; [destruct X|discriminate].
    + intros Hall. destruct bad as [|b r] eqn:Eb; [reflexivity|].
      assert (X: In b (b :: r)) by now left. apply Hbad in X. destruct X as [X Y]. rewrite (Hall b X) in Y. discriminate.
Qed.
Print Assumptions C09_validate_strict.

(** C09: removal through a reference that carries the user number only (as
    built from an input file) leaves the object reachable by internal number
    and by iteration. *)
Theorem C09_erase_by_user_number_refuted : exists (o : object Z),
  let c := crun [CAdd o] in
  let r := mkRef (otype o) (ooid o) NO_ID in
  ref_eqb r (getReference o) = true /\
  cfind (cerase c r) (getReference o) = Ok None /\
  cget (cerase c r) (oid o) = Some o /\ In o (celements (cerase c r)).
Proof. exists (mkObj 1 7 1 10). vm_compute. tauto. Qed.
Print Assumptions C09_erase_by_user_number_refuted.

(** C09: lookup by bare user number is only meaningful if one type uses it: with
    two types the answer depends on the iteration order of the hash table. *)
Theorem C09_find_by_number_refuted : exists (c1 c2 : container Z) n,
  by_id c1 = by_id c2 /\ by_orig c2 = rev (by_orig c1) /\
  c1 = crun [CAdd (mkObj 1 7 1 10); CAdd (mkObj 2 7 2 20)] /\
  cfind_number c1 n <> cfind_number c2 n.
Proof.
  set (c := crun [CAdd (mkObj 1 7 1 10); CAdd (mkObj 2 7 2 20)]).
  exists c, (mkCont (by_id c) (rev (by_orig c))), 7. vm_compute. intuition discriminate.
Qed.
Print Assumptions C09_find_by_number_refuted.
