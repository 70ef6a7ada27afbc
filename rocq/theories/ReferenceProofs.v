(** Proofs about references and the object registry. *)
From Coq Require Import ZArith List Bool Lia Sorted.
From Verif Require Import Base ZMap ReferenceModel.
Import ListNotations.
Open Scope Z_scope.
Local Opaque NO_ID.

Ltac zbool :=
  repeat match goal with
  | |- context [?a =? ?b] => destruct (Z.eqb_spec a b); cbn [andb orb negb]
  | |- context [?a <? ?b] => destruct (Z.ltb_spec a b); cbn [andb orb negb]
  end; intros; try reflexivity; try congruence; try lia.

Lemma ref_lt_irrefl r : ref_ltb r r = false.
Proof. unfold ref_ltb. zbool. Qed.

Lemma ref_lt_trans a b c : ref_ltb a b = true -> ref_ltb b c = true -> ref_ltb a c = true.
Proof. unfold ref_ltb. zbool. Qed.

Lemma ref_lt_total a b : ref_ltb a b = false -> ref_ltb b a = false -> ref_eqb a b = true.
Proof. unfold ref_ltb, ref_eqb. zbool. Qed.

Lemma ref_eq_not_lt a b : ref_eqb a b = true -> ref_ltb a b = false.
Proof. unfold ref_ltb, ref_eqb. zbool. Qed.

Lemma ref_eq_refl a : ref_eqb a a = true.
Proof. unfold ref_eqb. zbool. Qed.

Lemma ref_eq_sym a b : ref_eqb a b = ref_eqb b a.
Proof. unfold ref_eqb. zbool. Qed.

Lemma ref_eq_trans a b c : ref_eqb a b = true -> ref_eqb b c = true -> ref_eqb a c = true.
Proof. unfold ref_eqb. zbool. Qed.

Lemma ref_lt_compat a a' b b' : ref_eqb a a' = true -> ref_eqb b b' = true ->
  ref_ltb a b = ref_ltb a' b'.
Proof. unfold ref_eqb, ref_ltb. zbool. Qed.

(** ------------------------------------------------------------------ *)
Section ContainerProofs.
Context {P : Type}.
Notation obj := (object P).

(** Abstract registry: the list of live objects. *)
Definition same_name (a b : obj) : bool :=
  if ooid a =? NO_ID then oid a =? oid b
  else (otype a =? otype b) && (ooid a =? ooid b).
Definition live_step (L : list obj) (op : @cop P) : list obj :=
  match op with
  | CAdd o => if existsb (same_name o) L then L else o :: L
  | CErase o => filter (fun x => negb (oid x =? oid o)) L
  end.
Definition live (h : list (@cop P)) : list obj := fold_left live_step h [].

(** The histories considered: an internal number denotes one object (numbers
    come from a counter, Object.h:108) and an object is only erased while it
    is in the registry. *)
Definition op_obj (op : @cop P) : obj := match op with CAdd o | CErase o => o end.
Definition numbers_consistent (h : list (@cop P)) : Prop :=
  forall a b, In a h -> In b h -> oid (op_obj a) = oid (op_obj b) -> op_obj a = op_obj b.
Definition numbers_valid (h : list (@cop P)) : Prop :=
  forall a, In a h -> oid (op_obj a) <> NO_ID.
Fixpoint erases_live (L : list obj) (h : list (@cop P)) : Prop :=
  match h with
  | [] => True
  | op :: r => (match op with CErase o => In o L | _ => True end) /\ erases_live (live_step L op) r
  end.

Definition orig_find (m : list (Z * zmap obj)) (t n : Z) : option obj :=
  match ty_find m t with Some z => zfind z n | None => None end.

Definition orig_wf (m : list (Z * zmap obj)) : Prop :=
  forall t z, ty_find m t = Some z -> zmap_wf z.

Lemma ty_find_update {B} (m : list (Z * B)) t d f t' :
  ty_find (ty_update m t d f) t' =
  if t =? t' then Some (f (match ty_find m t with Some b => b | None => d end)) else ty_find m t'.
Proof.
  induction m as [|[t0 b0] m IH]; cbn.
  - destruct (t =? t'); reflexivity.
  - destruct (Z.eqb_spec t0 t).
    + subst. cbn. destruct (Z.eqb_spec t t'); reflexivity.
    + cbn. rewrite IH. destruct (Z.eqb_spec t0 t'), (Z.eqb_spec t t'); try reflexivity. lia.
Qed.

Record Inv (c : container P) (L : list obj) : Prop := {
  inv_wf : zmap_wf (by_id c);
  inv_owf : orig_wf (by_orig c);
  inv_id : forall k o, zfind (by_id c) k = Some o <-> In o L /\ oid o = k;
  inv_orig : forall t n o, orig_find (by_orig c) t n = Some o <->
               In o L /\ otype o = t /\ ooid o = n /\ n <> NO_ID;
  inv_nodup : NoDup L
}.

Lemma orig_find_update m t f t' n : orig_wf m ->
  orig_find (ty_update m t [] f) t' n =
  if t =? t' then zfind (f (match ty_find m t with Some z => z | None => [] end)) n
  else orig_find m t' n.
Proof.
  intros W. unfold orig_find. rewrite ty_find_update. destruct (t =? t'); reflexivity.
Qed.

Lemma orig_wf_update m t f : orig_wf m -> (forall z, zmap_wf z -> zmap_wf (f z)) ->
  orig_wf (ty_update m t [] f).
Proof.
  intros W F t' z. rewrite ty_find_update. destruct (t =? t').
  - intros E. inversion E; subst. apply F. destruct (ty_find m t) eqn:E1; [eapply W; eauto|constructor].
  - apply W.
Qed.

Lemma cfind_live c L r : Inv c L -> (has_original_id r = true \/ has_id r = true) ->
  exists res, cfind c r = Ok res /\
    forall o, res = Some o <->
      In o L /\ (if has_original_id r then otype o = rtype r /\ ooid o = roid r else oid o = rid r).
Proof.
  intros I Hv. unfold cfind. destruct (has_original_id r) eqn:Ho.
  - eexists. split; [reflexivity|]. intros o. fold (orig_find (by_orig c) (rtype r) (roid r)).
    rewrite (inv_orig c L I). unfold has_original_id in Ho. apply negb_true_iff, Z.eqb_neq in Ho.
    intuition.
  - destruct (has_id r); [|destruct Hv; discriminate].
    eexists. split; [reflexivity|]. intros o. apply (inv_id c L I).
Qed.

Lemma existsb_same o L : existsb (same_name o) L = true <->
  exists x, In x L /\ (if ooid o =? NO_ID then oid x = oid o
                       else otype x = otype o /\ ooid x = ooid o).
Proof.
  rewrite existsb_exists. split; intros [x [Hx H]]; exists x; (split; [exact Hx|]);
  unfold same_name in *; destruct (ooid o =? NO_ID).
  - apply Z.eqb_eq in H. congruence.
  - apply andb_true_iff in H. destruct H as [A B]. apply Z.eqb_eq in A, B. split; congruence.
  - apply Z.eqb_eq. congruence.
  - apply andb_true_iff. destruct H. split; apply Z.eqb_eq; congruence.
Qed.

Lemma step_inv c L op :
  Inv c L ->
  oid (op_obj op) <> NO_ID ->
  (forall x, In x L -> oid x = oid (op_obj op) -> x = op_obj op) ->
  (match op with CErase o => In o L | _ => True end) ->
  Inv (cstep c op) (live_step L op).
Proof.
  intros I Hid Hc Hl. destruct op as [o|o]; cbn in *.
  - (* add *)
    assert (Hv: has_original_id (getReference o) = true \/ has_id (getReference o) = true).
    { right. unfold has_id. cbn. apply negb_true_iff, Z.eqb_neq. exact Hid. }
    destruct (cfind_live c L (getReference o) I Hv) as [res [E Hres]].
    unfold cadd. rewrite E. cbn [bind].
    assert (Hex: existsb (same_name o) L = true <-> exists x, res = Some x).
    { rewrite existsb_same. split.
      - intros [x Hx]. exists x. apply Hres. unfold has_original_id. cbn.
        destruct (ooid o =? NO_ID); cbn; exact Hx.
      - intros [x Hx]. apply Hres in Hx. unfold has_original_id in Hx. cbn in Hx.
        exists x. destruct (ooid o =? NO_ID); cbn in Hx; exact Hx. }
    destruct res as [x|].
    + replace (existsb (same_name o) L) with true by (symmetry; apply Hex; eauto). exact I.
    + destruct (existsb (same_name o) L) eqn:Es.
      { destruct (proj1 Hex eq_refl) as [x Hx]. discriminate. }
      assert (Hnew: ~ In o L).
      { intros Hin.
        assert (false = true) by
          (rewrite <- Es; apply existsb_exists; exists o; split; [exact Hin|];
           unfold same_name; destruct (ooid o =? NO_ID); rewrite ?Z.eqb_refl; reflexivity).
        discriminate. }
      constructor; cbn.
      * apply zinsert_wf, (inv_wf c L I).
      * destruct (isOriginal o); [|apply (inv_owf c L I)].
        apply orig_wf_update; [apply (inv_owf c L I)|]. intros z. apply zinsert_wf.
      * intros k y. rewrite zfind_insert by apply (inv_wf c L I).
        destruct (Z.eqb_spec (oid o) k).
        -- split.
           ++ intros X; inversion X; subst. auto.
           ++ intros [[X|X] Y]; [congruence|]. f_equal. symmetry. apply Hc; [exact X|congruence].
        -- rewrite (inv_id c L I). split; [intuition|]. intros [[X|X] Y]; [congruence|auto].
      * intros t n y. unfold isOriginal. destruct (Z.eqb_spec (ooid o) NO_ID) as [Eo|No]; cbn.
        -- rewrite (inv_orig c L I). split; [intuition|].
           intros [[X|X] Y]; [subst; intuition congruence|auto].
        -- rewrite orig_find_update by apply (inv_owf c L I).
           pose proof (inv_orig c L I t n y) as IO. unfold orig_find in IO at 1.
           destruct (Z.eqb_spec (otype o) t) as [Et|Nt].
           ++ rewrite zfind_insert.
              2:{ destruct (ty_find (by_orig c) (otype o)) eqn:F; [eapply (inv_owf c L I); eauto|constructor]. }
              destruct (Z.eqb_spec (ooid o) n) as [En|Nn].
              ** split.
                 --- intros X; inversion X; subst. intuition.
                 --- intros [[X|X] [Y1 [Y2 Y3]]]; [congruence|]. exfalso.
                     assert (Some y = None) by
                       (symmetry; rewrite <- (proj2 (Hres y)); [reflexivity|];
                        split; [exact X|]; unfold has_original_id; cbn;
                        destruct (Z.eqb_spec (ooid o) NO_ID); [contradiction|cbn]; split; congruence).
                     discriminate.
              ** rewrite Et. split.
                 --- intros X. assert (In y L /\ otype y = t /\ ooid y = n /\ n <> NO_ID).
                     { apply IO. destruct (ty_find (by_orig c) t); [exact X|cbn in X; discriminate]. }
                     intuition.
                 --- intros [[X|X] [Y1 [Y2 Y3]]]; [subst y; congruence|].
                     destruct (ty_find (by_orig c) t); apply IO; tauto.
           ++ rewrite (inv_orig c L I). split; [intuition|].
              intros [[X|X] [Y1 Y2]]; [subst y; congruence|tauto].
      * constructor; [exact Hnew|apply (inv_nodup c L I)].
  - (* erase *)
    assert (HF: forall y, In y (filter (fun x => negb (oid x =? oid o)) L) <-> In y L /\ oid y <> oid o).
    { intros y. rewrite filter_In, negb_true_iff, Z.eqb_neq. tauto. }
    constructor; cbn.
    + apply zerase_wf, (inv_wf c L I).
    + destruct (has_original_id (getReference o)); [|apply (inv_owf c L I)].
      apply orig_wf_update; [apply (inv_owf c L I)|]. intros z. apply zerase_wf.
    + intros k y. rewrite zfind_erase by apply (inv_wf c L I). rewrite HF.
      destruct (Z.eqb_spec (oid o) k).
      * split; [discriminate|]. intros [[X Y] Z0]. congruence.
      * rewrite (inv_id c L I). intuition congruence.
    + intros t n y. rewrite HF. unfold has_original_id. cbn.
      destruct (Z.eqb_spec (ooid o) NO_ID) as [Eo|No]; cbn.
      * rewrite (inv_orig c L I). split; [|tauto]. intros [A [B [C D]]].
        split; [split; [exact A|]|tauto]. intros X. apply (Hc y A) in X. subst y. congruence.
      * rewrite orig_find_update by apply (inv_owf c L I).
        pose proof (inv_orig c L I t n y) as IO. unfold orig_find in IO at 1.
        destruct (Z.eqb_spec (otype o) t) as [Et|Nt].
        -- rewrite Et. destruct (ty_find (by_orig c) t) as [z|] eqn:F.
           ++ rewrite zfind_erase by (eapply (inv_owf c L I); eauto).
              destruct (Z.eqb_spec (ooid o) n) as [En|Nn].
              ** split; [discriminate|]. intros [[X Y] [Y1 [Y2 Y3]]]. exfalso.
                 assert (zfind z n = Some y) as X1 by (apply IO; tauto).
                 assert (zfind z n = Some o) as X2.
                 { pose proof (inv_orig c L I t n o) as IO2. unfold orig_find in IO2. rewrite F in IO2.
                   apply IO2. tauto. }
                 congruence.
              ** rewrite IO. split; [|tauto]. intros [A [B [C D]]].
                 split; [split; [exact A|]|tauto]. intros X. apply (Hc y A) in X. subst y. congruence.
           ++ cbn. split; [discriminate|]. intros [[X Y] Z0].
              assert (None = Some y) by (apply IO; tauto). discriminate.
        -- rewrite (inv_orig c L I). split; [|tauto]. intros [A [B [C D]]].
           split; [split; [exact A|]|tauto]. intros X. apply (Hc y A) in X. subst y. congruence.
    + apply NoDup_filter, (inv_nodup c L I).
Qed.

Lemma empty_inv : Inv empty_container [].
Proof.
  constructor; cbn.
  - constructor.
  - intros t z E. discriminate.
  - intros; split; [discriminate|tauto].
  - intros; split; [discriminate|tauto].
  - constructor.
Qed.

Lemma live_step_in L op x : In x (live_step L op) -> In x L \/ x = op_obj op.
Proof.
  destruct op as [o|o]; cbn.
  - destruct (existsb (same_name o) L); cbn; intuition.
  - rewrite filter_In. tauto.
Qed.

Lemma run_inv h : forall c L,
  Inv c L -> numbers_valid h -> numbers_consistent h ->
  (forall x op, In x L -> In op h -> oid x = oid (op_obj op) -> x = op_obj op) ->
  erases_live L h ->
  Inv (fold_left cstep h c) (fold_left live_step h L).
Proof.
  induction h as [|op h IH]; intros c L I Hv Hc HL He; cbn; [exact I|].
  destruct He as [He1 He2]. apply IH.
  - apply step_inv; [exact I|apply Hv; now left| |exact He1].
    intros x Hx E. apply (HL x op Hx); [now left|exact E].
  - intros a Ha. apply Hv. now right.
  - intros a b Ha Hb. apply Hc; now right.
  - intros x op' Hx Hop E. apply live_step_in in Hx. destruct Hx as [Hx| ->].
    + apply (HL x op' Hx); [now right|exact E].
    + apply Hc; [now left|now right|exact E].
  - exact He2.
Qed.

Lemma history_inv h : numbers_valid h -> numbers_consistent h -> erases_live [] h ->
  Inv (crun h) (live h).
Proof.
  intros. apply run_inv; auto using empty_inv. intros x op [].
Qed.

Lemma elements_spec c L : Inv c L ->
  StronglySorted (fun a b => oid a < oid b) (celements c) /\ (forall o, In o (celements c) <-> In o L).
Proof.
  intros I. unfold celements.
  assert (K: forall k o, In (k, o) (by_id c) -> oid o = k).
  { intros k o H. apply in_zfind in H; [|apply (inv_wf c L I)]. apply (inv_id c L I) in H. tauto. }
  split.
  - pose proof (inv_wf c L I) as W. revert K W. generalize (by_id c).
    induction z as [|[k o] z IH]; intros K W; cbn; constructor.
    + apply IH; [intros; apply K; now right|eapply wf_tail; exact W].
    + apply Forall_forall. intros x Hx. apply in_map_iff in Hx. destruct Hx as [[k' o'] [E Hx]].
      cbn in E. subst o'. rewrite (K k' x) by now right. rewrite (K k o) by now left.
      exact (wf_head _ _ _ _ W Hx).
  - intros o. rewrite in_map_iff. split.
    + intros [[k x] [E Hx]]. cbn in E. subst x. apply in_zfind in Hx; [|apply (inv_wf c L I)].
      apply (inv_id c L I) in Hx. tauto.
    + intros H. exists (oid o, o). split; [reflexivity|]. apply zfind_in.
      apply (inv_id c L I). tauto.
Qed.

Lemma fold_erase_inv bad : forall c L,
  Inv c L -> (forall o, In o bad -> In o L) -> NoDup bad ->
  (forall o, In o L -> oid o <> NO_ID) -> (forall a b, In a L -> In b L -> oid a = oid b -> a = b) ->
  Inv (fold_left (fun c o => cerase c (getReference o)) bad c)
      (fold_left live_step (map CErase bad) L) /\
  (forall o, In o (fold_left live_step (map CErase bad) L) <-> In o L /\ ~ In o bad).
Proof.
  induction bad as [|b bad IH]; intros c L I Hb Nb Hv Hu; cbn.
  - split; [exact I|tauto].
  - inversion Nb; subst.
    assert (Hin: forall y, In y (filter (fun x => negb (oid x =? oid b)) L) <-> In y L /\ y <> b).
    { intros y. rewrite filter_In, negb_true_iff, Z.eqb_neq. split.
      - intros [A B]. split; [exact A|]. intros ->. congruence.
      - intros [A B]. split; [exact A|]. intros E. apply B, Hu; auto. apply Hb. now left. }
    destruct (IH (cerase c (getReference b)) (filter (fun x => negb (oid x =? oid b)) L)) as [I' H'].
    + apply (step_inv c L (CErase b)); [exact I| | |].
      * apply Hv, Hb. now left.
      * intros x Hx E. apply Hu; auto. apply Hb. now left.
      * apply Hb. now left.
    + intros o Ho. apply Hin. split; [apply Hb; now right|]. intros ->. contradiction.
    + assumption.
    + intros o Ho. apply Hin in Ho. apply Hv. tauto.
    + intros x y Hx Hy. apply Hin in Hx, Hy. apply Hu; tauto.
    + split; [exact I'|]. intros o. rewrite H', Hin. cbn. intuition congruence.
Qed.
End ContainerProofs.
