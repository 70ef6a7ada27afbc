(** Proofs about the splitting of direct matrices. *)
From Coq Require Import ZArith List Bool Lia Permutation Arith.
From Verif Require Import Base DofModel DofProofs MatrixElementModel MatrixElementProofs.
Import ListNotations.
Open Scope Z_scope.

Lemma zput_in s k x : In x (zput s k) <-> x = k \/ In x s.
Proof.
  induction s as [|y s IH]; cbn; [intuition|].
  destruct (k <? y); [cbn; intuition|]. destruct (Z.eqb_spec k y); cbn; [subst; intuition|]. rewrite IH. tauto.
Qed.

Inductive zsorted : list Z -> Prop :=
| zs_nil : zsorted []
| zs_cons x l : (forall y, In y l -> x < y) -> zsorted l -> zsorted (x :: l).

Lemma zput_sorted s k : zsorted s -> zsorted (zput s k).
Proof.
  induction 1 as [|x l L S IH]; cbn; [repeat constructor; intros ? []|].
  destruct (Z.ltb_spec k x).
  - constructor; [|now constructor]. intros y [->|H']; [assumption|]. specialize (L _ H'). lia.
  - destruct (Z.eqb_spec k x); [now constructor|]. constructor; [|assumption].
    intros y Hy. apply zput_in in Hy. destruct Hy as [->|Hy]; [lia|auto].
Qed.
Lemma zsorted_nodup l : zsorted l -> NoDup l.
Proof. induction 1; constructor; auto. intros X. specialize (H _ X). lia. Qed.

Section Split.
Context {V : Type}.
Implicit Types (m : melement V) (is_zero : V -> bool).

Lemma nodePositions_gen m : forall acc,
  zsorted acc ->
  let r := fold_left (fun s (kv : npair * dofmatrix V) => zput (zput s (fst (fst kv))) (snd (fst kv))) m acc in
  zsorted r /\ forall x, In x r <-> In x acc \/ exists k s, In (k, s) m /\ (x = fst k \/ x = snd k).
Proof.
  induction m as [|[k s] m IH]; cbn; intros acc A.
  - split; [exact A|]. intros x. split; [tauto|]. intros [H|[? [? [[] _]]]]; exact H.
  - destruct (IH (zput (zput acc (fst k)) (snd k))) as [S I]; [now apply zput_sorted, zput_sorted|].
    split; [exact S|]. intros x. rewrite I, !zput_in. split.
    + intros [[ -> |[ -> |H]]|[k' [s' [H E]]]]; [right; exists k, s; auto|right; exists k, s; auto|auto|].
      right. exists k', s'. auto.
    + intros [H|[k' [s' [[H|H] E]]]]; [auto| |].
      * inversion H; subst. tauto.
      * right. exists k', s'. auto.
Qed.

Lemma nodePositions_in m x :
  In x (nodePositions m) <-> exists k s, In (k, s) m /\ (x = fst k \/ x = snd k).
Proof. unfold nodePositions. destruct (nodePositions_gen m [] zs_nil) as [_ I]. rewrite I. cbn. tauto. Qed.
Lemma nodePositions_sorted m : zsorted (nodePositions m).
Proof. unfold nodePositions. apply (nodePositions_gen m [] zs_nil). Qed.

(** Terms block by block *)
Definition bterm (b : npair * dofmatrix V) : list (write V) :=
  map (fun kv => (fst (fst b), fst (fst kv), snd (fst b), snd (fst kv), snd kv)) (comps (snd b)).

Lemma flat_map_in_ext {A B} (f g : A -> list B) l : (forall a, In a l -> f a = g a) -> flat_map f l = flat_map g l.
Proof. induction l as [|a l IH]; cbn; intros H; [reflexivity|]. rewrite H, IH; auto. Qed.

Lemma terms_blocks m : psorted m -> terms m = flat_map bterm m.
Proof.
  intros S. unfold terms, nodePairs.
  rewrite (flat_map_concat_map _ (map fst m)), map_map, <- flat_map_concat_map.
  apply flat_map_in_ext. intros [k s] H. unfold findSubmatrix, bterm. cbn [fst snd comps].
  rewrite <- surjective_pairing, (in_pfind m k s S H). reflexivity.
Qed.

Lemma touches_nodes m p : me_wf m -> (touches m p <-> In p (nodePositions m)).
Proof.
  intros W. rewrite nodePositions_in. unfold touches. rewrite terms_blocks by apply W. split.
  - intros [n1 [d1 [n2 [d2 [v [H E]]]]]]. apply in_flat_map in H. destruct H as [[k s] [H1 H2]].
    unfold bterm in H2. apply in_map_iff in H2. destruct H2 as [[[a b] w] [E2 H2]]. cbn in E2. inversion E2; subst.
    exists k, s. split; [exact H1|]. intuition.
  - intros [k [s [H E]]]. destruct (proj2 W k s H) as [_ [_ [N _]]].
    destruct (comps s) as [|[[a b] v] r] eqn:C; [congruence|].
    exists (fst k), a, (snd k), b, v. split; [|intuition].
    apply in_flat_map. exists (k, s). split; [exact H|]. unfold bterm. cbn [fst snd]. rewrite C. now left.
Qed.

(** Copying a block *)
Lemma comp_set_fresh (l : list ((dof * dof) * V)) k v : ~ In k (map fst l) -> comp_set l k v = l ++ [(k, v)].
Proof.
  induction l as [|[k' v'] l IH]; cbn; intros H; [reflexivity|].
  destruct (key_eqb k' k) eqn:E; [apply key_eqb_spec in E; tauto|]. rewrite IH; tauto.
Qed.

Lemma addComponent_norm is_zero t (l : list ((dof * dof) * V)) a b v : t <> DIAGONAL ->
  norm_key t a b = (a, b) -> addComponent is_zero (mkMatrix t l) a b v = Ok (mkMatrix t (comp_set l (a, b) v)).
Proof.
  intros T N. unfold addComponent. cbn [mtype comps]. destruct t; [reflexivity| |congruence].
  cbn in *. destruct (dof_ltb b a); [|reflexivity]. inversion N; subst. reflexivity.
Qed.

Lemma block_type_nd k : block_type k <> DIAGONAL.
Proof. unfold block_type. destruct (_ =? _); discriminate. Qed.

Lemma copy_from is_zero np (c : list ((dof * dof) * V)) : fst np <= snd np -> forall done pc,
  psorted pc -> pfind pc np = Some (mkMatrix (block_type np) done) -> NoDup (map fst (done ++ c)) ->
  (forall a b v, In ((a, b), v) c -> norm_key (block_type np) a b = (a, b)) ->
  pset pc np (mkMatrix (block_type np) done) = pc ->
  copy_block is_zero np c pc = Ok (pset pc np (mkMatrix (block_type np) (done ++ c))).
Proof.
  intros L. induction c as [|[[a b] v] c IH]; intros done pc S F N K P.
  - unfold copy_block. cbn. rewrite app_nil_r, P. reflexivity.
  - unfold copy_block. cbn [foldM fst snd]. unfold me_add at 1.
    replace (snd np <? fst np) with false by (symmetry; apply Z.ltb_ge; exact L).
    rewrite <- surjective_pairing, F.
    rewrite addComponent_norm; [|apply block_type_nd|apply (K a b v); now left]. cbn [bind].
    assert (Fr : ~ In (a, b) (map fst done)).
    { rewrite map_app in N. cbn in N. apply NoDup_remove_2 in N. intros X. apply N. apply in_or_app. now left. }
    rewrite comp_set_fresh by exact Fr.
    specialize (IH (done ++ [((a, b), v)]) (pset pc np (mkMatrix (block_type np) (done ++ [((a, b), v)])))).
    unfold copy_block in IH. rewrite IH.
    + rewrite pset_pset by exact S. now rewrite <- app_assoc.
    + now apply pset_sorted.
    + rewrite pfind_pset by exact S. now rewrite npair_eqb_refl.
    + now rewrite <- app_assoc.
    + intros a' b' v' H. apply (K a' b' v'). now right.
    + now rewrite pset_pset.
Qed.

Lemma copy_fresh is_zero np (s : dofmatrix V) pc : fst np <= snd np -> psorted pc -> pfind pc np = None ->
  comps s <> [] -> NoDup (map fst (comps s)) ->
  (forall a b v, In ((a, b), v) (comps s) -> norm_key (block_type np) a b = (a, b)) ->
  copy_block is_zero np (comps s) pc = Ok (pset pc np (mkMatrix (block_type np) (comps s))).
Proof.
  intros L S F NE N K. destruct (comps s) as [|[[a b] v] c]; [congruence|].
  unfold copy_block. cbn [foldM fst snd]. unfold me_add at 1.
  replace (snd np <? fst np) with false by (symmetry; apply Z.ltb_ge; exact L).
  rewrite <- surjective_pairing, F. cbv zeta. fold (block_type np). unfold newMatrix.
  rewrite addComponent_norm; [|apply block_type_nd|apply (K a b v); now left]. cbn [bind comp_set].
  pose proof (copy_from is_zero np c L [((a, b), v)] (pset pc np (mkMatrix (block_type np) [((a, b), v)]))) as C.
  unfold copy_block in C. rewrite C.
  - rewrite pset_pset by exact S. reflexivity.
  - now apply pset_sorted.
  - rewrite pfind_pset by exact S. now rewrite npair_eqb_refl.
  - exact N.
  - intros a' b' v' H. apply (K a' b' v'). now right.
  - now rewrite pset_pset.
Qed.

(** Stacks *)
Context (sz : nat).

Lemma rank_of_app l n x r : rank_of l n = Some r -> rank_of (l ++ x) n = Some r.
Proof.
  revert r. induction l as [|a l IH]; cbn; intros r H; [discriminate|].
  destruct (a =? n); [exact H|]. destruct (rank_of l n) as [r'|]; [|discriminate]. now rewrite (IH r' eq_refl).
Qed.
Lemma rank_of_last l n : rank_of l n = None -> rank_of (l ++ [n]) n = Some (length l).
Proof.
  induction l as [|a l IH]; cbn; intros H; [now rewrite Z.eqb_refl|].
  destruct (a =? n); [discriminate|]. destruct (rank_of l n); [discriminate|]. now rewrite (IH eq_refl).
Qed.
Lemma rank_of_inj l : forall n n' r, rank_of l n = Some r -> rank_of l n' = Some r -> n = n'.
Proof.
  induction l as [|a l IH]; cbn; intros n n' r H H'; [discriminate|].
  destruct (Z.eqb_spec a n), (Z.eqb_spec a n').
  - congruence.
  - injection H as <-. destruct (rank_of l n'); discriminate.
  - injection H' as <-. destruct (rank_of l n); discriminate.
  - destruct (rank_of l n) as [r1|] eqn:E1; [|discriminate]. destruct (rank_of l n') as [r2|] eqn:E2; [|discriminate].
    cbn in *. assert (r1 = r2) by congruence. subst. eauto.
Qed.

Lemma stack_of_spec l n k l' : stack_of sz l n = (k, l') ->
  (exists r, rank_of l' n = Some r /\ Nat.div r sz = k) /\ (forall n0 r0, rank_of l n0 = Some r0 -> rank_of l' n0 = Some r0).
Proof.
  unfold stack_of. destruct (rank_of l n) as [r|] eqn:E; intros H; injection H as <- <-.
  - split; [eauto|auto].
  - split; [exists (length l); split; [now apply rank_of_last|reflexivity]|]. intros. now apply rank_of_app.
Qed.

(** Size invariant of a piece *)
Definition in_stacks (l : list Z) (n : Z) (a b : nat) : Prop :=
  exists r, rank_of l n = Some r /\ (Nat.div r sz = a \/ Nat.div r sz = b).

Definition group_ok (l : list Z) (ix : list ((nat * nat) * nat)) (i : nat) (pc : melement V) : Prop :=
  exists a b, (forall k s, In (k, s) pc -> in_stacks l (fst k) a b /\ in_stacks l (snd k) a b) /\
    (forall k, In (k, i) ix -> (fst k = a \/ fst k = b) /\ (snd k = a \/ snd k = b)).

Lemma group_size l ix i pc : (0 < sz)%nat -> group_ok l ix i pc -> (length (nodePositions pc) <= 2 * sz)%nat.
Proof.
  intros Z0 [a [b [H _]]].
  set (f := fun n => match rank_of l n with Some r => r | None => O end).
  assert (NoDup (map f (nodePositions pc))) as N.
  { assert (G : forall x y, In x (nodePositions pc) -> In y (nodePositions pc) -> f x = f y -> x = y).
    { assert (R : forall x, In x (nodePositions pc) -> exists r, rank_of l x = Some r).
      { intros x Hx. apply nodePositions_in in Hx. destruct Hx as [k [s [Hk E]]]. apply H in Hk.
        destruct Hk as [[r1 [R1 _]] [r2 [R2 _]]]. destruct E as [-> | ->]; eauto. }
      intros x y Hx Hy E. destruct (R x Hx) as [r1 R1], (R y Hy) as [r2 R2]. unfold f in E.
      rewrite R1, R2 in E. subst. eapply rank_of_inj; eauto. }
    pose proof (zsorted_nodup _ (nodePositions_sorted pc)) as N.
    clear - G N. induction N as [|x l0 Hx N IH]; cbn; constructor.
    - intros X. apply in_map_iff in X. destruct X as [y [E Hy]]. apply Hx. rewrite <- (G y x); auto; [now right|now left].
    - apply IH. intros; apply G; auto; now right. }
  assert (incl (map f (nodePositions pc)) (seq (a * sz) sz ++ seq (b * sz) sz)) as I.
  { intros r Hr. apply in_map_iff in Hr. destruct Hr as [x [E Hx]]. apply nodePositions_in in Hx.
    destruct Hx as [k [s [Hk Ex]]]. apply H in Hk. 
    assert (in_stacks l x a b) as [r' [R [D|D]]] by (destruct Ex as [-> | ->]; tauto).
    - unfold f in E. rewrite R in E. subst r'. apply in_or_app. left. apply in_seq.
      pose proof (Nat.div_mod r sz ltac:(lia)). pose proof (Nat.mod_upper_bound r sz ltac:(lia)). nia.
    - unfold f in E. rewrite R in E. subst r'. apply in_or_app. right. apply in_seq.
      pose proof (Nat.div_mod r sz ltac:(lia)). pose proof (Nat.mod_upper_bound r sz ltac:(lia)). nia. }
  pose proof (NoDup_incl_length N I) as Len. rewrite map_length, app_length, !seq_length in Len. lia.
Qed.

(** Loop invariant *)
Definition split_inv (done : list (npair * dofmatrix V)) (st : @split_state V) : Prop :=
  (forall pc, In pc (pieces st) -> me_wf pc) /\
  (forall pc k s, In pc (pieces st) -> In (k, s) pc -> In k (map fst done)) /\
  Permutation (flat_map (flat_map bterm) (pieces st)) (flat_map bterm done) /\
  (forall k i, In (k, i) (index st) -> (i < length (pieces st))%nat) /\
  (forall i pc, nth_error (pieces st) i = Some pc -> group_ok (seen st) (index st) i pc).

Lemma in_update {A} (l : list A) i a x : In x (update l i a) -> x = a \/ In x l.
Proof. revert i. induction l as [|y l IH]; intros [|i]; cbn; [tauto|tauto|intuition|]. intros [->|H]; [auto|]. apply IH in H. tauto. Qed.
Lemma length_update {A} (l : list A) i a : length (update l i a) = length l.
Proof. revert i. induction l as [|y l IH]; intros [|i]; cbn; auto. Qed.
Lemma nth_error_update {A} (l : list A) i a j :
  nth_error (update l i a) j = if Nat.eqb i j then (if Nat.ltb i (length l) then Some a else None) else nth_error l j.
Proof.
  revert i j. induction l as [|y l IH]; intros [|i] [|j]; cbn; try reflexivity.
  - destruct (Nat.eqb i j); reflexivity.
  - rewrite IH. reflexivity.
Qed.
Lemma update_perm {A B} (f : A -> list B) l i x y e : nth_error l i = Some x -> Permutation (f y) (e ++ f x) ->
  Permutation (flat_map f (update l i y)) (e ++ flat_map f l).
Proof.
  revert i. induction l as [|z l IH]; intros [|i] H P; cbn in *; try discriminate.
  - injection H as ->. rewrite P, app_assoc. reflexivity.
  - rewrite (IH i H P). rewrite !app_assoc. apply Permutation_app_tail. apply Permutation_app_comm.
Qed.

Lemma sfind_in l k i : sfind l k = Some i -> In (k, i) l.
Proof.
  induction l as [|[[a b] j] l IH]; cbn; [discriminate|].
  destruct k as [c d]. unfold spair_eqb. cbn [fst snd].
  destruct (Nat.eqb_spec a c), (Nat.eqb_spec b d); cbn; intros H; subst; auto.
  injection H as ->. now left.
Qed.

Lemma even_pair a : a = (a - a mod 2)%nat \/ a = S (a - a mod 2)%nat.
Proof.
  pose proof (Nat.mod_upper_bound a 2 ltac:(lia)). pose proof (Nat.mod_le a 2 ltac:(lia)).
  destruct (a mod 2)%nat as [|[|k]] eqn:E; lia.
Qed.

(** The piece chosen for a pair of stacks can hold nodes of these stacks. *)
Lemma piece_for_spec (st : @split_state V) ps i st1 :
  (forall k j, In (k, j) (index st) -> (j < length (pieces st))%nat) ->
  (forall j pc, nth_error (pieces st) j = Some pc -> group_ok (seen st) (index st) j pc) ->
  piece_for st ps = (i, st1) ->
  seen st1 = seen st /\
  (pieces st1 = pieces st \/ pieces st1 = pieces st ++ [[]]) /\
  (exists pc, nth_error (pieces st1) i = Some pc) /\
  (forall k j, In (k, j) (index st1) -> (j < length (pieces st1))%nat) /\
  (forall j pc, nth_error (pieces st1) j = Some pc -> group_ok (seen st1) (index st1) j pc) /\
  In (ps, i) (index st1).
Proof.
  intros B G. unfold piece_for. destruct (sfind (index st) ps) as [j|] eqn:F; intros E.
  - injection E as <- <-. apply sfind_in in F. repeat (split; [solve [auto]|]).
    split; [|repeat (split; [solve [eauto]|]); exact F].
    specialize (B _ _ F). destruct (nth_error (pieces st) j) eqn:N; [eauto|].
    apply nth_error_None in N. lia.
  - cbv zeta in E. injection E as <- <-. cbn [seen pieces index].
    set (f := (fst ps - fst ps mod 2)%nat). set (g := (snd ps - snd ps mod 2)%nat).
    set (n := length (pieces st)).
    assert (IX : forall k j, In (k, j) (if Nat.eqb f g then ((S f, S f), n) :: ((f, S f), n) :: ((f, f), n) :: (ps, n) :: index st
                                 else (ps, n) :: index st) ->
              In (k, j) (index st) \/ (j = n /\ (k = ps \/ (f = g /\ (k = (S f, S f) \/ k = (f, S f) \/ k = (f, f)))))).
    { intros k j. destruct (Nat.eqb_spec f g); cbn.
      - intros [H|[H|[H|[H|H]]]]; try (inversion H; subst; tauto). tauto.
      - intros [H|H]; [inversion H; subst; tauto|tauto]. }
    split; [reflexivity|]. split; [now right|]. split; [|split; [|split]].
    + exists []. rewrite nth_error_app2 by (subst n; lia). subst n. now rewrite Nat.sub_diag.
    + intros k j H. apply IX in H. rewrite app_length. cbn. destruct H as [H|[-> _]]; [|subst n; lia].
      specialize (B _ _ H). lia.
    + intros j pc H. destruct (Nat.lt_ge_cases j n) as [Lt|Ge].
      * rewrite nth_error_app1 in H by exact Lt. apply G in H. destruct H as [a [b [H1 H2]]].
        exists a, b. split; [exact H1|]. intros k Hk. apply IX in Hk. destruct Hk as [Hk|[E _]]; [auto|lia].
      * rewrite nth_error_app2 in H by exact Ge. fold n in H.
        destruct (j - n)%nat as [|d] eqn:D; [|destruct d; discriminate]. cbn in H. injection H as <-.
        assert (j = n) by lia. subst j.
        destruct (Nat.eq_dec f g) as [Efg|Nfg].
        -- exists f, (S f). split; [intros ? ? []|]. intros k Hk. apply IX in Hk.
           destruct Hk as [Hk|[_ [->|[_ [->|[->| ->]]]]]]; cbn; auto.
           ++ specialize (B _ _ Hk). subst n. lia.
           ++ pose proof (even_pair (fst ps)). pose proof (even_pair (snd ps)). fold f in H. fold g in H0.
              rewrite <- Efg in H0. tauto.
        -- exists (fst ps), (snd ps). split; [intros ? ? []|]. intros k Hk. apply IX in Hk.
           destruct Hk as [Hk|[_ [->|[X _]]]]; auto; [|contradiction].
           specialize (B _ _ Hk). subst n. lia.
    + match goal with |- In _ (if ?c then _ else _) => destruct c end; cbn; auto 6.
Qed.

Lemma group_ok_mono l l' ix i pc : (forall n r, rank_of l n = Some r -> rank_of l' n = Some r) ->
  group_ok l ix i pc -> group_ok l' ix i pc.
Proof.
  intros M [a [b [H1 H2]]]. exists a, b. split; [|exact H2].
  intros k s H. apply H1 in H. destruct H as [[r1 [R1 D1]] [r2 [R2 D2]]].
  split; [exists r1|exists r2]; auto.
Qed.

Lemma split_step is_zero m done np s st : me_wf m -> In (np, s) m -> ~ In np (map fst done) -> split_inv done st ->
  exists st', split_pair is_zero sz m st np = Ok st' /\ split_inv (done ++ [(np, s)]) st'.
Proof.
  intros [S W] Hin Fresh [Iw [Ik [Ip [Ib Ig]]]]. destruct (W _ _ Hin) as [L [T [NE [ND K]]]].
  unfold split_pair.
  destruct (stack_of sz (seen st) (fst np)) as [sI l1] eqn:E1.
  destruct (stack_of sz l1 (snd np)) as [sJ l2] eqn:E2.
  apply stack_of_spec in E1. destruct E1 as [[r1 [R1 D1]] M1].
  apply stack_of_spec in E2. destruct E2 as [[r2 [R2 D2]] M2].
  assert (M : forall n r, rank_of (seen st) n = Some r -> rank_of l2 n = Some r) by auto.
  apply M2 in R1.
  set (ps := if Nat.ltb sI sJ then (sI, sJ) else (sJ, sI)).
  destruct (piece_for (mkSplit l2 (index st) (pieces st)) ps) as [i st1] eqn:EP.
  apply piece_for_spec in EP; cbn [seen index pieces] in *; [|exact Ib|intros; eapply group_ok_mono; eauto].
  destruct EP as [Sn [Pc [[pc Hpc] [B1 [G1 Hps]]]]].
  rewrite Hpc. cbn [of_option bind].
  unfold findSubmatrix. cbn [comps]. rewrite <- surjective_pairing, (in_pfind m np s S Hin).
  assert (Pin : forall q, In q (pieces st1) -> In q (pieces st) \/ q = []).
  { intros q Hq. destruct Pc as [-> | ->] in Hq; [auto|]. apply in_app_or in Hq. cbn in Hq. intuition. }
  assert (Wpc : me_wf pc).
  { destruct (Pin pc (nth_error_In _ _ Hpc)) as [H| ->]; [auto|apply me_wf_nil]. }
  assert (Fpc : pfind pc np = None).
  { destruct (pfind pc np) as [x|] eqn:F; [|reflexivity]. exfalso. apply Fresh. apply pfind_in in F.
    destruct (Pin pc (nth_error_In _ _ Hpc)) as [H| ->]; [eauto|contradiction]. }
  rewrite (copy_fresh is_zero np s pc L (proj1 Wpc) Fpc NE ND K). cbn [bind].
  eexists. split; [reflexivity|].
  set (pc' := pset pc np (mkMatrix (block_type np) (comps s))).
  unfold split_inv. cbn [seen index pieces]. repeat apply conj.
  - intros q Hq. apply in_update in Hq. destruct Hq as [-> | Hq].
    + split; [apply pset_sorted, Wpc|]. intros k x Hx. apply pset_in in Hx. destruct Hx as [Hx|Hx]; [|now apply Wpc].
      inversion Hx; subst. cbn [mtype comps]. auto.
    + destruct (Pin q Hq) as [H| ->]; [auto|apply me_wf_nil].
  - intros q k x Hq Hx. rewrite map_app, in_app_iff. cbn. apply in_update in Hq. destruct Hq as [-> | Hq].
    + apply pset_in in Hx. destruct Hx as [Hx|Hx]; [inversion Hx; subst; auto|].
      left. destruct (Pin pc (nth_error_In _ _ Hpc)) as [H| ->]; [eauto|contradiction].
    + left. destruct (Pin q Hq) as [H| ->]; [eauto|contradiction].
  - rewrite flat_map_app. cbn [flat_map]. rewrite app_nil_r.
    rewrite (update_perm (flat_map bterm) (pieces st1) i pc pc' (bterm (np, s)) Hpc).
    + rewrite Permutation_app_comm. apply Permutation_app_tail.
      destruct Pc as [-> | ->]; [exact Ip|]. rewrite flat_map_app. cbn. rewrite app_nil_r. exact Ip.
    + subst pc'. rewrite (Permutation_flat_map bterm (pset_perm pc np _ Fpc)). reflexivity.
  - intros k j Hj. rewrite length_update. eauto.
  - intros j q Hj. rewrite nth_error_update in Hj. destruct (Nat.eqb_spec i j) as [<-|Nij]; [|auto].
    destruct (Nat.ltb i (length (pieces st1))); [|discriminate]. injection Hj as <-.
    destruct (G1 i pc Hpc) as [a [b [H1 H2]]]. exists a, b. split; [|exact H2].
    intros k x Hx. apply pset_in in Hx. destruct Hx as [Hx|Hx]; [|eauto].
    injection Hx as -> ->. rewrite Sn. specialize (H2 ps Hps).
    assert ((sI = a \/ sI = b) /\ (sJ = a \/ sJ = b)) as [A1 A2].
    { unfold ps in H2. destruct (Nat.ltb sI sJ); cbn in H2; tauto. }
    split; [exists r1|exists r2]; split; auto; congruence.
Qed.

Lemma split_loop is_zero m rest : forall done st, me_wf m -> (forall b, In b rest -> In b m) ->
  NoDup (map fst (done ++ rest)) -> split_inv done st ->
  exists st', foldM (split_pair is_zero sz m) (map fst rest) st = Ok st' /\ split_inv (done ++ rest) st'.
Proof.
  induction rest as [|[np s] rest IH]; intros done st W Sub N I; cbn.
  - exists st. now rewrite app_nil_r.
  - assert (Fr : ~ In np (map fst done)).
    { rewrite map_app in N. cbn in N. apply NoDup_remove_2 in N. intros X. apply N. apply in_or_app. now left. }
    destruct (split_step is_zero m done np s st W (Sub _ (or_introl eq_refl)) Fr I) as [st1 [E1 I1]].
    rewrite E1. cbn. destruct (IH (done ++ [(np, s)]) st1 W) as [st' [E2 I2]].
    + intros b Hb. apply Sub. now right.
    + now rewrite <- app_assoc.
    + exact I1.
    + exists st'. split; [exact E2|]. now rewrite <- app_assoc in I2.
Qed.
End Split.

Section Whole.
Context {V : Type} (is_zero : V -> bool).
Implicit Types m : melement V.

Lemma split_matrix_spec n m : (2 <= n)%nat -> me_wf m ->
  exists ps, split_matrix is_zero n m = Ok ps /\
    Permutation (terms m) (flat_map terms ps) /\
    (forall p, In p ps -> me_wf p /\ (length (nodePositions p) <= n)%nat).
Proof.
  intros Hn W. unfold split_matrix.
  destruct (Nat.leb_spec (length (nodePositions m)) n) as [Le|Gt].
  - exists [m]. cbn. rewrite app_nil_r. split; [reflexivity|]. split; [reflexivity|]. intros p [<-|[]]. auto.
  - assert (0 < Nat.div n 2)%nat as Z0 by (apply Nat.div_str_pos; lia).
    destruct (split_loop (Nat.div n 2) is_zero m m [] (mkSplit [] [] []) W) as [st [E I]].
    + auto.
    + cbn. apply psorted_nodup, W.
    + unfold split_inv. cbn. repeat apply conj; try (intros; contradiction).
      * constructor.
      * intros [|i] pc H; discriminate.
    + unfold nodePairs. rewrite E. cbn. destruct I as [Iw [Ik [Ip [Ib Ig]]]]. exists (pieces st).
      split; [reflexivity|]. split.
      * rewrite terms_blocks by apply W. rewrite <- Ip.
        rewrite (flat_map_in_ext terms (flat_map bterm) (pieces st)); [reflexivity|].
        intros pc Hpc. apply terms_blocks, (Iw pc Hpc).
      * intros p Hp. split; [auto|]. destruct (In_nth_error _ _ Hp) as [i Hi].
        pose proof (group_size _ _ _ _ _ Z0 (Ig i p Hi)). 
        pose proof (Nat.div_mod n 2 ltac:(lia)). lia.
Qed.
End Whole.
