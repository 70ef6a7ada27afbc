(** Proofs about the replacement of direct matrices by discrete elements. *)
From Coq Require Import ZArith List Bool Lia Permutation Arith.
From Verif Require Import Base DofModel DofProofs MatrixElementModel MatrixElementProofs MatrixSplitProofs SystusMatrixProofs.
Import ListNotations.
Open Scope Z_scope.

Section Disassemble.
Context {V : Type}.
Implicit Types m : melement V.

(** Specification: the coefficients carried by discrete elements. *)
Definition block_terms (p q : Z) (k : dofmatrix V) : list (write V) :=
  map (fun kv => (p, fst (fst kv), q, snd (fst kv), snd kv)) (comps k).
Definition discrete_terms (e : discrete V) : list (write V) :=
  match e with
  | Point p k => block_terms p p k
  | Segment p q k00 k01 k10 k11 =>
      block_terms p p k00 ++ block_terms p q k01 ++ block_terms q p k10 ++ block_terms q q k11
  end.

(** Every node is coupled to at most one other node. *)
Definition coupled m (p q : Z) : Prop :=
  exists d1 d2 v, In (p, d1, q, d2, v) (terms m) \/ In (q, d2, p, d1, v) (terms m).
Definition pairwise m : Prop :=
  forall p q r, coupled m p q -> coupled m p r -> q <> p -> r <> p -> q = r.

Context (is_nul : V -> bool) (divide : V -> nat -> V).
Hypothesis divide_one : forall v, divide v 1 = v.

Definition live (l : list ((dof * dof) * V)) := filter (fun kv => negb (is_nul (snd kv))) l.

Lemma fill_from t n (c : list ((dof * dof) * V)) : t <> DIAGONAL -> (n <= 1)%nat -> forall done,
  NoDup (map fst (done ++ c)) ->
  (forall a b v, In ((a, b), v) c -> norm_key t a b = (a, b)) ->
  foldM (fun d kv =>
      let value := match n with O => snd kv | _ => divide (snd kv) n end in
      if is_nul value then Ok d
      else addComponent is_nul d (fst (fst kv)) (snd (fst kv)) value) c (mkMatrix t done)
  = Ok (mkMatrix t (done ++ live c)).
Proof.
  intros T Hn. induction c as [|[[a b] v] c IH]; intros done N K; cbn [foldM live filter].
  - now rewrite app_nil_r.
  - cbn [fst snd]. cbv zeta.
    assert (Ev : (match n with O => v | S _ => divide v n end) = v).
    { destruct n as [|[|n]]; [reflexivity|apply divide_one|lia]. }
    rewrite Ev. destruct (is_nul v) eqn:Z0; cbn [negb bind].
    + apply IH; [rewrite map_app in *; cbn in N; eapply NoDup_remove_1; exact N|].
      intros; eapply K; right; eauto.
    + rewrite addComponent_norm; [|exact T|eapply K; left; reflexivity]. cbn [bind].
      rewrite comp_set_fresh.
      * specialize (IH (done ++ [((a, b), v)])). etransitivity; [apply IH|].
        -- now rewrite <- app_assoc.
        -- intros; eapply K; right; eauto.
        -- now rewrite <- app_assoc.
      * rewrite map_app in N. cbn in N. apply NoDup_remove_2 in N. intros X. apply N. apply in_or_app. now left.
Qed.

Definition blk m (k : npair) : list (write V) := block_terms (fst k) (snd k) (findSubmatrix m (fst k) (snd k)).
Definition liveblk m (k : npair) : list (write V) := filter (fun t => negb (is_nul (snd t))) (blk m k).

Lemma live_terms p q (c : list ((dof * dof) * V)) t :
  block_terms p q (mkMatrix t (live c)) =
  filter (fun t => negb (is_nul (snd t))) (map (fun kv => (p, fst (fst kv), q, snd (fst kv), snd kv)) c).
Proof.
  unfold block_terms. cbn [comps]. induction c as [|[[a b] v] c IH]; cbn; [reflexivity|].
  destruct (is_nul v); cbn; now rewrite <- IH.
Qed.

Lemma fill_block_spec m p q n t : me_wf m -> (n <= 1)%nat -> p <= q -> t = block_type (p, q) ->
  exists k, fill_block is_nul divide n (findSubmatrix m p q) (newMatrix t) = Ok k /\
    block_terms p q k = liveblk m (p, q).
Proof.
  intros W Hn L ->. unfold fill_block, newMatrix.
  assert (A : NoDup (map fst (comps (findSubmatrix m p q))) /\
    forall a b v, In ((a, b), v) (comps (findSubmatrix m p q)) -> norm_key (block_type (p, q)) a b = (a, b)).
  { unfold findSubmatrix. cbn [comps]. destruct (pfind m (p, q)) as [s|] eqn:F; [|split; [constructor|intros ? ? ? []]].
    apply pfind_in in F. destruct (proj2 W _ _ F) as [_ [_ [_ [N K]]]]. auto. }
  destruct A as [N K].
  eexists. split; [exact (fill_from (block_type (p, q)) n _ (block_type_nd _) Hn [] N K)|]. cbn [app]. rewrite live_terms. reflexivity.
Qed.

Lemma empty_below m p q : me_wf m -> p < q -> findSubmatrix m q p = mkMatrix SYMMETRIC [].
Proof.
  intros W L. unfold findSubmatrix. destruct (pfind m (q, p)) as [s|] eqn:F; [|reflexivity].
  apply pfind_in in F. destruct (proj2 W _ _ F) as [X _]. cbn in X. lia.
Qed.

Definition offdiag (k : npair) : bool := negb (fst k =? snd k).
Definition lone m (p : Z) : bool := match findInPairs m p with [] => true | _ => false end.

Lemma replace_pair_spec m k s : me_wf m -> In (k, s) m -> (length (findInPairs m (fst k)) <= 1)%nat ->
  exists ds, replace_pair is_nul divide m k = Ok ds /\
    flat_map discrete_terms ds =
      if offdiag k then liveblk m (fst k, fst k) ++ liveblk m k ++ liveblk m (snd k, snd k)
      else if lone m (fst k) then liveblk m k else [].
Proof.
  intros W H D. destruct k as [p q]. cbn [fst snd] in *. unfold replace_pair, offdiag, lone. cbn [fst snd].
  destruct (proj2 W _ _ H) as [L _]. cbn in L.
  destruct (Z.eqb_spec p q) as [->|Ne]; cbn [negb].
  - destruct (findInPairs m q) as [|x r] eqn:F.
    + destruct (fill_block_spec m q q 0 SYMMETRIC W ltac:(lia) ltac:(lia)) as [k [E T]].
      { unfold block_type. cbn. now rewrite Z.eqb_refl. }
      rewrite E. cbn [bind]. exists [Point q k]. split; [reflexivity|]. cbn [flat_map discrete_terms]. now rewrite app_nil_r.
    + exists []. auto.
  - set (n := length (findInPairs m p)) in *. cbv zeta.
    destruct (fill_block_spec m p p n SYMMETRIC W D ltac:(lia)) as [k00 [E0 T0]].
    { unfold block_type. cbn. now rewrite Z.eqb_refl. }
    destruct (fill_block_spec m p q n FULL W D L) as [k01 [E1 T1]].
    { unfold block_type. cbn. destruct (Z.eqb_spec p q); [contradiction|reflexivity]. }
    destruct (fill_block_spec m q q n SYMMETRIC W D ltac:(lia)) as [k11 [E3 T3]].
    { unfold block_type. cbn. now rewrite Z.eqb_refl. }
    rewrite E0. cbn [bind]. rewrite E1. cbn [bind]. rewrite (empty_below m p q W ltac:(lia)).
    replace (fill_block is_nul divide n {| mtype := SYMMETRIC; comps := [] |} (newMatrix SYMMETRIC)) with (Ok (@newMatrix V SYMMETRIC)) by reflexivity.
    cbn [bind]. rewrite E3. cbn [bind]. eexists. split; [reflexivity|].
    cbn [flat_map discrete_terms]. rewrite T0, T1, T3, app_nil_r. reflexivity.
Qed.

Lemma mapM_concat {A B C} (f : A -> outcome (list B)) (g : B -> list C) (h : A -> list C) l :
  (forall a, In a l -> exists bs, f a = Ok bs /\ flat_map g bs = h a) ->
  exists bss, mapM f l = Ok bss /\ flat_map g (concat bss) = flat_map h l.
Proof.
  induction l as [|a l IH]; cbn; intros H; [exists []; auto|].
  destruct (H a (or_introl eq_refl)) as [bs [E G]]. destruct IH as [bss [E' G']]; [auto|].
  rewrite E. cbn. rewrite E'. cbn. exists (bs :: bss). split; [reflexivity|]. cbn. now rewrite flat_map_app, G, G'.
Qed.

Lemma filter_partition {A} (f : A -> bool) l : Permutation l (filter f l ++ filter (fun x => negb (f x)) l).
Proof.
  induction l as [|a l IH]; cbn; [constructor|]. destruct (f a); cbn.
  - now constructor.
  - rewrite IH at 1. apply Permutation_middle.
Qed.

Lemma flat_map_filter_nil {A B} (g : A -> list B) f l : (forall a, In a l -> f a = false -> g a = []) ->
  flat_map g l = flat_map g (filter f l).
Proof.
  induction l as [|a l IH]; cbn; intros H; [reflexivity|]. destruct (f a) eqn:E; cbn.
  - rewrite IH; auto.
  - rewrite (H a); auto.
Qed.

Lemma flat_map_app_perm {A B} (f g : A -> list B) l :
  Permutation (flat_map (fun x => f x ++ g x) l) (flat_map f l ++ flat_map g l).
Proof.
  induction l as [|a l IH]; cbn; [constructor|]. rewrite IH, <- !app_assoc. apply Permutation_app_head.
  rewrite !app_assoc. apply Permutation_app_tail. apply Permutation_app_comm.
Qed.

Lemma findInPairs_in m p k : In k (findInPairs m p) <-> In k (nodePairs m) /\ (fst k = p \/ snd k = p) /\ fst k <> snd k.
Proof.
  unfold findInPairs. rewrite filter_In, andb_true_iff, orb_true_iff, !Z.eqb_eq, negb_true_iff, Z.eqb_neq. tauto.
Qed.

(** the pairs containing a node, from the coupling relation *)
Lemma pair_coupled m k s : me_wf m -> In (k, s) m -> coupled m (fst k) (snd k) /\ coupled m (snd k) (fst k).
Proof.
  intros W H. destruct (proj2 W _ _ H) as [_ [_ [NE _]]].
  destruct (comps s) as [|[[a b] v] r] eqn:C; [congruence|].
  assert (T : In (fst k, a, snd k, b, v) (terms m)).
  { rewrite terms_blocks by apply W. apply in_flat_map. exists (k, s). split; [exact H|].
    unfold bterm. cbn [fst snd]. rewrite C. now left. }
  split; [exists a, b, v|exists b, a, v]; auto.
Qed.

Lemma pairwise_unique m k k' : me_wf m -> pairwise m -> In k (nodePairs m) -> In k' (nodePairs m) ->
  offdiag k = true -> offdiag k' = true ->
  (fst k = fst k' \/ fst k = snd k' \/ snd k = fst k' \/ snd k = snd k') -> k = k'.
Proof.
  intros W P H H' O O' E. unfold nodePairs in *. apply in_map_iff in H, H'.
  destruct H as [[k0 s] [E0 H]], H' as [[k0' s'] [E0' H']]. cbn in E0, E0'. subst k0 k0'.
  unfold offdiag in *. rewrite negb_true_iff, Z.eqb_neq in O, O'.
  destruct (pair_coupled m k s W H) as [C1 C2], (pair_coupled m k' s' W H') as [C1' C2'].
  destruct (proj2 W _ _ H) as [L _], (proj2 W _ _ H') as [L' _].
  destruct k as [p q], k' as [p' q']. cbn [fst snd] in *.
  destruct E as [->|[->|[->| ->]]].
  - f_equal. eapply P; eauto.
  - assert (q = p') by (eapply P; eauto). subst. lia.
  - assert (p = q') by (eapply P; eauto). subst. lia.
  - f_equal. eapply (P q'); eauto.
Qed.

Lemma findInPairs_le1 m p : me_wf m -> pairwise m -> (length (findInPairs m p) <= 1)%nat.
Proof.
  intros W P. destruct (findInPairs m p) as [|k [|k' r]] eqn:F; cbn; try lia. exfalso.
  assert (H : In k (findInPairs m p)) by (rewrite F; now left).
  assert (H' : In k' (findInPairs m p)) by (rewrite F; right; now left).
  assert (N : NoDup (findInPairs m p)).
  { unfold findInPairs. apply NoDup_filter. apply psorted_nodup, W. }
  rewrite F in N. inversion N as [|? ? N1 _]; subst. apply N1. left.
  apply findInPairs_in in H, H'. destruct H as [H [E O]], H' as [H' [E' O']].
  symmetry. apply (pairwise_unique m); auto; unfold offdiag; try (apply negb_true_iff, Z.eqb_neq; assumption).
  intuition congruence.
Qed.

Lemma blk_none m k : ~ In k (nodePairs m) -> liveblk m k = [].
Proof.
  intros H. unfold liveblk, blk, block_terms, findSubmatrix. rewrite <- surjective_pairing.
  apply pfind_none in H. rewrite H. reflexivity.
Qed.

Definition npair_dec : forall a b : npair, {a = b} + {a <> b}.
Proof. repeat decide equality. Defined.

Lemma disassemble_perm m : me_wf m -> pairwise m ->
  exists ds, replace_matrix is_nul divide m = Ok ds /\
    Permutation (flat_map discrete_terms ds) (filter (fun t => negb (is_nul (snd t))) (terms m)).
Proof.
  intros W P. unfold replace_matrix.
  set (f := fun k => if offdiag k then liveblk m (fst k, fst k) ++ liveblk m k ++ liveblk m (snd k, snd k)
                     else if lone m (fst k) then liveblk m k else []).
  destruct (mapM_concat (replace_pair is_nul divide m) discrete_terms f (nodePairs m)) as [bss [E G]].
  { intros k Hk. unfold nodePairs in Hk. apply in_map_iff in Hk. destruct Hk as [[k0 s] [E0 Hk]]. cbn in E0. subst k0.
    apply (replace_pair_spec m k s W Hk). now apply findInPairs_le1. }
  rewrite E. cbn [bind]. exists (concat bss). split; [reflexivity|]. rewrite G. clear bss E G.
  assert (T : filter (fun t => negb (is_nul (snd t))) (terms m) = flat_map (liveblk m) (nodePairs m)).
  { unfold terms. generalize (nodePairs m). induction l as [|k l IH]; [reflexivity|].
    cbn [flat_map]. rewrite filter_app, IH. reflexivity. }
  rewrite T. clear T.
  set (K := nodePairs m).
  assert (NK : NoDup K) by apply psorted_nodup, W.
  set (O := filter offdiag K). set (D := filter (fun k => negb (offdiag k)) K).
  rewrite (Permutation_flat_map f (filter_partition offdiag K)), flat_map_app. fold O D.
  rewrite (Permutation_flat_map (liveblk m) (filter_partition offdiag K)), flat_map_app. fold O D.
  (* off-diagonal part *)
  assert (FO : flat_map f O = flat_map (fun k => liveblk m (fst k, fst k) ++ liveblk m k ++ liveblk m (snd k, snd k)) O).
  { apply flat_map_in_ext. intros k Hk. apply filter_In in Hk. unfold f. now rewrite (proj2 Hk). }
  assert (FD : flat_map f D = flat_map (liveblk m) (filter (fun k => lone m (fst k)) D)).
  { transitivity (flat_map (fun k : npair => if lone m (fst k) then liveblk m k else []) D).
    - apply flat_map_in_ext. intros k Hk. apply filter_In in Hk. destruct Hk as [_ Hk]. unfold f.
      apply negb_true_iff in Hk. now rewrite Hk.
    - clearbody D. clear. induction D as [|k l IH]; cbn [flat_map filter]; [reflexivity|]. destruct (lone m (fst k)); cbn [flat_map app]; now rewrite IH. }
  rewrite FO, FD. clear FO FD.
  set (ends := flat_map (fun k : npair => [(fst k, fst k); (snd k, snd k)]) O).
  assert (PO : Permutation (flat_map (fun k => liveblk m (fst k, fst k) ++ liveblk m k ++ liveblk m (snd k, snd k)) O)
                           (flat_map (liveblk m) O ++ flat_map (liveblk m) ends)).
  { unfold ends. clear. induction O as [|k l IH]; cbn [flat_map]; [constructor|].
    rewrite IH. cbn [flat_map app]. rewrite <- !app_assoc.
    set (a := liveblk m (fst k, fst k)). set (b := liveblk m k). set (c := liveblk m (snd k, snd k)).
    set (x := flat_map (liveblk m) l).
    set (y := flat_map (liveblk m) (flat_map (fun k0 : npair => [(fst k0, fst k0); (snd k0, snd k0)]) l)).
    transitivity (b ++ a ++ c ++ x ++ y).
    - rewrite !app_assoc. repeat apply Permutation_app_tail. apply Permutation_app_comm.
    - apply Permutation_app_head. rewrite !app_assoc. apply Permutation_app_tail.
      rewrite <- (app_assoc x). apply Permutation_app_comm. }
  rewrite PO, <- app_assoc. apply Permutation_app_head.
  rewrite (flat_map_filter_nil (liveblk m) (fun k => if in_dec npair_dec k K then true else false) ends).
  2:{ intros k _ Hk. apply blk_none. destruct (in_dec npair_dec k K); [discriminate|assumption]. }
  rewrite <- flat_map_app. apply Permutation_flat_map.
  apply NoDup_Permutation.
  - (* no repetition *)
    assert (NE : NoDup ends).
    { unfold ends. apply nodup_flat.
      - now apply NoDup_filter.
      - intros k Hk. apply filter_In in Hk. destruct Hk as [_ Hk]. unfold offdiag in Hk.
        rewrite negb_true_iff, Z.eqb_neq in Hk. repeat constructor; cbn; [intros [X|[]]; inversion X; congruence|tauto].
      - intros k k' x Hk Hk' Hx Hx'. apply filter_In in Hk, Hk'. destruct Hk as [Hk Ok1], Hk' as [Hk' Ok2].
        apply (pairwise_unique m); auto. cbn in Hx, Hx'.
        destruct Hx as [<-|[<-|[]]], Hx' as [X|[X|[]]]; inversion X; auto. }
    apply NoDup_filter with (f := fun k => if in_dec npair_dec k K then true else false) in NE.
    assert (G : forall (x y : list npair), NoDup x -> NoDup y -> (forall z, In z x -> ~ In z y) -> NoDup (x ++ y)).
    { clear. induction x as [|z x IH]; cbn; intros y Nx Ny Dj; [exact Ny|]. inversion Nx; subst.
      constructor; [rewrite in_app_iff; intros [H|H]; [contradiction|apply (Dj z); auto]|].
      apply IH; auto. }
    apply G; [exact NE|apply NoDup_filter; now apply NoDup_filter|].
    intros z Hz Hz'. apply filter_In in Hz, Hz'. destruct Hz as [Hz _], Hz' as [_ Lz].
    unfold ends in Hz. apply in_flat_map in Hz. destruct Hz as [k [Hk Hz]]. apply filter_In in Hk. destruct Hk as [Hk Ok1].
    unfold offdiag in Ok1. rewrite negb_true_iff, Z.eqb_neq in Ok1.
    unfold lone in Lz. destruct (findInPairs m (fst z)) eqn:Fz; [|discriminate].
    assert (X : In k (findInPairs m (fst z))); [|rewrite Fz in X; contradiction].
    apply findInPairs_in. split; [exact Hk|]. split; [|exact Ok1].
    cbn in Hz. destruct Hz as [<-|[<-|[]]]; cbn; auto.
  - now apply NoDup_filter.
  - intros z. rewrite in_app_iff, !filter_In. unfold D. rewrite filter_In. split.
    + intros [[Hz Kz]|[[Hz Dz] Lz]]; [|tauto].
      destruct (in_dec npair_dec z K) as [Kz'|]; [|discriminate]. split; [exact Kz'|].
      unfold ends in Hz. apply in_flat_map in Hz. destruct Hz as [k [Hk Hz]]. cbn in Hz. unfold offdiag.
      destruct Hz as [<-|[<-|[]]]; cbn; now rewrite Z.eqb_refl.
    + intros [Hz Dz]. destruct (lone m (fst z)) eqn:Lz; [tauto|]. left.
      destruct (in_dec npair_dec z K); [|contradiction]. split; [|reflexivity].
      unfold lone in Lz. destruct (findInPairs m (fst z)) as [|k r] eqn:Fz; [discriminate|].
      assert (X : In k (findInPairs m (fst z))) by (rewrite Fz; now left).
      apply findInPairs_in in X. destruct X as [Hk [E O1]].
      unfold ends. apply in_flat_map. exists k. split.
      * apply filter_In. split; [exact Hk|]. unfold offdiag. apply negb_true_iff, Z.eqb_neq. exact O1.
      * unfold offdiag in Dz. rewrite negb_involutive, Z.eqb_eq in Dz. destruct z as [a b]. cbn in *. subst b.
        destruct E as [-> | ->]; auto.
Qed.
End Disassemble.
