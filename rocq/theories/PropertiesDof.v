(** Properties C01-C06: degrees of freedom, nodal matrices, coefficients.
    Specification vocabulary ([member], [is_set], [has_digit], [same_cell],
    [last_written], [dof_list]) is defined at the top of DofProofs.v and in its
    section [MatrixProofs]; it does not use the model's operations. *)
From Coq Require Import ZArith List Bool Lia Permutation Sorted.
From Verif Require Import Base DofModel DofProofs.
Import ListNotations.
Open Scope Z_scope.

(** C01 (full statement: for every set [s], including the empty one).  Missing
    here: the empty set, for which the law is false, see the next theorem. *)
Theorem C01_code_roundtrip_partial : forall s, is_set s -> s <> 0 ->
  exists n, nastranCode s = Ok n /\ nastranCodeToDOFS n = Ok s.
Proof. exact code_roundtrip. Qed.
Print Assumptions C01_code_roundtrip_partial.
Example C01_case : is_set 37 /\ nastranCode 37 = Ok 136 /\ nastranCodeToDOFS 136 = Ok 37.
Proof. unfold is_set. repeat split; vm_compute; congruence. Qed.

(** The empty set is written 0, which decodes to {DX}. *)
Theorem C01_code_roundtrip_refuted : exists s, is_set s /\
  ~ (exists n, nastranCode s = Ok n /\ nastranCodeToDOFS n = Ok s).
Proof.
  exists 0. split; [unfold is_set; lia|]. intros [n [A B]].
  vm_compute in A. inversion A; subst. vm_compute in B. discriminate.
Qed.
Print Assumptions C01_code_roundtrip_refuted.

(** C02: a positive code made of digits 1..6 decodes to the set of its digits. *)
Theorem C02_decode_digits : forall n, 0 < n -> (forall d, has_digit n d -> 1 <= d <= 6) ->
  exists s, nastranCodeToDOFS n = Ok s /\ is_set s /\
    forall d, member d s <-> has_digit n (dof_rank d + 1).
Proof.
  intros n Hn Hd. destruct (decode_digits n Hn Hd) as [s [A [B C]]].
  exists s. split; [exact A|split; [exact B|]]. intros d. rewrite C. destruct d; reflexivity.
Qed.
Print Assumptions C02_decode_digits.
Example C02_case : nastranCodeToDOFS 3162 = Ok (1 + 2 + 4 + 32) /\ has_digit 3162 6.
Proof. split; [reflexivity|]. exists 1. vm_compute. intuition congruence. Qed.

(** C02: any other code is never accepted (negative codes, codes with a digit
    0, 7, 8 or 9). *)
Theorem C02_bad_digit_not_accepted : forall n, n <> 0 ->
  (n < 0 \/ exists d, has_digit n d /\ ~ (1 <= d <= 6)) ->
  forall s, nastranCodeToDOFS n <> Ok s.
Proof.
  intros n Hn [H|H] s.
  - rewrite decode_negative by assumption. discriminate.
  - destruct (Z_lt_ge_dec 0 n) as [L|G].
    + rewrite (decode_bad n L H). unfold invalid_code_error.
      destruct ((0 <=? n) && (n <=? 22)); discriminate.
    + rewrite decode_negative by lia. discriminate.
Qed.
Print Assumptions C02_bad_digit_not_accepted.
Example C02_bad_case : 17 <> 0 /\ has_digit 17 7 /\ ~ (1 <= 7 <= 6).
Proof. repeat split; try lia. exists 0. vm_compute. intuition congruence. Qed.

(** C02: but the rejection is not a clean error: the message is built by pointer
    arithmetic on a string literal, which is undefined for most bad codes. *)
Theorem C02_clean_error_refuted : exists n, 0 < n < 1000 /\
  (exists d, has_digit n d /\ ~ (1 <= d <= 6)) /\ nastranCodeToDOFS n <> Throw.
Proof.
  exists 128. split; [lia|]. split.
  - exists 8. split; [|lia]. exists 0. vm_compute. intuition congruence.
  - vm_compute. discriminate.
Qed.
Print Assumptions C02_clean_error_refuted.

(** C03: set algebra. *)
Theorem C03_set_algebra : forall s t, is_set s -> is_set t ->
  (forall d, contains s d = true <-> member d s) /\
  (forall d, member d (dofs_add s t) <-> member d s \/ member d t) /\
  (forall d, member d (dofs_sub s t) <-> member d s /\ ~ member d t) /\
  (forall d, member d (dofs_and s t) <-> member d s /\ member d t) /\
  (forall d e, member d (dofs_add_dof s e) <-> member d s \/ d = e) /\
  (forall d e, member d (dofs_sub_dof s e) <-> member d s /\ d <> e) /\
  (containsAll s t = true <-> forall d, member d t -> member d s) /\
  (containsAnyOf s t = true <-> exists d, member d s /\ member d t) /\
  is_set (dofs_add s t) /\ is_set (dofs_sub s t) /\ is_set (dofs_and s t) /\
  ((forall d, member d s <-> member d t) -> s = t).
Proof.
  intros s t Hs Ht.
  repeat match goal with |- _ /\ _ => split end.
  - apply contains_iff.
  - apply member_add.
  - apply member_sub.
  - apply member_and.
  - intros d e; apply member_add_dof.
  - intros d e; apply member_sub_dof.
  - now apply containsAll_iff.
  - now apply containsAnyOf_iff.
  - now apply lor_set.
  - now apply land_set.
  - now apply land_set.
  - now apply set_ext.
Qed.
Print Assumptions C03_set_algebra.
Example C03_case : is_set 13 /\ is_set 6 /\ dofs_sub 13 6 = 9 /\ containsAll 13 9 = true.
Proof. unfold is_set. vm_compute. intuition congruence. Qed.

(** C03: iteration lists the members once, in ascending order, and size counts
    them. *)
Theorem C03_iteration : forall s, exists l, dofs_iterate s = Ok l /\
  StronglySorted (fun a b => dof_rank a < dof_rank b) l /\
  (forall d, In d l <-> member d s) /\ Z.of_nat (length l) = dofs_size s.
Proof. exact iterate_full. Qed.
Print Assumptions C03_iteration.
Example C03_iter_case : dofs_iterate 41 = Ok [DX; RX; RZ].
Proof. reflexivity. Qed.

(** C03: building a set from six flags. *)
Theorem C03_from_flags : forall a b c d e f x,
  member x (combineCodes a b c d e f) <->
  match x with DX => a | DY => b | DZ => c | RX => d | RY => e | RZ => f end = true.
Proof. exact combineCodes_member. Qed.
Print Assumptions C03_from_flags.

(** C04: reading a component after any history of writes. *)
Theorem C04_read_last_write : forall (V : Type) (vzero : V) (is_zero : V -> bool) t h m,
  writes is_zero (newMatrix t) h = Ok m ->
  forall d1 d2, (t = DIAGONAL -> d1 = d2) ->
    findComponent vzero m d1 d2 = last_written vzero t h d1 d2.
Proof. intros V vzero is_zero t h m E. now apply (read_after_writes vzero is_zero). Qed.
Print Assumptions C04_read_last_write.

(** C04: diagonal matrices off the diagonal: reads give zero, and the writes
    that were accepted there were zero within tolerance. *)
Theorem C04_diagonal_off : forall (V : Type) (vzero : V) (is_zero : V -> bool) h m d1 d2,
  writes is_zero (newMatrix DIAGONAL) h = Ok m -> d1 <> d2 ->
  findComponent vzero m d1 d2 = vzero /\
  (last_written vzero DIAGONAL h d1 d2 = vzero
   \/ is_zero (last_written vzero DIAGONAL h d1 d2) = true).
Proof. intros. eapply read_diag_off; eauto. Qed.
Print Assumptions C04_diagonal_off.

(** C04: writes are accepted except a non-zero value off the diagonal of a
    diagonal matrix. *)
Theorem C04_writes_accepted : forall (V : Type) (is_zero : V -> bool) t h,
  (t = DIAGONAL -> forall a1 a2 v, In (a1, a2, v) h -> a1 <> a2 -> is_zero v = true) ->
  exists m, writes is_zero (newMatrix t) h = Ok m.
Proof. intros V is_zero t h H. apply writes_ok. exact H. Qed.
Print Assumptions C04_writes_accepted.
Example C04_case :
  let h := [(DX, RY, 5); (RY, DX, 7); (DX, DX, 1)] in
  exists m, writes (Z.eqb 0) (newMatrix SYMMETRIC) h = Ok m /\
    findComponent 0 m DX RY = 7 /\ findComponent 0 m DX DX = 1 /\ findComponent 0 m DZ DX = 0.
Proof. eexists. vm_compute. intuition. Qed.

(** C05: layouts of the exported vectors. *)
Theorem C05_columns_vector : forall (V : Type) (vzero : V) b (m : dofmatrix V),
  let rot := b || hasRotations m in
  exists v, asColumnsVector vzero b m = Ok v /\
    length v = (if rot then 36 else 9)%nat /\
    forall r c, In r (dof_list rot) -> In c (dof_list rot) ->
      nth_error v (Z.to_nat (dof_rank c * (if rot then 6 else 3) + dof_rank r))
      = Some (findComponent vzero m r c).
Proof. intros. apply columns_full. Qed.
Print Assumptions C05_columns_vector.

Theorem C05_upper_triangular_vector : forall (V : Type) (vzero : V) b (m : dofmatrix V),
  let rot := b || hasRotations m in
  exists v, asUpperTriangularColumnsVector vzero b m = Ok v /\
    length v = (if rot then 21 else 6)%nat /\
    forall r c, In r (dof_list rot) -> In c (dof_list rot) -> dof_rank r <= dof_rank c ->
      nth_error v (Z.to_nat (dof_rank c * (dof_rank c + 1) / 2 + dof_rank r))
      = Some (findComponent vzero m r c).
Proof. intros. apply upper_spec. Qed.
Print Assumptions C05_upper_triangular_vector.

Theorem C05_diagonal_vector : forall (V : Type) (vzero : V) b (m : dofmatrix V),
  let rot := b || hasRotations m in
  diagonal vzero b m = Ok (map (fun d => findComponent vzero m d d) (dof_list rot)).
Proof. intros. apply diagonal_spec. Qed.
Print Assumptions C05_diagonal_vector.

(** C05: when the rotations are left out of an export no coefficient is lost. *)
Theorem C05_omitted_rotations_are_zero : forall (V : Type) (vzero : V) (m : dofmatrix V),
  hasRotations m = false -> forall d1 d2, (In d1 [RX; RY; RZ] \/ In d2 [RX; RY; RZ]) ->
  findComponent vzero m d1 d2 = vzero.
Proof.
  intros V vzero m H d1 d2 Hr. apply no_rotation_zero; [exact H|].
  destruct Hr as [Hr|Hr]; [left|right]; cbn in Hr; intuition subst; reflexivity.
Qed.
Print Assumptions C05_omitted_rotations_are_zero.

(** C05: transposition, for any iteration order of the unordered container. *)
Theorem C05_transposed : forall (V : Type) (vzero : V) (is_zero : V -> bool) h t m order,
  writes is_zero (newMatrix t) h = Ok m -> Permutation order (comps m) ->
  exists m', transposed_in is_zero order m = Ok m' /\
    forall d1 d2, findComponent vzero m' d1 d2 = findComponent vzero m d2 d1.
Proof.
  intros V vzero is_zero h t m order E P.
  destruct (transposed_spec vzero is_zero h t m order E P) as [m' [A [_ [_ B]]]]. eauto.
Qed.
Print Assumptions C05_transposed.
Example C05_case :
  let h := [(DX, RY, 5); (RY, DX, 7); (DX, DX, 1)] in
  exists m m', writes (Z.eqb 0) (newMatrix FULL) h = Ok m /\
    transposed_in (Z.eqb 0) (rev (comps m)) m = Ok m' /\
    findComponent 0 m' RY DX = 5 /\ findComponent 0 m' DX RY = 7 /\
    asUpperTriangularColumnsVector 0 false m =
      Ok [1; 0; 0; 0; 0; 0; 0; 0; 0; 0; 5; 0; 0; 0; 0; 0; 0; 0; 0; 0; 0].
Proof. do 2 eexists. vm_compute. intuition. Qed.

(** C05: comparing matrices is not safe: a matrix holding an explicit zero
    compared with one lacking that component, of the same number of
    components, dereferences the end iterator. *)
Theorem C05_comparison_total_refuted : exists m o : dofmatrix Z,
  (exists h1 h2, writes (Z.eqb 0) (newMatrix FULL) h1 = Ok m /\
                 writes (Z.eqb 0) (newMatrix FULL) h2 = Ok o) /\
  isEqual (Z.eqb 0) Z.eqb m o = UB.
Proof.
  exists (mkMatrix FULL [((DX, DX), 0)]), (mkMatrix FULL [((DY, DY), 3)]). split.
  - exists [(DX, DX, 0)], [(DY, DY, 3)]. split; reflexivity.
  - reflexivity.
Qed.
Print Assumptions C05_comparison_total_refuted.

(** C05: the questions asked of a matrix, answered as if its 36 components were
    looked at one by one. *)
Section Questions.
Context {V : Type} (vzero : V) (is_zero : V -> bool) (is_equal : V -> V -> bool).
Hypothesis zero_is_zero : is_zero vzero = true.
Hypothesis equal_zero : forall v, is_equal v vzero = is_zero v.
Hypothesis equal_sym : forall v w, is_equal v w = is_equal w v.

Lemma find_in (m : dofmatrix V) a b v : keys_ok is_zero m -> In ((a, b), v) (comps m) ->
  findComponent vzero m a b = v \/ (mtype m = DIAGONAL /\ a <> b /\ is_zero v = true).
Proof.
  intros (N & K & D) H. rewrite find_spec. pose proof (comp_find_in _ _ _ N H) as F. specialize (K _ _ _ H). specialize (fun T => D T _ _ _ H).
  destruct (mtype m) eqn:T.
  - left. unfold norm_key. now rewrite F.
  - left. rewrite K. now rewrite F.
  - destruct (dof_eqb a b) eqn:E; [left; now rewrite F|]. right. assert (a <> b) by (intros ->; rewrite dof_eqb_refl in E; discriminate). auto.
Qed.
Lemma find_stored (m : dofmatrix V) a b : findComponent vzero m a b = vzero \/
  exists a' b', In ((a', b'), findComponent vzero m a b) (comps m) /\ ((a', b') = (a, b) \/ (mtype m = SYMMETRIC /\ (a', b') = (b, a))).
Proof.
  assert (S : forall k v, comp_find (comps m) k = Some v -> In (k, v) (comps m)).
  { intros k v. generalize (comps m). induction l as [|[k0 v0] l IH]; cbn; [discriminate|]. destruct (key_eqb k0 k) eqn:E; [|auto].
    apply key_eqb_spec in E. intros F. inversion F; subst. now left. }
  rewrite find_spec. destruct (mtype m) eqn:T; cbn [norm_key].
  - destruct (comp_find (comps m) (a, b)) as [v|] eqn:E; [|now left]. right. exists a, b. split; [apply S, E|now left].
  - destruct (dof_ltb b a); [destruct (comp_find (comps m) (b, a)) as [v|] eqn:E|destruct (comp_find (comps m) (a, b)) as [v|] eqn:E]; try now left.
    + right. exists b, a. split; [apply S, E|now right].
    + right. exists a, b. split; [apply S, E|now left].
  - destruct (dof_eqb a b); [|now left]. destruct (comp_find (comps m) (a, b)) as [v|] eqn:E; [|now left]. right. exists a, b. split; [apply S, E|now left].
Qed.

Theorem C05_zero_asked : forall t h m, writes is_zero (newMatrix t) h = Ok m ->
  (isZero is_zero m = true <-> forall d1 d2, is_zero (findComponent vzero m d1 d2) = true).
Proof.
  intros t h m E. pose proof (writes_keys_ok vzero is_zero h _ _ (new_keys_ok is_zero t) E) as K. unfold isZero. rewrite forallb_forall. split.
  - intros H d1 d2. destruct (find_stored m d1 d2) as [->|(a & b & I & _)]; [exact zero_is_zero|]. apply (H _ I).
  - intros H [[a b] v] I. cbn [snd]. destruct (find_in m a b v K I) as [<-|(_ & _ & Z0)]; auto.
Qed.
Theorem C05_diagonal_asked : forall t h m, writes is_zero (newMatrix t) h = Ok m ->
  (isDiagonal is_zero m = true <-> forall d1 d2, d1 <> d2 -> is_zero (findComponent vzero m d1 d2) = true).
Proof.
  intros t h m E. pose proof (writes_keys_ok vzero is_zero h _ _ (new_keys_ok is_zero t) E) as K. unfold isDiagonal. rewrite orb_true_iff, forallb_forall. split.
  - intros H d1 d2 Nd. assert (D : mtype m = DIAGONAL -> is_zero (findComponent vzero m d1 d2) = true).
    { intros T. rewrite find_spec, T. destruct (dof_eqb d1 d2) eqn:Ed; [|exact zero_is_zero]. apply dof_eqb_spec in Ed. contradiction. }
    destruct H as [H|H]; [apply D; destruct (mtype m); cbn in H; congruence|].
    destruct (find_stored m d1 d2) as [->|(a & b & I & A)]; [exact zero_is_zero|]. specialize (H _ I). cbn [fst snd] in H. apply orb_true_iff in H.
    destruct H as [H|H]; [|exact H]. apply dof_eqb_spec in H. destruct A as [A|[_ A]]; inversion A; subst; congruence.
  - intros H. right. intros [[a b] v] I. cbn [fst snd]. apply orb_true_iff. destruct (dof_eqb a b) eqn:Ed; [now left|right].
    destruct (find_in m a b v K I) as [<-|(_ & _ & Z0)]; [|exact Z0]. apply H. intros ->. rewrite dof_eqb_refl in Ed. discriminate.
Qed.
Theorem C05_symmetric_asked : forall t h m, writes is_zero (newMatrix t) h = Ok m -> (forall v, is_equal v v = true) ->
  (isSymmetric is_zero is_equal m = true <-> forall d1 d2, is_equal (findComponent vzero m d1 d2) (findComponent vzero m d2 d1) = true).
Proof.
  intros t h m E Rf. pose proof (writes_keys_ok vzero is_zero h _ _ (new_keys_ok is_zero t) E) as K. unfold isSymmetric.
  assert (F : mtype m = FULL -> forall a b, findComponent vzero m a b = match comp_find (comps m) (a, b) with Some v => v | None => vzero end).
  { intros T a b. rewrite find_spec, T. reflexivity. }
  destruct (mtype m) eqn:T.
  - specialize (F eq_refl). rewrite forallb_forall. split.
    + intros H d1 d2. destruct (find_stored m d1 d2) as [E1|(a & b & I & [A|[A _]])]; [|inversion A; subst|congruence].
      * destruct (find_stored m d2 d1) as [E2|(a & b & I & [A|[A _]])]; [rewrite E1, E2; apply Rf|inversion A; subst|congruence].
        specialize (H _ I). cbn [fst snd] in H. rewrite equal_sym. rewrite (F d1 d2). destruct (comp_find (comps m) (d1, d2)); [exact H|]. now rewrite equal_zero.
      * specialize (H _ I). cbn [fst snd] in H. rewrite (F d2 d1). destruct (comp_find (comps m) (d2, d1)); [exact H|]. now rewrite equal_zero.
    + intros H [[a b] v] I. cbn [fst snd]. specialize (H a b). rewrite (F b a) in H.
      destruct (find_in m a b v K I) as [Ev|(Td & _)]; [|congruence]. rewrite Ev in H. destruct (comp_find (comps m) (b, a)); [exact H|]. now rewrite <- equal_zero.
  - split; [|reflexivity]. intros _ d1 d2. rewrite !find_spec, T. replace (norm_key SYMMETRIC d2 d1) with (norm_key SYMMETRIC d1 d2); [apply Rf|]. destruct d1, d2; reflexivity.
  - split; [|reflexivity]. intros _ d1 d2. rewrite !find_spec, T. destruct (dof_eqb d1 d2) eqn:Ed.
    + apply dof_eqb_spec in Ed. subst. rewrite dof_eqb_refl. apply Rf.
    + destruct (dof_eqb d2 d1) eqn:Ed2; [|apply Rf]. apply dof_eqb_spec in Ed2. subst. rewrite dof_eqb_refl in Ed. discriminate.
Qed.
(** Two matrices of one kind found equal agree on every component. *)
Theorem C05_comparison_sound : forall t h1 h2 m o, writes is_zero (newMatrix t) h1 = Ok m -> writes is_zero (newMatrix t) h2 = Ok o ->
  (forall v, is_equal v v = true) -> isEqual is_zero is_equal m o = Ok true ->
  forall d1 d2, is_equal (findComponent vzero m d1 d2) (findComponent vzero o d1 d2) = true.
Proof.
  intros t h1 h2 m o E1 E2 Rf H d1 d2. pose proof (writes_keys_ok vzero is_zero h1 _ _ (new_keys_ok is_zero t) E1) as (N1 & _ & _).
  pose proof (writes_keys_ok vzero is_zero h2 _ _ (new_keys_ok is_zero t) E2) as (N2 & _ & _).
  pose proof (writes_type is_zero _ _ _ E1) as T1. pose proof (writes_type is_zero _ _ _ E2) as T2. cbn [newMatrix mtype] in T1, T2.
  unfold isEqual in H. destruct (Nat.eqb_spec (length (comps m)) (length (comps o))) as [L|]; [|discriminate].
  assert (P : forall k v, In (k, v) (comps m) -> exists w, comp_find (comps o) k = Some w /\ is_equal v w = true).
  { clear -H. revert H. induction (comps m) as [|[k0 v0] l IH]; intros H k v I; [destruct I|]. cbn [isEqual_loop] in H.
    destruct (comp_find (comps o) k0) as [w|] eqn:F; [|destruct (is_zero v0); discriminate]. destruct (is_equal v0 w) eqn:Q; [|discriminate].
    destruct I as [I|I]; [inversion I; subst; eauto|eauto]. }
  assert (S : forall l k (v : V), comp_find l k = Some v -> In (k, v) l).
  { intros l k v. induction l as [|[k0 v0] l IH]; cbn; [discriminate|]. destruct (key_eqb k0 k) eqn:E; [|auto].
    apply key_eqb_spec in E. intros F. inversion F; subst. now left. }
  assert (Inc : incl (map fst (comps o)) (map fst (comps m))).
  { apply NoDup_length_incl; [exact N1|rewrite !map_length; lia|]. intros k I. apply in_map_iff in I. destruct I as ([k1 v] & <- & I).
    destruct (P _ _ I) as (w & F & _). apply in_map_iff. exists (k1, w). split; [reflexivity|]. apply S, F. }
  assert (Q : forall k, match comp_find (comps m) k, comp_find (comps o) k with Some v, Some w => is_equal v w = true | None, None => True | _, _ => False end).
  { intros k. destruct (comp_find (comps m) k) as [v|] eqn:F1.
    - destruct (P _ _ (S _ _ _ F1)) as (w & F2 & A). now rewrite F2.
    - destruct (comp_find (comps o) k) as [w|] eqn:F2; [|exact I]. apply S in F2. apply (in_map fst) in F2. apply Inc in F2. apply in_map_iff in F2.
      destruct F2 as ([k1 v1] & A & B). cbn [fst] in A. subst k1. rewrite (comp_find_in _ _ _ N1 B) in F1. discriminate. }
  rewrite !find_spec, T1, T2. specialize (fun k => Q k).
  assert (W : forall k, is_equal match comp_find (comps m) k with Some v => v | None => vzero end match comp_find (comps o) k with Some v => v | None => vzero end = true).
  { intros k. specialize (Q k). destruct (comp_find (comps m) k), (comp_find (comps o) k); try contradiction; [exact Q|apply Rf]. }
  destruct t; [apply W|apply W|]. destruct (dof_eqb d1 d2); [apply W|apply Rf].
Qed.
(** A matrix said to be rigid on the diagonal has nothing off it, and on it only
    the largest double, or nothing. *)
Theorem C05_max_diagonal_asked : forall is_max t h m, writes is_zero (newMatrix t) h = Ok m ->
  (forall v, is_max v = true -> is_zero v = false) -> isMaxDiagonal is_zero is_max m = true ->
  forall d1 d2, findComponent vzero m d1 d2 = vzero \/ (d1 = d2 /\ is_max (findComponent vzero m d1 d2) = true).
Proof.
  intros is_max t h m E Mx H d1 d2. unfold isMaxDiagonal in H. rewrite forallb_forall in H.
  destruct (find_stored m d1 d2) as [Z0|(a & b & I & A)]; [now left|]. specialize (H _ I). cbn [fst snd] in H. right.
  apply negb_true_iff, orb_false_iff in H. destruct H as [H1 H2]. apply negb_false_iff in H2. rewrite (Mx _ H2) in H1. cbn [negb] in H1. rewrite andb_true_r in H1.
  apply negb_false_iff, dof_eqb_spec in H1. subst b. destruct A as [A|[_ A]]; inversion A; subst; split; auto.
Qed.
End Questions.
(** Refuted: the converse; a zero written off the diagonal changes the answer
    although every component reads the same. *)
Theorem C05_max_diagonal_refuted : exists m m' : dofmatrix Z,
  (exists h h', writes (Z.eqb 0) (newMatrix FULL) h = Ok m /\ writes (Z.eqb 0) (newMatrix FULL) h' = Ok m') /\
  (forall d1 d2, findComponent 0 m d1 d2 = findComponent 0 m' d1 d2) /\
  isMaxDiagonal (Z.eqb 0) (Z.eqb 9) m = true /\ isMaxDiagonal (Z.eqb 0) (Z.eqb 9) m' = false.
Proof.
  exists (mkMatrix FULL [((DX, DX), 9)]), (mkMatrix FULL [((DX, DX), 9); ((DX, DY), 0)]). split; [|split; [|split; reflexivity]].
  - exists [(DX, DX, 9)], [(DX, DX, 9); (DX, DY, 0)]. split; reflexivity.
  - intros d1 d2. destruct d1, d2; reflexivity.
Qed.
Print Assumptions C05_zero_asked.
Print Assumptions C05_symmetric_asked.
Print Assumptions C05_comparison_sound.
Print Assumptions C05_max_diagonal_asked.
Example C05_asked_case :
  let h := [(DX, RY, 5); (RY, DX, 5); (DX, DX, 0)] in
  exists m, writes (Z.eqb 0) (newMatrix FULL) h = Ok m /\ isSymmetric (Z.eqb 0) Z.eqb m = true /\ isDiagonal (Z.eqb 0) m = false /\
    isZero (Z.eqb 0) m = false /\ isZero (Z.eqb 0) (setAllZero 0 m) = true /\ isEqual (Z.eqb 0) Z.eqb m m = Ok true /\
    isMaxDiagonal (Z.eqb 0) (Z.eqb 9) (mkMatrix FULL [((DX, DX), 9); ((RY, RY), 9)]) = true.
Proof. eexists. vm_compute. intuition. Qed.

(** C06: abstract view of an entry: absent or present. *)
Definition entry {V} (is_unavail : V -> bool) (v : V) : option V :=
  if is_unavail v then None else Some v.
Definition entry_sum {V} (vplus : V -> V -> V) (a b : option V) : option V :=
  match a, b with
  | None, x => x
  | x, None => x
  | Some x, Some y => Some (vplus x y)
  end.

(** Full statement: [entry (coefs_add c r d) = entry_sum (entry (c d)) (entry (r d))]
    for all c, r, d.  Missing in this partial version: an entry present on the
    left and absent on the right, for which it is false (next theorem). *)
Theorem C06_coefs_sum_partial : forall (V : Type) (vplus : V -> V -> V) (is_unavail : V -> bool)
    (c r : coefs) d,
  (is_unavail (c d) = false -> is_unavail (r d) = false /\ is_unavail (vplus (c d) (r d)) = false) ->
  entry is_unavail (coefs_add vplus is_unavail c r d)
  = entry_sum vplus (entry is_unavail (c d)) (entry is_unavail (r d)).
Proof.
  intros V vplus is_unavail c r d H. unfold coefs_add, entry, entry_sum.
  destruct (is_unavail (c d)) eqn:E.
  - destruct (is_unavail (r d)); reflexivity.
  - destruct (H eq_refl) as [-> ->]. reflexivity.
Qed.
Print Assumptions C06_coefs_sum_partial.

(** Doubles that are integers, added exactly (no rounding is needed for the
    witness): UNAVAILABLE_DOUBLE is -DBL_MAX and [is_equal] is the relative
    comparison with 5 epsilon. *)
Definition dbl_max : Z := 2 ^ 1024 - 2 ^ 971.
Definition z_is_unavail (x : Z) : bool :=
  Z.abs (x + dbl_max) * 2 ^ 52 <=? 5 * Z.max 1 (Z.max (Z.abs x) dbl_max).

Theorem C06_coefs_sum_refuted : exists (c r : coefs) d,
  entry z_is_unavail (coefs_add Z.add z_is_unavail c r d)
  <> entry_sum Z.add (entry z_is_unavail (c d)) (entry z_is_unavail (r d)).
Proof.
  exists (coefs_of_dof (- dbl_max) DX 3), (coefs_of_dof (- dbl_max) DY 4), DX.
  vm_compute. discriminate.
Qed.
Print Assumptions C06_coefs_sum_refuted.
Example C06_case :
  let c := coefs_of_dof (- dbl_max) DX 3 in let r := coefs_of_dofs (- dbl_max) ALL_DOFS 4 in
  entry z_is_unavail (coefs_add Z.add z_is_unavail c r DX) = Some 7 /\
  entry z_is_unavail (coefs_add Z.add z_is_unavail c r RZ) = Some 4.
Proof. vm_compute. split; reflexivity. Qed.

(** C06: the reported degrees of freedom are those of the present entries. *)
Theorem C06_present_dofs : forall (V : Type) (is_unavail : V -> bool) (c : coefs) d,
  member d (getDOFS is_unavail c) <-> entry is_unavail (c d) <> None.
Proof.
  intros. rewrite getDOFS_spec. unfold entry. destruct (is_unavail (c d)); split; congruence.
Qed.
Print Assumptions C06_present_dofs.

(** C06: scaling multiplies what is present and leaves the rest absent; setting
    and the test of emptiness look at the entry concerned. *)
Theorem C06_scaled : forall (V : Type) (vmult : V -> V -> V) (is_unavail : V -> bool) (c : coefs) f d,
  (is_unavail (c d) = false -> is_unavail (vmult (c d) f) = false) ->
  entry is_unavail (coefs_scale vmult is_unavail c f d)
  = match entry is_unavail (c d) with Some v => Some (vmult v f) | None => None end.
Proof.
  intros V vmult is_unavail c f d H. unfold coefs_scale, entry. destruct (is_unavail (c d)) eqn:E; [now rewrite E|]. now rewrite H.
Qed.
Theorem C06_set_and_empty : forall (V : Type) (is_unavail : V -> bool) (c : coefs) d0 v,
  (forall d, coefs_setValue c d0 v d = if dof_eqb d d0 then v else c d) /\
  (coefs_isEmpty is_unavail c = true <-> forall d, entry is_unavail (c d) = None) /\
  (forall unavail s d, is_unavail unavail = true -> entry is_unavail (coefs_of_dofs unavail s v d) <> None -> member d s).
Proof.
  intros V is_unavail c d0 v. split; [reflexivity|]. split.
  - unfold coefs_isEmpty, entry. rewrite forallb_forall. split.
    + intros H d. rewrite H; [reflexivity|]. destruct d; cbn; tauto.
    + intros H d _. specialize (H d). now destruct (is_unavail (c d)).
  - intros u s d U H. unfold coefs_of_dofs, entry in H. apply contains_iff. destruct (contains s d); [reflexivity|]. rewrite U in H. now destruct H.
Qed.
Print Assumptions C06_scaled.
Print Assumptions C06_set_and_empty.
Example C06_scaled_case :
  let c := coefs_of_dof (- dbl_max) DX 3 in
  map (fun d => entry z_is_unavail (coefs_scale Z.mul z_is_unavail c 5 d)) [DX; DY] = [Some 15; None] /\
  coefs_isEmpty z_is_unavail c = false /\ coefs_isEmpty z_is_unavail (coefs_of_dofs (- dbl_max) NO_DOFS 3) = true.
Proof. vm_compute. intuition. Qed.

(** C06: two sextuples are compared with a tolerance.  Refuted: "equal" is not
    transitive, so the order used for sorting them is not a strict weak order. *)
Definition z_is_equal (x y : Z) : bool := Z.abs (x - y) * 2 ^ 52 <=? 5 * Z.max 1 (Z.max (Z.abs x) (Z.abs y)).
Theorem C06_equality_refuted : exists a b c : coefs,
  coefs_eq z_is_equal a b = true /\ coefs_eq z_is_equal b c = true /\ coefs_eq z_is_equal a c = false /\
  coefs_lt z_is_equal Z.ltb a b = false /\ coefs_lt z_is_equal Z.ltb b a = false /\
  coefs_lt z_is_equal Z.ltb b c = false /\ coefs_lt z_is_equal Z.ltb c b = false /\ coefs_lt z_is_equal Z.ltb a c = true.
Proof.
  exists (coefs_of_dof 0 DX (2 ^ 50)), (coefs_of_dof 0 DX (2 ^ 50 + 1)), (coefs_of_dof 0 DX (2 ^ 50 + 2)). vm_compute. repeat split.
Qed.
Print Assumptions C06_equality_refuted.
(** With an exact comparison the order is total. *)
Theorem C06_order_exact : forall a b : coefs,
  (coefs_eq Z.eqb a b = true <-> forall d, a d = b d) /\
  (coefs_eq Z.eqb a b = true -> coefs_lt Z.eqb Z.ltb a b = false) /\
  (coefs_eq Z.eqb a b = false -> coefs_lt Z.eqb Z.ltb a b = negb (coefs_lt Z.eqb Z.ltb b a)).
Proof.
  intros a b. unfold coefs_eq, coefs_lt. cbn [forallb lt_loop].
  assert (Q : forall x y : Z, (x =? y) = (y =? x)) by (intros; apply Z.eqb_sym).
  assert (L : forall x y : Z, (x =? y) = false -> (x <? y) = negb (y <? x)) by (intros x y E; apply Z.eqb_neq in E; destruct (Z.ltb_spec x y), (Z.ltb_spec y x); cbn; lia).
  split; [|split].
  - rewrite !andb_true_iff, !Z.eqb_eq. split; [|intros H; repeat split; apply H]. intros (? & ? & ? & ? & ? & ? & _) d. destruct d; assumption.
  - rewrite !andb_true_iff. intros (E1 & E2 & E3 & E4 & E5 & E6 & _). now rewrite E1, E2, E3, E4, E5, E6.
  - intros H. rewrite (Q (b DX)), (Q (b DY)), (Q (b DZ)), (Q (b RX)), (Q (b RY)), (Q (b RZ)).
    destruct (a DX =? b DX) eqn:E1; [|now apply L]. destruct (a DY =? b DY) eqn:E2; [|now apply L]. destruct (a DZ =? b DZ) eqn:E3; [|now apply L].
    destruct (a RX =? b RX) eqn:E4; [|now apply L]. destruct (a RY =? b RY) eqn:E5; [|now apply L]. destruct (a RZ =? b RZ) eqn:E6; [|now apply L]. discriminate.
Qed.
Print Assumptions C06_order_exact.
