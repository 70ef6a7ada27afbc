(** Proofs about the degree-of-freedom model. *)
From Coq Require Import ZArith List Bool Lia Permutation Sorted.
From Verif Require Import Base DofModel.
Import ListNotations.
Open Scope Z_scope.

(** Specification vocabulary: a degree of freedom is member of a code when the
    bit of its rank is set; the codes of sets are 0..63. *)
Definition dof_rank (d : dof) : Z :=
  match d with DX => 0 | DY => 1 | DZ => 2 | RX => 3 | RY => 4 | RZ => 5 end.
Definition member (d : dof) (s : Z) : Prop := Z.testbit s (dof_rank d) = true.
Definition is_set (s : Z) : Prop := 0 <= s < 64.
(** Decimal digits of a positive number. *)
Definition has_digit (n d : Z) : Prop :=
  exists k, 0 <= k /\ 10 ^ k <= n /\ (n / 10 ^ k) mod 10 = d.

Lemma dof_code_pow d : dof_code d = 2 ^ dof_rank d.
Proof. destruct d; reflexivity. Qed.

Lemma rank_nonneg d : 0 <= dof_rank d.
Proof. destruct d; cbn; lia. Qed.

Lemma land_pow2 s k : 0 <= k -> Z.land s (2 ^ k) = if Z.testbit s k then 2 ^ k else 0.
Proof.
  intros Hk. apply Z.bits_inj'. intros i Hi.
  rewrite Z.land_spec, Z.pow2_bits_eqb by lia.
  destruct (Z.eqb_spec k i) as [E|E].
  - subst i. rewrite andb_true_r. destruct (Z.testbit s k) eqn:Eb.
    + rewrite Z.pow2_bits_true by lia. reflexivity.
    + rewrite Z.bits_0. reflexivity.
  - rewrite andb_false_r. destruct (Z.testbit s k).
    + rewrite Z.pow2_bits_false by lia. reflexivity.
    + rewrite Z.bits_0. reflexivity.
Qed.

Lemma contains_testbit s d : contains s d = Z.testbit s (dof_rank d).
Proof.
  unfold contains. rewrite dof_code_pow, land_pow2 by apply rank_nonneg.
  destruct (Z.testbit s (dof_rank d)).
  - apply negb_true_iff, Z.eqb_neq. pose proof (rank_nonneg d). apply Z.pow_nonzero; lia.
  - reflexivity.
Qed.

Lemma contains_iff s d : contains s d = true <-> member d s.
Proof. unfold member. rewrite contains_testbit. tauto. Qed.

Lemma testbit_high s i : is_set s -> 6 <= i -> Z.testbit s i = false.
Proof.
  intros [H0 H1] Hi.
  destruct (Z.eq_dec s 0) as [->|Hs]. { apply Z.bits_0. }
  apply Z.bits_above_log2; [lia|].
  assert (Z.log2 s < 6) by (apply Z.log2_lt_pow2; lia). lia.
Qed.

Lemma rank_cases i : 0 <= i < 6 -> exists d, dof_rank d = i.
Proof.
  intros H. assert (i = 0 \/ i = 1 \/ i = 2 \/ i = 3 \/ i = 4 \/ i = 5) as C by lia.
  destruct C as [->|[->|[->|[->|[->| ->]]]]];
    [exists DX|exists DY|exists DZ|exists RX|exists RY|exists RZ]; reflexivity.
Qed.

Lemma bits_lt_64 s : 0 <= s -> (forall i, 6 <= i -> Z.testbit s i = false) -> s < 64.
Proof.
  intros H0 Hb. destruct (Z.eq_dec s 0) as [->|Hs]; [lia|].
  apply (Z.log2_lt_cancel s 64). change (Z.log2 64) with 6.
  destruct (Z_lt_ge_dec (Z.log2 s) 6) as [L|G]; [exact L|].
  exfalso. assert (T: Z.testbit s (Z.log2 s) = true) by (apply Z.bit_log2; lia).
  rewrite Hb in T by lia. discriminate.
Qed.

(** Sets are determined by their members. *)
Lemma set_ext s t : is_set s -> is_set t -> (forall d, member d s <-> member d t) -> s = t.
Proof.
  intros Hs Ht H. apply Z.bits_inj'. intros i Hi.
  destruct (Z_lt_ge_dec i 6) as [L|G].
  - destruct (rank_cases i) as [d <-]; [lia|]. specialize (H d). unfold member in H.
    destruct (Z.testbit s (dof_rank d)), (Z.testbit t (dof_rank d)); try reflexivity.
    + symmetry. apply H. reflexivity.
    + apply H. reflexivity.
  - rewrite !testbit_high by (assumption || lia). reflexivity.
Qed.

Lemma lor_set s t : is_set s -> is_set t -> is_set (Z.lor s t).
Proof.
  intros Hs Ht. split.
  - apply Z.lor_nonneg. destruct Hs, Ht; lia.
  - apply bits_lt_64.
    + apply Z.lor_nonneg. destruct Hs, Ht; lia.
    + intros i Hi. rewrite Z.lor_spec, !testbit_high by assumption. reflexivity.
Qed.

Lemma land_set s t : is_set s -> is_set (Z.land s t).
Proof.
  intros Hs.
  assert (0 <= Z.land s t) by (apply Z.land_nonneg; destruct Hs; lia).
  split; [assumption|]. apply bits_lt_64; [assumption|].
  intros i Hi. rewrite Z.land_spec, testbit_high by assumption. reflexivity.
Qed.

Lemma code_set d : is_set (dof_code d).
Proof. destruct d; unfold is_set; cbn; lia. Qed.

Lemma member_code d e : member d (dof_code e) <-> d = e.
Proof. destruct d, e; unfold member; cbn; split; congruence. Qed.

Lemma member_add s t d : member d (dofs_add s t) <-> member d s \/ member d t.
Proof. unfold member, dofs_add. rewrite Z.lor_spec, orb_true_iff. tauto. Qed.

Lemma member_add_dof s e d : member d (dofs_add_dof s e) <-> member d s \/ d = e.
Proof.
  unfold dofs_add_dof. fold (dofs_add s (dof_code e)). rewrite member_add, member_code. tauto.
Qed.

Lemma member_sub s t d : member d (dofs_sub s t) <-> member d s /\ ~ member d t.
Proof.
  unfold member, dofs_sub. rewrite Z.land_spec, Z.lnot_spec by apply rank_nonneg.
  rewrite andb_true_iff, negb_true_iff. destruct (Z.testbit t (dof_rank d)); intuition congruence.
Qed.

Lemma member_sub_dof s e d : member d (dofs_sub_dof s e) <-> member d s /\ d <> e.
Proof.
  unfold dofs_sub_dof. fold (dofs_sub s (dof_code e)). rewrite member_sub, member_code. tauto.
Qed.

Lemma member_and s t d : member d (dofs_and s t) <-> member d s /\ member d t.
Proof. unfold member, dofs_and. rewrite Z.land_spec, andb_true_iff. tauto. Qed.

Lemma containsAll_iff s t : is_set s -> is_set t ->
  containsAll s t = true <-> (forall d, member d t -> member d s).
Proof.
  intros Hs Ht. unfold containsAll. rewrite Z.eqb_eq. split.
  - intros E d Hd. rewrite <- E. apply (member_add t s d). now left.
  - intros H. apply set_ext; [now apply lor_set|assumption|].
    intros d. fold (dofs_add t s). rewrite member_add. split; [intros [D|D]; auto|now right].
Qed.

Lemma containsAnyOf_iff s t : is_set s ->
  containsAnyOf s t = true <-> (exists d, member d s /\ member d t).
Proof.
  intros Hs. unfold containsAnyOf. rewrite negb_true_iff, Z.eqb_neq. split.
  - intros N.
    destruct (Z_lt_ge_dec 0 (Z.land s t)) as [L|G].
    + set (k := Z.log2 (Z.land s t)).
      assert (B: Z.testbit (Z.land s t) k = true) by (apply Z.bit_log2; lia).
      assert (K: 0 <= k < 6).
      { split; [apply Z.log2_nonneg|]. destruct (land_set s t Hs). apply Z.log2_lt_pow2; lia. }
      destruct (rank_cases k K) as [d Ed]. exists d. unfold member. rewrite Ed.
      rewrite Z.land_spec, andb_true_iff in B. exact B.
    + destruct (land_set s t Hs). lia.
  - intros [d [A B]] E.
    assert (C: member d (dofs_and s t)) by (apply member_and; tauto).
    unfold member, dofs_and in C. rewrite E, Z.bits_0 in C. discriminate.
Qed.

(** Iteration *)
Lemma na_mono s f : forall g p, 6 - p < Z.of_nat f -> 6 - p < Z.of_nat g -> 0 < Z.of_nat f -> 0 < Z.of_nat g ->
  next_available f s p = next_available g s p.
Proof.
  induction f as [|f IH]; intros [|g] p Hf Hg Hf0 Hg0; try lia. cbn [next_available].
  destruct (Z.ltb_spec p 6) as [L|L]; [|reflexivity].
  destruct (findByPosition p) as [d| | |]; cbn [bind]; try reflexivity.
  destruct (contains s d); [reflexivity|]. apply IH; lia.
Qed.

Lemma it_step s f p d : 0 <= p < 6 -> findByPosition p = Ok d ->
  iterate_from (S f) s p =
  if contains s d then (do r <- iterate_from f s (p + 1); Ok (d :: r))
  else iterate_from (S f) s (p + 1).
Proof.
  intros Hp Hd.
  assert (N: next_available 7 s p = if contains s d then Ok p else next_available 7 s (p + 1)).
  { rewrite (na_mono s 7 8) by lia. cbn [next_available].
    destruct (Z.ltb_spec p 6) as [L|L]; [|lia]. rewrite Hd. reflexivity. }
  cbn [iterate_from]. rewrite N. destruct (contains s d).
  - cbn [bind]. destruct (Z.eqb_spec p 6); [lia|]. rewrite Hd. reflexivity.
  - reflexivity.
Qed.

Lemma iterate_spec s :
  dofs_iterate s = Ok (filter (contains s) [DX; DY; DZ; RX; RY; RZ]).
Proof.
  assert (I6: forall f, iterate_from (S f) s 6 = Ok []) by reflexivity.
  assert (I5: forall f, iterate_from (S (S f)) s 5 = Ok (filter (contains s) [RZ])).
  { intros f. rewrite (it_step s (S f) 5 RZ) by (reflexivity || lia).
    change (5 + 1) with 6. rewrite !I6. cbn -[contains]. destruct (contains s RZ); reflexivity. }
  assert (I4: forall f, iterate_from (S (S (S f))) s 4 = Ok (filter (contains s) [RY; RZ])).
  { intros f. rewrite (it_step s (S (S f)) 4 RY) by (reflexivity || lia).
    change (4 + 1) with 5. rewrite !I5. cbn -[contains]. destruct (contains s RY); reflexivity. }
  assert (I3: forall f, iterate_from (S (S (S (S f)))) s 3 = Ok (filter (contains s) [RX; RY; RZ])).
  { intros f. rewrite (it_step s (S (S (S f))) 3 RX) by (reflexivity || lia).
    change (3 + 1) with 4. rewrite !I4. cbn -[contains]. destruct (contains s RX); reflexivity. }
  assert (I2: forall f, iterate_from (S (S (S (S (S f))))) s 2 = Ok (filter (contains s) [DZ; RX; RY; RZ])).
  { intros f. rewrite (it_step s (S (S (S (S f)))) 2 DZ) by (reflexivity || lia).
    change (2 + 1) with 3. rewrite !I3. cbn -[contains]. destruct (contains s DZ); reflexivity. }
  assert (I1: forall f, iterate_from (S (S (S (S (S (S f)))))) s 1
              = Ok (filter (contains s) [DY; DZ; RX; RY; RZ])).
  { intros f. rewrite (it_step s (S (S (S (S (S f))))) 1 DY) by (reflexivity || lia).
    change (1 + 1) with 2. rewrite !I2. cbn -[contains]. destruct (contains s DY); reflexivity. }
  unfold dofs_iterate. rewrite (it_step s 6 0 DX) by (reflexivity || lia).
  change (0 + 1) with 1. rewrite !I1. cbn -[contains]. destruct (contains s DX); reflexivity.
Qed.

Definition rank_lt (a b : dof) : Prop := dof_rank a < dof_rank b.

Lemma filter_sorted (f : dof -> bool) l :
  StronglySorted rank_lt l -> StronglySorted rank_lt (filter f l).
Proof.
  induction l as [|a l IH]; intros H; cbn; [constructor|].
  inversion H; subst. destruct (f a); [constructor|]; auto.
  rewrite Forall_forall in *. intros x Hx. apply filter_In in Hx. now apply H3.
Qed.

Lemma all_dofs_in d : In d [DX; DY; DZ; RX; RY; RZ].
Proof. destruct d; cbn; tauto. Qed.

Lemma iterate_full s : exists l,
  dofs_iterate s = Ok l /\ StronglySorted rank_lt l /\
  (forall d, In d l <-> member d s) /\ Z.of_nat (length l) = dofs_size s.
Proof.
  exists (filter (contains s) [DX; DY; DZ; RX; RY; RZ]). split; [apply iterate_spec|].
  split; [|split].
  - apply filter_sorted. repeat constructor; unfold rank_lt; cbn; lia.
  - intros d. rewrite filter_In, contains_iff. pose proof (all_dofs_in d). tauto.
  - unfold dofs_size. cbn -[contains].
    destruct (contains s DX), (contains s DY), (contains s DZ), (contains s RX),
      (contains s RY), (contains s RZ); reflexivity.
Qed.

(** Decoding *)
Lemma dof_of_digit_some n d : dof_of_digit n = Some d <-> n = nastran_digit d.
Proof.
  unfold dof_of_digit. split.
  - repeat match goal with |- context [?a =? ?b] => destruct (Z.eqb_spec a b) end;
      intros E; inversion E; subst; reflexivity.
  - intros ->. destruct d; reflexivity.
Qed.

Lemma dof_of_digit_none n : dof_of_digit n = None <-> ~ (1 <= n <= 6).
Proof.
  unfold dof_of_digit. split.
  - repeat match goal with |- context [?a =? ?b] => destruct (Z.eqb_spec a b) end;
      intros E; try discriminate E; lia.
  - intros H. repeat match goal with |- context [?a =? ?b] => destruct (Z.eqb_spec a b) end;
      try reflexivity; lia.
Qed.

Lemma has_digit_step n d : 0 < n ->
  has_digit n d <-> d = n mod 10 \/ has_digit (n / 10) d.
Proof.
  intros Hn. split.
  - intros [k [Hk [Hp Hd]]]. destruct (Z.eq_dec k 0) as [->|Nk].
    + left. rewrite Z.pow_0_r, Z.div_1_r in Hd. lia.
    + right. exists (k - 1). assert (P: 10 ^ k = 10 * 10 ^ (k - 1)).
      { rewrite <- Z.pow_succ_r by lia. f_equal. lia. }
      assert (0 < 10 ^ (k-1)) by (apply Z.pow_pos_nonneg; lia).
      split; [lia|split].
      * apply Z.div_le_lower_bound; lia.
      * rewrite Z.div_div by lia. rewrite <- P. exact Hd.
  - intros [-> | [k [Hk [Hp Hd]]]].
    + exists 0. rewrite Z.pow_0_r, Z.div_1_r. lia.
    + exists (k + 1). assert (P: 10 ^ (k + 1) = 10 * 10 ^ k).
      { rewrite <- Z.pow_succ_r by lia. f_equal. }
      assert (0 < 10 ^ k) by (apply Z.pow_pos_nonneg; lia).
      split; [lia|split].
      * rewrite P. pose proof (Z.mul_div_le n 10). lia.
      * rewrite P, <- Z.div_div by lia. exact Hd.
Qed.

Lemma has_digit_0 d : ~ has_digit 0 d.
Proof.
  intros [k [Hk [Hp _]]]. assert (0 < 10 ^ k) by (apply Z.pow_pos_nonneg; lia). lia.
Qed.

Lemma fuel_ok n : 0 < n -> Z.log2 (n / 10) < Z.log2 n \/ n / 10 = 0.
Proof.
  intros Hn. destruct (Z_lt_ge_dec n 10) as [L|G].
  - right. apply Z.div_small; lia.
  - left. assert (0 < n / 10) by (apply Z.div_str_pos; lia).
    assert (n / 10 <= n / 2) by (apply Z.div_le_compat_l; lia).
    assert (n / 2 < 2 ^ Z.log2 n).
    { apply Z.div_lt_upper_bound; [lia|]. rewrite <- Z.pow_succ_r by apply Z.log2_nonneg.
      apply Z.log2_spec. lia. }
    apply Z.log2_lt_pow2; lia.
Qed.

Lemma decode_loop_spec fuel orig n acc :
  0 <= n -> is_set acc -> (n = 0 \/ Z.log2 n + 2 <= Z.of_nat fuel) -> (1 <= Z.of_nat fuel) ->
  (forall d, has_digit n d -> 1 <= d <= 6) ->
  exists s, decode_loop fuel orig n acc = Ok s /\ is_set s /\
    forall d, member d s <-> member d acc \/ has_digit n (nastran_digit d).
Proof.
  revert n acc. induction fuel as [|f IH]; intros n acc Hn Ha Hf Hf1 Hd; [lia|].
  cbn [decode_loop]. destruct (Z.eqb_spec n 0) as [E|E].
  - subst n. exists acc. split; [reflexivity|split; [assumption|]].
    intros d. pose proof (has_digit_0 (nastran_digit d)). tauto.
  - rewrite Z.rem_mod_nonneg, Z.quot_div_nonneg by lia.
    assert (Hlast: 1 <= n mod 10 <= 6) by (apply Hd, has_digit_step; [lia|now left]).
    destruct (dof_of_digit (n mod 10)) as [e|] eqn:Ee.
    2:{ apply dof_of_digit_none in Ee. lia. }
    apply dof_of_digit_some in Ee.
    pose proof (Z.log2_nonneg (n/10)) as Hlog. pose proof (Z.log2_nonneg n) as Hlog2.
    destruct (IH (n / 10) (dofs_add acc (dof_code e))) as [s [E1 [E2 E3]]].
    + apply Z.div_pos; lia.
    + apply lor_set; [assumption|apply code_set].
    + destruct (fuel_ok n) as [L|L]; lia.
    + lia.
    + intros d Hh. apply Hd, has_digit_step; [lia|now right].
    + exists s. split; [exact E1|split; [exact E2|]].
      intros d. rewrite E3, member_add, member_code, (has_digit_step n) by lia.
      rewrite Ee. split.
      * intros [[A| ->]|A]; auto.
      * intros [A|[A|A]]; auto. left. right. destruct d, e; cbn in A; congruence.
Qed.

Lemma decode_digits n : 0 < n -> (forall d, has_digit n d -> 1 <= d <= 6) ->
  exists s, nastranCodeToDOFS n = Ok s /\ is_set s /\
    forall d, member d s <-> has_digit n (nastran_digit d).
Proof.
  intros Hn Hd. unfold nastranCodeToDOFS.
  replace (n =? 0) with false by (symmetry; apply Z.eqb_neq; lia).
  pose proof (Z.log2_nonneg n). rewrite (Z.abs_eq n) by lia.
  destruct (decode_loop_spec (S (S (Z.to_nat (Z.log2 n)))) n n NO_DOFS)
    as [s [A [B C]]]; try lia.
  - unfold is_set, NO_DOFS; lia.
  - exact Hd.
  - exists s. split; [exact A|split; [exact B|]]. intros d. rewrite C.
    unfold member, NO_DOFS. rewrite Z.bits_0. intuition discriminate.
Qed.

Lemma decode_loop_bad fuel orig n acc :
  0 <= n -> (exists d, has_digit n d /\ ~ (1 <= d <= 6)) ->
  (n = 0 \/ Z.log2 n + 2 <= Z.of_nat fuel) ->
  decode_loop fuel orig n acc = invalid_code_error orig.
Proof.
  revert n acc. induction fuel as [|f IH]; intros n acc Hn [d [Hd Hb]] Hf.
  { destruct Hf as [->|Hf]; [now apply has_digit_0 in Hd|]. pose proof (Z.log2_nonneg n). lia. }
  cbn [decode_loop]. destruct (Z.eqb_spec n 0) as [->|E].
  { now apply has_digit_0 in Hd. }
  rewrite Z.rem_mod_nonneg, Z.quot_div_nonneg by lia.
  destruct (dof_of_digit (n mod 10)) as [e|] eqn:Ee; [|reflexivity].
  apply dof_of_digit_some in Ee. apply has_digit_step in Hd; [|lia].
  destruct Hd as [->|Hd].
  - exfalso. apply Hb. rewrite Ee. destruct e; cbn; lia.
  - apply IH.
    + apply Z.div_pos; lia.
    + exists d. tauto.
    + pose proof (Z.log2_nonneg n). destruct (fuel_ok n); lia.
Qed.

Lemma decode_bad n : 0 < n -> (exists d, has_digit n d /\ ~ (1 <= d <= 6)) ->
  nastranCodeToDOFS n = invalid_code_error n.
Proof.
  intros Hn Hd. unfold nastranCodeToDOFS.
  replace (n =? 0) with false by (symmetry; apply Z.eqb_neq; lia).
  rewrite (Z.abs_eq n) by lia. pose proof (Z.log2_nonneg n).
  apply decode_loop_bad; try assumption; lia.
Qed.

(** A negative code has a negative last digit or a zero one: always rejected. *)
Lemma decode_negative n : n < 0 -> nastranCodeToDOFS n = UB.
Proof.
  intros Hn. unfold nastranCodeToDOFS.
  replace (n =? 0) with false by (symmetry; apply Z.eqb_neq; lia).
  cbn [decode_loop]. replace (n =? 0) with false by (symmetry; apply Z.eqb_neq; lia).
  assert (Z.rem n 10 <= 0).
  { rewrite <- (Z.opp_involutive n), Z.rem_opp_l by lia.
    pose proof (Z.rem_nonneg (-n) 10). lia. }
  destruct (dof_of_digit (Z.rem n 10)) as [e|] eqn:Ee.
  - apply dof_of_digit_some in Ee. destruct e; cbn in Ee; lia.
  - unfold invalid_code_error. destruct (Z.leb_spec 0 n); [lia|reflexivity].
Qed.

Lemma forall_below_64 (P : Z -> bool) :
  forallb P (map Z.of_nat (seq 0 64)) = true -> forall s, is_set s -> P s = true.
Proof.
  intros H s [H0 H1]. rewrite forallb_forall in H. apply H.
  apply in_map_iff. exists (Z.to_nat s). split; [lia|]. apply in_seq. lia.
Qed.

Definition roundtrip_ok (s : Z) : bool :=
  match nastranCode s with
  | Ok n => match nastranCodeToDOFS n with
            | Ok t => (t =? s) || (s =? 0)
            | _ => false
            end
  | _ => false
  end.

Lemma code_roundtrip s : is_set s -> s <> 0 ->
  exists n, nastranCode s = Ok n /\ nastranCodeToDOFS n = Ok s.
Proof.
  intros Hs Hn.
  assert (H: roundtrip_ok s = true).
  { revert s Hs Hn. intros s Hs _. revert s Hs. apply forall_below_64. vm_compute. reflexivity. }
  unfold roundtrip_ok in H. destruct (nastranCode s) as [n| | |]; try discriminate.
  exists n. split; [reflexivity|]. destruct (nastranCodeToDOFS n) as [t| | |]; try discriminate.
  apply orb_true_iff in H. destruct H as [H|H]; apply Z.eqb_eq in H; [now subst|contradiction].
Qed.

Lemma combineCodes_member a b c d e f x :
  member x (combineCodes a b c d e f) <->
  match x with DX => a | DY => b | DZ => c | RX => d | RY => e | RZ => f end = true.
Proof. unfold member. destruct a, b, c, d, e, f, x; vm_compute; tauto. Qed.

(** ------------------------------------------------------------------ *)
(** Matrices *)
Lemma dof_eqb_spec a b : dof_eqb a b = true <-> a = b.
Proof. destruct a, b; cbn; split; congruence. Qed.
Lemma dof_eqb_refl a : dof_eqb a a = true.
Proof. now destruct a. Qed.
Lemma key_eqb_spec k l : key_eqb k l = true <-> k = l.
Proof.
  unfold key_eqb. destruct k, l; cbn. rewrite andb_true_iff, !dof_eqb_spec. split.
  - intros [-> ->]; reflexivity.
  - intros E; inversion E; tauto.
Qed.

Section MatrixProofs.
Context {V : Type} (vzero : V) (is_zero : V -> bool).
Implicit Types (m : dofmatrix V) (l : list ((dof * dof) * V)).

Lemma comp_find_set l k v k' :
  comp_find (comp_set l k v) k' = if key_eqb k k' then Some v else comp_find l k'.
Proof.
  induction l as [|[k0 v0] l IH]; cbn.
  - destruct (key_eqb k k'); reflexivity.
  - destruct (key_eqb k0 k) eqn:E; cbn.
    + apply key_eqb_spec in E. subst k0. destruct (key_eqb k k'); reflexivity.
    + rewrite IH. destruct (key_eqb k0 k') eqn:E1, (key_eqb k k') eqn:E2; try reflexivity.
      exfalso. apply key_eqb_spec in E1. apply key_eqb_spec in E2. subst.
      assert (key_eqb k' k' = true) by now apply key_eqb_spec. congruence.
Qed.

(** Abstract view of a matrix: the normalised key of a component. *)
Definition norm_key (t : matrix_type) (d1 d2 : dof) : dof * dof :=
  match t with
  | SYMMETRIC => if dof_ltb d2 d1 then (d2, d1) else (d1, d2)
  | _ => (d1, d2)
  end.

Lemma add_spec m d1 d2 v m' : addComponent is_zero m d1 d2 v = Ok m' ->
  mtype m' = mtype m /\ comps m' = comp_set (comps m) (norm_key (mtype m) d1 d2) v /\
  (mtype m = DIAGONAL -> d1 <> d2 -> is_zero v = true).
Proof.
  unfold addComponent, norm_key. destruct (mtype m) eqn:T; cbn.
  - intros E; inversion E; subst; cbn. repeat split. discriminate.
  - destruct (dof_ltb d2 d1); intros E; inversion E; subst; cbn; repeat split; discriminate.
  - destruct (dof_eqb d1 d2) eqn:Ed; cbn.
    + intros E; inversion E; subst; cbn. repeat split. apply dof_eqb_spec in Ed. congruence.
    + destruct (is_zero v) eqn:Ez; cbn; intros E; inversion E; subst; cbn. repeat split.
Qed.

Lemma find_spec m d1 d2 :
  findComponent vzero m d1 d2 =
  match mtype m with
  | DIAGONAL => if dof_eqb d1 d2 then match comp_find (comps m) (d1, d2) with Some v => v | None => vzero end
                else vzero
  | t => match comp_find (comps m) (norm_key t d1 d2) with Some v => v | None => vzero end
  end.
Proof.
  unfold findComponent, norm_key. destruct (mtype m); cbn; try reflexivity.
  destruct (dof_eqb d1 d2); reflexivity.
Qed.

(** Histories of writes *)
Definition write := (dof * dof * V)%type.
Fixpoint writes (m : dofmatrix V) (h : list write) : outcome (dofmatrix V) :=
  match h with
  | [] => Ok m
  | (d1, d2, v) :: r => do m' <- addComponent is_zero m d1 d2 v; writes m' r
  end.

(** [same_cell t a b]: the two component addresses denote the same coefficient. *)
Definition same_cell (t : matrix_type) (a1 a2 b1 b2 : dof) : Prop :=
  (a1 = b1 /\ a2 = b2) \/ (t = SYMMETRIC /\ a1 = b2 /\ a2 = b1).

Definition same_cellb (t : matrix_type) (a1 a2 b1 b2 : dof) : bool :=
  (dof_eqb a1 b1 && dof_eqb a2 b2)
  || (matrix_type_eqb t SYMMETRIC && dof_eqb a1 b2 && dof_eqb a2 b1).

Lemma same_cellb_spec t a1 a2 b1 b2 : same_cellb t a1 a2 b1 b2 = true <-> same_cell t a1 a2 b1 b2.
Proof.
  unfold same_cellb, same_cell.
  rewrite orb_true_iff, !andb_true_iff, !dof_eqb_spec.
  assert (matrix_type_eqb t SYMMETRIC = true <-> t = SYMMETRIC) by (destruct t; cbn; split; congruence).
  tauto.
Qed.

(** last value written at a component, in a history given oldest first *)
Definition last_written (t : matrix_type) (h : list write) (d1 d2 : dof) : V :=
  fold_left (fun cur w => let '(a1, a2, v) := w in
                          if same_cellb t a1 a2 d1 d2 then v else cur) h vzero.

Lemma norm_key_same t a1 a2 d1 d2 :
  key_eqb (norm_key t a1 a2) (norm_key t d1 d2) = same_cellb t a1 a2 d1 d2.
Proof. destruct t, a1, a2, d1, d2; reflexivity. Qed.

Lemma same_cellb_diag t a d1 d2 : d1 <> d2 -> same_cellb t a a d1 d2 = false.
Proof.
  intros N. destruct (same_cellb t a a d1 d2) eqn:E; [|reflexivity].
  apply same_cellb_spec in E. unfold same_cell in E. intuition congruence.
Qed.

Lemma writes_type h : forall m m', writes m h = Ok m' -> mtype m' = mtype m.
Proof.
  induction h as [|[[a1 a2] v] h IH]; cbn; intros m m' E.
  - inversion E; reflexivity.
  - destruct (addComponent is_zero m a1 a2 v) as [m1| | |] eqn:E1; try discriminate.
    cbn in E. apply add_spec in E1. apply IH in E. destruct E1. congruence.
Qed.

Lemma find_after h : forall m m' d1 d2, writes m h = Ok m' ->
  (mtype m = DIAGONAL -> d1 = d2) ->
  findComponent vzero m' d1 d2 =
  fold_left (fun cur w => let '(a1, a2, v) := w in
                          if same_cellb (mtype m) a1 a2 d1 d2 then v else cur) h
            (findComponent vzero m d1 d2).
Proof.
  induction h as [|[[a1 a2] v] h IH]; cbn; intros m m' d1 d2 E Hd.
  - inversion E; reflexivity.
  - destruct (addComponent is_zero m a1 a2 v) as [m1| | |] eqn:E1; try discriminate.
    cbn in E. apply add_spec in E1. destruct E1 as [T [C Z0]].
    rewrite (IH m1 m' d1 d2 E) by (rewrite T; exact Hd). rewrite T. f_equal.
    rewrite !find_spec, T, C. destruct (mtype m) eqn:Tm.
    + rewrite comp_find_set, norm_key_same. destruct (same_cellb FULL a1 a2 d1 d2); reflexivity.
    + rewrite comp_find_set, norm_key_same. destruct (same_cellb SYMMETRIC a1 a2 d1 d2); reflexivity.
    + specialize (Hd eq_refl). subst d2. rewrite dof_eqb_refl.
      change (d1, d1) with (norm_key DIAGONAL d1 d1) at 1.
      rewrite comp_find_set, norm_key_same.
      destruct (same_cellb DIAGONAL a1 a2 d1 d1); reflexivity.
Qed.

Lemma last_written_zero h : forall m m' d1 d2, writes m h = Ok m' -> mtype m = DIAGONAL ->
  d1 <> d2 -> forall cur, (cur = vzero \/ is_zero cur = true) ->
  let r := fold_left (fun cur w => let '(a1, a2, v) := w in
                          if same_cellb DIAGONAL a1 a2 d1 d2 then v else cur) h cur in
  r = vzero \/ is_zero r = true.
Proof.
  induction h as [|[[a1 a2] v] h IH]; cbn; intros m m' d1 d2 E T N cur Hc.
  - exact Hc.
  - destruct (addComponent is_zero m a1 a2 v) as [m1| | |] eqn:E1; try discriminate.
    cbn in E. apply add_spec in E1. destruct E1 as [T1 [C Z0]].
    apply (IH m1 m' d1 d2 E); try congruence.
    destruct (same_cellb DIAGONAL a1 a2 d1 d2) eqn:S; [|exact Hc].
    apply same_cellb_spec in S. destruct S as [[-> ->]|[? _]]; [|discriminate].
    right. now apply Z0.
Qed.

Lemma read_after_writes t h m : writes (newMatrix t) h = Ok m ->
  forall d1 d2,
    (t = DIAGONAL -> d1 = d2) ->
    findComponent vzero m d1 d2 = last_written t h d1 d2.
Proof.
  intros E d1 d2 Hd. rewrite (find_after h (newMatrix t) m d1 d2 E Hd).
  unfold last_written. cbn. f_equal. unfold findComponent; cbn.
  now destruct (matrix_type_eqb t DIAGONAL && negb (dof_eqb d1 d2)).
Qed.

Lemma read_diag_off t h m d1 d2 : writes (newMatrix t) h = Ok m ->
    (t = DIAGONAL -> d1 <> d2 -> findComponent vzero m d1 d2 = vzero /\
       (last_written t h d1 d2 = vzero \/ is_zero (last_written t h d1 d2) = true)).
Proof.
  intros E -> N. split.
  - rewrite find_spec, (writes_type _ _ _ E). cbn.
    destruct (dof_eqb d1 d2) eqn:X; [apply dof_eqb_spec in X; congruence|reflexivity].
  - unfold last_written. apply (last_written_zero h (newMatrix DIAGONAL) m); auto.
Qed.

(** writes succeed unless a diagonal matrix gets a non-zero off-diagonal value *)
Lemma writes_ok h : forall m,
  (mtype m = DIAGONAL -> forall a1 a2 v, In (a1, a2, v) h -> a1 <> a2 -> is_zero v = true) ->
  exists m', writes m h = Ok m'.
Proof.
  induction h as [|[[a1 a2] v] h IH]; cbn; intros m H; [eauto|].
  assert (exists m1, addComponent is_zero m a1 a2 v = Ok m1) as [m1 E1].
  { unfold addComponent. destruct (mtype m) eqn:T; cbn; [eauto|destruct (dof_ltb a2 a1); eauto|].
    destruct (dof_eqb a1 a2) eqn:D; cbn; [eauto|].
    rewrite (H eq_refl a1 a2 v); cbn; [eauto|now left|].
    intros ->. rewrite dof_eqb_refl in D. discriminate. }
  rewrite E1. cbn. apply IH. apply add_spec in E1. destruct E1 as [-> _]. eauto.
Qed.

(** Exports *)
Definition dof_list (rot : bool) : list dof :=
  if rot then [DX; DY; DZ; RX; RY; RZ] else [DX; DY; DZ].

Lemma export_iter b m :
  dofs_iterate (export_dofs b m) = Ok (dof_list (b || hasRotations m)).
Proof. unfold export_dofs. destruct (b || hasRotations m); vm_compute; reflexivity. Qed.

Lemma columns_spec b m :
  asColumnsVector vzero b m =
  Ok (flat_map (fun c => map (fun r => findComponent vzero m r c) (dof_list (b || hasRotations m)))
               (dof_list (b || hasRotations m))).
Proof. unfold asColumnsVector. rewrite export_iter. reflexivity. Qed.

Lemma upper_spec b m :
  exists v, asUpperTriangularColumnsVector vzero b m = Ok v /\
    length v = (if b || hasRotations m then 21 else 6)%nat /\
    forall r c, In r (dof_list (b || hasRotations m)) -> In c (dof_list (b || hasRotations m)) ->
      dof_rank r <= dof_rank c ->
      nth_error v (Z.to_nat (dof_rank c * (dof_rank c + 1) / 2 + dof_rank r))
      = Some (findComponent vzero m r c).
Proof using vzero.
  clear is_zero.
  unfold asUpperTriangularColumnsVector, export_dofs.
  destruct (b || hasRotations m).
  - eexists. split; [reflexivity|]. split; [reflexivity|].
    intros r c _ _ H. destruct r, c; cbn in H; try lia; reflexivity.
  - eexists. split; [reflexivity|]. split; [reflexivity|].
    intros r c Hr Hc H.
    destruct r; cbn in Hr; try (exfalso; intuition congruence);
    destruct c; cbn in Hc; try (exfalso; intuition congruence);
    cbn in H; try lia; reflexivity.
Qed.

Lemma diagonal_spec b m :
  diagonal vzero b m = Ok (map (fun d => findComponent vzero m d d) (dof_list (b || hasRotations m))).
Proof. unfold diagonal. rewrite export_iter. reflexivity. Qed.

Lemma columns_full b m :
  exists v, asColumnsVector vzero b m = Ok v /\
    length v = (if b || hasRotations m then 36 else 9)%nat /\
    forall r c, In r (dof_list (b || hasRotations m)) -> In c (dof_list (b || hasRotations m)) ->
      nth_error v (Z.to_nat (dof_rank c * (if b || hasRotations m then 6 else 3) + dof_rank r))
      = Some (findComponent vzero m r c).
Proof using vzero.
  clear is_zero.
  rewrite columns_spec. eexists. split; [reflexivity|].
  destruct (b || hasRotations m); (split; [reflexivity|]).
  - intros r c _ _. destruct r, c; reflexivity.
  - intros r c Hr Hc.
    destruct r; cbn in Hr; try (exfalso; intuition congruence);
    destruct c; cbn in Hc; try (exfalso; intuition congruence); reflexivity.
Qed.

(** If the export omits rotations, every component involving a rotation is
    zero. *)
Lemma no_rotation_zero m : hasRotations m = false ->
  forall d1 d2, (isRotation d1 = true \/ isRotation d2 = true) ->
  findComponent vzero m d1 d2 = vzero.
Proof.
  intros H d1 d2 Hr. rewrite find_spec.
  assert (N: forall k, (isRotation (fst k) || isRotation (snd k)) = true -> comp_find (comps m) k = None).
  { unfold hasRotations in H. induction (comps m) as [|[k0 v0] l IH]; intros k Hk; [reflexivity|].
    cbn in *. apply orb_false_iff in H. destruct H as [H1 H2].
    destruct (key_eqb k0 k) eqn:E; [|now apply IH].
    apply key_eqb_spec in E. subst. congruence. }
  assert (O: isRotation d1 || isRotation d2 = true) by (apply orb_true_iff; exact Hr).
  unfold norm_key. destruct (mtype m).
  - now rewrite N.
  - destruct (dof_ltb d2 d1); rewrite N; try reflexivity; cbn; [now rewrite orb_comm|exact O].
  - destruct (dof_eqb d1 d2); [|reflexivity]. now rewrite N.
Qed.

(** Transposition *)
Definition keys_ok m : Prop :=
  NoDup (map fst (comps m)) /\
  (forall a b v, In ((a, b), v) (comps m) -> norm_key (mtype m) a b = (a, b)) /\
  (mtype m = DIAGONAL -> forall a b v, In ((a, b), v) (comps m) -> a <> b -> is_zero v = true).

Lemma comp_set_keys l k v : forall x, In x (map fst (comp_set l k v)) <-> In x (map fst l) \/ x = k.
Proof.
  induction l as [|[k0 v0] l IH]; cbn; intros x; [intuition congruence|].
  destruct (key_eqb k0 k) eqn:E; cbn.
  - apply key_eqb_spec in E. subst. intuition congruence.
  - rewrite IH. intuition.
Qed.

Lemma comp_set_nodup l k v : NoDup (map fst l) -> NoDup (map fst (comp_set l k v)).
Proof.
  induction l as [|[k0 v0] l IH]; cbn; intros H; [repeat constructor; intros []|].
  inversion H; subst. destruct (key_eqb k0 k) eqn:E; cbn; constructor; auto.
  rewrite comp_set_keys. intros [A| ->]; [contradiction|].
  assert (key_eqb k k = true) by now apply key_eqb_spec. congruence.
Qed.

Lemma comp_set_in l k v k' v' : In (k', v') (comp_set l k v) -> In (k', v') l \/ (k' = k /\ v' = v).
Proof.
  induction l as [|[k0 v0] l IH]; cbn; intros H; [intuition congruence|].
  destruct (key_eqb k0 k) eqn:E; cbn in H.
  - apply key_eqb_spec in E. destruct H as [H|H]; [inversion H; subst; auto|auto].
  - destruct H as [H|H]; [auto|]. apply IH in H. tauto.
Qed.

Lemma norm_key_idem t a b : norm_key t (fst (norm_key t a b)) (snd (norm_key t a b)) = norm_key t a b.
Proof. destruct t, a, b; reflexivity. Qed.

Lemma add_keys_ok m d1 d2 v m' : keys_ok m -> addComponent is_zero m d1 d2 v = Ok m' -> keys_ok m'.
Proof.
  intros [N [K D]] E. apply add_spec in E. destruct E as [T [C Z0]].
  unfold keys_ok. rewrite T, C. split; [now apply comp_set_nodup|]. split.
  - intros a b w H. apply comp_set_in in H. destruct H as [H|[H _]]; [eauto|].
    pose proof (norm_key_idem (mtype m) d1 d2) as I. rewrite <- H in I. exact I.
  - intros Td a b w H Nab. apply comp_set_in in H. destruct H as [H|[H ->]]; [eauto|].
    rewrite Td in H. cbn in H. inversion H; subst. auto.
Qed.

Lemma writes_keys_ok h : forall m m', keys_ok m -> writes m h = Ok m' -> keys_ok m'.
Proof.
  induction h as [|[[a1 a2] v] h IH]; cbn; intros m m' K E; [inversion E; subst; exact K|].
  destruct (addComponent is_zero m a1 a2 v) as [m1| | |] eqn:E1; try discriminate.
  cbn in E. eapply IH; [|exact E]. eapply add_keys_ok; eassumption.
Qed.

Lemma new_keys_ok t : keys_ok (@newMatrix V t).
Proof. repeat split; cbn; try constructor; intros; contradiction. Qed.

Lemma transposed_writes order m :
  transposed_in is_zero order m =
  writes (newMatrix (mtype m)) (map (fun kv => (snd (fst kv), fst (fst kv), snd kv)) order).
Proof.
  unfold transposed_in. generalize (newMatrix (V:=V) (mtype m)).
  induction order as [|[[a b] v] r IH]; intros t; cbn; [reflexivity|].
  destruct (addComponent is_zero t b a v); cbn; auto.
Qed.

Lemma comp_find_in l k v : NoDup (map fst l) -> In (k, v) l -> comp_find l k = Some v.
Proof.
  induction l as [|[k0 v0] l IH]; cbn; intros N H; [contradiction|].
  inversion N; subst. destruct H as [H|H].
  - inversion H; subst. now replace (key_eqb k k) with true by (symmetry; now apply key_eqb_spec).
  - destruct (key_eqb k0 k) eqn:E; [|auto]. apply key_eqb_spec in E. subst.
    exfalso. apply H2. apply in_map_iff. exists (k, v). auto.
Qed.

Lemma comp_find_none l k : ~ In k (map fst l) -> comp_find l k = None.
Proof.
  induction l as [|[k0 v0] l IH]; cbn; intros H; [reflexivity|].
  destruct (key_eqb k0 k) eqn:E; [apply key_eqb_spec in E; subst; tauto|]. apply IH. tauto.
Qed.

Lemma fold_last t order d1 d2 cur :
  NoDup (map fst order) ->
  (forall a b v, In ((a, b), v) order -> norm_key t a b = (a, b)) ->
  fold_left (fun cur (w : write) => let '(a1, a2, v) := w in
                          if same_cellb t a1 a2 d1 d2 then v else cur)
    (map (fun kv => (snd (fst kv), fst (fst kv), snd kv)) order) cur
  = match comp_find order (norm_key t d2 d1) with Some v => v | None => cur end.
Proof.
  revert cur. induction order as [|[[a b] v] r IH]; intros cur N K; cbn; [reflexivity|].
  inversion N; subst. rewrite IH; [|assumption|intros; eapply K; right; eassumption].
  assert (Kab: norm_key t a b = (a, b)) by (eapply K; now left).
  assert (S: same_cellb t b a d1 d2 = key_eqb (a, b) (norm_key t d2 d1)).
  { rewrite <- Kab, norm_key_same. destruct t, a, b, d1, d2; reflexivity. }
  rewrite S. destruct (key_eqb (a, b) (norm_key t d2 d1)) eqn:E; [|reflexivity].
  apply key_eqb_spec in E. rewrite <- E. rewrite comp_find_none; [reflexivity|assumption].
Qed.

Lemma perm_find l l' k : Permutation l l' -> NoDup (map fst l) -> comp_find l k = comp_find l' k.
Proof.
  intros P N.
  assert (N': NoDup (map fst l')) by (eapply Permutation_NoDup; [apply Permutation_map, P|exact N]).
  destruct (comp_find l k) as [v|] eqn:E.
  - symmetry. apply comp_find_in; [exact N'|]. eapply Permutation_in; [exact P|].
    clear -E. induction l as [|[k0 v0] l IH]; cbn in *; [discriminate|].
    destruct (key_eqb k0 k) eqn:Ek; [apply key_eqb_spec in Ek; inversion E; subst; now left|right; auto].
  - symmetry. apply comp_find_none. intros H. apply in_map_iff in H. destruct H as [[k1 v1] [Hk Hin]].
    cbn in Hk. subst k1. rewrite (comp_find_in l k v1 N) in E; [discriminate|].
    eapply Permutation_in; [apply Permutation_sym, P|exact Hin].
Qed.

(** Transposing a matrix built by writes succeeds whatever the iteration order
    and exchanges rows and columns. *)
Lemma transposed_spec h t m order :
  writes (newMatrix t) h = Ok m -> Permutation order (comps m) ->
  exists m', transposed_in is_zero order m = Ok m' /\ mtype m' = mtype m /\ keys_ok m' /\
    forall d1 d2, findComponent vzero m' d1 d2 = findComponent vzero m d2 d1.
Proof.
  intros E P.
  assert (KO: keys_ok m) by (eapply writes_keys_ok; [apply new_keys_ok|exact E]).
  destruct KO as [N [K D]].
  assert (No: NoDup (map fst order)).
  { eapply Permutation_NoDup; [apply Permutation_map, Permutation_sym, P|exact N]. }
  assert (Ko: forall a b v, In ((a, b), v) order -> norm_key (mtype m) a b = (a, b)).
  { intros a b v H. eapply K, Permutation_in; eassumption. }
  rewrite transposed_writes.
  destruct (writes_ok (map (fun kv => (snd (fst kv), fst (fst kv), snd kv)) order)
              (newMatrix (mtype m))) as [m' E'].
  { cbn. intros T a1 a2 v H Na. apply in_map_iff in H. destruct H as [[[a b] w] [H1 H2]].
    cbn in H1. inversion H1; subst. eapply D; [exact T|eapply Permutation_in; eassumption|congruence]. }
  exists m'. split; [exact E'|]. pose proof (writes_type _ _ _ E') as T'. cbn in T'.
  split; [exact T'|]. split; [eapply writes_keys_ok; [apply new_keys_ok|exact E']|].
  intros d1 d2.
  destruct (mtype m) eqn:Tm.
  - rewrite (read_after_writes _ _ _ E') by discriminate. unfold last_written.
    rewrite fold_last by assumption. rewrite find_spec, Tm. now rewrite (perm_find _ _ _ P No).
  - rewrite (read_after_writes _ _ _ E') by discriminate. unfold last_written.
    rewrite fold_last by assumption. rewrite find_spec, Tm. now rewrite (perm_find _ _ _ P No).
  - destruct (dof_eq_dec d1 d2) as [<-|Nd].
    + rewrite (read_after_writes _ _ _ E') by reflexivity. unfold last_written.
      rewrite fold_last by assumption. rewrite find_spec, Tm, dof_eqb_refl.
      now rewrite (perm_find _ _ _ P No).
    + rewrite !find_spec, T', Tm.
      replace (dof_eqb d1 d2) with false by (destruct d1, d2; cbn; congruence).
      replace (dof_eqb d2 d1) with false by (destruct d1, d2; cbn; congruence). reflexivity.
Qed.

Lemma setAllZero_spec m d1 d2 : findComponent vzero (setAllZero vzero m) d1 d2 = vzero.
Proof.
  assert (A: forall l k, match comp_find (map (fun kv : (dof * dof) * V => (fst kv, vzero)) l) k with
                   Some v => v | None => vzero end = vzero).
  { induction l as [|[k0 v0] l IH]; intros k; cbn; [reflexivity|].
    destruct (key_eqb k0 k); [reflexivity|apply IH]. }
  rewrite find_spec. cbn. destruct (mtype m); rewrite ?A; try reflexivity.
  destruct (dof_eqb d1 d2); reflexivity.
Qed.
End MatrixProofs.

(** ------------------------------------------------------------------ *)
(** Coefficients *)
Section CoefsProofs.
Context {V : Type} (is_unavail : V -> bool).

Lemma getDOFS_spec (c : coefs) d :
  member d (getDOFS is_unavail c) <-> is_unavail (c d) = false.
Proof.
  unfold getDOFS. cbn.
  destruct (is_unavail (c DX)) eqn:E0, (is_unavail (c DY)) eqn:E1, (is_unavail (c DZ)) eqn:E2,
   (is_unavail (c RX)) eqn:E3, (is_unavail (c RY)) eqn:E4, (is_unavail (c RZ)) eqn:E5;
  destruct d; rewrite ?E0, ?E1, ?E2, ?E3, ?E4, ?E5; vm_compute; intuition congruence.
Qed.

Lemma isEmpty_spec (c : coefs) :
  coefs_isEmpty is_unavail c = true <-> getDOFS is_unavail c = 0.
Proof.
  unfold coefs_isEmpty, getDOFS. cbn.
  destruct (is_unavail (c DX)) eqn:E0, (is_unavail (c DY)) eqn:E1, (is_unavail (c DZ)) eqn:E2,
   (is_unavail (c RX)) eqn:E3, (is_unavail (c RY)) eqn:E4, (is_unavail (c RZ)) eqn:E5;
  vm_compute; intuition congruence.
Qed.
End CoefsProofs.
