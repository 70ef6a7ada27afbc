(** Lemmas about texts. *)
From Coq Require Import Ascii String ZArith List Bool Arith Lia.
From Verif Require Import Base TextModel.
Import ListNotations.
Open Scope nat_scope.
Open Scope list_scope.

Lemma dropWhile_app_all p a b : forallb p a = true -> dropWhile p (a ++ b) = dropWhile p b.
Proof. induction a as [|c a IH]; cbn; [reflexivity|]. destruct (p c); [exact IH|discriminate]. Qed.
Lemma dropWhile_all p a : forallb p a = true -> dropWhile p a = [].
Proof. intros H. rewrite <- (app_nil_r a), dropWhile_app_all by exact H. reflexivity. Qed.
Lemma dropWhile_notall p a b : forallb p a = false -> dropWhile p (a ++ b) = dropWhile p a ++ b.
Proof. induction a as [|c a IH]; cbn; [discriminate|]. destruct (p c); cbn; [exact IH|reflexivity]. Qed.
Lemma dropWhile_head p c l : p c = false -> dropWhile p (c :: l) = c :: l.
Proof. intros H. cbn. now rewrite H. Qed.
Lemma dropWhile_idem p a : dropWhile p (dropWhile p a) = dropWhile p a.
Proof. induction a as [|c a IH]; cbn; [reflexivity|]. destruct (p c) eqn:E; [exact IH|]. cbn. now rewrite E. Qed.

Lemma forallb_rev {A} (p : A -> bool) l : forallb p (rev l) = forallb p l.
Proof.
  apply eq_true_iff_eq. rewrite !forallb_forall. split; intros H x Hx; apply H; [now apply -> in_rev|now apply in_rev].
Qed.
Lemma forallb_repeat {A} (p : A -> bool) x n : p x = true -> forallb p (repeat x n) = true.
Proof. intros H. induction n; cbn; [reflexivity|]. now rewrite H. Qed.

Lemma is_space_spaces n : forallb is_space (spaces n) = true.
Proof. now apply forallb_repeat. Qed.
Lemma is_blank_spaces n : forallb is_blank (spaces n) = true.
Proof. now apply forallb_repeat. Qed.
Lemma rev_repeat {A} (x : A) n : rev (repeat x n) = repeat x n.
Proof.
  induction n; cbn; [reflexivity|]. rewrite IHn. clear. induction n; cbn; [reflexivity|]. now f_equal.
Qed.

Lemma trim_nil : trim [] = [].
Proof. reflexivity. Qed.
Lemma trim_all l : forallb is_space l = true -> trim l = [].
Proof. intros H. unfold trim, trim_left. now rewrite dropWhile_all. Qed.
Lemma trim_spaces_l a l : forallb is_space a = true -> trim (a ++ l) = trim l.
Proof. intros H. unfold trim, trim_left. now rewrite dropWhile_app_all. Qed.
Lemma trim_right_app a l : forallb is_space a = true -> trim_right (l ++ a) = trim_right l.
Proof. intros H. unfold trim_right. rewrite rev_app_distr, dropWhile_app_all; [reflexivity|]. now rewrite forallb_rev. Qed.
Lemma trim_spaces_r a l : forallb is_space a = true -> trim (l ++ a) = trim l.
Proof.
  intros H. unfold trim, trim_left. destruct (forallb is_space l) eqn:E.
  - rewrite dropWhile_app_all, !dropWhile_all by assumption. reflexivity.
  - rewrite dropWhile_notall by assumption. now apply trim_right_app.
Qed.
Lemma trim_right_nonspace l c : is_space c = false -> trim_right (l ++ [c]) = l ++ [c].
Proof. intros H. unfold trim_right. rewrite rev_app_distr. cbn. rewrite H. cbn. now rewrite rev_involutive. Qed.

(** Blank texts. *)
Lemma trim_nil_iff l : trim l = [] <-> forallb is_space l = true.
Proof.
  split; [|apply trim_all].
  intros H. destruct (forallb is_space l) eqn:E; [reflexivity|exfalso].
  unfold trim, trim_left, trim_right in H.
  assert (exists c r, dropWhile is_space l = c :: r /\ is_space c = false) as (c & r & Hd & Hc).
  { revert E. clear. induction l as [|c l IH]; cbn; [discriminate|]. destruct (is_space c) eqn:E; [exact IH|]. eauto. }
  rewrite Hd in H. cbn [rev] in H.
  assert (forallb is_space (rev r ++ [c]) = true) as Ha.
  { clear Hd E. apply (f_equal (@rev ascii)) in H. rewrite rev_involutive in H. cbn in H.
    revert H. generalize (rev r ++ [c]). intros a. induction a as [|x a IH]; cbn; [reflexivity|]. destruct (is_space x); [exact IH|discriminate]. }
  rewrite forallb_app in Ha. cbn in Ha. rewrite Hc in Ha. rewrite andb_false_r in Ha. discriminate.
Qed.

Lemma is_blank_space c : is_blank c = true -> is_space c = true.
Proof. unfold is_blank, is_space. destruct (nat_of_ascii c =? 32); [reflexivity|]. cbn. destruct (Nat.eqb_spec (nat_of_ascii c) 9) as [->|]; [reflexivity|discriminate]. Qed.

Lemma str_eqb_spec a b : reflect (a = b) (str_eqb a b).
Proof.
  revert b. induction a as [|x a IH]; intros [|y b]; cbn; try (constructor; congruence).
  destruct (Ascii.eqb_spec x y) as [->|N]; cbn; [|constructor; congruence].
  destruct (IH b) as [->|N]; constructor; congruence.
Qed.

Lemma contains_false c l : contains c l = false <-> ~ In c l.
Proof.
  unfold contains. split.
  - intros H Hin. assert (existsb (Ascii.eqb c) l = true) by (apply existsb_exists; exists c; split; [exact Hin|apply Ascii.eqb_refl]). congruence.
  - intros H. apply not_true_iff_false. intros E. apply existsb_exists in E. destruct E as (x & Hx & E). apply Ascii.eqb_eq in E. now subst.
Qed.

Lemma before_first_none c l : contains c l = false -> before_first c l = l.
Proof.
  unfold contains. induction l as [|x l IH]; cbn; [reflexivity|]. rewrite orb_false_iff. intros [H1 H2].
  rewrite Ascii.eqb_sym, H1. now rewrite IH.
Qed.

Lemma split_on_nonempty c l : split_on c l <> [].
Proof. induction l as [|x l IH]; cbn; [discriminate|]. destruct (Ascii.eqb x c); [discriminate|]. now destruct (split_on c l). Qed.

(** Joining with a separator; [split_on] is its inverse on separator-free pieces. *)
Fixpoint join (c : ascii) (fs : list str) : str :=
  match fs with
  | [] => []
  | [f] => f
  | f :: r => f ++ c :: join c r
  end.

Lemma split_on_plain c l : contains c l = false -> split_on c l = [l].
Proof.
  unfold contains. induction l as [|x l IH]; cbn; [reflexivity|]. rewrite orb_false_iff. intros [H1 H2].
  rewrite Ascii.eqb_sym, H1, IH by assumption. reflexivity.
Qed.
Lemma split_on_app c l r : contains c l = false -> split_on c (l ++ c :: r) = l :: split_on c r.
Proof.
  unfold contains. induction l as [|x l IH]; cbn.
  - intros _. now rewrite Ascii.eqb_refl.
  - rewrite orb_false_iff. intros [H1 H2]. rewrite Ascii.eqb_sym, H1, IH by assumption. reflexivity.
Qed.
Lemma split_join c fs : fs <> [] -> forallb (fun f => negb (contains c f)) fs = true -> split_on c (join c fs) = fs.
Proof.
  induction fs as [|f fs IH]; [congruence|]. intros _. cbn [forallb]. rewrite andb_true_iff, negb_true_iff. intros [H1 H2].
  destruct fs as [|g fs]; [now apply split_on_plain|].
  change (join c (f :: g :: fs)) with (f ++ c :: join c (g :: fs)). rewrite split_on_app by assumption. f_equal. apply IH; [discriminate|assumption].
Qed.
Lemma after_first_app c l r : contains c l = false -> after_first c (l ++ c :: r) = Some r.
Proof.
  unfold contains. induction l as [|x l IH]; cbn.
  - intros _. now rewrite Ascii.eqb_refl.
  - rewrite orb_false_iff. intros [H1 H2]. rewrite Ascii.eqb_sym, H1. now apply IH.
Qed.

(** ** Decimal digits *)
Open Scope Z_scope.

Lemma digits_val_app a b : digits_val (a ++ b) = digits_val a * 10 ^ Z.of_nat (length b) + digits_val b.
Proof.
  unfold digits_val. rewrite fold_left_app. generalize (fold_left (fun a c => 10 * a + digit_val c) a 0). intros x.
  assert (forall l y, fold_left (fun a c => 10 * a + digit_val c) l y = y * 10 ^ Z.of_nat (length l) + fold_left (fun a c => 10 * a + digit_val c) l 0) as H.
  { clear. induction l as [|c l IH]; intros y; cbn [fold_left length]; [cbn; lia|].
    rewrite IH, (IH (10 * 0 + _)). rewrite Nat2Z.inj_succ, Z.pow_succ_r by lia. ring. }
  apply H.
Qed.
Lemma digits_val_cons c b : digits_val (c :: b) = digit_val c * 10 ^ Z.of_nat (length b) + digits_val b.
Proof. change (c :: b) with ([c] ++ b). rewrite digits_val_app. assert (digits_val [c] = digit_val c) as -> by (unfold digits_val; cbn [fold_left]; lia). reflexivity. Qed.
Lemma digits_val_snoc a c : digits_val (a ++ [c]) = 10 * digits_val a + digit_val c.
Proof. unfold digits_val. rewrite fold_left_app. reflexivity. Qed.

Lemma is_digit_range c : is_digit c = true -> 0 <= digit_val c <= 9.
Proof. unfold is_digit, digit_val. rewrite andb_true_iff, !Nat.leb_le. lia. Qed.
Lemma digits_val_bounds l : forallb is_digit l = true -> 0 <= digits_val l < 10 ^ Z.of_nat (length l).
Proof.
  induction l as [|c l IH]; cbn [forallb length]; [cbn; lia|].
  rewrite andb_true_iff. intros [Hc Hl]. specialize (IH Hl). apply is_digit_range in Hc.
  rewrite digits_val_cons, Nat2Z.inj_succ, Z.pow_succ_r by lia. nia.
Qed.

Lemma digit_char n : 0 <= n < 10 -> let c := ascii_of_nat (48 + Z.to_nat n) in is_digit c = true /\ digit_val c = n.
Proof.
  intros H c. unfold c, is_digit, digit_val. rewrite nat_ascii_embedding by lia.
  rewrite andb_true_iff, !Nat.leb_le. split; lia.
Qed.

Lemma dec_digits_spec fuel n acc :
  0 <= n -> (Z.of_nat fuel > Z.log2 n) -> forallb is_digit acc = true ->
  let r := dec_digits fuel n acc in
  forallb is_digit r = true /\ digits_val r = n * 10 ^ Z.of_nat (length acc) + digits_val acc /\ (length acc < length r)%nat.
Proof.
  revert n acc. induction fuel as [|f IH]; intros n acc Hn Hf Ha; cbn [dec_digits].
  - exfalso. assert (0 <= Z.log2 n) by apply Z.log2_nonneg. lia.
  - assert (0 <= n mod 10 < 10) by (apply Z.mod_pos_bound; lia).
    destruct (digit_char (n mod 10)) as [D1 D2]; [lia|]. set (c := ascii_of_nat (48 + Z.to_nat (n mod 10))) in *.
    assert (Ha' : forallb is_digit (c :: acc) = true) by (cbn [forallb]; rewrite D1; exact Ha).
    destruct (Z.ltb_spec n 10).
    + rewrite Ha', digits_val_cons, D2. rewrite Z.mod_small by lia. cbn [length]. auto with arith.
    + assert (1 <= n / 10) by (apply Z.div_le_lower_bound; lia).
      assert (Z.log2 (n / 10) < Z.log2 n).
      { assert (n / 10 * 2 <= n) by (pose proof (Z.mul_div_le n 10 ltac:(lia)); nia).
        assert (Z.log2 (n / 10 * 2) <= Z.log2 n) by (apply Z.log2_le_mono; assumption).
        replace (n / 10 * 2) with (2 * (n / 10)) in * by ring.
        rewrite Z.log2_double in * by lia. lia. }
      destruct (IH (n / 10) (c :: acc)) as (R1 & R2 & R3); [lia|lia|exact Ha'|].
      cbv zeta. split; [exact R1|]. rewrite R2, digits_val_cons, D2. cbn [length] in *.
      split; [|lia]. rewrite Nat2Z.inj_succ, Z.pow_succ_r by lia.
      rewrite (Z.div_mod n 10) at 3 by lia. ring.
Qed.

Lemma nat_text_spec n : 0 <= n -> forallb is_digit (nat_text n) = true /\ digits_val (nat_text n) = n /\ nat_text n <> [].
Proof.
  intros H. unfold nat_text. destruct (dec_digits_spec (S (Z.to_nat (Z.log2 n))) n []) as (R1 & R2 & R3);
    [lia|pose proof (Z.log2_nonneg n); lia|reflexivity|].
  split; [exact R1|]. split; [rewrite R2; cbn; lia|]. intros E. rewrite E in R3. cbn in R3. lia.
Qed.

Lemma lexical_int_text n : INT_MIN32 <= n <= INT_MAX32 -> lexical_int (int_text n) = Ok n.
Proof.
  intros H. unfold int_text, lexical_int.
  assert (Hr : (INT_MIN32 <=? n) && (n <=? INT_MAX32) = true) by (rewrite andb_true_iff, !Z.leb_le; lia).
  destruct (Z.ltb_spec n 0) as [Hn|Hn].
  - destruct (nat_text_spec (- n) ltac:(lia)) as (D & V & N).
    change (Ascii.eqb "-" "-") with true. cbv iota beta.
    rewrite D, V. destruct (nat_text (- n)) eqn:E; [congruence|]. cbn [null negb orb]. rewrite Z.opp_involutive, Hr. reflexivity.
  - destruct (nat_text_spec n Hn) as (D & V & N).
    destruct (nat_text n) as [|c r] eqn:E; [congruence|].
    assert (is_digit c = true) by (cbn in D; now destruct (is_digit c)).
    destruct (Ascii.eqb_spec c "-"); [subst; discriminate|]. destruct (Ascii.eqb_spec c "+"); [subst; discriminate|].
    cbv iota beta. rewrite D, V. cbn [null negb orb]. rewrite Hr. reflexivity.
Qed.

(** Number of digits. *)
Lemma dec_digits_length fuel n acc k :
  0 <= n < 10 ^ Z.of_nat (S k) -> (length (dec_digits fuel n acc) <= length acc + S k)%nat.
Proof.
  revert n acc k. induction fuel as [|f IH]; intros n acc k H; cbn [dec_digits]; [lia|].
  destruct (Z.ltb_spec n 10); [cbn; lia|].
  destruct k as [|k]; [cbn in H; lia|].
  etransitivity; [apply (IH _ _ k)|cbn [length]; lia].
  split; [apply Z.div_pos; lia|]. apply Z.div_lt_upper_bound; [lia|].
  rewrite (Nat2Z.inj_succ (S k)), Z.pow_succ_r in H by lia. lia.
Qed.
Lemma nat_text_length n k : 0 <= n < 10 ^ Z.of_nat (S k) -> (length (nat_text n) <= S k)%nat.
Proof. intros H. unfold nat_text. pose proof (dec_digits_length (S (Z.to_nat (Z.log2 n))) n [] k H). exact H0. Qed.
