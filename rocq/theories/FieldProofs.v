(** Reading the fields of a card one after the other, whether or not the last
    ones are present: a field beyond the end of the card reads as a blank one. *)
From Coq Require Import Ascii String ZArith List Bool Arith Lia.
From Verif Require Import Base TextModel TextProofs TokenizerModel NextIntsProofs RealModel CardModel CardProofs LoadCardModel.
Import ListNotations.
Open Scope nat_scope.
Open Scope list_scope.

(** The cursor in front of field [i] of the card [vec], present or not. *)
Definition at_field (vec : list str) (i : nat) : cursor := at_pos vec (Nat.min i (length vec)).
Definition field (vec : list str) (i : nat) : str := nth i vec [].
Definition blank_at (vec : list str) (i : nat) : Prop := trim (field vec i) = [].
(** Field [i] is the integer [n]; or is blank, and [n] is the default. *)
Definition int_at (vec : list str) (i : nat) (n : Z) : Prop := int_field (field vec i) n.
Definition int_or (d : Z) (vec : list str) (i : nat) (n : Z) : Prop := int_at vec i n \/ (blank_at vec i /\ n = d).
(** The same for reals. *)
Definition real_at (vec : list str) (i : nat) (v : decimal) : Prop := real_of_field (field vec i) = Ok v.
Definition real_or (d : decimal) (vec : list str) (i : nat) (v : decimal) : Prop := real_at vec i v \/ (blank_at vec i /\ v = d).
(** ... and for words. *)
Definition word_at (vec : list str) (i : nat) (w : str) : Prop := to_upper (trim (field vec i)) = w.

Lemma at_field_pos vec i : i <= length vec -> at_field vec i = at_pos vec i.
Proof. intros H. unfold at_field. now rewrite Nat.min_l. Qed.
Lemma field_error vec i : i < length vec -> nth_error vec i = Some (field vec i).
Proof. intros H. unfold field. now apply nth_error_nth'. Qed.
Lemma field_beyond vec i : length vec <= i -> field vec i = [].
Proof. intros H. unfold field. now apply nth_overflow. Qed.

Lemma next_field vec i : nextSymbolString (at_field vec i) = (trim_right (field vec i), at_field vec (S i)).
Proof.
  destruct (Nat.lt_ge_cases i (length vec)) as [H|H].
  - rewrite !at_field_pos by lia. apply next_at, field_error, H.
  - rewrite (field_beyond vec i H). unfold at_field. rewrite !Nat.min_r by lia. unfold at_pos, nextSymbolString. cbn [cvec ccur].
    rewrite (proj2 (nth_error_None vec (length vec))) by lia. rewrite Nat.leb_refl. reflexivity.
Qed.
Lemma peek_field_at vec i p : p [] = false -> peek_field (at_field vec i) p = Ok (p (trim (field vec i))).
Proof.
  intros Hp. destruct (Nat.lt_ge_cases i (length vec)) as [H|H].
  - rewrite at_field_pos by lia. apply peek_at, field_error, H.
  - rewrite (field_beyond vec i H). unfold at_field. rewrite Nat.min_r by lia. rewrite peek_end; [change (trim []) with (@nil ascii); now rewrite Hp|].
    apply nth_error_None. lia.
Qed.
Lemma f_int vec i n : int_at vec i n -> nextInt (at_field vec i) = Ok (n, at_field vec (S i)).
Proof. intros H. unfold nextInt. rewrite next_field, trim_trim_right. destruct (int_field_lex _ _ H) as [-> ->]. reflexivity. Qed.
Lemma f_intdef d vec i n : int_or d vec i n -> nextIntDefault d (at_field vec i) = Ok (n, at_field vec (S i)).
Proof.
  intros H. unfold nextIntDefault. rewrite next_field, trim_trim_right. destruct H as [H|[H ->]].
  - destruct (int_field_lex _ _ H) as [-> ->]. reflexivity.
  - unfold blank_at in H. rewrite H. reflexivity.
Qed.
Lemma f_double vec i v : real_at vec i v -> nextDouble (at_field vec i) = Ok (v, at_field vec (S i)).
Proof. intros H. unfold nextDouble. rewrite next_field, real_trim. unfold real_at in H. now rewrite H. Qed.
Lemma f_doubledef d vec i v : real_or d vec i v -> nextDoubleDefault d (at_field vec i) = Ok (v, at_field vec (S i)).
Proof.
  intros H. unfold nextDoubleDefault. rewrite next_field, trim_trim_right, real_trim. destruct H as [H|[H ->]].
  - unfold real_at in H. rewrite H. destruct (null (trim (field vec i))) eqn:E; [|reflexivity]. unfold real_of_field in H. rewrite E in H. discriminate.
  - unfold blank_at in H. now rewrite H.
Qed.
Lemma f_string vec i w : word_at vec i w -> w <> [] -> nextString (at_field vec i) = Ok (w, at_field vec (S i)).
Proof.
  intros H N. unfold nextString. rewrite next_field, trim_trim_right. unfold word_at in H. rewrite H. destruct w; [congruence|reflexivity].
Qed.
Lemma f_stringdef d vec i : exists w, nextStringDefault d (at_field vec i) = Ok (w, at_field vec (S i)).
Proof. unfold nextStringDefault. rewrite next_field. eexists. reflexivity. Qed.
Lemma f_3 d vec i x y z : real_or d vec i x -> real_or d vec (S i) y -> real_or d vec (S (S i)) z ->
  next3 d (at_field vec i) = Ok ((x, y, z), at_field vec (S (S (S i)))).
Proof.
  intros X Y Z. unfold next3. rewrite (f_doubledef d vec i x X). cbn [bind]. rewrite (f_doubledef _ _ _ _ Y). cbn [bind].
  rewrite (f_doubledef _ _ _ _ Z). reflexivity.
Qed.
Lemma f_skip vec i : i < length vec -> skip 1 (at_field vec i) = Ok (at_field vec (S i)).
Proof. intros H. rewrite !at_field_pos by lia. apply (skip_at vec i (field vec i)), field_error, H. Qed.
Lemma f_isint vec i n : int_at vec i n -> isNextInt (at_field vec i) = Ok true.
Proof. intros H. unfold isNextInt. rewrite peek_field_at by reflexivity. now rewrite (int_field_isint _ _ H). Qed.
Lemma f_isint_blank vec i : blank_at vec i -> isNextInt (at_field vec i) = Ok false.
Proof. intros H. unfold isNextInt. rewrite peek_field_at by reflexivity. unfold blank_at in H. now rewrite H. Qed.
Lemma present vec i : trim (field vec i) <> [] -> i < length vec.
Proof. intros H. destruct (Nat.lt_ge_cases i (length vec)) as [L|L]; [exact L|]. rewrite (field_beyond vec i L) in H. contradiction H. reflexivity. Qed.
Lemma int_present vec i n : int_at vec i n -> i < length vec.
Proof. intros H. apply present. destruct (int_field_lex _ _ H) as [E _]. destruct (trim _); [discriminate E|discriminate]. Qed.
Lemma real_present vec i v : real_at vec i v -> i < length vec.
Proof. intros H. apply present. unfold real_at, real_of_field in H. intros E. rewrite E in H. discriminate. Qed.
Lemma f_empty vec i : i < length vec -> isNextEmpty 1 (at_field vec i) = Ok (null (trim (field vec i))).
Proof.
  intros H. rewrite at_field_pos by lia. unfold isNextEmpty, at_pos. cbn [csym cvec ccur]. destruct (Nat.leb_spec (length vec) i); [lia|].
  cbn [seq foldM]. rewrite Nat.add_0_r, (field_error vec i H). reflexivity.
Qed.
Lemma f_empty_end vec i : length vec <= i -> isNextEmpty 1 (at_field vec i) = Ok false /\ isEmptyUntilNextKeyword (at_field vec i) = true.
Proof.
  intros H. unfold at_field. rewrite Nat.min_r by lia. unfold isNextEmpty, isEmptyUntilNextKeyword, at_pos. cbn [csym]. now rewrite Nat.leb_refl.
Qed.
(** The test [isNextInt() || isNextEmpty() || isEmptyUntilNextKeyword()] in front
    of an integer or a blank. *)
Lemma f_format1 vec i n : int_at vec i n \/ blank_at vec i ->
  exists a b, isNextInt (at_field vec i) = Ok a /\ isNextEmpty 1 (at_field vec i) = Ok b /\ a || b || isEmptyUntilNextKeyword (at_field vec i) = true.
Proof.
  intros [H|H].
  - exists true. rewrite (f_empty vec i (int_present _ _ _ H)). eexists. split; [now apply f_isint with n|]. split; [reflexivity|reflexivity].
  - exists false. rewrite (f_isint_blank vec i H). destruct (Nat.lt_ge_cases i (length vec)) as [L|L].
    + rewrite (f_empty vec i L). unfold blank_at in H. rewrite H. exists true. auto.
    + destruct (f_empty_end vec i L) as [-> ->]. exists false. auto.
Qed.
Lemma f_ints n : forall vec i l, length l = n -> (forall j, j < n -> int_at vec (i + j) (nth j l 0%Z)) ->
  ints n (at_field vec i) = Ok (l, at_field vec (i + n)).
Proof.
  induction n as [|n IH]; intros vec i l Hl H; destruct l as [|a l]; try discriminate Hl.
  - rewrite Nat.add_0_r. reflexivity.
  - cbn [ints]. pose proof (H 0 (Nat.lt_0_succ n)) as H0. rewrite Nat.add_0_r in H0. cbn [nth] in H0. rewrite (f_int _ _ _ H0). cbn [bind].
    rewrite (IH vec (S i) l); [|now inversion Hl|].
    + cbn [bind]. rewrite Nat.add_succ_r. reflexivity.
    + intros j Hj. specialize (H (S j)). cbn [nth] in H. rewrite Nat.add_succ_r in H. apply H. lia.
Qed.
Lemma f_skipn vec i n : skip n (at_field vec i) = Ok (at_field vec (i + n)).
Proof.
  unfold at_field, at_pos, skip. cbn [csym cvec ccur].
  assert (E : Nat.min (length vec) (Nat.min i (length vec) + n) = Nat.min (i + n) (length vec)) by lia.
  destruct (length vec <=? Nat.min i (length vec)) eqn:G; rewrite E;
    (replace (Nat.min (i + n) (length vec) =? length vec) with (length vec <=? Nat.min (i + n) (length vec)); [reflexivity|];
     destruct (Nat.leb_spec (length vec) (Nat.min (i + n) (length vec))), (Nat.eqb_spec (Nat.min (i + n) (length vec)) (length vec)); lia || reflexivity).
Qed.
(** What remains of the card in front of the cursor. *)
Lemma field_skipn vec i j : field (skipn i vec) j = field vec (i + j).
Proof. unfold field. revert i; induction vec as [|a v IH]; intros [|i]; cbn; try reflexivity. - now destruct j. - apply IH. Qed.
Lemma rest_blank l : forallb (fun f => null (trim f)) l = true <-> forall j, blank_at l j.
Proof.
  unfold blank_at. split.
  - intros H j. destruct (Nat.lt_ge_cases j (length l)) as [L|L].
    + rewrite forallb_forall in H. specialize (H (field l j) (nth_In _ _ L)). destruct (trim (field l j)); [reflexivity|discriminate].
    + rewrite (field_beyond l j L). reflexivity.
  - intros H. apply forallb_forall. intros x Hx. destruct (In_nth _ _ [] Hx) as (j & _ & E). specialize (H j).
    change (field l j = x) in E. rewrite E in H. now rewrite H.
Qed.
Lemma f_until vec i : isEmptyUntilNextKeyword (at_field vec i) = forallb (fun f => null (trim f)) (skipn i vec).
Proof.
  destruct (Nat.lt_ge_cases i (length vec)) as [L|L].
  - rewrite at_field_pos by lia. unfold isEmptyUntilNextKeyword, at_pos. cbn [csym ccur cvec]. now destruct (Nat.leb_spec (length vec) i); [lia|].
  - rewrite (proj2 (f_empty_end vec i L)). now rewrite skipn_all2.
Qed.
Lemma until_true vec i : isEmptyUntilNextKeyword (at_field vec i) = true -> forall j, (i <= j)%nat -> blank_at vec j.
Proof.
  rewrite f_until. intros H j Hj. rewrite rest_blank in H. specialize (H (j - i)). unfold blank_at in *. rewrite field_skipn in H.
  now replace (i + (j - i)) with j in H by lia.
Qed.
Lemma blank_until vec i : (forall j, (i <= j)%nat -> blank_at vec j) -> isEmptyUntilNextKeyword (at_field vec i) = true.
Proof. intros H. rewrite f_until. apply rest_blank. intros j. unfold blank_at. rewrite field_skipn. apply H. lia. Qed.
Lemma until_false vec i j : (i <= j)%nat -> ~ blank_at vec j -> isEmptyUntilNextKeyword (at_field vec i) = false.
Proof. intros L N. destruct (isEmptyUntilNextKeyword (at_field vec i)) eqn:E; [|reflexivity]. destruct N. now apply (until_true _ _ E). Qed.
Lemma real_not_blank vec i v : real_at vec i v -> ~ blank_at vec i.
Proof. unfold real_at, blank_at, real_of_field. intros H E. rewrite E in H. discriminate. Qed.
Lemma int_not_blank vec i n : int_at vec i n -> ~ blank_at vec i.
Proof. intros H E. destruct (int_field_lex _ _ H) as [G _]. unfold blank_at in E. rewrite E in G. discriminate. Qed.
Lemma real_or_blank d vec i v : real_or d vec i v -> blank_at vec i -> v = d.
Proof. intros [H|[_ H]] B; [destruct (real_not_blank _ _ _ H B)|exact H]. Qed.
(** A word with a default. *)
Definition word_or (d : str) (vec : list str) (i : nat) (w : str) : Prop := (word_at vec i w /\ w <> []) \/ (blank_at vec i /\ w = d).
Lemma f_worddef d vec i w : word_or d vec i w -> nextStringDefault d (at_field vec i) = Ok (w, at_field vec (S i)).
Proof.
  intros H. unfold nextStringDefault. rewrite next_field, trim_trim_right. destruct H as [[H N]|[H ->]].
  - unfold word_at in H. rewrite H. destruct w; [congruence|reflexivity].
  - unfold blank_at in H. rewrite H. reflexivity.
Qed.
(** A text that reads as a real is one isNextDouble accepts. *)
Lemma take_digits_app l d r : take_digits l = (d, r) -> l = d ++ r /\ forallb is_digit d = true.
Proof.
  revert d r. induction l as [|c l IH]; intros d r H; cbn [take_digits] in H; [injection H as <- <-; auto|].
  destruct (is_digit c) eqn:E; [|injection H as <- <-; auto]. destruct (take_digits l) as [d' r'] eqn:T. injection H as <- <-.
  destruct (IH d' r' eq_refl) as [-> G]. cbn [forallb app]. rewrite E, G. auto.
Qed.
Definition number_char (c : ascii) : bool := TextModel.contains c (txt "-+0123456789.eE").
Lemma digit_number c : is_digit c = true -> number_char c = true.
Proof. destruct c as [[] [] [] [] [] [] [] []]; vm_compute; congruence. Qed.
Lemma digits_number d : forallb is_digit d = true -> forallb number_char d = true.
Proof. rewrite !forallb_forall. intros H c Hc. now apply digit_number, H. Qed.
Lemma take_sign_number l : forallb number_char (snd (take_sign l)) = true -> forallb number_char l = true.
Proof.
  destruct l as [|c l]; [reflexivity|]. cbn [take_sign]. destruct (Ascii.eqb_spec c "-") as [->|_]; [|destruct (Ascii.eqb_spec c "+") as [->|_]]; cbn [snd]; auto.
Qed.
Lemma lexical_number l v : lexical_double l = Ok v -> forallb number_char l = true.
Proof.
  intros H. apply take_sign_number. unfold lexical_double in H. destruct (take_sign l) as [neg l1]. cbn [snd].
  destruct (take_digits l1) as [ip l2] eqn:T1. destruct (take_digits_app _ _ _ T1) as [-> D1]. rewrite forallb_app, (digits_number _ D1). cbn [andb].
  assert (E : forall l3, match l3 with [] => True | c :: r => (if Ascii.eqb c "e" || Ascii.eqb c "E" then let '(eneg, r) := take_sign r in let '(ed, r) := take_digits r in
             if null ed || negb (null r) then @Throw decimal else Ok v else Throw) = Ok v end -> forallb number_char l3 = true).
  { clear. intros [|c r] H; [reflexivity|]. cbn [forallb]. destruct (Ascii.eqb c "e" || Ascii.eqb c "E") eqn:C; [|discriminate].
    assert (number_char c = true) as -> by (apply orb_true_iff in C; destruct C as [C|C]; apply Ascii.eqb_eq in C; subst c; reflexivity).
    cbn [andb]. apply take_sign_number. destruct (take_sign r) as [en r1]. cbn [snd]. destruct (take_digits r1) as [ed r2] eqn:T.
    destruct (take_digits_app _ _ _ T) as [-> D]. destruct r2 as [|x r2]; [|destruct ed; discriminate]. rewrite app_nil_r. now apply digits_number. }
  assert (G : forall fp l3 m f,
    (if null (ip ++ fp) then Throw else
     match l3 with [] => Ok (m, - f)%Z | c :: r => if Ascii.eqb c "e" || Ascii.eqb c "E" then let '(eneg, r) := take_sign r in let '(ed, r) := take_digits r in
       if null ed || negb (null r) then Throw else Ok (m, (if eneg then - digits_val ed else digits_val ed) - f)%Z else Throw end) = Ok v -> forallb number_char l3 = true).
  { intros fp l3 m f G. apply E. destruct (null (ip ++ fp)); [discriminate|]. destruct l3 as [|c r]; [exact I|].
    destruct (Ascii.eqb c "e" || Ascii.eqb c "E"); [|discriminate]. destruct (take_sign r) as [en r1]. destruct (take_digits r1) as [ed r2].
    destruct (null ed || negb (null r2)); [discriminate|reflexivity]. }
  destruct l2 as [|c r]; [reflexivity|]. destruct (Ascii.eqb_spec c ".") as [->|N].
  - destruct (take_digits r) as [fp l3] eqn:T2. destruct (take_digits_app _ _ _ T2) as [-> D2]. cbn [forallb]. rewrite forallb_app, (digits_number _ D2).
    cbn [andb]. apply G in H. exact H.
  - exact (G [] (c :: r) _ _ H).
Qed.
Lemma insert_keeps l c : In c l -> In c (insert_e l).
Proof.
  destruct l as [|x l]; [auto|]. unfold insert_e. destruct (find_first is_sign l) as [p|]; [|auto].
  match goal with |- context [if ?b then _ else _] => destruct b end; [auto|]. intros H. rewrite <- (firstn_skipn (S p) (x :: l)) in H.
  apply in_app_iff in H. apply in_app_iff. destruct H; [auto|right; now right].
Qed.
Lemma real_is_double f v : real_of_field f = Ok v -> double_field f v.
Proof.
  intros H. split; [exact H|]. intros c Hc Hs. unfold real_of_field in H. destruct (null (trim f)); [discriminate|].
  apply lexical_number in H. rewrite forallb_forall in H.
  set (d := if Ascii.eqb c "d" then "e"%char else if Ascii.eqb c "D" then "E"%char else c).
  assert (In d (normalise (trim f))) as D.
  { apply insert_keeps. unfold erase_char. apply filter_In. split; [unfold replace_d; apply in_map_iff; exists c; auto|].
    unfold d. destruct (Ascii.eqb c "d"); [reflexivity|]. destruct (Ascii.eqb c "D"); [reflexivity|]. destruct (Ascii.eqb_spec c " "); [congruence|reflexivity]. }
  specialize (H d D). clear D Hc Hs. subst d. revert H. destruct c as [[] [] [] [] [] [] [] []]; vm_compute; intuition discriminate.
Qed.
Lemma f_isdouble vec i v : real_at vec i v -> isNextDouble (at_field vec i) = Ok true.
Proof.
  intros H. unfold isNextDouble. rewrite peek_field_at by reflexivity. f_equal. destruct (real_is_double _ _ H) as [Hr Hc].
  assert (P := real_present _ _ _ H). assert (N := field_error _ _ P).
  pose proof (double_isdouble [field vec i] 0 (field vec i) [] v eq_refl (conj Hr Hc)) as D. unfold isNextDouble in D.
  rewrite (peek_at _ _ (field vec i)) in D by reflexivity. injection D as D. exact D.
Qed.
Lemma f_isdouble_blank vec i : blank_at vec i -> isNextDouble (at_field vec i) = Ok false.
Proof. intros H. unfold isNextDouble. rewrite peek_field_at by reflexivity. unfold blank_at in H. now rewrite H. Qed.
