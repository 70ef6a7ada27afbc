(** Lemmas about integer lists (nextInts). *)
From Coq Require Import Ascii String ZArith List Bool Arith Lia.
From Verif Require Import Base TextModel TextProofs TokenizerModel.
Import ListNotations.
Open Scope nat_scope.
Open Scope list_scope.

Lemma dropWhile_suffix p l : exists a, l = a ++ dropWhile p l /\ forallb p a = true.
Proof.
  induction l as [|c l (a & E & H)]; [exists []; split; reflexivity|]. cbn. destruct (p c) eqn:Ec.
  - exists (c :: a). cbn. rewrite Ec, <- E. auto.
  - exists []. auto.
Qed.
Lemma trim_right_prefix l : exists a, l = trim_right l ++ a /\ forallb is_space a = true.
Proof.
  unfold trim_right. destruct (dropWhile_suffix is_space (rev l)) as (a & E & H). exists (rev a). split; [|now rewrite forallb_rev].
  rewrite <- (rev_involutive l) at 1. rewrite E at 1. apply rev_app_distr.
Qed.
Lemma trim_trim_right l : trim (trim_right l) = trim l.
Proof. destruct (trim_right_prefix l) as (a & E & H). rewrite E at 2. now rewrite trim_spaces_r. Qed.

(** ** Positions in a card *)

(** The cursor in front of field [i] of the card [vec]. *)
Definition at_pos (vec : list str) (i : nat) : cursor :=
  mkCursor vec i (if length vec <=? i then KEYWORD else FIELD).

Lemma peek_at vec i f p : nth_error vec i = Some f -> peek_field (at_pos vec i) p = Ok (p (trim f)).
Proof.
  intros H. unfold peek_field, at_pos. cbn. assert (i < length vec) by (apply nth_error_Some; congruence).
  destruct (Nat.leb_spec (length vec) i); [lia|]. now rewrite H.
Qed.
Lemma peek_end vec i p : nth_error vec i = None -> peek_field (at_pos vec i) p = Ok false.
Proof.
  intros H. unfold peek_field, at_pos. cbn. apply nth_error_None in H. destruct (Nat.leb_spec (length vec) i); [reflexivity|lia].
Qed.
Lemma next_at vec i f : nth_error vec i = Some f -> nextSymbolString (at_pos vec i) = (trim_right f, at_pos vec (S i)).
Proof.
  intros H. unfold nextSymbolString, at_pos. cbn. rewrite H. assert (i < length vec) by (apply nth_error_Some; congruence).
  destruct (Nat.leb_spec (length vec) i); [lia|]. reflexivity.
Qed.
Lemma skip_at vec i f : nth_error vec i = Some f -> skip 1 (at_pos vec i) = Ok (at_pos vec (S i)).
Proof.
  intros H. unfold skip, at_pos. cbn [csym cvec ccur]. assert (i < length vec) by (apply nth_error_Some; congruence).
  destruct (Nat.leb_spec (length vec) i); [lia|]. replace (Nat.min (length vec) (i + 1)) with (S i) by lia.
  destruct (Nat.eqb_spec (S i) (length vec)), (Nat.leb_spec (length vec) (S i)); try lia; reflexivity.
Qed.

(** ** Field texts *)

(** The text of an integer: an optional minus sign and decimal digits, possibly
    with blanks around, of a value that fits in 32 bits. *)
Definition int_field (f : str) (n : Z) : Prop :=
  exists ds, ds <> [] /\ forallb is_digit ds = true /\ (INT_MIN32 <= n <= INT_MAX32)%Z /\
    ((trim f = ds /\ n = digits_val ds) \/ (trim f = "-"%char :: ds /\ n = (- digits_val ds)%Z)).
Definition word_field (w : string) (f : str) : Prop := to_upper (trim f) = txt w.

Lemma int_field_isint f n : int_field f n -> negb (null (trim f)) && forallb (fun c => Ascii.eqb c "-" || is_digit c) (trim f) = true.
Proof.
  intros (ds & Hn & Hd & Hr & [[-> _]|[-> _]]).
  - destruct ds as [|c ds]; [congruence|]. cbn [null negb]. cbn [andb]. apply forallb_forall. intros x Hx.
    rewrite forallb_forall in Hd. rewrite (Hd x Hx). apply orb_true_r.
  - cbn [null negb andb forallb]. cbn [orb Ascii.eqb]. change (Ascii.eqb "-" "-") with true. cbn [orb andb]. apply forallb_forall. intros x Hx.
    rewrite forallb_forall in Hd. rewrite (Hd x Hx). apply orb_true_r.
Qed.
Lemma int_field_lex f n : int_field f n -> null (trim f) = false /\ lexical_int (trim f) = Ok n.
Proof.
  intros (ds & Hn & Hd & Hr & H).
  assert (Hrb : ((INT_MIN32 <=? n) && (n <=? INT_MAX32) = true)%Z) by (rewrite andb_true_iff, !Z.leb_le; lia).
  destruct ds as [|c ds]; [congruence|].
  destruct H as [[-> Hv]|[-> Hv]]; (split; [reflexivity|]); unfold lexical_int.
  - assert (is_digit c = true) by (cbn in Hd; now destruct (is_digit c)).
    destruct (Ascii.eqb_spec c "-"); [subst c; discriminate|]. destruct (Ascii.eqb_spec c "+"); [subst c; discriminate|].
    cbv iota beta. rewrite Hd. cbn [null negb orb]. rewrite <- Hv, Hrb. reflexivity.
  - change (Ascii.eqb "-" "-") with true. cbv iota beta. rewrite Hd. cbn [null negb orb]. rewrite <- Hv, Hrb. reflexivity.
Qed.

Lemma isint_at vec i f n : nth_error vec i = Some f -> int_field f n -> isNextInt (at_pos vec i) = Ok true.
Proof. intros H Hf. unfold isNextInt. rewrite (peek_at _ _ _ _ H). now rewrite (int_field_isint _ _ Hf). Qed.
Lemma nextInt_at vec i f n : nth_error vec i = Some f -> int_field f n -> nextInt (at_pos vec i) = Ok (n, at_pos vec (S i)).
Proof.
  intros H Hf. unfold nextInt. rewrite (next_at _ _ _ H). rewrite trim_trim_right. destruct (int_field_lex _ _ Hf) as [-> ->]. reflexivity.
Qed.
Lemma upper_digit c : (Ascii.eqb c "-" || is_digit c) = true -> upper c = c.
Proof.
  intros H. unfold upper. apply orb_true_iff in H. destruct H as [H|H]; [apply Ascii.eqb_eq in H; subst c; reflexivity|].
  unfold is_digit in H. apply andb_true_iff in H. destruct H as [_ H]. apply Nat.leb_le in H.
  destruct (Nat.leb_spec 97 (nat_of_ascii c)); [lia|reflexivity].
Qed.
Lemma word_not_int w f : word_field w f -> (exists c r, txt w = c :: r /\ (Ascii.eqb c "-" || is_digit c) = false) ->
  negb (null (trim f)) && forallb (fun c => Ascii.eqb c "-" || is_digit c) (trim f) = false.
Proof.
  unfold word_field, to_upper. intros Hw (c & r & Ht & Hc). rewrite Ht in Hw. destruct (trim f) as [|x l]; [discriminate|].
  cbn [map] in Hw. injection Hw as Hx _. cbn [null negb andb forallb].
  destruct (Ascii.eqb x "-" || is_digit x) eqn:E; [|reflexivity]. rewrite upper_digit in Hx by exact E. subst c. congruence.
Qed.
Lemma int_not_word w f n : int_field f n -> (exists c r, txt w = c :: r /\ (Ascii.eqb c "-" || is_digit c) = false) ->
  str_eqb (to_upper (trim f)) (txt w) = false.
Proof.
  intros Hf Hw. destruct (str_eqb_spec (to_upper (trim f)) (txt w)) as [E|]; [|reflexivity].
  pose proof (int_field_isint _ _ Hf) as H. rewrite (word_not_int w f E Hw) in H. discriminate.
Qed.

(** ** Ranges *)
Open Scope Z_scope.

Definition zrange (a b : Z) : list Z := map (fun k => a + Z.of_nat k) (seq 0 (Z.to_nat (b - a + 1))).
Lemma zrange_cons a b : a <= b -> zrange a b = a :: zrange (a + 1) b.
Proof.
  intros H. unfold zrange. replace (Z.to_nat (b - a + 1)) with (S (Z.to_nat (b - (a + 1) + 1))) by lia.
  cbn [seq map]. f_equal; [lia|]. rewrite <- seq_shift, map_map. apply map_ext. intros; lia.
Qed.
Lemma zrange_nil a b : b < a -> zrange a b = [].
Proof. intros H. unfold zrange. now replace (Z.to_nat (b - a + 1)) with O by lia. Qed.

Lemma for_range_one fuel : forall i e, INT_MIN32 < i -> e < INT_MAX32 -> e - i + 1 <= Z.of_nat fuel -> for_range fuel i e 1 = Ok (zrange i e).
Proof.
  induction fuel as [|f IH]; intros i e Hi He Hf; cbn [for_range].
  - destruct (Z.ltb_spec e i); [now rewrite zrange_nil|lia].
  - destruct (Z.ltb_spec e i); [now rewrite zrange_nil|].
    destruct (Z.ltb_spec INT_MAX32 (i + 1)); [lia|]. destruct (Z.ltb_spec (i + 1) INT_MIN32); [lia|]. cbn [orb].
    rewrite IH by lia. cbn [bind]. now rewrite <- zrange_cons.
Qed.

(** With a positive step the loop ends and lists [i, i+s, ...] up to [e]. *)
Lemma for_range_step fuel : forall i e s, 0 < s -> INT_MIN32 < i -> e + s <= INT_MAX32 -> e - i + 1 <= Z.of_nat fuel ->
  exists l, for_range fuel i e s = Ok l /\ forall x, In x l <-> exists k, 0 <= k /\ x = i + k * s /\ x <= e.
Proof.
  induction fuel as [|f IH]; intros i e s Hs Hi He Hf; cbn [for_range].
  - destruct (Z.ltb_spec e i); [|lia]. exists []. split; [reflexivity|]. intros x. split; [intros []|]. intros (k & K1 & -> & K3). nia.
  - destruct (Z.ltb_spec e i). { exists []. split; [reflexivity|]. intros x. split; [intros []|]. intros (k & K1 & -> & K3). nia. }
    destruct (Z.ltb_spec INT_MAX32 (i + s)); [lia|]. destruct (Z.ltb_spec (i + s) INT_MIN32); [lia|]. cbn [orb].
    destruct (IH (i + s) e s) as (l & -> & Hl); [lia|lia|lia|lia|]. cbn [bind]. exists (i :: l). split; [reflexivity|].
    intros x. cbn [In]. rewrite Hl. split.
    + intros [<-|(k & K1 & -> & K3)]; [exists 0; lia|exists (k + 1); lia].
    + intros (k & K1 & -> & K3). destruct (Z.eq_dec k 0) as [->|]; [left; lia|right; exists (k - 1); lia].
Qed.
Lemma for_range_diverges fuel : forall i e s, s <= 0 -> i <= e -> INT_MIN32 + Z.of_nat fuel * - s <= i -> i <= INT_MAX32 ->
  for_range fuel i e s = NoFuel.
Proof.
  induction fuel as [|f IH]; intros i e s Hs He Hi Hx; cbn [for_range].
  - destruct (Z.ltb_spec e i); [lia|reflexivity].
  - destruct (Z.ltb_spec e i); [lia|]. destruct (Z.ltb_spec INT_MAX32 (i + s)); [lia|]. destruct (Z.ltb_spec (i + s) INT_MIN32); [nia|].
    cbn [orb]. rewrite IH by nia. reflexivity.
Qed.
Close Scope Z_scope.

(** ** Steps of the loop *)

Lemma digit_word_T : exists c r, txt "THRU" = c :: r /\ (Ascii.eqb c "-" || is_digit c) = false.
Proof. do 2 eexists. split; reflexivity. Qed.
Lemma digit_word_B : exists c r, txt "BY" = c :: r /\ (Ascii.eqb c "-" || is_digit c) = false.
Proof. do 2 eexists. split; reflexivity. Qed.

Lemma step_int fuel acc vec i f n : nth_error vec i = Some f -> int_field f n ->
  nextInts_loop (S fuel) acc (at_pos vec i) = nextInts_loop fuel (n :: acc) (at_pos vec (S i)).
Proof. intros H Hf. cbn [nextInts_loop]. rewrite (isint_at _ _ _ _ H Hf). cbn [bind]. rewrite (nextInt_at _ _ _ _ H Hf). reflexivity. Qed.

(** What follows the second number of a range is not BY. *)
Definition not_word (w : string) (vec : list str) (i : nat) : Prop :=
  forall f, nth_error vec i = Some f -> ~ word_field w f.

Lemma isword_false w vec i : not_word w vec i -> peek_field (at_pos vec i) (fun f => str_eqb (to_upper f) (txt w)) = Ok false.
Proof.
  intros H. destruct (nth_error vec i) as [f|] eqn:E.
  - rewrite (peek_at _ _ _ _ E). destruct (str_eqb_spec (to_upper (trim f)) (txt w)) as [X|]; [|reflexivity]. exfalso. exact (H f E X).
  - now apply peek_end.
Qed.
Lemma isword_true w vec i f : nth_error vec i = Some f -> word_field w f -> peek_field (at_pos vec i) (fun f => str_eqb (to_upper f) (txt w)) = Ok true.
Proof. intros H Hw. rewrite (peek_at _ _ _ _ H). unfold word_field in Hw. rewrite Hw. now destruct (str_eqb_spec (txt w) (txt w)). Qed.
Lemma isint_word w vec i f : nth_error vec i = Some f -> word_field w f ->
  (exists c r, txt w = c :: r /\ (Ascii.eqb c "-" || is_digit c) = false) -> isNextInt (at_pos vec i) = Ok false.
Proof. intros H Hw Hc. unfold isNextInt. rewrite (peek_at _ _ _ _ H). now rewrite (word_not_int w f Hw Hc). Qed.

Lemma step_thru fuel acc vec i t g a b : nth_error vec i = Some t -> word_field "THRU" t ->
  nth_error vec (S i) = Some g -> int_field g b -> not_word "BY" vec (S (S i)) ->
  (INT_MIN32 <= a < INT_MAX32)%Z -> (b < INT_MAX32)%Z ->
  nextInts_loop (S fuel) (a :: acc) (at_pos vec i) =
  nextInts_loop fuel (rev (zrange (Z.min a b) (Z.max a b)) ++ acc) (at_pos vec (S (S i))).
Proof.
  intros Ht Hw Hg Hb Hby Ha Hbm. cbn [nextInts_loop].
  rewrite (isint_word _ _ _ _ Ht Hw digit_word_T). cbn [bind].
  unfold isNextTHRU. rewrite (isword_true _ _ _ _ Ht Hw). cbn [bind]. rewrite (skip_at _ _ _ Ht). cbn [bind].
  rewrite (nextInt_at _ _ _ _ Hg Hb). cbn [bind].
  assert (Hbr : (INT_MIN32 <= b)%Z) by (destruct Hb as (? & ? & ? & ? & ?); lia).
  destruct (Z.ltb_spec b a) as [Hlt|Hge].
  - unfold isNextBY. rewrite (isword_false _ _ _ Hby). cbn [bind]. destruct (Z.ltb_spec INT_MAX32 (b + 1)); [lia|].
    rewrite for_range_one by lia. cbn [bind]. rewrite Z.min_r, Z.max_l by lia. rewrite (zrange_cons b a) by lia. cbn [rev].
    now rewrite <- app_assoc.
  - unfold isNextBY. rewrite (isword_false _ _ _ Hby). cbn [bind]. destruct (Z.ltb_spec INT_MAX32 (a + 1)); [lia|].
    rewrite for_range_one by lia. cbn [bind]. rewrite Z.min_l, Z.max_r by lia. rewrite (zrange_cons a b) by lia. cbn [rev].
    now rewrite <- app_assoc.
Qed.

Lemma step_end fuel acc vec i : (forall f n, nth_error vec i = Some f -> negb (null (trim f)) && forallb (fun c => Ascii.eqb c "-" || is_digit c) (trim f) = n -> n = false) ->
  not_word "THRU" vec i -> nextInts_loop (S fuel) acc (at_pos vec i) = Ok (rev acc, at_pos vec i).
Proof.
  intros Hi Ht. cbn [nextInts_loop].
  assert (isNextInt (at_pos vec i) = Ok false) as ->.
  { unfold isNextInt. destruct (nth_error vec i) as [f|] eqn:E; [|now apply peek_end]. rewrite (peek_at _ _ _ _ E). now rewrite (Hi f _ eq_refl eq_refl). }
  cbn [bind]. unfold isNextTHRU. rewrite (isword_false _ _ _ Ht). reflexivity.
Qed.

Lemma step_thru_by fuel acc vec i t g u h a b s : nth_error vec i = Some t -> word_field "THRU" t ->
  nth_error vec (S i) = Some g -> int_field g b -> nth_error vec (S (S i)) = Some u -> word_field "BY" u ->
  nth_error vec (S (S (S i))) = Some h -> int_field h s -> (a < b)%Z ->
  nextInts_loop (S fuel) (a :: acc) (at_pos vec i) =
  bind (for_range (Z.to_nat (b - a)) (a + 1)%Z b s) (fun l => nextInts_loop fuel (rev l ++ a :: acc) (at_pos vec (S (S (S (S i)))))).
Proof.
  intros Ht Hw Hg Hb Hu Hby Hh Hs Hab. cbn [nextInts_loop].
  assert (Hrb : (b <= INT_MAX32)%Z) by (destruct Hb as (? & _ & _ & ? & _); lia).
  rewrite (isint_word _ _ _ _ Ht Hw digit_word_T). cbn [bind].
  unfold isNextTHRU. rewrite (isword_true _ _ _ _ Ht Hw). cbn [bind]. rewrite (skip_at _ _ _ Ht). cbn [bind].
  rewrite (nextInt_at _ _ _ _ Hg Hb). cbn [bind]. destruct (Z.ltb_spec b a); [lia|].
  unfold isNextBY. rewrite (isword_true _ _ _ _ Hu Hby). cbn [bind]. rewrite (skip_at _ _ _ Hu). cbn [bind].
  rewrite (nextInt_at _ _ _ _ Hh Hs). cbn [bind]. destruct (Z.ltb_spec INT_MAX32 (a + 1)); [lia|]. reflexivity.
Qed.
