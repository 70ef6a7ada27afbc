(** Lemmas about written reals. *)
From Coq Require Import Ascii String ZArith List Bool Arith Lia.
From Verif Require Import Base TextModel TextProofs TokenizerModel RealModel RealProofs WriterLineModel WriterLineProofs.
Import ListNotations.
Open Scope nat_scope.
Open Scope list_scope.

(** ** Blanks in a real field *)
Lemma erase_dropWhile l : (forall c, In c l -> is_space c = true -> c = " "%char) -> erase_char " " (dropWhile is_space l) = erase_char " " l.
Proof.
  induction l as [|c l IH]; intros H; [reflexivity|]. cbn [dropWhile]. destruct (is_space c) eqn:E; [|reflexivity].
  rewrite (H c (or_introl eq_refl) E). cbn. apply IH. intros x Hx. apply H. now right.
Qed.
Lemma filter_rev {A} (p : A -> bool) l : filter p (rev l) = rev (filter p l).
Proof.
  induction l as [|a l IH]; [reflexivity|]. cbn [rev filter]. rewrite filter_app, IH. cbn. destruct (p a); cbn; [reflexivity|now rewrite app_nil_r].
Qed.
Lemma dropWhile_incl p l x : In x (dropWhile p l) -> In x l.
Proof. induction l as [|c l IH]; cbn; [trivial|]. destruct (p c); [intros H; right; auto|trivial]. Qed.
Lemma erase_trim l : (forall c, In c l -> is_space c = true -> c = " "%char) -> erase_char " " (trim l) = erase_char " " l.
Proof.
  intros H. unfold trim, trim_right, trim_left. unfold erase_char. rewrite filter_rev. fold (erase_char " " (dropWhile is_space (rev (dropWhile is_space l)))).
  rewrite erase_dropWhile. 2:{ intros c Hc. apply in_rev in Hc. apply dropWhile_incl in Hc. now apply H. }
  unfold erase_char at 1. rewrite filter_rev, rev_involutive. now apply erase_dropWhile.
Qed.
Lemma erase_nonempty l : erase_char " " l <> [] -> (forall c, In c (erase_char " " l) -> is_space c = false) -> null (trim l) = false.
Proof.
  intros H1 H2. destruct (trim l) eqn:E; [|reflexivity]. apply trim_nil_iff in E. exfalso.
  destruct (erase_char " " l) as [|c r] eqn:Er; [congruence|].
  assert (In c (erase_char " " l)) as Hin by (rewrite Er; now left).
  apply filter_In in Hin. rewrite forallb_forall in E. specialize (E c (proj1 Hin)). rewrite (H2 c) in E; [discriminate|now left].
Qed.

(** A field that is the text [t] with blanks anywhere. *)
Definition spaced (t f : str) : Prop := filter (fun c => negb (Ascii.eqb c " ")) f = t.
Lemma spaced_real t f : t <> [] -> (forall c, In c t -> is_space c = false) -> spaced t f ->
  real_of_field f = lexical_double (insert_e (replace_d t)).
Proof.
  intros Hn Hs Hf. unfold real_of_field, normalise.
  assert (Hf' : erase_char " " f = t) by exact Hf.
  assert (Hc : forall c, In c f -> is_space c = true -> c = " "%char).
  { intros c Hc Hsp. destruct (Ascii.eqb_spec c " ") as [->|Hne]; [reflexivity|]. exfalso.
    assert (In c t) as Hin. { rewrite <- Hf. apply filter_In. split; [exact Hc|]. apply negb_true_iff. now apply Ascii.eqb_neq. }
    rewrite (Hs c Hin) in Hsp. discriminate. }
  rewrite erase_nonempty by (rewrite Hf'; auto). rewrite replace_d_erase, erase_trim, Hf' by exact Hc. reflexivity.
Qed.

Lemma mant_nospace s ip dot fp c : mant_ok ip dot fp -> In c (mant_text s ip dot fp) -> is_space c = false.
Proof.
  intros (H1 & H2 & _ & _) Hc. rewrite forallb_forall in H1, H2.
  unfold mant_text in Hc. apply in_app_or in Hc. destruct Hc as [Hc|Hc]; [destruct s as [[]|]; cbn in Hc; intuition (subst; reflexivity)|].
  apply in_app_or in Hc. destruct Hc as [Hc|Hc]; [apply (digit_not_sign c (H1 c Hc))|].
  destruct dot; [|destruct Hc]. destruct Hc as [<-|Hc]; [reflexivity|]. apply (digit_not_sign c (H2 c Hc)).
Qed.
Lemma mant_nonempty s ip dot fp : mant_ok ip dot fp -> mant_text s ip dot fp <> [].
Proof. intros Hm E. destruct (mant_split s ip dot fp Hm) as (c & r & E' & _). congruence. Qed.
Lemma digits_nospace d c : forallb is_digit d = true -> In c d -> is_space c = false.
Proof. intros H Hc. rewrite forallb_forall in H. apply (digit_not_sign c (H c Hc)). Qed.
Lemma sign_nospace s c : In c (sign_text s) -> is_space c = false.
Proof. destruct s as [[]|]; cbn; intuition (subst; reflexivity). Qed.

(** ** Rounding *)
Open Scope Z_scope.
Lemma nearest_error up a b : 0 < b -> 2 * Z.abs (nearest up a b * b - a) <= b.
Proof.
  intros Hb. unfold nearest. pose proof (Z.div_mod a b ltac:(lia)) as D. pose proof (Z.mod_pos_bound a b Hb) as Hm.
  destruct (Z.ltb_spec (2 * (a mod b)) b); [lia|]. destruct (Z.ltb_spec b (2 * (a mod b))); [lia|]. destruct up; lia.
Qed.
Lemma nearest_ge up a b lo : 0 < b -> lo * b <= a -> lo <= nearest up a b.
Proof.
  intros Hb H. assert (lo <= a / b) by (apply Z.div_le_lower_bound; lia).
  unfold nearest. destruct (2 * (a mod b) <? b), (b <? 2 * (a mod b)), up; lia.
Qed.
Lemma nearest_le up a b hi : 0 < b -> a <= hi * b -> nearest up a b <= hi.
Proof.
  intros Hb H. pose proof (Z.div_mod a b ltac:(lia)) as D. pose proof (Z.mod_pos_bound a b Hb) as Hm.
  unfold nearest. destruct (Z.eq_dec (a mod b) 0) as [E|E].
  - rewrite E. cbn [Z.mul]. destruct (Z.ltb_spec 0 b); [|lia]. nia.
  - assert (a / b + 1 <= hi) by nia. destruct (2 * (a mod b) <? b), (b <? 2 * (a mod b)), up; lia.
Qed.
Lemma nearest_exact up q b : 0 < b -> nearest up (q * b) b = q.
Proof. intros Hb. unfold nearest. rewrite Z.div_mul, Z.mod_mul by lia. cbn [Z.mul]. destruct (Z.ltb_spec 0 b); lia. Qed.

Lemma nat_text_digits n d : 0 <= d -> 10 ^ d <= n < 10 ^ (d + 1) -> Z.of_nat (length (nat_text n)) = d + 1.
Proof.
  intros Hd H. assert (Hn : 0 <= n) by (pose proof (Z.pow_pos_nonneg 10 d); lia).
  destruct (nat_text_spec n Hn) as (D & V & _).
  pose proof (nat_text_length n (Z.to_nat d)) as L. rewrite Nat2Z.inj_succ, Z2Nat.id in L by lia. specialize (L ltac:(lia)).
  pose proof (digits_val_bounds _ D) as B. rewrite V in B.
  assert (d < Z.of_nat (length (nat_text n))); [|lia].
  apply (Z.pow_lt_mono_r_iff 10); lia.
Qed.
Lemma nat_text_small n : 0 <= n < 10 -> length (nat_text n) = 1%nat.
Proof.
  intros H. pose proof (nat_text_length n 0 H). destruct (nat_text_spec n ltac:(lia)) as (_ & _ & N). destruct (nat_text n); [congruence|]. cbn in *. lia.
Qed.

(** ** Trailing zeros *)
Lemma digits_val_zeros k : digits_val (repeat "0"%char k) = 0.
Proof. induction k as [|k IH]; [reflexivity|]. cbn [repeat]. rewrite digits_val_cons, IH. change (digit_val "0") with 0. lia. Qed.
Lemma zeros_digits k : forallb is_digit (repeat "0"%char k) = true.
Proof. now apply forallb_repeat. Qed.

Lemma pad_zeros_spec d n : 0 <= n < 10 ^ Z.of_nat (S d) ->
  forallb is_digit (pad_zeros (S d) (nat_text n)) = true /\ digits_val (pad_zeros (S d) (nat_text n)) = n /\ length (pad_zeros (S d) (nat_text n)) = S d.
Proof.
  intros H. pose proof (nat_text_length n d H) as L. destruct (nat_text_spec n ltac:(lia)) as (D & V & N). unfold pad_zeros.
  split; [now rewrite forallb_app, zeros_digits, D|]. split; [rewrite digits_val_app, digits_val_zeros, V; lia|].
  rewrite app_length, repeat_length. lia.
Qed.
Lemma drop_zeros l : exists z, l = repeat "0"%char z ++ dropWhile (Ascii.eqb "0") l.
Proof.
  induction l as [|c l (z & IH)]; [exists 0%nat; reflexivity|]. cbn [dropWhile]. destruct (Ascii.eqb_spec "0" c) as [<-|H].
  - exists (S z). cbn. now f_equal.
  - exists 0%nat. reflexivity.
Qed.
Lemma trim_zeros a p : match a with c :: _ => c <> "0"%char | [] => False end ->
  exists fp z, p = fp ++ repeat "0"%char z /\ trim_char "0" (a ++ "."%char :: p) = a ++ "."%char :: fp.
Proof.
  intros Ha. unfold trim_char.
  assert (dropWhile (Ascii.eqb "0") (a ++ "."%char :: p) = a ++ "."%char :: p) as ->.
  { destruct a as [|c a]; [destruct Ha|]. cbn [app dropWhile]. destruct (Ascii.eqb_spec "0" c); [congruence|reflexivity]. }
  destruct (drop_zeros (rev p)) as (z & Hz). pose proof (dropWhile_idem (Ascii.eqb "0") (rev p)) as Hw.
  set (w := dropWhile (Ascii.eqb "0") (rev p)) in *. clearbody w.
  exists (rev w), z. split; [rewrite <- (rev_involutive p), Hz, rev_app_distr, rev_repeat; reflexivity|].
  rewrite rev_app_distr. cbn [rev]. rewrite <- app_assoc, Hz, <- app_assoc.
  rewrite dropWhile_app_all by (apply forallb_repeat, Ascii.eqb_refl).
  assert (dropWhile (Ascii.eqb "0") (w ++ ["."%char] ++ rev a) = w ++ ["."%char] ++ rev a) as ->.
  { destruct w as [|c w]; [reflexivity|]. cbn [app dropWhile] in *. destruct (Ascii.eqb "0" c); [|reflexivity]. exfalso.
    assert (length (dropWhile (Ascii.eqb "0") w) <= length w)%nat.
    { clear. induction w as [|c w IH]; cbn [dropWhile]; [lia|]. destruct (Ascii.eqb "0" c); cbn [length]; lia. }
    rewrite Hw in H. cbn in H. lia. }
  rewrite !rev_app_distr, rev_involutive. cbn [rev app]. now rewrite <- app_assoc.
Qed.

Lemma nat_text_head n : 1 <= n -> match nat_text n with c :: _ => c <> "0"%char | [] => False end.
Proof.
  intros H.
  assert (K : forall fuel n acc, 1 <= n -> n < 2 ^ Z.of_nat fuel -> match dec_digits fuel n acc with c :: _ => c <> "0"%char | [] => False end).
  { clear. induction fuel as [|f IH]; intros n acc Hn Hf.
    - cbn in Hf. lia.
    - cbn [dec_digits]. destruct (Z.ltb_spec n 10) as [Hl|Hl].
      + rewrite Z.mod_small by lia. destruct (digit_char n ltac:(lia)) as [_ X]. cbv zeta in X. intros E. rewrite E in X. change (digit_val "0") with 0 in X. lia.
      + apply IH; [apply Z.div_le_lower_bound; lia|]. rewrite Nat2Z.inj_succ, Z.pow_succ_r in Hf by lia. apply Z.div_lt_upper_bound; lia. }
  apply K; [exact H|]. rewrite Nat2Z.inj_succ, Z2Nat.id by apply Z.log2_nonneg. apply Z.log2_spec. lia.
Qed.

(** ** The text of a real and what is read from it *)

(** The mantissa [r / 10^lo], sign and exponent, printed and read. *)
Lemma written_real (neg : bool) (r : Z) (lo : nat) (sign : bool) (ed : str) (E : Z) f :
  (1 <= lo)%nat -> 10 ^ Z.of_nat lo <= r <= 10 ^ (Z.of_nat lo + 1) ->
  forallb is_digit ed = true -> ed <> [] -> signed sign (digits_val ed) = E ->
  let t := trim_char "0" ((if neg then ["-"%char] else []) ++ fixed_text lo r) ++ (if sign then "-"%char else "+"%char) :: ed in
  spaced t f ->
  (length t <= lo + 3 + (if neg then 1 else 0) + length ed)%nat /\
  exists m e, real_of_field f = Ok (m, e) /\ E - Z.of_nat lo <= e /\ m * 10 ^ (e - (E - Z.of_nat lo)) = signed neg r.
Proof.
  intros Hlo Hr Hed Hne HE t Hf. destruct lo as [|d]; [lia|].
  set (P := 10 ^ Z.of_nat (S d)) in *. assert (HP : 0 < P) by (apply Z.pow_pos_nonneg; lia).
  assert (HP1 : 10 ^ (Z.of_nat (S d) + 1) = 10 * P) by (unfold P; rewrite Z.add_1_r, Z.pow_succ_r by lia; reflexivity). rewrite HP1 in Hr.
  assert (Hq : 1 <= r / P <= 10) by (split; [apply Z.div_le_lower_bound; lia|apply Z.div_le_upper_bound; lia]).
  pose proof (Z.mod_pos_bound r P HP) as Hm.
  destruct (pad_zeros_spec d (r mod P) Hm) as (Z1 & Z2 & Z3). destruct (nat_text_spec (r / P) ltac:(lia)) as (D1 & D2 & D3).
  pose proof (nat_text_head (r / P) ltac:(lia)) as Hh.
  unfold fixed_text in t. fold P in t. set (p := pad_zeros (S d) (nat_text (r mod P))) in *.
  destruct (trim_zeros ((if neg then ["-"%char] else []) ++ nat_text (r / P)) p) as (fp & z & Hp & Ht).
  { destruct neg; cbn; [discriminate|exact Hh]. }
  rewrite <- app_assoc in Ht.
  set (s := if neg then Some true else None).
  assert (Et : t = mant_text s (nat_text (r / P)) true fp ++ (if sign then "-"%char else "+"%char) :: ed).
  { unfold t. rewrite Ht. unfold mant_text, s. destruct neg; cbn; now rewrite <- ?app_assoc. }
  assert (Hdig : forallb is_digit fp = true) by (rewrite Hp, forallb_app in Z1; now apply andb_true_iff in Z1).
  assert (Hmant : mant_ok (nat_text (r / P)) true fp).
  { split; [exact D1|]. split; [exact Hdig|]. split; [|discriminate]. destruct (nat_text (r / P)); [congruence|discriminate]. }
  assert (Hlenp : (length fp + z = S d)%nat) by (rewrite <- Z3, Hp, app_length, repeat_length; reflexivity).
  split.
  - rewrite Et. unfold mant_text. rewrite !app_length. cbn [length].
    assert (length (sign_text s) = if neg then 1 else 0)%nat as -> by (unfold s; destruct neg; reflexivity).
    destruct (Z.eq_dec (r / P) 10) as [E10|E10].
    + assert (r mod P = 0) as Em. { pose proof (Z.div_mod r P ltac:(lia)). nia. }
      assert (length fp = 0)%nat.
      { rewrite Em in Z2. destruct fp as [|c fp]; [reflexivity|]. exfalso.
        (* the trimmed text has no trailing zero but all its digits are zero *)
        assert (Hall : forall l, forallb is_digit l = true -> digits_val l = 0 -> l = repeat "0"%char (length l)).
        { clear. induction l as [|c l IH]; [reflexivity|]. intros H1 H2. cbn [forallb] in H1. apply andb_true_iff in H1. destruct H1 as [Hc Hl].
          rewrite digits_val_cons in H2. pose proof (digits_val_bounds l Hl). pose proof (is_digit_range c Hc).
          pose proof (Z.pow_pos_nonneg 10 (Z.of_nat (length l)) ltac:(lia) ltac:(lia)).
          assert (digit_val c = 0) by nia. assert (digits_val l = 0) by nia. cbn [length repeat]. rewrite <- IH by assumption. f_equal.
          unfold digit_val in H3. assert (nat_of_ascii c = 48%nat) as X by lia. rewrite <- (ascii_nat_embedding c), X. reflexivity. }
        assert (Hrep : (c :: fp) = repeat "0"%char (length (c :: fp))).
        { apply Hall; [exact Hdig|]. rewrite Hp, digits_val_app, digits_val_zeros in Z2.
          pose proof (Z.pow_pos_nonneg 10 (Z.of_nat (length (repeat "0"%char z))) ltac:(lia) ltac:(lia)). pose proof (digits_val_bounds _ Hdig). nia. }
        (* so trimming would have removed it *)
        assert (Hend : trim_char "0" (((if neg then ["-"%char] else []) ++ nat_text (r / P)) ++ "."%char :: p) =
                        ((if neg then ["-"%char] else []) ++ nat_text (r / P)) ++ ["."%char]).
        { rewrite Hp, Hrep, <- repeat_app. clear -Hh Hq. set (k := (length (c :: fp) + z)%nat).
          unfold trim_char.
          assert (dropWhile (Ascii.eqb "0") (((if neg then ["-"%char] else []) ++ nat_text (r / P)) ++ "."%char :: repeat "0"%char k) =
            ((if neg then ["-"%char] else []) ++ nat_text (r / P)) ++ "."%char :: repeat "0"%char k) as ->.
          { destruct neg; [reflexivity|]. cbn [app]. destruct (nat_text (r / P)) as [|x q]; [destruct Hh|]. cbn [app dropWhile].
            destruct (Ascii.eqb_spec "0" x); [congruence|reflexivity]. }
          rewrite rev_app_distr. cbn [rev]. rewrite rev_repeat, <- app_assoc.
          rewrite dropWhile_app_all by (apply forallb_repeat, Ascii.eqb_refl). cbn [app dropWhile]. change (Ascii.eqb "0" ".") with false. cbv iota.
          cbn [rev]. now rewrite rev_involutive. }
        rewrite <- app_assoc, Ht in Hend. apply app_inv_head in Hend. discriminate. }
      rewrite E10. change (length (nat_text 10)) with 2%nat. lia.
    + rewrite nat_text_small by lia. lia.
  - exists (signed neg (digits_val (nat_text (r / P) ++ fp))), (E - Z.of_nat (length fp)). split; [|split; [lia|]].
    + rewrite (spaced_real t f); [|rewrite Et; intros X; apply app_eq_nil in X; destruct X; discriminate| |exact Hf].
      2:{ intros c Hc. rewrite Et in Hc. apply in_app_or in Hc. destruct Hc as [Hc|[<-|Hc]]; [now apply (mant_nospace _ _ _ _ _ Hmant Hc)|now destruct sign|now apply (digits_nospace ed)]. }
      rewrite Et, replace_d_app, replace_d_mant by exact Hmant.
      assert (replace_d ((if sign then "-"%char else "+"%char) :: ed) = (if sign then "-"%char else "+"%char) :: ed) as ->.
      { change (replace_d ((if sign then "-"%char else "+"%char) :: ed)) with (replace_d [if sign then "-"%char else "+"%char] ++ replace_d ed). rewrite (replace_d_digits ed) by exact Hed. now destruct sign. }
      rewrite insert_e_short by (auto; now destruct sign).
      pose proof (lexical_mant_exp s (nat_text (r / P)) true fp "E" (Some sign) ed Hmant eq_refl Hed Hne) as L.
      assert (sign_text (Some sign) ++ ed = (if sign then "-"%char else "+"%char) :: ed) as X by (now destruct sign).
      rewrite X in L. rewrite L. unfold s. f_equal. f_equal; [now destruct neg|]. rewrite <- HE. now destruct sign.
    + replace (E - Z.of_nat (length fp) - (E - Z.of_nat (S d))) with (Z.of_nat z) by lia.
      assert (Hval : digits_val (nat_text (r / P) ++ fp) * 10 ^ Z.of_nat z = r).
      { assert (digits_val (nat_text (r / P) ++ p) = r) as Hv.
        { rewrite digits_val_app, D2, Z2, Z3. fold P. pose proof (Z.div_mod r P ltac:(lia)). lia. }
        rewrite Hp, app_assoc, (digits_val_app _ (repeat _ z)), digits_val_zeros, repeat_length in Hv. lia. }
      destruct neg; cbn [signed]; lia.
Qed.
