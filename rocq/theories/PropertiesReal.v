(** Properties C22 and C24: reals read from and written to fields. *)
From Coq Require Import Ascii String ZArith List Bool Arith Lia.
From Verif Require Import Base TextModel TextProofs TokenizerModel RealModel RealProofs WriterLineModel WriterLineProofs WriterRealProofs.
Import ListNotations.
Open Scope list_scope.
Open Scope Z_scope.

(** ** C22: what a real field means *)

(** A mantissa: optional sign, digits, optional point and digits (at least one
    digit in all); [exponent] is its power of ten. *)
Definition sign_of (s : option bool) : str := match s with None => [] | Some true => ["-"%char] | Some false => ["+"%char] end.
Definition apply_sign (s : option bool) (v : Z) : Z := match s with Some true => - v | _ => v end.
Definition mantissa (s : option bool) (ip : str) (dot : bool) (fp : str) : str :=
  sign_of s ++ ip ++ (if dot then "."%char :: fp else []).
Definition all_digits (l : str) : Prop := Forall (fun c => is_digit c = true) l.
Definition good_mantissa (ip : str) (dot : bool) (fp : str) : Prop :=
  all_digits ip /\ all_digits fp /\ ip ++ fp <> [] /\ (dot = false -> fp = []).

(** The exponent part of a real: nothing; a letter among e E d D, an optional
    sign and digits; or the abbreviation, a sign and digits. *)
Inductive exponent := NoExp | Letter (c : ascii) (s : option bool) (ed : str) | Abbreviated (neg : bool) (ed : str).
Definition exponent_text (x : exponent) : str :=
  match x with
  | NoExp => []
  | Letter c s ed => c :: sign_of s ++ ed
  | Abbreviated neg ed => sign_of (Some neg) ++ ed
  end.
Definition good_exponent (x : exponent) : Prop :=
  match x with
  | NoExp => True
  | Letter c _ ed => In c ["e"; "E"; "d"; "D"]%char /\ all_digits ed /\ ed <> []
  | Abbreviated _ ed => all_digits ed /\ ed <> []
  end.
Definition exponent_value (x : exponent) : Z :=
  match x with
  | NoExp => 0
  | Letter _ s ed => apply_sign s (digits_val ed)
  | Abbreviated neg ed => apply_sign (Some neg) (digits_val ed)
  end.

Lemma all_digits_eq l : all_digits l <-> forallb is_digit l = true.
Proof. unfold all_digits. rewrite Forall_forall, forallb_forall. reflexivity. Qed.
Lemma apply_sign_eq s v : apply_sign s v = signed (is_neg s) v.
Proof. now destruct s as [[]|]. Qed.

(** Every form of a real field, with blanks anywhere in the field: the number
    read is the mantissa's digits times ten to the exponent, less the number of
    decimals. *)
Theorem C22_real_fields : forall s ip dot fp x field,
  good_mantissa ip dot fp -> good_exponent x ->
  filter (fun c => negb (Ascii.eqb c " ")) field = mantissa s ip dot fp ++ exponent_text x ->
  real_of_field field = Ok (apply_sign s (digits_val (ip ++ fp)), exponent_value x - Z.of_nat (length fp)).
Proof.
  intros s ip dot fp x field (H1 & H2 & H3 & H4) Hx Hf. rewrite all_digits_eq in H1, H2.
  assert (Hm : mant_ok ip dot fp) by (repeat split; assumption).
  change (mantissa s ip dot fp) with (mant_text s ip dot fp) in Hf.
  rewrite (spaced_real (mant_text s ip dot fp ++ exponent_text x) field); [| | |exact Hf].
  - rewrite replace_d_app, replace_d_mant by exact Hm. rewrite apply_sign_eq.
    destruct x as [|c es ed|neg ed]; cbn [exponent_text exponent_value good_exponent] in *.
    + cbn [replace_d map]. rewrite app_nil_r, insert_e_plain by exact Hm.
      rewrite <- (app_nil_r (mant_text s ip dot fp)), lexical_mant by (auto; trivial). reflexivity.
    + destruct Hx as (Hc & Hd & Hn). rewrite all_digits_eq in Hd. rewrite apply_sign_eq.
      change (c :: sign_of es ++ ed) with ([c] ++ sign_of es ++ ed). rewrite !replace_d_app, (replace_d_digits ed) by exact Hd.
      assert (Hs : replace_d (sign_of es) = sign_text es) by (now destruct es as [[]|]). rewrite Hs.
      assert (exists c', replace_d [c] = [c'] /\ is_e c' = true) as (c' & -> & Hc').
      { cbn in Hc. destruct Hc as [<-|[<-|[<-|[<-|[]]]]]; eexists; (split; [reflexivity|reflexivity]). }
      cbn [app]. rewrite insert_e_full by assumption. now apply lexical_mant_exp.
    + destruct Hx as (Hd & Hn). rewrite all_digits_eq in Hd. rewrite apply_sign_eq.
      rewrite replace_d_app, (replace_d_digits ed) by exact Hd.
      pose proof (lexical_mant_exp s ip dot fp "E" (Some neg) ed Hm eq_refl Hd Hn) as L.
      destruct neg; cbn [sign_of replace_d map app]; rewrite insert_e_short by (auto; reflexivity); exact L.
  - intros E. apply app_eq_nil in E. now apply (mant_nonempty s ip dot fp).
  - intros c Hc. apply in_app_or in Hc. destruct Hc as [Hc|Hc]; [now apply (mant_nospace _ _ _ _ _ Hm Hc)|].
    destruct x as [|x es ed|neg ed]; cbn [exponent_text good_exponent] in *; [destruct Hc| |].
    + destruct Hx as (Hx & Hd & _). rewrite all_digits_eq in Hd. destruct Hc as [<-|Hc].
      * cbn in Hx. intuition (subst; reflexivity).
      * apply in_app_or in Hc. destruct Hc as [Hc|Hc]; [now apply (sign_nospace es)|now apply (digits_nospace ed)].
    + destruct Hx as (Hd & _). rewrite all_digits_eq in Hd.
      apply in_app_or in Hc. destruct Hc as [Hc|Hc]; [now apply (sign_nospace (Some neg))|now apply (digits_nospace ed)].
Qed.

(** The abbreviation and every lettered form denote the same number. *)
Theorem C22_abbreviation : forall s ip dot fp neg ed c,
  good_mantissa ip dot fp -> all_digits ed -> ed <> [] -> In c ["e"; "E"; "d"; "D"]%char ->
  real_of_field (mantissa s ip dot fp ++ sign_of (Some neg) ++ ed) =
  real_of_field (mantissa s ip dot fp ++ c :: sign_of (Some neg) ++ ed).
Proof.
  intros s ip dot fp neg ed c Hm Hd Hn Hc.
  assert (Hns : forall x, good_exponent x -> filter (fun c => negb (Ascii.eqb c " ")) (mantissa s ip dot fp ++ exponent_text x) = mantissa s ip dot fp ++ exponent_text x).
  { intros x Hx. destruct Hm as (H1 & H2 & H3 & H4). rewrite all_digits_eq in H1, H2. assert (Hm : mant_ok ip dot fp) by (repeat split; assumption).
    assert (Hid : forall l, (forall c, In c l -> is_space c = false) -> filter (fun c => negb (Ascii.eqb c " ")) l = l).
    { clear. induction l as [|c l IH]; intros H; [reflexivity|]. cbn [filter]. destruct (Ascii.eqb_spec c " ") as [->|_].
      - specialize (H " "%char (or_introl eq_refl)). discriminate.
      - cbn. f_equal. apply IH. intros x Hx. apply H. now right. }
    apply Hid. intros y Hy. apply in_app_or in Hy. destruct Hy as [Hy|Hy]; [now apply (mant_nospace _ _ _ _ _ Hm Hy)|].
    destruct x as [|x es ex|n ex]; cbn [exponent_text good_exponent] in *; [destruct Hy| |].
    - destruct Hx as (Hx & He & _). rewrite all_digits_eq in He. destruct Hy as [<-|Hy]; [cbn in Hx; intuition (subst; reflexivity)|].
      apply in_app_or in Hy. destruct Hy as [Hy|Hy]; [now apply (sign_nospace es)|now apply (digits_nospace ex)].
    - destruct Hx as (He & _). rewrite all_digits_eq in He.
      apply in_app_or in Hy. destruct Hy as [Hy|Hy]; [now apply (sign_nospace (Some n))|now apply (digits_nospace ex)]. }
  change (sign_of (Some neg) ++ ed) with (exponent_text (Abbreviated neg ed)) at 1.
  change (c :: sign_of (Some neg) ++ ed) with (exponent_text (Letter c (Some neg) ed)).
  rewrite (C22_real_fields s ip dot fp (Abbreviated neg ed)); [|exact Hm|split; assumption|apply Hns; split; assumption].
  rewrite (C22_real_fields s ip dot fp (Letter c (Some neg) ed)); [reflexivity|exact Hm|split; [|split]; assumption|apply Hns; split; [|split]; assumption].
Qed.

(** A text without any digit is never taken for a number. *)
Theorem C22_no_digit_rejected : forall field, (forall c, In c field -> is_digit c = false) -> real_of_field field = Throw.
Proof.
  intros field H. unfold real_of_field. destruct (null (trim field)); [reflexivity|].
  assert (Hn : forall c, In c (normalise (trim field)) -> is_digit c = false).
  { intros c Hc. unfold normalise in Hc.
    assert (Hr : forall x, In x (erase_char " " (replace_d (trim field))) -> is_digit x = false).
    { intros x Hx. apply filter_In in Hx. destruct Hx as [Hx _]. unfold replace_d in Hx. apply in_map_iff in Hx. destruct Hx as (y & <- & Hy).
      assert (In y field) as Hin. { unfold trim, trim_right, trim_left in Hy. apply in_rev, dropWhile_incl, in_rev, dropWhile_incl in Hy. exact Hy. }
      destruct (Ascii.eqb y "d"); [reflexivity|]. destruct (Ascii.eqb y "D"); [reflexivity|]. now apply H. }
    unfold insert_e in Hc. destruct (erase_char " " (replace_d (trim field))) as [|x l]; [destruct Hc|].
    destruct (find_first is_sign l) as [p|]; [|now apply Hr].
    destruct (S p =? _)%nat; [now apply Hr|]. apply in_app_or in Hc. destruct Hc as [Hc|[<-|Hc]]; [|reflexivity|].
    - apply Hr. rewrite <- (firstn_skipn (S p) (x :: l)). apply in_or_app. now left.
    - apply Hr. rewrite <- (firstn_skipn (S p) (x :: l)). apply in_or_app. now right. }
  set (v := normalise (trim field)) in *. clearbody v. clear H.
  assert (Htd : forall l, (forall c, In c l -> is_digit c = false) -> take_digits l = ([], l)).
  { intros [|c l] Hl; [reflexivity|]. cbn [take_digits]. rewrite Hl by now left. reflexivity. }
  unfold lexical_double.
  assert (Hts : forall c, In c (snd (take_sign v)) -> is_digit c = false).
  { intros c Hc. destruct v as [|x v]; [destruct Hc|]. cbn [take_sign] in Hc. destruct (Ascii.eqb x "-"), (Ascii.eqb x "+"); cbn [snd] in Hc; apply Hn; cbn; tauto. }
  destruct (take_sign v) as [neg l]. cbn [snd] in Hts. rewrite Htd by exact Hts.
  destruct l as [|c r]; [reflexivity|]. destruct (Ascii.eqb c ".").
  - rewrite Htd by (intros y Hy; apply Hts; now right). reflexivity.
  - reflexivity.
Qed.

Example C22_case :
  good_mantissa (txt "1") true (txt "25") /\ good_exponent (Abbreviated true (txt "3")) /\
  real_of_field (txt " -1.25-3 ") = Ok (-125, -5) /\ real_of_field (txt "-1.25 D-3") = Ok (-125, -5) /\
  real_of_field (txt "7.") = Ok (7, 0) /\ real_of_field (txt "2E4") = Ok (2, 4) /\ real_of_field (txt "+.5e+1") = Ok (5, 0) /\
  real_of_field (txt "EGRID") = Throw.
Proof.
  split; [repeat split; [repeat constructor|repeat constructor|discriminate|discriminate]|].
  split; [split; [repeat constructor|discriminate]|]. vm_compute. repeat split; reflexivity.
Qed.

(** ** C24: a written real *)

(** Number of decimals kept of a number with exponent [E]. *)
Definition decimals_kept (E : Z) (neg : bool) : Z :=
  5 - (if Z.abs E <? 10 then 1 else if Z.abs E <? 100 then 2 else 3) - (if neg then 1 else 0).

Lemma len_exp E : Z.abs E <= 999 ->
  Z.of_nat (length (nat_text (Z.abs E))) = (if Z.abs E <? 10 then 1 else if Z.abs E <? 100 then 2 else 3).
Proof.
  intros H. destruct (Z.ltb_spec (Z.abs E) 10); [rewrite nat_text_small by lia; reflexivity|].
  destruct (Z.ltb_spec (Z.abs E) 100).
  - rewrite (nat_text_digits _ 1) by (cbn; lia). reflexivity.
  - rewrite (nat_text_digits _ 2) by (cbn; lia). reflexivity.
Qed.

Lemma filter_nospace l : (forall c, In c l -> c <> " "%char) -> filter (fun c => negb (Ascii.eqb c " ")) l = l.
Proof.
  induction l as [|c l IH]; intros H; [reflexivity|]. cbn [filter]. destruct (Ascii.eqb_spec c " ") as [->|_].
  - exfalso. now apply (H " "%char); [left|].
  - cbn. f_equal. apply IH. intros x Hx. apply H. now right.
Qed.
Lemma filter_spaces k : filter (fun c => negb (Ascii.eqb c " ")) (spaces k) = [].
Proof. induction k; [reflexivity|]. exact IHk. Qed.

Lemma fixed_nospace (neg : bool) lo r c : 0 <= r -> In c (trim_char "0" ((if neg then ["-"%char] else []) ++ fixed_text lo r)) -> c <> " "%char.
Proof.
  intros Hr Hc. unfold trim_char in Hc. apply in_rev, dropWhile_incl, in_rev, dropWhile_incl in Hc.
  assert (Hd : forall d, forallb is_digit d = true -> In c d -> c <> " "%char).
  { intros d H H' ->. pose proof (digits_nospace d " " H H'). discriminate. }
  assert (HP : 0 < 10 ^ Z.of_nat lo) by (apply Z.pow_pos_nonneg; lia).
  destruct (nat_text_spec (r / 10 ^ Z.of_nat lo) ltac:(apply Z.div_pos; lia)) as (D & _).
  destruct (nat_text_spec (r mod 10 ^ Z.of_nat lo) ltac:(pose proof (Z.mod_pos_bound r (10 ^ Z.of_nat lo)); lia)) as (D' & _).
  apply in_app_or in Hc. destruct Hc as [Hc|Hc]; [destruct neg; cbn in Hc; intuition (subst; discriminate)|].
  unfold fixed_text in Hc. apply in_app_or in Hc. destruct Hc as [Hc|[<-|Hc]]; [now apply (Hd _ D)|discriminate|].
  unfold pad_zeros in Hc. apply in_app_or in Hc. destruct Hc as [Hc|Hc]; [apply (Hd _ (zeros_digits _) Hc)|now apply (Hd _ D')].
Qed.

(** The number [n / 10^k] with twelve significant digits or more in [n] (more
    zeros may be appended to [n]), exponent [E = d - k] of at most three digits,
    that the writer does not take for zero: the text fills exactly the field,
    and the number read back is within half a unit of the last decimal kept
    (plus half a unit of the twelfth digit, where the first rounding happens),
    whatever way an exact tie goes. *)
Theorem C24_written_real : forall tie n k d,
  0 <= k -> 11 <= d -> 10 ^ d <= Z.abs n < 10 ^ (d + 1) -> Z.abs (d - k) <= 998 ->
  5 * 10 ^ k < Z.abs n * 2 ^ 52 ->
  exists t m e, add_double tie n k = Some t /\ length t = 8%nat /\ real_of_field t = Ok (m, e) /\ 0 <= e + k /\
    2 * Z.abs (m * 10 ^ (e + k) - n) <= 10 ^ (d - decimals_kept (d - k) (n <? 0)) + 10 ^ (d - 11).
Proof.
  intros tie n k d Hk Hd Hn HE Hz.
  set (neg := n <? 0). set (a := Z.abs n) in *. set (E := d - k) in *.
  assert (Hpd : 0 < 10 ^ d) by (apply Z.pow_pos_nonneg; lia).
  assert (Hnd : ndigits a - 1 - k = E) by (unfold ndigits; rewrite (nat_text_digits a d) by lia; unfold E; lia).
  assert (Hu : E - 11 + k = d - 11) by (unfold E; lia).
  set (u := d - 11) in *. assert (Hpu : 0 < 10 ^ u) by (apply Z.pow_pos_nonneg; unfold u; lia).
  assert (Hdu : 10 ^ d = 10 ^ 11 * 10 ^ u) by (rewrite <- Z.pow_add_r by (unfold u; lia); f_equal; unfold u; lia).
  assert (Hdu1 : 10 ^ (d + 1) = 10 ^ 12 * 10 ^ u) by (rewrite <- Z.pow_add_r by (unfold u; lia); f_equal; unfold u; lia).
  set (M0 := nearest (Z.odd (a / 10 ^ u)) a (10 ^ u)).
  assert (HM0 : 10 ^ 11 <= M0 <= 10 ^ 12) by (split; [apply nearest_ge; lia|apply nearest_le; lia]).
  pose proof (nearest_error (Z.odd (a / 10 ^ u)) a (10 ^ u) Hpu) as He0. fold M0 in He0.
  assert (Hsci : exists c M, sci12 n k = (M, E + c) /\ (c = 0 \/ (c = 1 /\ M = 10 ^ 11)) /\ 10 ^ 11 <= M < 10 ^ 12 /\ M * 10 ^ c = M0).
  { unfold sci12. fold a. rewrite Hnd, Hu. destruct (Z.leb_spec 0 u) as [_|]; [|unfold u in *; lia]. fold M0.
    destruct (Z.eqb_spec M0 (10 ^ 12)) as [E1|E1].
    - exists 1, (10 ^ 11). split; [reflexivity|]. split; [right; split; reflexivity|]. split; [lia|]. rewrite E1. reflexivity.
    - exists 0, M0. split; [now rewrite Z.add_0_r|]. split; [now left|]. split; [lia|]. rewrite Z.pow_0_r. lia. }
  destruct Hsci as (c & M & Hs & Hc & HM & HMc).
  assert (Hisz : is_zero n k = false) by (unfold is_zero; fold a; apply Z.leb_gt; lia).
  set (E' := E + c) in *. assert (HE' : Z.abs E' <= 999) by (unfold E'; lia).
  set (ex := nat_text (Z.abs E')). pose proof (len_exp E' HE') as Hlen. fold ex in Hlen.
  destruct (nat_text_spec (Z.abs E') ltac:(lia)) as (X1 & X2 & X3). fold ex in X1, X2, X3.
  set (lo := (5 - length ex - (if neg then 1 else 0))%nat).
  assert (Hlo : Z.of_nat lo = decimals_kept E' neg) by (unfold lo, decimals_kept; clear -Hlen; clearbody ex neg; destruct neg, (Z.abs E' <? 10), (Z.abs E' <? 100); lia).
  assert (Hlo1 : (1 <= lo <= 4)%nat) by (unfold lo; clear -Hlen; clearbody ex neg; destruct neg, (Z.abs E' <? 10), (Z.abs E' <? 100); lia).
  assert (Hlex : (1 <= length ex <= 3)%nat) by (clear -Hlen; destruct (Z.abs E' <? 10), (Z.abs E' <? 100); lia).
  assert (Hsum : (lo + (if neg then 1 else 0) + length ex = 5)%nat) by (unfold lo; clear -Hlex; clearbody neg; destruct neg; lia).
  set (b := 10 ^ (11 - Z.of_nat lo)). assert (Hb : 0 < b) by (apply Z.pow_pos_nonneg; lia).
  assert (Hb1 : 10 ^ Z.of_nat lo * b = 10 ^ 11) by (unfold b; rewrite <- Z.pow_add_r by lia; f_equal; lia).
  set (r := nearest tie M b).
  assert (Hr : 10 ^ Z.of_nat lo <= r <= 10 ^ (Z.of_nat lo + 1)).
  { split; [apply nearest_ge; lia|apply nearest_le; [lia|]]. rewrite Z.pow_add_r by lia. lia. }
  set (sign := a <? 10 ^ k).
  assert (Hsign : signed sign (digits_val ex) = E').
  { unfold sign. rewrite X2. destruct (Z.ltb_spec a (10 ^ k)) as [Ha|Ha]; cbn [signed].
    - assert (d < k). { apply (Z.pow_lt_mono_r_iff 10); [reflexivity|exact Hk|]. clear -Ha Hn. lia. } unfold E', E. clear -H Hc. lia.
    - assert (k < d + 1). { apply (Z.pow_lt_mono_r_iff 10); [reflexivity|clear -Hd; lia|]. clear -Ha Hn. lia. } unfold E', E. clear -H Hc. lia. }
  set (t0 := trim_char "0" ((if neg then ["-"%char] else []) ++ fixed_text lo r) ++ (if sign then "-"%char else "+"%char) :: ex).
  assert (Hrt : real_text tie n k = pad_left 8 t0).
  { unfold real_text. rewrite Hisz, Hs. fold a neg E' ex lo b r sign. unfold t0. now destruct sign. }
  set (f := pad_left 8 (pad_left 8 t0)).
  assert (Hsp : spaced t0 f).
  { unfold spaced, f, pad_left at 1. rewrite filter_app, filter_spaces. unfold pad_left. rewrite filter_app, filter_spaces. cbn [app].
    apply filter_nospace. intros x Hx. unfold t0 in Hx. apply in_app_or in Hx. destruct Hx as [Hx|[<-|Hx]].
    - apply (fixed_nospace neg lo r x) in Hx; [exact Hx|]. pose proof (Z.pow_pos_nonneg 10 (Z.of_nat lo)). lia.
    - destruct sign; discriminate.
    - intros ->. pose proof (digits_nospace ex " " X1 Hx). discriminate. }
  destruct (written_real neg r lo sign ex E' f (proj1 Hlo1) Hr X1 X3 Hsign Hsp) as (L & m & e & R1 & R2 & R3). fold t0 in L.
  assert (Hl8 : (length t0 <= 8)%nat) by (clear -L Hsum; cbv zeta in L; destruct neg; lia).
  exists f, m, e. split; [|split; [|split; [exact R1|]]].
  - unfold add_double. rewrite Hrt, pad_left_length by exact Hl8. cbn [Nat.leb]. reflexivity.
  - unfold f. apply pad_left_length. rewrite pad_left_length; lia.
  - set (x := E' - Z.of_nat lo + k). assert (Hx : 0 <= x) by (unfold x, E', E; clear -Hd Hlo1 Hc; lia).
    split; [unfold x in Hx; clear -Hx R2; lia|].
    assert (Hm : m * 10 ^ (e + k) = signed neg r * 10 ^ x).
    { rewrite <- R3, <- Z.mul_assoc, <- Z.pow_add_r by (unfold x in *; clear -R2 Hx; lia). f_equal. f_equal. unfold x. clear. lia. }
    rewrite Hm.
    assert (Hneg : signed neg r * 10 ^ x - n = signed neg (r * 10 ^ x - a)).
    { unfold neg, a. clear. destruct (Z.ltb_spec n 0); cbn [signed]; lia. }
    assert (Habs : Z.abs (signed neg r * 10 ^ x - n) = Z.abs (r * 10 ^ x - a)) by (rewrite Hneg; clear; destruct neg; cbn [signed]; lia).
    rewrite Habs.
    assert (Hx' : 10 ^ x = b * 10 ^ c * 10 ^ u).
    { assert (Hu0 : 0 <= u) by (unfold u; clear -Hd; lia). assert (Hc0 : 0 <= c) by (clear -Hc; lia). assert (Hl0 : 0 <= 11 - Z.of_nat lo) by (clear -Hlo1; lia).
      unfold b. rewrite <- (Z.pow_add_r 10 (11 - Z.of_nat lo)), <- Z.pow_add_r by (clear -Hu0 Hc0 Hl0; lia). f_equal. unfold x, E', E, u. clear. lia. }
    assert (Hfirst : 2 * Z.abs (r * 10 ^ x - M0 * 10 ^ u) <= 10 ^ (d - decimals_kept E neg)).
    { rewrite Hx', <- HMc. replace (r * (b * 10 ^ c * 10 ^ u) - M * 10 ^ c * 10 ^ u) with ((r * b - M) * (10 ^ c * 10 ^ u)) by ring.
      rewrite Z.abs_mul, (Z.abs_eq (10 ^ c * 10 ^ u)) by (apply Z.mul_nonneg_nonneg; apply Z.pow_nonneg; lia).
      destruct Hc as [->|[-> HM1]].
      - pose proof (nearest_error tie M b Hb) as Hn1. fold r in Hn1. rewrite Z.pow_0_r, Z.mul_1_l.
        assert (10 ^ (d - decimals_kept E neg) = b * 10 ^ u) as ->.
        { unfold b. rewrite <- Z.pow_add_r by (unfold u; lia). f_equal. unfold E' in Hlo. rewrite Z.add_0_r in Hlo. rewrite Hlo. unfold u. lia. }
        rewrite Z.mul_assoc. apply Z.mul_le_mono_nonneg_r; [apply Z.pow_nonneg; lia|exact Hn1].
      - assert (r * b - M = 0) as ->. { unfold r. rewrite HM1, <- Hb1, nearest_exact by exact Hb. lia. }
        cbn [Z.abs]. rewrite Z.mul_0_l. apply Z.pow_nonneg. lia. }
    clear -Hfirst He0. lia.
Qed.

(** Numbers below five times the machine epsilon lose everything: a length of
    1e-15 is written as zero. *)
Theorem C24_small_values_lost_refuted : forall tie n k, 0 <= k -> Z.abs n * 2 ^ 52 <= 5 * 10 ^ k ->
  add_double tie n k = Some (txt "      0.") /\ real_of_field (txt "      0.") = Ok (0, 0).
Proof.
  intros tie n k Hk H. split; [|reflexivity]. unfold add_double, real_text.
  assert (is_zero n k = true) as -> by (unfold is_zero; apply Z.leb_le; lia). reflexivity.
Qed.

Example C24_case :
  10 ^ 11 <= Z.abs (- 123456789012) < 10 ^ (11 + 1) /\ Z.abs (11 - 15) <= 998 /\ 5 * 10 ^ 15 < Z.abs (- 123456789012) * 2 ^ 52 /\
  add_double false (- 123456789012) 15 = Some (txt "-1.235-4") /\ real_of_field (txt "-1.235-4") = Ok (-1235, -7) /\
  add_double true 314159265358979 14 = Some (txt "3.1416+0") /\ add_double true 999999999999 11 = Some (txt "   10.+0") /\
  real_of_field (txt "   10.+0") = Ok (10, 0) /\ add_double true 1 15 = Some (txt "      0.").
Proof. vm_compute. repeat split; discriminate. Qed.
Print Assumptions C22_real_fields.
Print Assumptions C24_written_real.
