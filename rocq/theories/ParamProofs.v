(** Lemmas about the texts of the parameters and the PARAM cards. *)
From Coq Require Import Ascii String ZArith QArith Qabs Qpower Lqa List Bool Arith Lia.
From Verif Require Import Base TextModel TextProofs TokenizerModel NextIntsProofs RealModel RealProofs LoadCardModel FieldProofs WriterLineModel WriterRealProofs CaseControlModel CaseControlProofs ParamModel.
Import ListNotations.
Open Scope Z_scope.
Open Scope list_scope.

(** ** The texts *)
Lemma scaled15_nonneg d : 0 <= scaled15 d.
Proof.
  destruct d as [m e]. cbn [scaled15]. destruct (Z.leb_spec 0 (e + 15)).
  - apply Z.mul_nonneg_nonneg; [lia|]. apply Z.pow_nonneg. lia.
  - pose proof (Z.pow_pos_nonneg 10 (- (e + 15)) ltac:(lia) ltac:(lia)) as P. apply nearest_ge; lia.
Qed.
Lemma fixed_lexical (neg : bool) n r : 0 <= n -> (match r with c :: _ => is_digit c = false /\ Ascii.eqb c "." = false /\ is_e c = false | [] => True end) ->
  lexical_double ((if neg then ["-"%char] else []) ++ fixed_text 15 n ++ r) =
  match r with [] => Ok (signed neg n, -15) | _ => Throw end.
Proof.
  intros N R. set (P := 10 ^ Z.of_nat 15). assert (HP : 0 < P) by (apply Z.pow_pos_nonneg; lia).
  pose proof (Z.mod_pos_bound n P HP) as B. destruct (pad_zeros_spec 14 (n mod P) B) as (Z1 & Z2 & Z3).
  destruct (nat_text_spec (n / P) ltac:(apply Z.div_pos; lia)) as (D1 & D2 & D3).
  unfold fixed_text. fold P. set (p := pad_zeros 15 (nat_text (n mod P))) in *. set (q := nat_text (n / P)) in *.
  set (s := if neg then Some true else None).
  replace ((if neg then ["-"%char] else []) ++ (q ++ "."%char :: p) ++ r) with (mant_text s q true p ++ r)
    by (unfold mant_text, s; destruct neg; cbn [sign_text]; now rewrite <- ?app_assoc).
  rewrite lexical_mant; [|split; [exact D1|split; [exact Z1|split; [destruct q; [congruence|discriminate]|discriminate]]]|destruct r; [trivial|tauto]].
  cbv zeta. destruct r as [|c r].
  - rewrite Z3, digits_val_app, D2, Z2, Z3. assert (is_neg s = neg) as -> by (unfold s; destruct neg; reflexivity).
    do 2 f_equal. change (10 ^ Z.of_nat 15) with P. pose proof (Z.div_mod n P ltac:(lia)). f_equal. lia.
  - destruct R as (_ & _ & E). unfold is_e in E. now rewrite E.
Qed.
Lemma fixed15_lexical d : lexical_double (fixed15 d) = Ok (signed (fst d <? 0) (scaled15 d), -15).
Proof. unfold fixed15. rewrite <- (app_nil_r (fixed_text 15 (scaled15 d))). now rewrite (fixed_lexical _ _ [] (scaled15_nonneg d)). Qed.
Lemma fixed15_cons d : exists c r, fixed15 d = c :: r /\ is_space c = false.
Proof.
  unfold fixed15, fixed_text. destruct (nat_text_spec (scaled15 d / 10 ^ Z.of_nat 15) ltac:(apply Z.div_pos; [apply scaled15_nonneg|apply Z.pow_pos_nonneg; lia])) as (D1 & _ & D3).
  destruct (fst d <? 0); [exists "-"%char; eexists; split; reflexivity|]. destruct (nat_text (scaled15 d / 10 ^ Z.of_nat 15)) as [|c r]; [congruence|]. exists c. eexists. split; [reflexivity|].
  cbn [forallb] in D1. apply andb_true_iff in D1. destruct D1 as [D1 _]. apply RealProofs.digit_not_sign in D1. tauto.
Qed.
Lemma lexical_stod t v : (exists c r, t = c :: r /\ is_space c = false) -> lexical_double t = Ok v -> stod t = Ok v.
Proof.
  intros (c & r & -> & S) L. unfold stod. cbn [dropWhile]. rewrite S. cbv zeta.
  unfold longest_double. cbn [length]. rewrite firstn_all2 by (cbn; lia). now rewrite L.
Qed.
Lemma fixed15_stod d : stod (fixed15 d) = Ok (signed (fst d <? 0) (scaled15 d), -15).
Proof. apply lexical_stod; [apply fixed15_cons|apply fixed15_lexical]. Qed.

(** The value the text denotes. *)
Definition kept (d : decimal) : decimal := (signed (fst d <? 0) (scaled15 d), -15).
Lemma pow10_pos z : (0 < (10 # 1) ^ z)%Q.
Proof. apply Qpower_0_lt. reflexivity. Qed.
Lemma pow10_Z z : 0 <= z -> ((10 # 1) ^ z == inject_Z (10 ^ z))%Q.
Proof. intros H. rewrite Zpower_Qpower by exact H. reflexivity. Qed.
Lemma Qabs_signed m n : (n >= 0)%Z -> (inject_Z (signed (m <? 0)%Z n) == (if (m <? 0)%Z then -1 # 1 else 1) * inject_Z n)%Q.
Proof. intros H. unfold signed. destruct (m <? 0)%Z; [rewrite inject_Z_opp|]; ring. Qed.
Lemma kept_near d : (Qabs (dec_q (kept d) - dec_q d) <= (1 # 2) * (10 # 1) ^ (-15))%Q.
Proof.
  destruct d as [m e]. unfold kept, dec_q. cbn [fst snd].
  set (sg := (if (m <? 0)%Z then -1 # 1 else 1)%Q).
  rewrite (Qabs_signed m (scaled15 (m, e))) by (pose proof (scaled15_nonneg (m, e)); lia). fold sg.
  assert (Hm : (inject_Z m == sg * inject_Z (Z.abs m))%Q).
  { unfold sg. destruct (Z.ltb_spec m 0); [rewrite Z.abs_neq by lia; rewrite inject_Z_opp; ring|rewrite Z.abs_eq by lia; ring]. }
  rewrite Hm.
  assert (HA : (Qabs sg == 1)%Q) by (unfold sg; destruct (m <? 0)%Z; reflexivity).
  assert (E : (sg * inject_Z (scaled15 (m, e)) * (10 # 1) ^ (-15) - sg * inject_Z (Z.abs m) * (10 # 1) ^ e
     == sg * ((10 # 1) ^ (-15) * (inject_Z (scaled15 (m, e)) - inject_Z (Z.abs m) * (10 # 1) ^ (e + 15))))%Q).
  { rewrite Qpower_plus by discriminate. assert ((10 # 1) ^ (-15) * (10 # 1) ^ 15 == 1)%Q by (vm_compute; reflexivity).
    transitivity (sg * inject_Z (scaled15 (m, e)) * (10 # 1) ^ (-15) - sg * inject_Z (Z.abs m) * (10 # 1) ^ e * 1)%Q; [ring|]. rewrite <- H. ring. }
  rewrite E. rewrite !Qabs_Qmult, HA, Qmult_1_l. rewrite (Qabs_pos ((10 # 1) ^ (-15))) by (apply Qlt_le_weak, pow10_pos).
  rewrite (Qmult_comm (1 # 2)). apply Qmult_le_l; [apply pow10_pos|].
  cbn [scaled15]. destruct (Z.leb_spec 0 (e + 15)) as [H|H].
  - rewrite inject_Z_mult, <- pow10_Z by exact H.
    assert (inject_Z (Z.abs m) * (10 # 1) ^ (e + 15) - inject_Z (Z.abs m) * (10 # 1) ^ (e + 15) == 0)%Q as -> by ring. discriminate.
  - cbv zeta. set (b := 10 ^ (- (e + 15))). assert (B : 0 < b) by (apply Z.pow_pos_nonneg; lia).
    pose proof (nearest_error (Z.odd (Z.abs m / b)) (Z.abs m) b B) as N. set (n := nearest (Z.odd (Z.abs m / b)) (Z.abs m) b) in *.
    assert (Eb : ((10 # 1) ^ (e + 15) == / inject_Z b)%Q).
    { unfold b. rewrite <- pow10_Z by lia. rewrite Qpower_opp. symmetry. apply Qinv_involutive. }
    rewrite Eb. assert (Bq : (0 < inject_Z b)%Q) by (unfold Qlt; cbn; lia).
    assert (X : (inject_Z n - inject_Z (Z.abs m) * / inject_Z b == inject_Z (n * b - Z.abs m) * / inject_Z b)%Q).
    { unfold Z.sub. rewrite inject_Z_plus, inject_Z_opp, inject_Z_mult. field. intros Z0. rewrite Z0 in Bq. discriminate. }
    rewrite X, Qabs_Qmult. rewrite (Qabs_pos (/ inject_Z b)) by (apply Qlt_le_weak, Qinv_lt_0_compat, Bq).
    apply Qle_shift_div_r; [exact Bq|].
    change (Qabs (inject_Z (n * b - Z.abs m))) with (inject_Z (Z.abs (n * b - Z.abs m))).
    clearbody n b. unfold Qle, Qmult, inject_Z. cbn [Qnum Qden Pos.mul]. lia.
Qed.
Lemma kept_exact d n : (dec_q d == inject_Z n * (10 # 1) ^ (-15))%Q -> (dec_q (kept d) == dec_q d)%Q.
Proof.
  intros H. pose proof (kept_near d) as K. rewrite H in *. unfold dec_q, kept in *. cbn [fst snd] in *.
  set (a := signed (fst d <? 0) (scaled15 d)) in *.
  assert (E : (inject_Z a * (10 # 1) ^ (-15) - inject_Z n * (10 # 1) ^ (-15) == (10 # 1) ^ (-15) * inject_Z (a - n))%Q).
  { unfold Z.sub. rewrite inject_Z_plus, inject_Z_opp. ring. }
  rewrite E, Qabs_Qmult, (Qabs_pos ((10 # 1) ^ (-15))) in K by (apply Qlt_le_weak, pow10_pos).
  rewrite (Qmult_comm (1 # 2)) in K. apply Qmult_le_l in K; [|apply pow10_pos].
  change (Qabs (inject_Z (a - n))) with (inject_Z (Z.abs (a - n))) in K. unfold Qle in K. cbn in K.
  assert (a = n) as -> by lia. reflexivity.
Qed.

Lemma before_app c l r : forallb (fun x => negb (Ascii.eqb c x)) l = true -> before_first c (l ++ c :: r) = l.
Proof.
  induction l as [|x l IH]; cbn [app before_first forallb]; intros H.
  - now rewrite Ascii.eqb_refl.
  - apply andb_true_iff in H. destruct H as [X H]. apply negb_true_iff in X. rewrite Ascii.eqb_sym, X. now rewrite IH.
Qed.
Lemma after_app c l r : forallb (fun x => negb (Ascii.eqb c x)) l = true -> after_first c (l ++ c :: r) = Some r.
Proof.
  induction l as [|x l IH]; cbn [app after_first forallb]; intros H.
  - now rewrite Ascii.eqb_refl.
  - apply andb_true_iff in H. destruct H as [X H]. apply negb_true_iff in X. rewrite Ascii.eqb_sym, X. now rewrite IH.
Qed.
Lemma fixed15_without c d : number_char c = false -> forallb (fun x => negb (Ascii.eqb c x)) (fixed15 d) = true.
Proof.
  intros H. pose proof (lexical_number _ _ (fixed15_lexical d)) as L. rewrite forallb_forall in *. intros x I. apply L in I.
  apply negb_true_iff. destruct (Ascii.eqb_spec c x); [subst; congruence|reflexivity].
Qed.
Lemma complex15_read re im : from_complex (complex15 re im) = Ok (kept re, kept im).
Proof.
  unfold complex15, from_complex. cbn [Ascii.eqb]. change (Ascii.eqb "(" "(") with true. cbv iota.
  rewrite after_app by (apply fixed15_without; reflexivity). rewrite before_app by (apply fixed15_without; reflexivity).
  rewrite before_app by (apply fixed15_without; reflexivity). rewrite !fixed15_lexical. reflexivity.
Qed.

Lemma stoi_int n : INT_MIN32 <= n <= INT_MAX32 -> stoi (int_text n) = Ok n.
Proof.
  intros H. destruct (Z.ltb_spec n 0) as [L|L]; [|apply stoi_text; lia].
  unfold int_text. apply Z.ltb_lt in L. rewrite L. apply Z.ltb_lt in L. destruct (nat_text_spec (- n) ltac:(lia)) as (D & V & NE).
  unfold stoi. change (dropWhile is_space ("-"%char :: nat_text (- n))) with ("-"%char :: nat_text (- n)). cbn [take_sign]. change (Ascii.eqb "-" "-") with true. cbv iota.
  rewrite <- (app_nil_r (nat_text (- n))), RealProofs.take_digits_app by (trivial; exact D).
  destruct (nat_text (- n)) as [|c r] eqn:E; [congruence|]. cbn [null]. cbv zeta. rewrite V. 
  destruct (Z.leb_spec INT_MIN32 (- - n)), (Z.leb_spec (- - n) INT_MAX32); try lia. cbn. f_equal. lia.
Qed.

(** ** The cards *)
Lemma start_field vec : vec <> [] -> snd (nextSymbolString (mkCursor vec 0 KEYWORD)) = at_field vec 1.
Proof.
  destruct vec as [|f [|g r]]; [congruence| |]; intros _; reflexivity.
Qed.
Lemma word_present vec w : word_at vec 1 w -> w <> [] -> vec <> [].
Proof. intros H N ->. apply N. now rewrite <- H. Qed.
Lemma read_at vec w : word_at vec 1 w -> w <> [] ->
  forall m, read_param m vec =
    match (match find_param w with
           | Some n => parse_named n m (at_field vec 2)
           | None => if existsb (str_eqb w) ignored_params then Ok m else Throw end) with Ok m' => m' | _ => m end.
Proof.
  intros W N m. unfold read_param, parsePARAM. rewrite (start_field vec (word_present _ _ W N)). rewrite (f_string vec 1 w W N). reflexivity.
Qed.
Lemma read_nothing vec : word_at vec 1 [] -> forall m, read_param m vec = m.
Proof.
  intros W m. unfold read_param, parsePARAM. destruct vec as [|f r].
  - reflexivity.
  - rewrite start_field by discriminate. unfold nextString. rewrite next_field, trim_trim_right. unfold word_at in W. rewrite W. reflexivity.
Qed.
