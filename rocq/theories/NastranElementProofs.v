(** Lemmas about the elements of the Nastran files: texts of written reals, lists
    of nodes in front of the cursor. *)
From Coq Require Import Ascii String QArith ZArith List Bool Arith Lia.
From Verif Require Import Base TextModel TextProofs TokenizerModel TokenizerProofs NextIntsProofs RealModel WriterLineModel WriterLineProofs WriterRealProofs PropertiesTokenizer PropertiesWriterLine
  CardModel CardProofs LoadCardModel FieldProofs PropCardModel PropertiesReal PropertiesGrid PropertiesLoadCards PropertiesPropCards MeshNodeModel MeshCellModel ConnectModel ConnectProofs PropertiesConnect
  OrientModel PropertiesOrient NastranElementModel.
Import ListNotations.
Open Scope Z_scope.
Open Scope list_scope.

(** ** The characters of a written real *)
Definition plain (c : ascii) : Prop := is_digit c = true \/ In c ["."; "+"; "-"]%char.
Lemma in_dropWhile' p c l : In c (dropWhile p l) -> In c l.
Proof. induction l as [|a l IH]; cbn; [auto|]. destruct (p a); [intros H; right; auto|auto]. Qed.
Lemma in_trim_char' z c l : In c (trim_char z l) -> In c l.
Proof. unfold trim_char. intros H. apply in_rev in H. apply in_dropWhile' in H. apply in_rev in H. now apply in_dropWhile' in H. Qed.
Lemma in_trim' c l : In c (trim l) -> In c l.
Proof. unfold trim, trim_right, trim_left. intros H. apply in_rev in H. apply in_dropWhile' in H. apply in_rev in H. now apply in_dropWhile' in H. Qed.
Lemma plain_nat n c : 0 <= n -> In c (nat_text n) -> plain c.
Proof. intros H I. destruct (nat_text_spec n H) as (D & _). rewrite forallb_forall in D. left. apply D, I. Qed.
Lemma plain_fixed d r c : 0 <= r -> In c (fixed_text d r) -> plain c.
Proof.
  intros H I. unfold fixed_text, pad_zeros in I. pose proof (Z.pow_pos_nonneg 10 (Z.of_nat d) ltac:(lia) ltac:(lia)) as P.
  apply in_app_or in I. destruct I as [I|[<-|I]]; [eapply plain_nat; [|exact I]; apply Z.div_pos; lia|right; cbn; auto|].
  apply in_app_or in I. destruct I as [I|I]; [apply repeat_spec in I; subst c; now left|]. eapply plain_nat; [|exact I]. apply Z.mod_pos_bound, P.
Qed.
Lemma nearest_nonneg up a b : 0 <= a -> 0 < b -> 0 <= nearest up a b.
Proof. intros A B. pose proof (Z.div_pos a b A B). unfold nearest. destruct (2 * (a mod b) <? b), (b <? 2 * (a mod b)), up; lia. Qed.
Lemma sci12_nonneg n k : 0 <= fst (sci12 n k).
Proof.
  unfold sci12. cbv zeta. set (u := _ - 11 + k). set (m := if 0 <=? u then _ else _).
  assert (0 <= m). { unfold m. destruct (Z.leb_spec 0 u); [apply nearest_nonneg; [lia|apply Z.pow_pos_nonneg; lia]|]. apply Z.mul_nonneg_nonneg; [lia|apply Z.pow_nonneg; lia]. }
  destruct (m =? 10 ^ 12); cbn [fst]; [discriminate|exact H].
Qed.
Lemma real_text_plain tie n k : exists body, (real_text tie n k = body \/ real_text tie n k = pad_left 8 body) /\ body <> [] /\ forall c, In c body -> plain c.
Proof.
  unfold real_text. destruct (is_zero n k); [exists (txt "0."); split; [now left|]; split; [discriminate|]; intros c [<-|[<-|[]]]; [now left|right; cbn; auto]|].
  pose proof (sci12_nonneg n k) as N. destruct (sci12 n k) as [m e]. cbn [fst] in N. cbv zeta. eexists. split; [right; reflexivity|].
  split; [intros X; apply app_eq_nil in X; destruct X as [_ X]; discriminate|]. intros c I.
  apply in_app_or in I. destruct I as [I|[<-|I]].
  - apply in_trim_char' in I. apply in_app_or in I. destruct I as [I|I]; [destruct (n <? 0); [destruct I as [<-|[]]; right; cbn; auto|destruct I]|].
    eapply plain_fixed; [|exact I]. apply nearest_nonneg; [exact N|]. apply Z.pow_pos_nonneg; [lia|]. destruct (n <? 0); lia.
  - right. destruct (Z.abs n <? 10 ^ k); cbn; auto.
  - eapply plain_nat; [|exact I]. apply Z.abs_nonneg.
Qed.
Lemma plain_not_space c : plain c -> is_space c = false /\ c <> "$"%char /\ c <> tab.
Proof.
  intros [H|[<-|[<-|[<-|[]]]]]; try (repeat split; discriminate).
  split; [|split; intros ->; discriminate]. eapply digits_nospace with (d := [c]); [|now left]. cbn. now rewrite H.
Qed.
Lemma real_text_length tie v : writable v -> 0 <= snd v -> (length (real_field tie v) <= 8)%nat.
Proof.
  destruct v as [n k]. unfold real_field. cbn [fst snd]. intros [(d & H1 & H2 & H3 & H4 & H5)|H] K; cbn [fst snd] in *.
  - destruct (C24_written_real tie n k d H1 H2 H3 H4 H5) as (t & m & e & A & _). unfold add_double in A. destruct (Nat.leb_spec (length (real_text tie n k)) 8); [assumption|discriminate].
  - subst n. unfold real_text, is_zero. change (Z.abs 0) with 0. rewrite Z.mul_0_l. assert (0 <=? 5 * 10 ^ k = true) as -> by (apply Z.leb_le; pose proof (Z.pow_nonneg 10 k); lia). cbn. lia.
Qed.
(** Written values: the text as the reader gets it, and its place in the line. *)
Definition wire (t : str) : Prop := field_value (trim t) /\ pad_left 8 (trim t) = pad_left 8 t.
Lemma wire_real tie v : writable v -> 0 <= snd v -> wire (real_field tie v).
Proof.
  intros W K. pose proof (real_text_length tie v W K) as L. unfold real_field in *. destruct (real_text_plain tie (fst v) (snd v)) as (body & E & N & P).
  assert (T : trimmed body).
  { intros c [H|H]; apply plain_not_space, P; [destruct body; [discriminate|]; cbn in H; injection H as ->; now left|].
    apply in_rev. destruct (rev body); [discriminate|]. cbn in H. injection H as ->. now left. }
  apply trimmed_trim in T as T'. assert (Lb : (length body <= 8)%nat).
  { destruct E as [E|E]; rewrite E in L; [exact L|]. unfold pad_left in L. rewrite app_length in L. lia. }
  assert (F : field_value body) by (split; [exact Lb|]; split; [exact T|]; split; intros I; apply P, plain_not_space in I; destruct I as (_ & I1 & I2); congruence).
  destruct E as [E|E]; rewrite E; (split; [|]).
  - now rewrite T'.
  - now rewrite T'.
  - rewrite trim_pad_left, T'. exact F.
  - rewrite trim_pad_left, T'. unfold pad_left at 2. rewrite pad_left_length by exact Lb. reflexivity.
Qed.
Lemma wire_int n : 0 <= n < 10 ^ 8 -> wire (int_text n) /\ trim (int_text n) = int_text n.
Proof. intros H. destruct (nonneg_int n H) as [_ F]. destruct F as (F1 & F2 & F3). apply trimmed_trim in F2 as T. split; [|exact T]. unfold wire. rewrite T. repeat split; tauto. Qed.
Lemma wire_blank : wire [].
Proof. split; [|reflexivity]. split; [cbn; lia|]. split; [intros c [H|H]; discriminate H|]. split; intros []. Qed.
Lemma wire_one : wire (txt "1").
Proof. exact (proj1 (wire_int 1 ltac:(lia))). Qed.
(** Lines do not depend on the blanks around the values. *)
Lemma write_trimmed cards : forall counter, Forall (fun c => keyword (fst c) /\ Forall wire (snd c)) cards ->
  write_cards cards counter = write_cards (map (fun c => (fst c, map trim (snd c))) cards) counter.
Proof.
  induction cards as [|[kw vs] cards IH]; intros counter H; [reflexivity|]. inversion H as [|? ? [K W] H']; subst. cbn [fst snd] in *. cbn [map write_cards fst snd].
  assert (E : write_card kw vs counter = write_card kw (map trim vs) counter).
  { unfold write_card. f_equal. destruct K as (_ & _ & _ & K & _). destruct (keyword_short kw K) as [-> _]. rewrite map_map. apply map_ext_in. intros t I. rewrite Forall_forall in W. symmetry. apply (W t I). }
  rewrite E. destruct (write_card kw (map trim vs) counter) as [ls c]. rewrite (IH c H'). reflexivity.
Qed.
Lemma lines_read cards counter : Forall (fun c => keyword (fst c) /\ Forall wire (snd c)) cards -> 0 <= counter ->
  counter + Z.of_nat (list_sum (map (fun c => length (snd c)) cards)) < 10 ^ 7 ->
  read_cards (S (length cards)) (fst (write_cards cards counter)) = Ok (map (fun c => fst c :: map trim (snd c)) cards).
Proof.
  intros H C B. rewrite (write_trimmed _ _ H). set (cs := map _ cards). replace (length cards) with (length cs) by (unfold cs; apply map_length).
  rewrite C23_cards_roundtrip; [unfold cs; rewrite map_map; reflexivity| |exact C|].
  - apply Forall_map. eapply Forall_impl; [|exact H]. intros [kw vs] [K W]. cbn [fst snd] in *. split; [exact K|]. apply Forall_map. eapply Forall_impl; [|exact W]. intros t [F _]. exact F.
  - unfold cs. rewrite map_map. cbn [snd]. erewrite map_ext; [exact B|]. intros [kw vs]. cbn [snd]. apply map_length.
Qed.

(** ** Lists of nodes *)
Lemma f_thru_blank vec i : blank_at vec i -> isNextTHRU (at_field vec i) = Ok false.
Proof. intros H. unfold isNextTHRU. rewrite peek_field_at by reflexivity. unfold blank_at in H. now rewrite H. Qed.
Lemma ints_loop vec card : forall i acc fuel, (forall j, (j < length card)%nat -> int_at vec (i + j) (nth j card 0)) -> blank_at vec (i + length card) -> (length card < fuel)%nat ->
  nextInts_loop fuel acc (at_field vec i) = Ok (rev acc ++ card, at_field vec (i + length card)).
Proof.
  induction card as [|n card IH]; intros i acc fuel H B F; (destruct fuel as [|fuel]; [cbn in F; lia|]); cbn [nextInts_loop].
  - cbn [length] in *. rewrite Nat.add_0_r in *. rewrite (f_isint_blank _ _ B). cbn [bind]. rewrite (f_thru_blank _ _ B). cbn [bind]. now rewrite app_nil_r.
  - pose proof (H 0%nat ltac:(cbn; lia)) as H0. rewrite Nat.add_0_r in H0. cbn [nth] in H0. rewrite (f_isint _ _ _ H0). cbn [bind]. rewrite (f_int _ _ _ H0). cbn [bind].
    rewrite (IH (S i) (n :: acc) fuel); [cbn [rev length]; rewrite <- app_assoc, Nat.add_succ_r; reflexivity| | |cbn [length] in F; lia].
    + intros j J. specialize (H (S j) ltac:(cbn; lia)). rewrite Nat.add_succ_r in H. exact H.
    + cbn [length] in B. rewrite Nat.add_succ_r in B. exact B.
Qed.
Lemma f_nextInts vec i card : (forall j, (j < length card)%nat -> int_at vec (i + j) (nth j card 0)) -> blank_at vec (i + length card) ->
  nextInts (at_field vec i) = Ok (card, at_field vec (i + length card)).
Proof.
  intros H B. unfold nextInts. rewrite (ints_loop vec card i [] _ H B); [reflexivity|]. cbn [cvec].
  change (cvec (at_field vec i)) with vec. destruct card as [|n card]; [cbn; lia|].
  pose proof (int_present _ _ _ (H (length card) ltac:(cbn; lia))). cbn [length] in *. lia.
Qed.
Lemma f_thicknesses n : forall vec i, (forall j, (j < n)%nat -> exists v, real_opt vec (i + j) v) -> thicknesses n (at_field vec i) = Ok (at_field vec (i + n)).
Proof.
  induction n as [|n IH]; intros vec i H; cbn [thicknesses]; [now rewrite Nat.add_0_r|].
  destruct (H 0%nat ltac:(lia)) as (v & V). rewrite Nat.add_0_r in V. rewrite (f_optdouble _ _ _ V). cbn [bind]. rewrite (IH vec (S i)).
  - now rewrite Nat.add_succ_r.
  - intros j J. destruct (H (S j) ltac:(lia)) as (w & W). rewrite Nat.add_succ_r in W. eauto.
Qed.
Lemma card_cursor card : card <> [] -> mkCursor card 1 (if (length card <=? 1)%nat then KEYWORD else FIELD) = at_field card 1.
Proof. destruct card as [|a [|b r]]; [congruence|reflexivity|reflexivity]. Qed.
