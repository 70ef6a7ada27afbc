(** Property C23: cards written by the Nastran writer are read back. *)
From Coq Require Import Ascii String ZArith List Bool Arith Lia.
From Verif Require Import Base TextModel TextProofs TokenizerModel TokenizerProofs WriterLineModel WriterLineProofs WriterRealProofs PropertiesTokenizer.
Import ListNotations.
Open Scope nat_scope.
Open Scope list_scope.

(** ** Specification *)

(** A text without blank at either end. *)
Definition trimmed (v : str) : Prop :=
  forall c, (hd_error v = Some c \/ hd_error (rev v) = Some c) -> is_space c = false.
(** A value that fits a field of eight columns. *)
Definition field_value (v : str) : Prop := length v <= 8 /\ trimmed v /\ ~ In "$"%char v /\ ~ In tab v.
(** A short-format keyword. *)
Definition keyword (kw : str) : Prop :=
  kw <> [] /\ field_value kw /\ ~ In ","%char kw /\ ~ In "*"%char kw /\ hd_error kw <> Some "+"%char.

(** The lines of a card made of texts, and of several cards in a row. *)
Definition write_card (kw : str) (vs : list str) (counter : Z) : list str * Z :=
  print_line kw (map (add_text (fieldLength kw)) vs) counter.
Fixpoint write_cards (cards : list (str * list str)) (counter : Z) : list str * Z :=
  match cards with
  | [] => ([], counter)
  | (kw, vs) :: r =>
    let '(ls, c) := write_card kw vs counter in
    let '(ls', c') := write_cards r c in (ls ++ ls', c')
  end.
(** Reading cards until the end of the stream. *)
Fixpoint read_cards (fuel : nat) (ls : list str) : outcome (list (list str)) :=
  match fuel with
  | O => NoFuel
  | S fuel => match nextLine ls with
              | Ok None => Ok []
              | Ok (Some (fields, rest)) => do r <- read_cards fuel rest; Ok (fields :: r)
              | Throw => Throw | UB => UB | NoFuel => NoFuel
              end
  end.

Lemma trimmed_trim v : trimmed v <-> trim v = v.
Proof.
  unfold trimmed, trim, trim_right, trim_left. split.
  - intros H. destruct v as [|c v]; [reflexivity|].
    assert (is_space c = false) as Hc by (apply H; now left). rewrite dropWhile_head by exact Hc.
    destruct (rev (c :: v)) as [|d r] eqn:E; [apply (f_equal (@length ascii)) in E; rewrite rev_length in E; discriminate|].
    rewrite dropWhile_head by (apply H; now right). rewrite <- E. apply rev_involutive.
  - intros H c [Hc|Hc].
    + assert (Hl : length (dropWhile is_space v) = length v \/ length (dropWhile is_space v) < length v).
      { clear. induction v as [|x v IH]; cbn [dropWhile length]; [now left|]. destruct (is_space x); cbn [length]; lia. }
      destruct v as [|x v]; [discriminate|]. cbn in Hc. injection Hc as ->. destruct (is_space c) eqn:Es; [|reflexivity]. exfalso.
      assert (Hle : forall l, length (rev (dropWhile is_space (rev l))) <= length l).
      { intros l. rewrite rev_length, <- (rev_length l). generalize (rev l). clear. induction l as [|x l IH]; cbn [dropWhile]; [lia|]. destruct (is_space x); cbn [length]; lia. }
      pose proof (Hle (dropWhile is_space (c :: v))) as H1. rewrite H in H1. cbn [dropWhile] in H1. rewrite Es in H1.
      assert (length (dropWhile is_space v) <= length v) by (clear; induction v as [|x v IH]; cbn [dropWhile]; [lia|]; destruct (is_space x); cbn [length]; lia).
      cbn [length] in H1. lia.
    + rewrite <- H, rev_involutive in Hc. clear H. revert Hc. generalize (rev (dropWhile is_space v)). clear. intros l Hc.
      induction l as [|x l IH]; cbn [dropWhile] in Hc; [discriminate|]. destruct (is_space x) eqn:Ex; [auto|]. cbn in Hc. injection Hc as ->. exact Ex.
Qed.
Lemma field_value_eq v : field_value v -> value_ok v.
Proof. intros (H1 & H2 & H3 & H4). split; [exact H1|]. split; [now apply trimmed_trim|]. split; now apply contains_false. Qed.

Lemma keyword_short kw : ~ In "*"%char kw -> fieldLength kw = 8 /\ fieldNum kw = 9.
Proof.
  intros H. unfold fieldLength, fieldNum, ends_star. destruct (rev kw) as [|c r] eqn:E; [split; reflexivity|].
  destruct (Ascii.eqb_spec c "*") as [->|]; [|split; reflexivity]. exfalso. apply H, in_rev. rewrite E. now left.
Qed.

(** A card and everything after it: the reader returns exactly the keyword and
    the values, and stops before the next card. *)
Theorem C23_card_roundtrip : forall kw vs counter rest,
  keyword kw -> Forall field_value vs -> (0 <= counter)%Z -> (counter + Z.of_nat (length vs) < 10 ^ 7)%Z -> next_card rest ->
  let '(lines, counter') := write_card kw vs counter in
  nextLine (lines ++ rest) = Ok (Some (kw :: vs, rest)) /\ (counter <= counter' <= counter + Z.of_nat (length vs))%Z /\
  exists l r, lines = l :: r /\ firstn (length kw) l = kw.
Proof.
  intros kw vs counter rest (K1 & K2 & K3 & K4 & K5) Hvs Hc0 Hc Hrest. unfold write_card, print_line. destruct (keyword_short kw K4) as [-> ->].
  apply field_value_eq in K2. destruct K2 as (K21 & K22 & K23 & K24).
  assert (Hv : Forall value_ok vs) by (eapply Forall_impl; [|exact Hvs]; intros; now apply field_value_eq).
  destruct (contains_pad "$" kw ltac:(discriminate) K23) as [_ Hd]. destruct (contains_pad tab kw ltac:(discriminate) K24) as [_ Ht].
  destruct (print_spec vs [] (pad_right 8 kw) counter) as (l0 & conts & c' & P1 & P2 & P3 & P4 & (k & P5 & P6) & P7 & P8);
    [now apply pad_right_length|exact Hd|exact Ht|constructor|cbn; lia|exact Hv|exact Hc0|exact Hc|].
  unfold print9 in P1. cbn [blocks map concat length app] in P1. rewrite app_nil_r in P1. change (add_text 8) with (pad_left 8). rewrite P1.
  assert (Hkl : line_keyword l0 = kw).
  { unfold line_keyword. rewrite P2, trim_pad_right, K22. unfold erase_char. clear -K4. induction kw as [|c kw IH]; [reflexivity|]. cbn [filter].
    destruct (Ascii.eqb_spec c "*") as [->|]; [exfalso; apply K4; now left|]. cbn. f_equal. apply IH. intros X. apply K4. now right. }
  assert (Hfw : firstn (length kw) l0 = kw).
  { assert (firstn (length kw) l0 = firstn (length kw) (firstn 8 l0)) as -> by (rewrite firstn_firstn; f_equal; lia).
    rewrite P2. unfold pad_right. rewrite firstn_app, firstn_all, Nat.sub_diag, firstn_O. apply app_nil_r. }
  split; [|split; [|exists l0, conts; split; [reflexivity|exact Hfw]]].
  - cbn [app]. unfold nextLine. rewrite read_plain; [|exact P3|].
    2:{ intros _. destruct kw as [|c kw]; [congruence|]. assert (is_space c = false) as Hcs.
        { apply (proj2 (trimmed_trim (c :: kw)) K22). now left. }
        destruct l0 as [|x l0]; [discriminate|]. cbn in Hfw. injection Hfw as -> _. cbn [forallb].
        destruct (is_blank c) eqn:Eb; [|reflexivity]. apply is_blank_space in Eb. congruence. }
    unfold parseBulkSectionLine.
    assert (getLineType l0 = SHORT_FORMAT) as ->.
    { unfold getLineType. rewrite P2. apply contains_false in K3. apply contains_false in K4.
      destruct (contains_pad "," kw ltac:(discriminate) K3) as [_ ->]. now destruct (contains_pad "*" kw ltac:(discriminate) K4) as [_ ->]. }
    destruct (splitFixed_chain (map (pair false) conts) (fuel_for l0 (conts ++ rest)) false true l0 [] rest) as (fields & k' & R1 & R2 & R3);
      [exact P3|exact P4|now apply next_card_eq| |].
    { pose proof (fuel_for_length l0 (conts ++ rest)). rewrite app_length in H. rewrite map_length. lia. }
    rewrite map_map in R1. cbn [snd] in R1. rewrite map_id in R1. rewrite R1. cbn [bind app].
    assert (fields = kw :: vs) as ->; [|reflexivity].
    rewrite R2, P5 in R3. apply (app_inv_tail (repeat [] k)). etransitivity; [exact R3|]. rewrite Hkl. cbn [app]. f_equal. exact P6.
  - split; [exact P7|].
    assert (Hcount : forall fs j c cur ls c', print_fields 8 9 fs j c cur = (ls, c') -> (c' <= c + Z.of_nat (length fs))%Z).
    { clear. induction fs as [|f fs IH]; intros j c cur ls c' H; cbn [print_fields] in H.
      - injection H as <- <-. cbn. lia.
      - destruct (S j mod 9 =? 0).
        + destruct (print_fields 8 9 fs _ _ _) as [ls' c''] eqn:E. injection H as <- <-. apply IH in E. cbn [length]. lia.
        + apply IH in H. cbn [length]. lia. }
    apply Hcount in P1. rewrite map_length in P1. exact P1.
Qed.

(** A whole bulk section: any number of cards is read back card by card. *)
Theorem C23_cards_roundtrip : forall cards counter,
  Forall (fun c => keyword (fst c) /\ Forall field_value (snd c)) cards -> (0 <= counter)%Z ->
  (counter + Z.of_nat (list_sum (map (fun c => length (snd c)) cards)) < 10 ^ 7)%Z ->
  read_cards (S (length cards)) (fst (write_cards cards counter)) = Ok (map (fun c => fst c :: snd c) cards).
Proof.
  intros cards counter Hcards. revert counter.
  assert (Hstart : forall cs c, Forall (fun c => keyword (fst c) /\ Forall field_value (snd c)) cs -> (0 <= c)%Z ->
    (c + Z.of_nat (list_sum (map (fun c => length (snd c)) cs)) < 10 ^ 7)%Z -> next_card (fst (write_cards cs c))).
  { intros cs c H Hc Hs l r x E Hx. destruct cs as [|[kw vs] cs]; [discriminate|]. inversion H as [|? ? [Hk Hv] Hcs]; subst. cbn [fst snd] in *.
    cbn [map list_sum fold_right] in Hs. unfold list_sum in Hs. cbn [fold_right snd] in Hs.
    pose proof (C23_card_roundtrip kw vs c [] Hk Hv Hc ltac:(lia) ltac:(intros ? ? ? X; discriminate)) as R.
    cbn [write_cards] in E. destruct (write_card kw vs c) as [ls c1]. destruct R as (_ & _ & l' & r' & -> & Hf).
    destruct (write_cards cs c1) as [ls' c2]. cbn [fst app] in E. injection E as <- <-.
    destruct Hk as (K1 & (K21 & K22 & K23 & K24) & K3 & K4 & K5). destruct kw as [|y kw]; [congruence|]. destruct l' as [|z l']; [discriminate|].
    cbn in Hf. injection Hf as -> _. cbn in Hx. injection Hx as <-.
    assert (is_space y = false) as Hy by (apply K22; now left).
    intros [<-|[<-|[<-|[<-|[<-|[]]]]]].
    - discriminate Hy.
    - now apply K5.
    - apply K4. now left.
    - apply K24. now left.
    - apply K23. now left. }
  induction Hcards as [|[kw vs] cards [Hk Hv] Hcards IH]; intros counter Hc Hs; [reflexivity|].
  cbn [fst snd] in *. cbn [map snd] in Hs. unfold list_sum in Hs. cbn [fold_right] in Hs. fold (list_sum (map (fun c : str * list str => length (snd c)) cards)) in Hs.
  cbn [write_cards]. cbn [length]. remember (S (length cards)) as fuel. cbn [read_cards].
  pose proof (fun rest => C23_card_roundtrip kw vs counter rest Hk Hv Hc ltac:(lia)) as R.
  destruct (write_card kw vs counter) as [ls c1]. destruct (R [] ltac:(intros ? ? ? X; discriminate)) as (_ & Hc1 & _).
  specialize (IH c1 ltac:(lia) ltac:(lia)). specialize (Hstart cards c1 Hcards ltac:(lia) ltac:(lia)).
  destruct (write_cards cards c1) as [ls' c2]. cbn [fst] in *. destruct (R ls' Hstart) as (-> & _).
  rewrite IH. reflexivity.
Qed.

(** Integers: what [add(int)] writes in a field of eight columns is the plain
    number for every non-negative value of at most eight digits, and the reader
    gets the number back. *)
Theorem C23_integers : forall n, (0 <= n < 10 ^ 8)%Z ->
  add_int 8 n = add_text 8 (int_text n) /\ field_value (int_text n) /\ lexical_int (trim (add_int 8 n)) = Ok n.
Proof.
  intros n H. unfold add_int, add_text. pose proof (lexical_int_text n ltac:(unfold INT_MIN32, INT_MAX32; lia)) as L.
  unfold int_text in *. destruct (Z.ltb_spec n 0); [lia|]. split; [reflexivity|].
  destruct (nat_text_spec n ltac:(lia)) as (D & V & N).
  assert (Ht : trimmed (nat_text n)).
  { intros c [Hc|Hc]; (eapply digits_nospace; [exact D|]).
    - destruct (nat_text n); [discriminate|]. cbn in Hc. injection Hc as ->. now left.
    - apply in_rev. destruct (rev (nat_text n)); [discriminate|]. cbn in Hc. injection Hc as ->. now left. }
  split.
  - split; [apply (nat_text_length n 7); cbn; lia|]. split; [exact Ht|]. rewrite forallb_forall in D.
    split; intros X; specialize (D _ X); discriminate.
  - rewrite trim_pad_left. apply trimmed_trim in Ht. rewrite Ht. exact L.
Qed.

(** Negative integers of up to six digits are written with blanks between the
    sign and the digits, which the reader refuses. *)
Theorem C23_negative_integers_refuted : forall n, (- 10 ^ 6 < n < 0)%Z ->
  length (add_int 8 n) = 8 /\ lexical_int (trim (add_int 8 n)) = Throw.
Proof.
  intros n H. unfold add_int. destruct (Z.ltb_spec n 0); [|lia].
  destruct (nat_text_spec (- n) ltac:(lia)) as (D & V & N). pose proof (nat_text_length (- n) 5 ltac:(cbn; lia)) as L.
  split; [cbn [length]; rewrite pad_left_length by lia; reflexivity|].
  assert (Ht : trim ("-"%char :: pad_left (8 - 1) (nat_text (- n))) = "-"%char :: pad_left (8 - 1) (nat_text (- n))).
  { apply trimmed_trim. intros c [Hc|Hc].
    - cbn in Hc. injection Hc as <-. reflexivity.
    - unfold pad_left in Hc. change ("-"%char :: spaces (8 - 1 - length (nat_text (- n))) ++ nat_text (- n)) with (("-"%char :: spaces (8 - 1 - length (nat_text (- n)))) ++ nat_text (- n)) in Hc.
      rewrite rev_app_distr in Hc. destruct (rev (nat_text (- n))) as [|x r] eqn:E.
      { exfalso. apply N. apply (f_equal (@rev ascii)) in E. rewrite rev_involutive in E. exact E. }
      cbn in Hc. injection Hc as ->. eapply digits_nospace; [exact D|]. apply in_rev. rewrite E. now left. }
  rewrite Ht. unfold lexical_int. change (Ascii.eqb "-" "-") with true. cbv iota beta.
  unfold pad_left. destruct (8 - 1 - length (nat_text (- n))) eqn:E; [lia|]. reflexivity.
Qed.

(** The counter of continuation marks is never reset: from the ten millionth
    mark on, the continuation header takes nine columns and the fields of the
    continuation line move out of their columns. *)
Theorem C23_counter_refuted : exists kw vs counter lines c' fields,
  keyword kw /\ Forall field_value vs /\ write_card kw vs counter = (lines, c') /\
  nextLine lines = Ok (Some (fields, [])) /\ fields <> kw :: vs.
Proof.
  exists (txt "MPC"), (map txt ["1"; "2"; "3"; "4"; "5"; "6"; "7"; "8"; "12345678"]%string), 9999999%Z.
  eexists. eexists. eexists.
  assert (Hw : forall v, In v (map txt ["MPC"; "1"; "2"; "3"; "4"; "5"; "6"; "7"; "8"; "12345678"]%string) -> field_value v).
  { intros v Hv. cbn in Hv. repeat (destruct Hv as [<-|Hv]; [split; [cbn; lia|]; split; [apply trimmed_trim; reflexivity|]; split; cbn; intuition discriminate|]). destruct Hv. }
  split. { split; [discriminate|]. split; [apply Hw; cbn; tauto|]. split; [cbn; intuition discriminate|]. split; [cbn; intuition discriminate|discriminate]. }
  split; [apply Forall_forall; intros v Hv; apply Hw; right; exact Hv|].
  split; [vm_compute; reflexivity|]. split; [vm_compute; reflexivity|]. intros X. apply (f_equal (fun l => nth 9 l [])) in X. vm_compute in X. discriminate.
Qed.

(** Long format: the continuation header is written sixteen columns wide where
    the reader expects eight; the second line is read shifted. *)
Theorem C23_long_format_refuted : exists kw vs lines c' fields,
  fieldLength kw = 16 /\ Forall (fun v => length v <= 16 /\ trimmed v) vs /\ write_card kw vs 0 = (lines, c') /\
  nextLine lines = Ok (Some (fields, [])) /\ fields <> erase_char "*" kw :: vs.
Proof.
  exists (txt "GRID*"), (map txt ["1"; "2"; "3"; "4"; "5"]%string). eexists. eexists. eexists.
  split; [reflexivity|]. split.
  { apply Forall_forall. intros v Hv. cbn in Hv. repeat (destruct Hv as [<-|Hv]; [split; [cbn; lia|apply trimmed_trim; reflexivity]|]). destruct Hv. }
  split; [vm_compute; reflexivity|]. split; [vm_compute; reflexivity|]. intros X. apply (f_equal (fun l => nth 5 l [])) in X. vm_compute in X. discriminate.
Qed.

Example C23_case :
  let vs := map txt ["1"; "2"; ""; "4"; "5.5"; "6"; "7"; "8"; "9"; "10"; ""; "A B"; "13"; "14"; "15"; "16"; "17"]%string in
  write_card (txt "CHEXA") vs 41 =
  ([txt "CHEXA          1       2               4     5.5       6       7       8+42";
    txt "+42            9      10             A B      13      14      15      16+43";
    txt "+43           17"], 43%Z) /\
  nextLine (fst (write_card (txt "CHEXA") vs 41) ++ [txt "ENDDATA"]) = Ok (Some (txt "CHEXA" :: vs, [txt "ENDDATA"])).
Proof. vm_compute. split; reflexivity. Qed.
Print Assumptions C23_cards_roundtrip.
