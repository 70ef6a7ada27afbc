(** Properties C19, C20, C21, C55: splitting bulk data cards. *)
From Coq Require Import Ascii String ZArith List Bool Arith Lia.
From Verif Require Import Base TextModel TextProofs TokenizerModel TokenizerProofs NextIntsProofs.
Import ListNotations.
Open Scope nat_scope.
Open Scope list_scope.

(** ** C19: fixed format *)

(** Columns [a+1 .. a+w] of a line, blanks around removed. *)
Definition column (l : str) (a w : nat) : str := trim (firstn w (skipn a l)).
(** The eight (four) data fields of a short (long) line, its continuation mark,
    the keyword. *)
Definition data_columns (long : bool) (l : str) : list str :=
  if long then [column l 8 16; column l 24 16; column l 40 16; column l 56 16]
  else map (fun j => column l (8 * j) 8) [1; 2; 3; 4; 5; 6; 7; 8].
Definition mark_column (l : str) : str := column l 72 8.
Definition keyword_column (l : str) : str := filter (fun c => negb (Ascii.eqb c "*")) (column l 0 8).

(** A line without tabulation nor comment, and not empty. *)
Definition plain_line (l : str) : Prop := ~ In "$"%char l /\ ~ In tab l /\ l <> [].

(** How a continuation line may follow a line: after a continuation mark; with
    a '+' after a line that reaches its last field; with a blank (short format)
    or a '*' (long format) otherwise. *)
Definition continues (long : bool) (l : str) (long' : bool) (l' : str) : Prop :=
  (mark_column l <> [] /\ long' = long) \/
  (hd_error l' = Some "+"%char /\ (if long then 56 else 64) < length l /\ long' = long) \/
  (mark_column l = [] /\ hd_error l' = Some " "%char /\ long' = false) \/
  (mark_column l = [] /\ hd_error l' = Some "*"%char /\ long' = true).
Fixpoint continued (long : bool) (l : str) (conts : list (bool * str)) : Prop :=
  match conts with
  | [] => mark_column l = []
  | (long', l') :: r => plain_line l' /\ continues long l long' l' /\ continued long' l' r
  end.
(** The next card, if any, does not look like a continuation or a comment. *)
Definition next_card (ls : list str) : Prop :=
  forall l r c, ls = l :: r -> hd_error l = Some c -> ~ In c [" "%char; "+"%char; "*"%char; tab; "$"%char].

Lemma skipn_skipn' {A} (n m : nat) (l : list A) : skipn n (skipn m l) = skipn (m + n) l.
Proof. revert l. induction m as [|m IH]; intros l; [reflexivity|]. destruct l; [now rewrite !skipn_nil|]. cbn. apply IH. Qed.

Lemma data_columns_eq long l : data_columns long l = line_data long l.
Proof.
  unfold data_columns, line_data, column. destruct long; cbn [offsets cols tl fieldMax firstn Nat.sub map];
    rewrite ?skipn_skipn'; reflexivity.
Qed.
Lemma mark_column_eq long l : mark_column l = line_mark long l.
Proof. unfold mark_column, line_mark, column. destruct long; cbn [offsets cols nth fieldMax]; rewrite ?skipn_skipn'; reflexivity. Qed.
Lemma keyword_column_eq l : keyword_column l = line_keyword l.
Proof. reflexivity. Qed.
Lemma plain_eq l : plain_line l -> plain l.
Proof. intros (H1 & H2 & H3). split; [now apply contains_false|]. split; [now apply contains_false|exact H3]. Qed.
Lemma starts_hd c l : starts c l = true <-> hd_error l = Some c.
Proof. destruct l; cbn; [split; discriminate|]. rewrite Ascii.eqb_eq. split; congruence. Qed.
Lemma continued_eq conts : forall long l, continued long l conts -> chain long l conts.
Proof.
  induction conts as [|[long' l'] r IH]; intros long l; cbn [continued chain]; [now rewrite (mark_column_eq long)|].
  intros (H1 & H2 & H3). split; [now apply plain_eq|]. split; [|now apply IH].
  unfold continues in H2. rewrite (mark_column_eq long) in H2. rewrite !starts_hd. exact H2.
Qed.
Lemma next_card_eq ls : next_card ls -> stops ls.
Proof. intros H. destruct ls as [|[|c l] r]; cbn; [trivial|trivial|]. apply (H (c :: l) r c); reflexivity. Qed.

(** Every fixed-format card, on any number of lines: the fields read are the
    keyword and the columns of all its lines in order, where the missing fields
    of continued lines count as empty; only empty fields at the very end may be
    left out, and the reader stops in front of the next card. *)
Theorem C19_fixed_split : forall l conts rest,
  plain_line l -> (exists c, In c l /\ is_blank c = false) -> ~ In ","%char (firstn 8 l) ->
  let long := contains "*" (firstn 8 l) in
  continued long l conts -> next_card rest ->
  exists fields k, nextLine (l :: map snd conts ++ rest) = Ok (Some (fields, rest)) /\ k <= 8 /\
    fields ++ repeat [] k =
      keyword_column l :: concat (map (fun c => data_columns (fst c) (snd c)) ((long, l) :: conts)).
Proof.
  intros l conts rest Hp (c0 & Hc0 & Hb) Hcomma long Hc Hn. pose proof (plain_eq _ Hp) as Hp'.
  unfold nextLine. rewrite read_plain; [|exact Hp'|].
  2:{ intros _. destruct (forallb is_blank l) eqn:E; [|reflexivity]. rewrite forallb_forall in E. rewrite (E c0 Hc0) in Hb. discriminate. }
  unfold parseBulkSectionLine.
  assert (getLineType l = if long then LONG_FORMAT else SHORT_FORMAT) as ->.
  { unfold getLineType, long. apply contains_false in Hcomma. now rewrite Hcomma. }
  destruct (splitFixed_chain conts (fuel_for l (map snd conts ++ rest)) long true l [] rest) as (fields & k & R1 & R2 & R3);
    [exact Hp'|now apply continued_eq|now apply next_card_eq| |].
  { pose proof (fuel_for_length l (map snd conts ++ rest)). rewrite app_length, map_length in H. lia. }
  cbn [app] in R1. exists fields, k. split; [destruct long; rewrite R1; reflexivity|]. split; [rewrite R2; apply lastk_bound; [exact Hp'|eapply chain_plain, continued_eq, Hc]|].
  rewrite R3. cbn [app]. change (keyword_column l) with (line_keyword l). f_equal. f_equal. apply map_ext. intros; now rewrite data_columns_eq.
Qed.

(** A tabulation in short format moves to the next field boundary. *)
Theorem C19_tabulation : forall a b, ~ In tab a ->
  exists k, 1 <= k <= 8 /\ (length a + k) mod 8 = 0 /\
    replaceTabs false (a ++ tab :: b) = a ++ spaces k ++ replaceTabs false b.
Proof.
  intros a b Ha. exists (8 - length a mod 8). pose proof (Nat.mod_upper_bound (length a) 8 ltac:(lia)).
  assert (Hmod : (length a + (8 - length a mod 8)) mod 8 = 0).
  { pose proof (Nat.div_mod (length a) 8 ltac:(lia)).
    replace (length a + (8 - length a mod 8)) with ((length a / 8 + 1) * 8) by lia. apply Nat.mod_mul. lia. }
  split; [lia|]. split; [exact Hmod|].
  unfold replaceTabs.
  assert (Hexp : forall l p q, p mod 8 = q mod 8 -> expand false p l = expand false q l).
  { clear. induction l as [|c l IH]; intros p q Hpq; [reflexivity|]. cbn [expand]. destruct (Ascii.eqb c tab).
    - unfold tab_width. cbn [andb]. rewrite Hpq. f_equal. apply IH. rewrite Nat.add_mod, Hpq, <- Nat.add_mod by lia. reflexivity.
    - f_equal. apply IH. rewrite <- (Nat.add_1_r p), <- (Nat.add_1_r q), Nat.add_mod, Hpq, <- Nat.add_mod by lia. reflexivity. }
  assert (Hgo : forall l p, ~ In tab l -> expand false p (l ++ tab :: b) =
     l ++ spaces (tab_width false (p + length l)) ++ expand false (p + length l + tab_width false (p + length l)) b).
  { clear. induction l as [|c l IH]; intros p Hl; cbn [app expand length].
    - rewrite Ascii.eqb_refl, Nat.add_0_r. reflexivity.
    - destruct (Ascii.eqb_spec c tab) as [->|_]; [exfalso; apply Hl; now left|]. cbn [app]. f_equal.
      rewrite IH by (intros X; apply Hl; now right). replace (S p + length l) with (p + S (length l)) by lia. reflexivity. }
  rewrite Hgo by exact Ha. cbn [Nat.add]. unfold tab_width at 1. cbn [andb]. f_equal. f_equal. apply Hexp. unfold tab_width. cbn [andb]. rewrite Hmod. reflexivity.
Qed.

(** A line shorter than its eight fields followed by a '+' continuation: the
    missing fields do not count as empty, the continuation fields slide up. *)
Theorem C19_short_line_plus_refuted : exists l l' fields,
  plain_line l /\ plain_line l' /\ hd_error l' = Some "+"%char /\ mark_column l = [] /\
  nextLine [l; l'] = Ok (Some (fields, [])) /\
  (forall k, fields ++ repeat [] k <> keyword_column l :: data_columns false l ++ data_columns false l').
Proof.
  exists (txt "MPC     1"), (txt "+       7       8"), [txt "MPC"; txt "1"; txt "7"; txt "8"].
  split; [split; [cbn; intuition discriminate|split; [cbn; intuition discriminate|discriminate]]|].
  split; [split; [cbn; intuition discriminate|split; [cbn; intuition discriminate|discriminate]]|].
  split; [reflexivity|]. split; [reflexivity|]. split; [vm_compute; reflexivity|].
  intros k H. apply (f_equal (fun l => nth 2 l [])) in H. vm_compute in H. discriminate.
Qed.

Example C19_case :
  let l := txt "GRID*   1               0               1.5             2.5" in
  let l' := txt "*       3.5" in
  plain_line l /\ (exists c, In c l /\ is_blank c = false) /\ ~ In ","%char (firstn 8 l) /\
  continued true l [(true, l')] /\ next_card [txt "ENDDATA"] /\
  nextLine (l :: [l'] ++ [txt "ENDDATA"]) =
    Ok (Some ([txt "GRID"; txt "1"; txt "0"; txt "1.5"; txt "2.5"; txt "3.5"], [txt "ENDDATA"])).
Proof.
  cbv zeta. split; [split; [cbn; intuition discriminate|split; [cbn; intuition discriminate|discriminate]]|].
  split; [exists "G"%char; split; [now left|reflexivity]|]. split; [cbn; intuition discriminate|].
  split; [cbn [continued]; split; [split; [cbn; intuition discriminate|split; [cbn; intuition discriminate|discriminate]]|split; [|reflexivity]]|].
  { right. right. right. repeat split. }
  split; [intros l r c E; injection E as <- <-; intros E; injection E as <-; cbn; intuition discriminate|].
  vm_compute. reflexivity.
Qed.
Print Assumptions C19_fixed_split.
Print Assumptions C19_tabulation.
Print Assumptions C19_short_line_plus_refuted.

(** ** C20: free format *)

(** The comma-separated text of a list of pieces. *)
Definition commas (ps : list str) : str := join "," ps.

Definition piece_ok (p : str) : Prop := ~ In ","%char p /\ ~ In "$"%char p.
Definition implicit_head (h : str) : Prop := h = [] \/ hd_error h = Some "+"%char \/ hd_error h = Some "*"%char.

(** One line of a card: its first piece (the keyword, or the first piece of a
    continuation line, which is not data), its data fields, and possibly a
    continuation mark at the end. *)
Record card_line := mkLine { head_piece : str; data : list str; mark : option str }.
Definition line_text (f : card_line) : str :=
  commas (head_piece f :: data f ++ match mark f with Some m => [m] | None => [] end).
Definition line_ok (f : card_line) : Prop :=
  piece_ok (head_piece f) /\ Forall piece_ok (data f) /\
  match mark f with Some m => piece_ok m | None => data f <> [] end.

(** Lines [r] continue the line [f], before which [n] fields were read: either
    [f] has eight data fields in its last group and ends with a '+' mark, or the
    next line begins with a comma, '+' or '*'. *)
Fixpoint free_continued (n : nat) (f : card_line) (r : list card_line) : Prop :=
  line_ok f /\
  match r with
  | [] => mark f = None
  | f' :: r' =>
    match mark f with
    | Some m => hd_error (trim m) = Some "+"%char /\ (n + length (data f)) mod 8 = 1
    | None => implicit_head (head_piece f')
    end /\ free_continued (n + length (data f)) f' r'
  end.

Definition to_fline (f : card_line) : fline := mkFLine (head_piece f) (data f) (mark f).
Lemma free_continued_eq r : forall n f, free_continued n f r -> fchain n (to_fline f) (map to_fline r).
Proof.
  assert (Hok : forall f, line_ok f -> good_line (to_fline f)).
  { assert (Hgp : forall p, piece_ok p -> good_piece p) by (intros p [H1 H2]; split; now apply contains_false).
    intros f (H1 & H2 & H3). unfold good_line, flast. cbn. split.
    - constructor; [now apply Hgp|]. apply Forall_app. split; [eapply Forall_impl; [exact Hgp|exact H2]|].
      destruct (mark f); [constructor; [now apply Hgp|constructor]|constructor].
    - destruct (mark f); [now destruct (data f)|]. now rewrite app_nil_r. }
  induction r as [|f' r IH]; intros n f; cbn [free_continued fchain map].
  - intros [H1 H2]. split; [now apply Hok|exact H2].
  - intros (H1 & H2 & H3). split; [now apply Hok|]. split; [|now apply IH].
    cbn [to_fline fmark fdata fhead]. destruct (mark f); [rewrite starts_hd; exact H2|]. rewrite !starts_hd. exact H2.
Qed.

(** Reading such a card gives the keyword and all the data fields of all the
    lines in order, provided that no data field in position 1, 9, 17, ...
    begins with '+'. *)
Theorem C20_free_split_partial : forall f r rest,
  (exists c, In c (head_piece f) /\ is_blank c = false) -> length (head_piece f) < 8 ->
  free_continued 1 f r ->
  (forall l ls c, rest = l :: ls -> hd_error l = Some c -> ~ In c [","%char; "+"%char; "*"%char]) ->
  let all := head_piece f :: concat (map data (f :: r)) in
  (forall i x, nth_error all (1 + 8 * i) = Some x -> hd_error (trim x) <> Some "+"%char) ->
  nextLine (line_text f :: map line_text r ++ rest) = Ok (Some (all, rest)).
Proof.
  intros f r rest (c0 & Hc0 & Hb) Hlen Hcont Hrest all Hmarks.
  pose proof (free_continued_eq _ _ _ Hcont) as Hch.
  assert (Hg : good_line (to_fline f)) by (destruct r; apply Hch).
  destruct (good_text _ Hg) as (G1 & G2 & G3 & G4 & G5).
  change (line_text f) with (ftext (to_fline f)).
  assert (map line_text r = map ftext (map to_fline r)) as -> by (rewrite map_map; reflexivity).
  unfold nextLine. rewrite read_nodollar; [|exact G1|exact G2|].
  2:{ intros _. destruct (forallb is_blank (ftext (to_fline f))) eqn:E; [|reflexivity]. rewrite forallb_forall in E.
      assert (In c0 (ftext (to_fline f))) by (unfold ftext; rewrite join_cons by apply Hg; apply in_app_iff; now left).
      rewrite (E c0) in Hb by assumption. discriminate. }
  unfold parseBulkSectionLine.
  assert (getLineType (ftext (to_fline f)) = FREE_FORMAT) as ->.
  { unfold getLineType.
    assert (contains "," (firstn 8 (ftext (to_fline f))) = true) as ->; [|reflexivity].
    unfold ftext. rewrite join_cons by apply Hg. cbn [to_fline fhead].
    rewrite firstn_app, contains_app. apply orb_true_iff. right. destruct (8 - length (head_piece f)) eqn:E; [lia|]. reflexivity. }
  rewrite splitFree_chain; [| | | |].
  - cbn [bind]. unfold all. cbn [map concat to_fline fdata fhead app]. rewrite map_map. reflexivity.
  - exact Hch.
  - unfold stops_free, peek_in, peek. destruct rest as [|[|c l] ls]; [reflexivity|reflexivity|].
    specialize (Hrest (c :: l) ls c eq_refl eq_refl).
    destruct (existsb (Ascii.eqb c) [","%char; "+"%char; "*"%char]) eqn:E; [|reflexivity].
    exfalso. apply Hrest. apply existsb_exists in E. destruct E as (x & Hx & E). apply Ascii.eqb_eq in E. now subst.
  - pose proof (fuel_for_length (ftext (to_fline f)) (map ftext (map to_fline r) ++ rest)) as H. rewrite app_length, map_length in H. lia.
  - cbn [to_fline fhead map concat fdata app]. rewrite map_map. change (fun x => fdata (to_fline x)) with data.
    change (no_marks 1 all). apply no_marks_nth. intros i. destruct (nth_error all (1 + 8 * i)) as [x|] eqn:E.
    + rewrite (nth_error_nth _ _ _ E). specialize (Hmarks i x E). rewrite <- starts_hd in Hmarks. now destruct (starts "+" (trim x)).
    + apply nth_error_None in E. rewrite nth_overflow by assumption. reflexivity.
Qed.

(** Without that proviso a data field is lost: here the first field "+3". *)
Theorem C20_data_field_lost_refuted : exists f,
  free_continued 1 f [] /\ In (txt "+3") (data f) /\
  exists fields, nextLine [line_text f] = Ok (Some (fields, [])) /\ ~ In (txt "+3") fields.
Proof.
  exists (mkLine (txt "FORCE") [txt "+3"; txt "10"; txt ""; txt "1.5"] None).
  split; [|split; [now left|]].
  - split; [|reflexivity]. split; [split; cbn; intuition discriminate|]. split; [|discriminate].
    repeat constructor; cbn; intuition discriminate.
  - exists [txt "FORCE"; txt "10"; txt ""; txt "1.5"; []]. split; [vm_compute; reflexivity|]. cbn. intuition discriminate.
Qed.
(** The same loss makes the reader swallow the following card. *)
Theorem C20_next_card_swallowed_refuted : exists f card2 fields,
  free_continued 1 f [] /\ hd_error card2 = Some "G"%char /\
  nextLine [line_text f; card2] = Ok (Some (fields, [])).
Proof.
  exists (mkLine (txt "FORCE") [txt "+3"; txt "10"; txt ""; txt "1.5"] None), (txt "GRID,7,,1.,2.,3.").
  eexists. split; [|split; [reflexivity|]].
  - split; [|reflexivity]. split; [split; cbn; intuition discriminate|]. split; [|discriminate].
    repeat constructor; cbn; intuition discriminate.
  - vm_compute. reflexivity.
Qed.

Example C20_case :
  let f := mkLine (txt "CHEXA") [txt "1"; txt "2"; txt "10"; txt "11"; txt "12"; txt "13"; txt "14"; txt "15"] (Some (txt "+A")) in
  let f' := mkLine (txt "+A") [txt "16"; txt "17"] None in
  (exists c, In c (head_piece f) /\ is_blank c = false) /\ length (head_piece f) < 8 /\
  free_continued 1 f [f'] /\
  (forall i x, nth_error (head_piece f :: concat (map data [f; f'])) (1 + 8 * i) = Some x -> hd_error (trim x) <> Some "+"%char) /\
  nextLine [line_text f; line_text f'] = Ok (Some (map txt ["CHEXA"; "1"; "2"; "10"; "11"; "12"; "13"; "14"; "15"; "16"; "17"]%string, [])).
Proof.
  cbv zeta. split; [exists "C"%char; split; [now left|reflexivity]|]. split; [cbn; lia|].
  split.
  { cbn [free_continued]. split; [split; [split; cbn; intuition discriminate|split; [repeat constructor; cbn; intuition discriminate|split; cbn; intuition discriminate]]|].
    split; [split; reflexivity|]. split; [|reflexivity].
    split; [split; cbn; intuition discriminate|]. split; [repeat constructor; cbn; intuition discriminate|discriminate]. }
  split; [|vm_compute; reflexivity].
  intros i x. destruct i as [|[|i]].
  - intros H. injection H as <-. discriminate.
  - intros H. injection H as <-. discriminate.
  - intros H. assert (1 + 8 * S (S i) < 11) by (change 11 with (length (map txt ["CHEXA"; "1"; "2"; "10"; "11"; "12"; "13"; "14"; "15"; "16"; "17"]%string)); apply nth_error_Some; cbn [map] in *; unfold concat, head_piece, data, app in H; congruence). lia.
Qed.
Print Assumptions C20_free_split_partial.
Print Assumptions C20_data_field_lost_refuted.
Print Assumptions C20_next_card_swallowed_refuted.

(** ** C21: THRU and BY *)

Inductive item := One (n : Z) | Thru (a b : Z).
Inductive item_text : item -> list str -> Prop :=
| OneText n f : int_field f n -> (n < INT_MAX32)%Z -> item_text (One n) [f]
| ThruText a b f t g : int_field f a -> word_field "THRU" t -> int_field g b ->
    (a < INT_MAX32)%Z -> (b < INT_MAX32)%Z -> item_text (Thru a b) [f; t; g].
(** The integers between [a] and [b], in increasing order. *)
Definition denote (i : item) : list Z :=
  match i with One n => [n] | Thru a b => zrange (Z.min a b) (Z.max a b) end.

Theorem C21_zrange : forall a b x, In x (zrange a b) <-> (a <= x <= b)%Z.
Proof.
  intros a b x. unfold zrange. rewrite in_map_iff. split.
  - intros (k & <- & Hk). apply in_seq in Hk. lia.
  - intros H. exists (Z.to_nat (x - a)). split; [lia|]. apply in_seq. lia.
Qed.

(** What ends a list: the end of the card, or a field which is neither an
    integer (no character other than digits and minus signs), nor THRU, nor BY. *)
Definition ends_list (post : list str) : Prop :=
  forall f, hd_error post = Some f ->
    (trim f = [] \/ exists c, In c (trim f) /\ is_digit c = false /\ c <> "-"%char) /\
    ~ word_field "THRU" f /\ ~ word_field "BY" f.

(** Reading a list of integers and THRU ranges gives exactly the integers that
    each denotes, in order, and leaves the cursor after the list. *)
Theorem C21_lists_and_ranges : forall pre items texts post,
  Forall2 item_text items texts -> ends_list post ->
  let vec := pre ++ concat texts ++ post in
  nextInts (at_pos vec (length pre)) = Ok (concat (map denote items), at_pos vec (length pre + length (concat texts))).
Proof.
  intros pre items texts post Hit Hend vec. unfold nextInts.
  assert (Hgo : forall its txs, Forall2 item_text its txs -> forall done acc fuel,
    vec = done ++ concat txs ++ post -> length (concat txs) < fuel ->
    nextInts_loop fuel acc (at_pos vec (length done)) = Ok (rev acc ++ concat (map denote its), at_pos vec (length done + length (concat txs)))).
  { clear Hit. induction 1 as [|it tx its txs Hit Hrest IH]; intros done acc fuel Hv Hf.
    - destruct fuel as [|fuel]; [cbn in Hf; lia|]. cbn [concat app] in *.
      assert (Hnth : nth_error vec (length done) = hd_error post).
      { rewrite Hv, nth_error_app2, Nat.sub_diag by lia. now destruct post. }
      rewrite step_end.
      + cbn [concat map length]. now rewrite app_nil_r, Nat.add_0_r.
      + intros f n E <-. rewrite Hnth in E. destruct (Hend f E) as ([H|(c & H1 & H2 & H3)] & _).
        * rewrite H. reflexivity.
        * apply andb_false_iff. right. apply not_true_iff_false. rewrite forallb_forall. intros H. specialize (H c H1). rewrite H2, orb_false_r in H. apply Ascii.eqb_eq in H. congruence.
      + intros f E. rewrite Hnth in E. now destruct (Hend f E) as (_ & ? & _).
    - destruct Hit as [n f Hf1 Hmx|a b f t g Hf1 Ht Hg Ha Hb].
      + cbn [concat app length] in *. destruct fuel as [|fuel]; [lia|].
        assert (Hv' : vec = (done ++ [f]) ++ concat txs ++ post) by now rewrite Hv, <- app_assoc.
        rewrite (step_int fuel acc vec (length done) f n) by (try assumption; rewrite Hv, nth_error_app2, Nat.sub_diag by lia; reflexivity).
        specialize (IH (done ++ [f]) (n :: acc) fuel Hv' ltac:(lia)). rewrite app_length in IH. cbn [length] in IH.
        replace (length done + 1) with (S (length done)) in IH by lia. rewrite IH. cbn [rev concat map denote app].
        rewrite <- app_assoc. replace (length done + S (length (concat txs))) with (S (length done) + length (concat txs)) by lia. reflexivity.
      + cbn [concat app length] in *. destruct fuel as [|[|fuel]]; [lia|lia|].
        assert (Hv' : vec = (done ++ [f; t; g]) ++ concat txs ++ post) by now rewrite Hv, <- app_assoc.
        rewrite (step_int (S fuel) acc vec (length done) f a) by (try assumption; rewrite Hv, nth_error_app2, Nat.sub_diag by lia; reflexivity).
        assert (Har : (INT_MIN32 <= a)%Z) by (destruct Hf1 as (? & _ & _ & ? & _); lia).
        rewrite (step_thru fuel acc vec (S (length done)) t g a b); [|rewrite Hv, nth_error_app2 by lia; replace (S (length done) - length done) with 1 by lia; reflexivity|assumption
          |rewrite Hv, nth_error_app2 by lia; replace (S (S (length done)) - length done) with 2 by lia; reflexivity|assumption| |lia|lia].
        2:{ intros x Hx. rewrite Hv, nth_error_app2 in Hx by lia. replace (S (S (S (length done))) - length done) with 3 in Hx by lia. cbn [nth_error] in Hx.
            destruct Hrest as [|it' tx' its' txs' Hit' _].
            - cbn [concat app] in Hx. destruct post as [|p post]; [discriminate|]. injection Hx as <-. now destruct (Hend p eq_refl) as (_ & _ & ?).
            - intros Hw. destruct Hit' as [n' f' Hf' _|a' b' f' t' g' Hf' _ _ _ _]; cbn in Hx; injection Hx as <-;
                pose proof (int_not_word "BY" f' _ Hf' digit_word_B) as Hne; unfold word_field in Hw; rewrite Hw in Hne; discriminate Hne. }
        specialize (IH (done ++ [f; t; g]) (rev (zrange (Z.min a b) (Z.max a b)) ++ acc) fuel Hv' ltac:(lia)). rewrite app_length in IH. cbn [length] in IH.
        replace (length done + 3) with (S (S (S (length done)))) in IH by lia. rewrite IH. cbn [concat map denote].
        rewrite rev_app_distr, rev_involutive, <- app_assoc.
        replace (length done + S (S (S (length (concat txs))))) with (S (S (S (length done))) + length (concat txs)) by lia. reflexivity. }
  specialize (Hgo items texts Hit pre [] (S (length vec)) eq_refl). cbn [rev app] in Hgo. apply Hgo.
  cbn [cvec at_pos]. unfold vec. rewrite !app_length. lia.
Qed.

(** With BY the list is wrong, whatever the bounds and the step: "a THRU b BY s"
    (a < b, s > 1) contains a+1, which is not a + k s. *)
Theorem C21_by_refuted : forall a b s f t g u h,
  int_field f a -> word_field "THRU" t -> int_field g b -> word_field "BY" u -> int_field h s ->
  (a < b)%Z -> (1 < s)%Z -> (b + s <= INT_MAX32)%Z ->
  exists l t', nextInts (at_pos [f; t; g; u; h] 0) = Ok (l, t') /\   In (a + 1)%Z l /\ ~ (exists k, (0 <= k /\ a + 1 = a + k * s)%Z).
Proof.
  intros a b s f t g u h Hf Ht Hg Hu Hh Hab Hs Hmax.
  assert (Hr : (INT_MIN32 <= a)%Z) by (destruct Hf as (? & _ & _ & ? & _); lia).
  unfold nextInts. change (length (cvec (at_pos [f; t; g; u; h] 0))) with 5.
  rewrite (step_int 5 [] [f; t; g; u; h] 0 f a eq_refl Hf).
  rewrite (step_thru_by 4 [] [f; t; g; u; h] 1 t g u h a b s eq_refl Ht eq_refl Hg eq_refl Hu eq_refl Hh Hab).
  destruct (for_range_step (Z.to_nat (b - a)) (a + 1) b s) as (l & -> & Hl); [lia|lia|lia|lia|]. cbn [bind].
  assert (He : nextInts_loop 4 (rev l ++ [a]) (at_pos [f; t; g; u; h] 5) = Ok (rev (rev l ++ [a]), at_pos [f; t; g; u; h] 5)).
  { apply step_end; [intros x n E; discriminate E|intros x E; discriminate E]. }
  rewrite He. do 2 eexists. split; [reflexivity|].
  split; [|intros (k & K1 & K2); assert (k * s = 1)%Z by lia; assert (k = 0 \/ 1 <= k)%Z as [->|] by lia; nia].
  apply in_rev. rewrite rev_involutive. apply in_app_iff. left. apply in_rev. rewrite rev_involutive. apply Hl. exists 0%Z. lia.
Qed.

(** BY 0 never ends, and THRU without a first number is undefined behaviour. *)
Theorem C21_by_zero_diverges_refuted : forall a b f t g u h,
  int_field f a -> word_field "THRU" t -> int_field g b -> word_field "BY" u -> int_field h 0 -> (a < b)%Z ->
  nextInts (at_pos [f; t; g; u; h] 0) = NoFuel.
Proof.
  intros a b f t g u h Hf Ht Hg Hu Hh Hab.
  assert (Hr : (INT_MIN32 <= a)%Z) by (destruct Hf as (? & _ & _ & ? & _); lia).
  assert (Hrb : (b <= INT_MAX32)%Z) by (destruct Hg as (? & _ & _ & ? & _); lia).
  unfold nextInts. change (length (cvec (at_pos [f; t; g; u; h] 0))) with 5.
  rewrite (step_int 5 [] [f; t; g; u; h] 0 f a eq_refl Hf).
  rewrite (step_thru_by 4 [] [f; t; g; u; h] 1 t g u h a b 0%Z eq_refl Ht eq_refl Hg eq_refl Hu eq_refl Hh Hab).
  rewrite for_range_diverges by lia. reflexivity.
Qed.
Theorem C21_leading_thru_refuted : forall t g b vec, word_field "THRU" t -> int_field g b ->
  nextInts (at_pos (t :: g :: vec) 0) = UB.
Proof.
  intros t g b vec Ht Hg. unfold nextInts. cbn [nextInts_loop].
  rewrite (isint_word "THRU" (t :: g :: vec) 0 t eq_refl Ht digit_word_T). cbn [bind].
  unfold isNextTHRU. rewrite (isword_true "THRU" (t :: g :: vec) 0 t eq_refl Ht). cbn [bind]. rewrite (skip_at (t :: g :: vec) 0 t eq_refl). reflexivity.
Qed.

Lemma int_field_text n : (INT_MIN32 <= n <= INT_MAX32)%Z -> trim (int_text n) = int_text n -> int_field (int_text n) n.
Proof.
  intros Hr Ht. unfold int_field. rewrite Ht. unfold int_text. destruct (Z.ltb_spec n 0).
  - destruct (nat_text_spec (- n) ltac:(lia)) as (D & V & N). exists (nat_text (- n)). split; [exact N|]. split; [exact D|]. split; [exact Hr|]. right. split; [reflexivity|lia].
  - destruct (nat_text_spec n ltac:(lia)) as (D & V & N). exists (nat_text n). split; [exact N|]. split; [exact D|]. split; [exact Hr|]. left. split; [reflexivity|lia].
Qed.
Example C21_case : Forall2 item_text [One 3; Thru 9 7; One (-2)]%Z [[txt "3"]; [txt "9"; txt "thru"; txt " 7"]; [txt "-2"]] /\ ends_list [] /\ nextInts (at_pos (map txt ["SET1"; "3"; "9"; "thru"; " 7"; "-2"]%string) 1) = Ok ([3; 7; 8; 9; -2]%Z, at_pos (map txt ["SET1"; "3"; "9"; "thru"; " 7"; "-2"]%string) 6) /\ nextInts (at_pos (map txt ["1"; "THRU"; "10"; "BY"; "2"]%string) 0) = Ok ([1; 2; 4; 6; 8; 10]%Z, at_pos (map txt ["1"; "THRU"; "10"; "BY"; "2"]%string) 5) /\ int_field (txt "1") 1 /\ word_field "BY" (txt "by").
Proof.
  assert (F : forall w n, trim (txt w) = int_text n -> trim (int_text n) = int_text n -> (INT_MIN32 <= n <= INT_MAX32)%Z -> int_field (txt w) n).
  { intros w n E E' R. pose proof (int_field_text n R E') as (ds & H1 & H2 & H3 & H4). exists ds. rewrite E. rewrite E' in H4. auto. }
  split; [|split; [intros f H; discriminate H|]].
  - repeat constructor; try reflexivity; apply F; try reflexivity; unfold INT_MIN32, INT_MAX32; lia.
  - split; [vm_compute; reflexivity|]. split; [vm_compute; reflexivity|]. split; [|reflexivity].
    apply F; try reflexivity. unfold INT_MIN32, INT_MAX32; lia.
Qed.
Print Assumptions C21_lists_and_ranges.
Print Assumptions C21_by_refuted.
Print Assumptions C21_by_zero_diverges_refuted.
Print Assumptions C21_leading_thru_refuted.

(** ** C55: comment lines *)

(** The lines of the deck without its comment lines. *)
Definition without_comments (ls : list str) : list str := filter (fun l => match l with c :: _ => negb (Ascii.eqb c "$") | [] => true end) ls.
Lemma without_comments_eq ls : without_comments ls = strip ls.
Proof. apply filter_ext. intros [|c l]; reflexivity. Qed.

(** When the next card is in short or long format, removing all comment lines
    from the deck, between cards and inside them, changes neither the fields
    read (nor an error) nor the remaining cards. *)
Theorem C55_comments_transparent_partial : forall ls,
  (forall l r, readLineSkipComment true ls = Some (l, r) -> ~ In ","%char (firstn 8 l)) ->
  nextLine (without_comments ls) =
    match nextLine ls with
    | Ok (Some (fields, rest)) => Ok (Some (fields, without_comments rest))
    | Ok None => Ok None
    | Throw => Throw | UB => UB | NoFuel => NoFuel
    end.
Proof.
  intros ls H. rewrite without_comments_eq. unfold nextLine. rewrite read_strip.
  destruct (readLineSkipComment true ls) as [[l r]|]; [|reflexivity]. specialize (H l r eq_refl).
  apply contains_false in H.
  assert (Hx : forall long, splitFixed (fuel_for l (strip r)) long true l [] (strip r) =
     match splitFixed (fuel_for l r) long true l [] r with Ok (v, x) => Ok (v, strip x) | Throw => Throw | UB => UB | NoFuel => NoFuel end).
  { intros long. rewrite <- splitFixed_strip. apply splitFixed_fuel; [|apply fuel_for_length].
    eapply Nat.le_lt_trans; [|apply fuel_for_length]. unfold strip. clear. induction r as [|x r IH]; cbn; [lia|]. destruct (negb _); cbn; lia. }
  unfold parseBulkSectionLine, getLineType. rewrite H. destruct (contains "*" (firstn 8 l)); rewrite Hx;
    destruct (splitFixed _ _ _ _ _ r) as [[v x]| | |]; cbn; try reflexivity; now rewrite without_comments_eq.
Qed.

(** Not so in free format: a comment line inside a card cuts it. *)
Theorem C55_free_format_refuted : exists ls fields rest fields',
  nextLine ls = Ok (Some (fields, rest)) /\ nextLine (without_comments ls) = Ok (Some (fields', [])) /\
  length fields < length fields'.
Proof.
  exists [txt "CTETRA,1,2,3,4"; txt "$ comment"; txt ",5,6"]. do 3 eexists.
  split; [vm_compute; reflexivity|]. split; [vm_compute; reflexivity|]. cbn. lia.
Qed.
(** And a comment preceded by blanks makes the reader swallow the next card. *)
Theorem C55_indented_comment_refuted : exists c1 cm c2 fields,
  nextLine [c1; c2] = Ok (Some (firstn 3 fields, [c2])) /\ hd_error (trim cm) = Some "$"%char /\
  nextLine [c1; cm; c2] = Ok (Some (fields, [])) /\ 3 < length fields.
Proof.
  exists (txt "SPC1    1       123"), (txt "  $ comment"), (txt "GRID    7               1.      2.      3.").
  eexists. split; [|split; [reflexivity|split; [vm_compute; reflexivity|cbn; lia]]]. vm_compute. reflexivity.
Qed.
Example C55_case :
  let ls := [txt "$ start"; txt "CORD2R  1"; txt "$ inside"; txt "        7"; txt "$ end"; txt "GRID    1"] in
  (forall l r, readLineSkipComment true ls = Some (l, r) -> ~ In ","%char (firstn 8 l)) /\
  without_comments ls = [txt "CORD2R  1"; txt "        7"; txt "GRID    1"] /\
  nextLine ls = Ok (Some (map txt ["CORD2R"; "1"; ""; ""; ""; ""; ""; ""; ""; "7"]%string, [txt "GRID    1"])).
Proof. cbv zeta. split; [intros l r E; injection E as <- <-; cbn; intuition discriminate|]. split; vm_compute; reflexivity. Qed.
Print Assumptions C55_comments_transparent_partial.
Print Assumptions C55_free_format_refuted.
Print Assumptions C55_indented_comment_refuted.

(** Several continuation marks on one physical line: each mark that follows eight
    data fields is taken out, nothing else, and the card goes on. *)
Fixpoint marked (blocks : list (list str * str)) : list str :=
  match blocks with [] => [] | (b, m) :: r => b ++ m :: marked r end.
Definition good_block (p : list str * str) : Prop := length (fst p) = 8 /\ starts "+" (trim (snd p)) = true.
Lemma erase_prefix b : forall k l, k = length b -> erase_marks k (b ++ l) = (b ++ fst (erase_marks 0 l), snd (erase_marks 0 l)).
Proof.
  induction b as [|x b IH]; intros k l ->; cbn [length app]; [now destruct (erase_marks 0 l)|]. cbn [erase_marks]. rewrite IH by reflexivity. reflexivity.
Qed.
Theorem C20_marks_removed : forall kw f0 b m blocks,
  starts "+" (trim f0) = false -> length b = 7 -> starts "+" (trim m) = true -> Forall good_block blocks ->
  erase_marks 1 (kw :: f0 :: b ++ m :: marked blocks) = (kw :: f0 :: b ++ concat (map fst blocks), true).
Proof.
  intros kw f0 b m blocks Hf Hb Hm HB. cbn [erase_marks]. rewrite Hf. rewrite (erase_prefix b 7) by (symmetry; exact Hb). cbn [erase_marks]. rewrite Hm. cbn [fst snd].
  replace (fst (erase_marks 8 (marked blocks))) with (concat (map fst blocks)); [reflexivity|].
  induction HB as [|[b1 m1] r [H1 H2] HB IH]; [reflexivity|]. cbn [fst snd] in H1, H2. cbn [marked map concat fst]. rewrite (erase_prefix b1 8) by (symmetry; exact H1).
  cbn [erase_marks]. rewrite H2. cbn [fst]. now rewrite IH.
Qed.
Example C20_marks_case : starts "+" (trim (txt "1")) = false /\ good_block (map txt ["9"; "10"; "11"; "12"; "13"; "14"; "15"; "16"]%string, txt "+C") /\
  erase_marks 1 (map txt ["SPC1"; "1"; "2"; "3"; "4"; "5"; "6"; "7"; "8"; "+B"; "9"; "10"; "11"; "12"; "13"; "14"; "15"; "16"; "+C"]%string)
  = (map txt ["SPC1"; "1"; "2"; "3"; "4"; "5"; "6"; "7"; "8"; "9"; "10"; "11"; "12"; "13"; "14"; "15"; "16"]%string, true).
Proof. repeat split. Qed.
Print Assumptions C20_marks_removed.
