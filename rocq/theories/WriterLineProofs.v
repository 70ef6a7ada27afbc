(** Lemmas about written cards. *)
From Coq Require Import Ascii String ZArith List Bool Arith Lia.
From Verif Require Import Base TextModel TextProofs TokenizerModel TokenizerProofs WriterLineModel.
Import ListNotations.
Open Scope nat_scope.
Open Scope list_scope.

Lemma pad_left_length w s : length s <= w -> length (pad_left w s) = w.
Proof. intros H. unfold pad_left, spaces. rewrite app_length, repeat_length. lia. Qed.
Lemma pad_right_length w s : length s <= w -> length (pad_right w s) = w.
Proof. intros H. unfold pad_right, spaces. rewrite app_length, repeat_length. lia. Qed.
Lemma trim_pad_left w s : trim (pad_left w s) = trim s.
Proof. apply trim_spaces_l, is_space_spaces. Qed.
Lemma trim_pad_right w s : trim (pad_right w s) = trim s.
Proof. apply trim_spaces_r, is_space_spaces. Qed.

Lemma contains_spaces c n : c <> " "%char -> contains c (spaces n) = false.
Proof. intros H. apply contains_false. intros Hin. apply repeat_spec in Hin. congruence. Qed.

Lemma cols_block ws b r : length b = 8 -> cols (8 :: ws) (b ++ r) = b :: cols ws r.
Proof.
  intros H. cbn [cols]. rewrite firstn_app, skipn_app, (firstn_all2 b), (skipn_all2 b), H, Nat.sub_diag by lia.
  rewrite firstn_O, app_nil_r. reflexivity.
Qed.
Lemma cols_blocks bs ws r : Forall (fun b => length b = 8) bs -> cols (repeat 8 (length bs) ++ ws) (concat bs ++ r) = bs ++ cols ws r.
Proof.
  induction 1 as [|b bs Hb Hbs IH]; [reflexivity|]. cbn [concat length repeat app]. rewrite <- app_assoc, cols_block by exact Hb. now rewrite IH.
Qed.

(** A value that can be written in a short field. *)
Definition value_ok (v : str) : Prop := length v <= 8 /\ trim v = v /\ contains "$" v = false /\ contains tab v = false.
Definition blocks (h : str) (vs : list str) : list str := h :: map (pad_left 8) vs.

Lemma blocks_8 h vs : length h = 8 -> Forall value_ok vs -> Forall (fun b => length b = 8) (blocks h vs).
Proof. intros Hh Hv. constructor; [exact Hh|]. apply Forall_map. eapply Forall_impl; [|exact Hv]. intros v (H & _). now apply pad_left_length. Qed.
Lemma map_trim_pad vs : Forall value_ok vs -> map trim (map (pad_left 8) vs) = vs.
Proof.
  intros H. rewrite map_map. rewrite <- (map_id vs) at 2. apply map_ext_in. intros v Hv. rewrite Forall_forall in H. rewrite trim_pad_left. apply (H v Hv).
Qed.

Lemma split_offsets j : j <= 8 -> offsets false = repeat 8 (S j) ++ repeat 8 (9 - j).
Proof. intros H. rewrite <- repeat_app. replace (S j + (9 - j)) with 10 by lia. reflexivity. Qed.

(** Columns of a line made of blocks, with a tail after the eighth field. *)
Lemma cols_line h vs tail : length h = 8 -> Forall value_ok vs -> length vs <= 8 ->
  cols (offsets false) (concat (blocks h vs) ++ tail) = blocks h vs ++ cols (repeat 8 (9 - length vs)) tail.
Proof.
  intros Hh Hv Hl. rewrite (split_offsets (length vs)) by exact Hl.
  replace (S (length vs)) with (length (blocks h vs)) by (cbn; now rewrite map_length).
  apply cols_blocks. now apply blocks_8.
Qed.

Lemma data_line h vs tail : length h = 8 -> Forall value_ok vs -> length vs <= 8 -> (length vs < 8 -> tail = []) ->
  line_data false (concat (blocks h vs) ++ tail) = vs ++ repeat [] (8 - length vs).
Proof.
  intros Hh Hv Hl Ht. unfold line_data. rewrite cols_line by assumption. cbn [blocks app tl]. change (fieldMax false - 1) with 8.
  destruct (Nat.eq_dec (length vs) 8) as [E|E].
  - rewrite firstn_app, map_length, E, Nat.sub_diag, firstn_O, app_nil_r, firstn_all2 by (rewrite map_length; lia).
    rewrite map_trim_pad by exact Hv. change (repeat (@nil ascii) 0) with (@nil str). now rewrite app_nil_r.
  - rewrite Ht by lia. rewrite cols_nil, repeat_length. rewrite firstn_app, map_length, firstn_all2 by (rewrite map_length; lia).
    rewrite map_app, map_trim_pad by exact Hv. f_equal.
    replace (9 - length vs) with ((8 - length vs) + 1) by lia. rewrite repeat_app, firstn_app, repeat_length, Nat.sub_diag, firstn_O, app_nil_r.
    rewrite firstn_all2 by (rewrite repeat_length; lia). rewrite map_repeat, trim_nil. reflexivity.
Qed.
Lemma mark_line h vs tail : length h = 8 -> Forall value_ok vs -> length vs <= 8 -> (length vs < 8 -> tail = []) -> length tail <= 8 ->
  line_mark false (concat (blocks h vs) ++ tail) = trim tail.
Proof.
  intros Hh Hv Hl Ht Htl. unfold line_mark. rewrite cols_line by assumption. cbn [fieldMax].
  destruct (Nat.eq_dec (length vs) 8) as [E|E].
  - rewrite app_nth2 by (cbn; rewrite map_length; lia). cbn [blocks length]. rewrite map_length, E. cbn [Nat.sub repeat cols nth].
    now rewrite firstn_all2.
  - rewrite Ht by lia. rewrite cols_nil, repeat_length. rewrite app_nth2 by (cbn; rewrite map_length; lia).
    now rewrite nth_repeat.
Qed.
Lemma chop_line h vs : length h = 8 -> Forall value_ok vs -> length vs <= 8 ->
  length (chop (offsets false) (concat (blocks h vs))) = S (length vs).
Proof.
  intros Hh Hv Hl.
  assert (Hlen : length (concat (blocks h vs)) = 8 * S (length vs)).
  { pose proof (blocks_8 h vs Hh Hv) as Hb. assert (length (blocks h vs) = S (length vs)) as <- by (cbn; now rewrite map_length).
    clear - Hb. induction Hb as [|b bs H Hb IH]; [reflexivity|]. cbn [concat length]. rewrite app_length. lia. }
  assert (Hpos : Forall (fun w => 0 < w) (offsets false)) by (repeat constructor; lia).
  assert (Hsum : forall k, k <= 10 -> list_sum (firstn k (offsets false)) = 8 * k) by (intros k Hk; do 11 (destruct k as [|k]; [reflexivity|]); lia).
  pose proof (chop_length (offsets false) (concat (blocks h vs))) as Hc. cbn [offsets length] in Hc.
  assert (length vs < length (chop (offsets false) (concat (blocks h vs)))).
  { apply chop_gt; [exact Hpos|cbn; lia|]. rewrite Hsum, Hlen by lia. lia. }
  assert (~ S (length vs) < length (chop (offsets false) (concat (blocks h vs)))); [|cbn [offsets] in *; lia].
  intros H1. apply chop_gt in H1; [|exact Hpos|cbn; lia]. rewrite Hsum, Hlen in H1 by lia. lia.
Qed.

Lemma contains_concat c bs : Forall (fun b => contains c b = false) bs -> contains c (concat bs) = false.
Proof. induction 1 as [|b bs H _ IH]; [reflexivity|]. cbn [concat]. now rewrite contains_app, H, IH. Qed.
Lemma contains_pad c v : c <> " "%char -> contains c v = false -> contains c (pad_left 8 v) = false /\ contains c (pad_right 8 v) = false.
Proof. intros Hc Hv. unfold pad_left, pad_right. rewrite !contains_app, Hv, contains_spaces by exact Hc. split; reflexivity. Qed.
Lemma line_plain h vs tail : length h = 8 -> contains "$" h = false -> contains tab h = false -> Forall value_ok vs ->
  contains "$" tail = false -> contains tab tail = false -> plain (concat (blocks h vs) ++ tail).
Proof.
  intros Hl H1 H2 Hv H3 H4. unfold plain. rewrite !contains_app, H3, H4, !orb_false_r.
  split; [|split]; [apply contains_concat; constructor; [exact H1|] |apply contains_concat; constructor; [exact H2|]|].
  - apply Forall_map. eapply Forall_impl; [|exact Hv]. intros v (_ & _ & Hd & _). now apply contains_pad.
  - apply Forall_map. eapply Forall_impl; [|exact Hv]. intros v (_ & _ & _ & Hd). now apply contains_pad.
  - destruct h; [discriminate|]. cbn. discriminate.
Qed.

(** Continuation marks. *)
Definition sep (n : Z) : str := "+"%char :: int_text n.
Lemma digits_contains c d : is_digit c = false -> forallb is_digit d = true -> contains c d = false.
Proof. intros Hc Hd. apply contains_false. intros Hin. rewrite forallb_forall in Hd. rewrite (Hd c Hin) in Hc. discriminate. Qed.
Lemma sep_spec n : (0 <= n < 10 ^ 7)%Z -> length (sep n) <= 8 /\ contains "$" (sep n) = false /\ contains tab (sep n) = false /\
  trim (sep n) <> [] /\ contains "," (sep n) = false.
Proof.
  intros H. unfold sep, int_text. destruct (Z.ltb_spec n 0); [lia|]. destruct (nat_text_spec n ltac:(lia)) as (D & V & N).
  pose proof (nat_text_length n 6 ltac:(cbn; lia)) as L.
  split; [cbn [length]; lia|].
  split; [change (contains "$" ("+"%char :: nat_text n)) with (contains "$" (nat_text n)); now apply digits_contains|].
  split; [change (contains tab ("+"%char :: nat_text n)) with (contains tab (nat_text n)); now apply digits_contains|].
  split; [|change (contains "," ("+"%char :: nat_text n)) with (contains "," (nat_text n)); now apply digits_contains].
  rewrite trim_nil_iff. cbn [forallb]. change (is_space "+") with false. discriminate.
Qed.

(** The printer only looks at the field count modulo its period. *)
Definition print9 (vs : list str) (j : nat) (counter : Z) (cur : str) : list str * Z :=
  print_fields 8 9 (map (pad_left 8) vs) j counter cur.

Lemma print_mod fs : forall j j' counter cur, j mod 9 = j' mod 9 -> print_fields 8 9 fs j counter cur = print_fields 8 9 fs j' counter cur.
Proof.
  induction fs as [|f r IH]; intros j j' counter cur H; [reflexivity|]. cbn [print_fields].
  assert (Hs : forall a b, a mod 9 = b mod 9 -> S a mod 9 = S b mod 9).
  { intros a b E. rewrite <- (Nat.add_1_r a), <- (Nat.add_1_r b), Nat.add_mod, E, <- Nat.add_mod by lia. reflexivity. }
  rewrite (Hs _ _ H). destruct (S j' mod 9 =? 0).
  - rewrite (IH (S (S j)) (S (S j'))) by (apply Hs, Hs, H). reflexivity.
  - apply IH, Hs, H.
Qed.

Definition nlines (n : nat) : nat := (n + 7) / 8.

(** Everything the reader needs to know about the lines printed. *)
Lemma print_spec vs : forall done h counter, length h = 8 -> contains "$" h = false -> contains tab h = false ->
  Forall value_ok done -> length done <= 8 -> Forall value_ok vs ->
  (0 <= counter)%Z -> (counter + Z.of_nat (length vs) < 10 ^ 7)%Z ->
  exists l0 conts c', print9 vs (length done) counter (concat (blocks h done)) = (l0 :: conts, c') /\
    firstn 8 l0 = h /\ plain l0 /\ chain false l0 (map (pair false) conts) /\
    (exists k, lastk false l0 (map (pair false) conts) = k /\
      concat (map (fun c => line_data (fst c) (snd c)) ((false, l0) :: map (pair false) conts)) = done ++ vs ++ repeat [] k) /\
    (counter <= c')%Z /\ Forall (fun l => exists n, firstn 1 l = firstn 1 (sep n)) conts.
Proof.
  induction vs as [|v vs IH]; intros done h counter Hh Hd Ht Hdone Hl Hvs Hc0 Hc; unfold print9.
  - exists (concat (blocks h done)), [], counter. cbn [map print_fields].
    assert (Hx : concat (blocks h done) = concat (blocks h done) ++ []) by now rewrite app_nil_r.
    split; [reflexivity|]. split.
    { cbn [blocks concat]. rewrite firstn_app, Hh, Nat.sub_diag, firstn_O, app_nil_r. apply firstn_all2. lia. }
    split; [rewrite Hx; apply line_plain; auto|].
    split; [cbn [chain]; rewrite Hx, mark_line; auto; cbn; lia|].
    split; [|split; [lia|constructor]].
    eexists. split; [reflexivity|]. cbn [lastk concat map fst snd app]. rewrite app_nil_r. rewrite Hx at 1. rewrite data_line by auto.
    rewrite chop_line by assumption. reflexivity.
  - inversion Hvs as [|? ? Hv Hvs']; subst. cbn [length] in Hc.
    cbn [map print_fields]. destruct (Nat.eq_dec (length done) 8) as [E|E].
    + rewrite E. cbn [Nat.modulo Nat.eqb]. change (9 mod 9 =? 0) with true. cbv iota.
      set (n := (counter + 1)%Z). fold (sep n).
      destruct (sep_spec n ltac:(unfold n; lia)) as (S1 & S2 & S3 & S4 & S5).
      set (h' := pad_right 8 (sep n)).
      assert (Hh' : length h' = 8) by (apply pad_right_length, S1).
      destruct (contains_pad "$" (sep n) ltac:(discriminate) S2) as [_ Hd']. destruct (contains_pad tab (sep n) ltac:(discriminate) S3) as [_ Ht'].
      assert (Hcur : h' ++ pad_left 8 v = concat (blocks h' [v])) by (cbn; now rewrite app_nil_r).
      rewrite Hcur.
      destruct (IH [v] h' n Hh' Hd' Ht' (Forall_cons _ Hv (Forall_nil _)) ltac:(cbn; lia) Hvs' ltac:(unfold n; lia) ltac:(unfold n; lia)) as (l1 & conts & c' & P1 & P2 & P3 & P4 & (k & P5 & P6) & P7 & P8).
      unfold print9 in P1. rewrite (print_mod _ 10 1) by reflexivity. cbn [length] in P1. rewrite P1.
      exists (concat (blocks h done) ++ sep n), (l1 :: conts), c'.
      split; [reflexivity|]. split.
      { cbn [blocks concat]. rewrite <- app_assoc, firstn_app, Hh, Nat.sub_diag, firstn_O, app_nil_r. apply firstn_all2. lia. }
      split; [apply line_plain; auto|].
      split; [cbn [map chain]; split; [exact P3|split; [left; split; [rewrite mark_line; auto; lia|reflexivity]|exact P4]]|].
      split; [|split; [unfold n in P7; lia|]].
      * exists k. cbn [map lastk]. split; [exact P5|]. cbn [map] in P6. cbn [map concat fst snd] in *. rewrite P6.
        rewrite data_line by (auto; lia). rewrite E. cbn [Nat.sub repeat]. rewrite app_nil_r. reflexivity.
      * constructor; [|exact P8]. exists n. assert (firstn 1 l1 = firstn 1 (firstn 8 l1)) as -> by (rewrite firstn_firstn; reflexivity).
        rewrite P2. reflexivity.
    + assert (Hm : (S (length done) mod 9 =? 0) = false) by (apply Nat.eqb_neq; rewrite Nat.mod_small by lia; discriminate).
      rewrite Hm.
      assert (Hcur : concat (blocks h done) ++ pad_left 8 v = concat (blocks h (done ++ [v]))).
      { cbn [blocks concat]. rewrite map_app, concat_app. cbn. now rewrite app_nil_r, <- app_assoc. }
      rewrite Hcur.
      destruct (IH (done ++ [v]) h counter Hh Hd Ht) as (l0 & conts & c' & P1 & P2 & P3 & P4 & (k & P5 & P6) & P7 & P8);
        [apply Forall_app; split; [exact Hdone|constructor; [exact Hv|constructor]]|rewrite app_length; cbn; lia|exact Hvs'|lia|lia|].
      rewrite app_length in P1. cbn [length] in P1. rewrite Nat.add_1_r in P1. unfold print9 in P1.
      exists l0, conts, c'. split; [exact P1|]. split; [exact P2|]. split; [exact P3|]. split; [exact P4|].
      split; [exists k; split; [exact P5|etransitivity; [exact P6|rewrite <- app_assoc; reflexivity]]|]. split; [exact P7|exact P8].
Qed.
