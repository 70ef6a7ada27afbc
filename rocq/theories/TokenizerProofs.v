(** Lemmas about the tokenizer. *)
From Coq Require Import Ascii String ZArith List Bool Arith Lia.
From Verif Require Import Base TextModel TextProofs TokenizerModel.
Import ListNotations.
Open Scope nat_scope.
Open Scope list_scope.

Lemma map_repeat {A B} (f : A -> B) x n : map f (repeat x n) = repeat (f x) n.
Proof. induction n; cbn; [reflexivity|]. now rewrite IHn. Qed.

(** ** Columns *)

(** The unconditional columns of a line for the widths [ws]. *)
Fixpoint cols (ws : list nat) (l : str) : list str :=
  match ws with [] => [] | w :: ws => firstn w l :: cols ws (skipn w l) end.

Lemma cols_nil ws : cols ws [] = repeat [] (length ws).
Proof. induction ws as [|w ws IH]; cbn; [reflexivity|]. rewrite skipn_nil, IH. now destruct w. Qed.
Lemma chop_cols ws l : chop ws l ++ repeat [] (length ws - length (chop ws l)) = cols ws l.
Proof.
  revert l. induction ws as [|w ws IH]; intros l; cbn [chop cols]; [reflexivity|].
  destruct l as [|c l].
  - cbn [length app]. rewrite Nat.sub_0_r. rewrite firstn_nil, skipn_nil, cols_nil. reflexivity.
  - cbn [length app]. f_equal. apply IH.
Qed.
Lemma chop_length ws l : length (chop ws l) <= length ws.
Proof. revert l. induction ws as [|w ws IH]; intros [|c l]; cbn [chop length]; try lia. specialize (IH (skipn w (c :: l))). lia. Qed.

Lemma scan_tokens_spec fm count toks fs n e :
  count < fm -> scan_tokens fm count toks = (fs, n, e) ->
  let pad := toks ++ repeat [] (fm - count - length toks) in
  fs ++ repeat [] (fm - n) =
    (match count with
     | O => match firstn fm pad with [] => [] | t :: r => erase_char "*" (trim t) :: map trim r end
     | S _ => map trim (firstn (fm - count) pad) end) /\
  n <= fm /\ count <= n /\
  e = negb (null (trim (nth (fm - count) toks []))) /\ (n = fm <-> fm - count <= length toks) /\ n = Nat.min fm (count + length toks).
Proof.
  revert count fs n e. induction toks as [|t r IH]; intros count fs n e Hc H; cbn [scan_tokens] in H.
  - injection H as <- <- <-. cbn [length app]. rewrite Nat.sub_0_r. split.
    + destruct count.
      * rewrite Nat.sub_0_r. rewrite firstn_all2 by (rewrite repeat_length; lia). destruct fm; [lia|]. cbn [repeat app]. f_equal.
        rewrite map_repeat. reflexivity.
      * rewrite firstn_all2 by (rewrite repeat_length; lia). rewrite map_repeat. reflexivity.
    + split; [lia|]. split; [lia|]. split; [now destruct (fm - count)|]. split; [split; lia|lia].
  - destruct (Nat.eqb_spec (S count) fm) as [E|E].
    + injection H as <- <- <-. subst fm. replace (S count - count) with 1 by lia. rewrite Nat.sub_diag. cbn [repeat app].
      split; [|split; [lia|split; [lia|split; [|cbn [length]; split; [split; lia|lia]]]]].
      * destruct count; cbn; reflexivity.
      * cbn. now destruct r.
    + destruct (scan_tokens fm (S count) r) as [[fs' n'] e'] eqn:Es. injection H as <- <- <-.
      specialize (IH (S count) fs' n' e' ltac:(lia) Es). cbv zeta in IH. destruct IH as (I1 & I2 & I3 & I4 & I5 & I6).
      replace (fm - count) with (S (fm - S count)) by lia.
      split; [|split; [lia|split; [lia|split; [exact I4|cbn [length]; split; [rewrite I5; split; lia|lia]]]]].
      cbn [app length]. rewrite I1. replace (S (fm - S count) - S (length r)) with (fm - S count - length r) by lia.
      destruct count.
      * destruct fm as [|fm]; [lia|]. cbn [firstn app]. rewrite (Nat.sub_succ fm 0), Nat.sub_0_r. reflexivity.
      * cbn [firstn app map]. reflexivity.
Qed.

Lemma scan_tokens_count fm count t r fs n e :
  scan_tokens fm count (t :: r) = (fs, n, e) -> count < fm -> count < n.
Proof.
  cbn [scan_tokens]. destruct (Nat.eqb_spec (S count) fm) as [E|E]; [intros H _; injection H as _ <- _; lia|].
  destruct (scan_tokens fm (S count) r) as [[fs' n'] e'] eqn:Es. intros H Hc. injection H as _ <- _.
  destruct (scan_tokens_spec fm (S count) r fs' n' e' ltac:(lia) Es) as (_ & _ & S3 & _). lia.
Qed.

(** ** Plain lines *)

Definition plain (l : str) : Prop := contains "$" l = false /\ contains tab l = false /\ l <> [].

Lemma expand_plain long pos l : contains tab l = false -> expand long pos l = l.
Proof.
  revert pos. unfold contains. induction l as [|c l IH]; intros pos; cbn [existsb expand]; [reflexivity|].
  rewrite orb_false_iff. intros [H1 H2]. rewrite Ascii.eqb_sym, H1. now rewrite IH.
Qed.

Lemma read_plain first l ls : plain l -> (first = true -> forallb is_blank l = false) ->
  readLineSkipComment first (l :: ls) = Some (l, ls).
Proof.
  intros (Hd & Ht & Hn) Hf. cbn [readLineSkipComment].
  assert (starts "$" l = false) as ->.
  { unfold contains in Hd. destruct l as [|c l]; [reflexivity|]. cbn in *. apply orb_false_iff in Hd. rewrite Ascii.eqb_sym. tauto. }
  rewrite before_first_none by exact Hd.
  assert (null l = false) as -> by (destruct l; [congruence|reflexivity]).
  destruct (forallb is_blank l) eqn:Eb; cbn.
  - destruct first; cbn; [discriminate (Hf eq_refl)|reflexivity].
  - reflexivity.
Qed.

Lemma skip_dollar_plain l ls : starts "$" l = false -> skip_dollar (l :: ls) = l :: ls.
Proof. intros H. cbn. now rewrite H. Qed.

Lemma starts_dollar_plain l : contains "$" l = false -> starts "$" l = false.
Proof. unfold contains. destruct l as [|c l]; [reflexivity|]. cbn. rewrite orb_false_iff, Ascii.eqb_sym. tauto. Qed.

(** What one call of splitFixedFormat extracts from its line. *)
Definition line_keyword (l : str) : str := erase_char "*" (trim (firstn 8 l)).
Definition line_data (long : bool) (l : str) : list str :=
  map trim (firstn (fieldMax long - 1) (tl (cols (offsets long) l))).
Definition line_mark (long : bool) (l : str) : str := trim (nth (fieldMax long) (cols (offsets long) l) []).
Definition line_full (long : bool) (l : str) : Prop := (if long then 56 else 64) < length l.

Lemma chop_nth ws l k : nth k (chop ws l) [] = nth k (cols ws l) [].
Proof.
  rewrite <- chop_cols. destruct (Nat.lt_ge_cases k (length (chop ws l))).
  - now rewrite app_nth1.
  - rewrite nth_overflow by assumption. rewrite app_nth2 by assumption. now rewrite nth_repeat.
Qed.

Lemma chop_gt ws l k : Forall (fun w => 0 < w) ws -> k < length ws ->
  (k < length (chop ws l) <-> list_sum (firstn k ws) < length l).
Proof.
  revert l k. induction ws as [|w ws IH]; intros l k Hw Hk; cbn [length] in Hk; [lia|].
  inversion Hw as [|? ? H1 H2]; subst.
  destruct l as [|c l]; [cbn [chop length]; lia|].
  destruct k as [|k]; cbn [chop length firstn]; [cbn; lia|].
  change (list_sum (w :: firstn k ws)) with (w + list_sum (firstn k ws)).
  rewrite <- Nat.succ_lt_mono. rewrite IH by (auto; lia). rewrite skipn_length. cbn [length]. lia.
Qed.

Lemma toks_first long l fs n e :
  scan_tokens (fieldMax long) 0 (chop (offsets long) l) = (fs, n, e) ->
  fs ++ repeat [] (fieldMax long - n) = line_keyword l :: line_data long l /\
  n <= fieldMax long /\ 1 <= S n /\ e = negb (null (line_mark long l)) /\
  (n = fieldMax long <-> line_full long l) /\ n = Nat.min (fieldMax long) (length (chop (offsets long) l)).
Proof.
  intros H. assert (Hfm : 0 < fieldMax long) by (destruct long; cbn; lia).
  destruct (scan_tokens_spec _ _ _ _ _ _ Hfm H) as (S1 & S2 & S3 & S4 & S5 & S6). rewrite Nat.sub_0_r in *.
  assert (Hfl : fieldMax long + 1 = length (offsets long)) by (destruct long; reflexivity).
  split; [|split; [exact S2|split; [lia|split]]].
  - rewrite S1. unfold line_keyword, line_data.
    assert (firstn (fieldMax long) (chop (offsets long) l ++ repeat [] (fieldMax long - length (chop (offsets long) l)))
            = firstn (fieldMax long) (cols (offsets long) l)) as ->.
    { rewrite <- chop_cols. rewrite !firstn_app. f_equal.
      rewrite <- Hfl. set (k := length (chop (offsets long) l)).
      rewrite <- (firstn_all2 (n := fieldMax long - k) (repeat [] (fieldMax long - k))) by (rewrite repeat_length; lia).
      replace (fieldMax long + 1 - k) with ((fieldMax long - k) + (fieldMax long + 1 - k - (fieldMax long - k))) by lia.
      rewrite repeat_app, firstn_firstn, Nat.min_id, firstn_app, repeat_length, Nat.sub_diag, firstn_O, app_nil_r. reflexivity. }
    destruct long; reflexivity.
  - rewrite S4. unfold line_mark. now rewrite chop_nth.
  - split; [|exact S6]. rewrite S5. unfold line_full. destruct long; cbn [fieldMax].
    + change (5 <= length (chop (offsets true) l)) with (4 < length (chop (offsets true) l)).
      rewrite chop_gt; [cbn; lia| |cbn; lia]. repeat constructor; lia.
    + change (9 <= length (chop (offsets false) l)) with (8 < length (chop (offsets false) l)).
      rewrite chop_gt; [cbn; lia| |cbn; lia]. repeat constructor; lia.
Qed.

Lemma toks_next long l t toks fs n e :
  chop (offsets long) l = t :: toks ->
  scan_tokens (fieldMax long) 1 toks = (fs, n, e) ->
  fs ++ repeat [] (fieldMax long - n) = line_data long l /\
  n <= fieldMax long /\ 1 <= n /\ e = negb (null (line_mark long l)) /\
  (n = fieldMax long <-> line_full long l) /\ n = Nat.min (fieldMax long) (length (chop (offsets long) l)).
Proof.
  intros Ht H. assert (Hfm : 1 < fieldMax long) by (destruct long; cbn; lia).
  destruct (scan_tokens_spec _ _ _ _ _ _ Hfm H) as (S1 & S2 & S3 & S4 & S5 & S6).
  assert (Hfl : fieldMax long + 1 = length (offsets long)) by (destruct long; reflexivity).
  pose proof (chop_cols (offsets long) l) as Hc. rewrite Ht in Hc. cbn [app length] in Hc.
  split; [|split; [exact S2|split; [lia|split]]].
  - rewrite S1. unfold line_data. rewrite <- Hc. cbn [tl]. f_equal.
    rewrite !firstn_app. f_equal.
    rewrite <- Hfl. set (k := length toks).
    replace (fieldMax long + 1 - S k) with ((fieldMax long - 1 - k) + (fieldMax long + 1 - S k - (fieldMax long - 1 - k))) by lia.
    rewrite repeat_app, firstn_app, repeat_length, Nat.sub_diag, firstn_O, app_nil_r. reflexivity.
  - rewrite S4. unfold line_mark. rewrite <- chop_nth, Ht. destruct long; reflexivity.
  - split; [|rewrite Ht; exact S6]. rewrite S5. unfold line_full.
    assert (length (chop (offsets long) l) = S (length toks)) as Hl by now rewrite Ht.
    destruct long; cbn [fieldMax] in *.
    + transitivity (4 < length (chop (offsets true) l)); [rewrite Hl; lia|].
      rewrite chop_gt; [cbn; lia| |cbn; lia]. repeat constructor; lia.
    + transitivity (8 < length (chop (offsets false) l)); [rewrite Hl; lia|].
      rewrite chop_gt; [cbn; lia| |cbn; lia]. repeat constructor; lia.
Qed.

(** ** Cards on several lines *)

(** The stream after the card: nothing that the reader takes for a continuation. *)
Definition stops (ls : list str) : Prop :=
  match ls with
  | [] => True
  | l :: _ => match l with
              | [] => True
              | c :: _ => ~ In c [" "%char; "+"%char; "*"%char; tab; "$"%char]
              end
  end.

(** [chain long l conts]: the continuation lines [conts] (with the format the
    reader gives them) properly follow the line [l]. *)
Fixpoint chain (long : bool) (l : str) (conts : list (bool * str)) : Prop :=
  match conts with
  | [] => line_mark long l = []
  | (long', l') :: r =>
    plain l' /\
    ((line_mark long l <> [] /\ long' = long) \/
     (starts "+" l' = true /\ line_full long l /\ long' = long) \/
     (line_mark long l = [] /\ starts " " l' = true /\ long' = false) \/
     (line_mark long l = [] /\ starts "*" l' = true /\ long' = true)) /\
    chain long' l' r
  end.

Lemma stops_peek ls cs : stops ls -> incl cs [" "%char; "+"%char; "*"%char; tab] -> peek_in cs ls = false.
Proof.
  intros H Hi. unfold peek_in, peek. destruct ls as [|[|c l] ls]; [reflexivity| |].
  - destruct (existsb (Ascii.eqb newline) cs) eqn:E; [|reflexivity]. apply existsb_exists in E. destruct E as (x & Hx & E). apply Ascii.eqb_eq in E. subst x.
    apply Hi in Hx. cbn in Hx. destruct Hx as [X|[X|[X|[X|[]]]]]; discriminate X.
  - destruct (existsb (Ascii.eqb c) cs) eqn:E; [|reflexivity]. apply existsb_exists in E. destruct E as (x & Hx & E). apply Ascii.eqb_eq in E. subst x.
    apply Hi in Hx. cbn in H. exfalso. apply H. cbn in *. tauto.
Qed.
Lemma stops_dollar ls : stops ls -> skip_dollar ls = ls.
Proof.
  destruct ls as [|[|c l] ls]; cbn; [reflexivity|reflexivity|]. intros H.
  destruct (Ascii.eqb_spec c "$") as [->|]; [exfalso; apply H; tauto|reflexivity].
Qed.

Lemma peek_starts c l ls : starts c l = true -> peek_in [c] (l :: ls) = true.
Proof. destruct l as [|x l]; [discriminate|]. cbn. intros ->. reflexivity. Qed.

(** The number of missing fields on the last line. *)
Fixpoint lastk (long : bool) (l : str) (conts : list (bool * str)) : nat :=
  match conts with
  | [] => fieldMax long - length (chop (offsets long) l)
  | (long', l') :: r => lastk long' l' r
  end.

Lemma splitFixed_chain conts : forall fuel long first l vec rest,
  plain l -> chain long l conts -> stops rest -> length conts < fuel ->
  exists fields k, splitFixed fuel long first l vec (map snd conts ++ rest) = Ok (vec ++ fields, rest) /\
    k = lastk long l conts /\
    fields ++ repeat [] k =
      (if first then [line_keyword l] else []) ++ concat (map (fun c => line_data (fst c) (snd c)) ((long, l) :: conts)).
Proof.
  induction conts as [|[long' l'] conts IH]; intros fuel long first l vec rest Hp Hc Hs Hf;
    (destruct fuel as [|fuel]; [cbn in Hf; lia|]); cbn [splitFixed]; unfold replaceTabs; rewrite expand_plain by apply Hp.
  - (* last line *)
    cbn [map app snd]. cbn [chain] in Hc. rewrite (stops_dollar rest Hs).
    assert (He : forall b, b = negb (null (line_mark long l)) -> b || peek_in ["+"%char] rest = false).
    { intros b ->. rewrite Hc. rewrite (stops_peek _ _ Hs); [reflexivity|]. intros x [<-|[]]; cbn; tauto. }
    assert (Hpk : peek_in [" "%char; "+"%char; "*"%char; tab] rest = false) by (apply stops_peek; [assumption|intros x Hx; exact Hx]).
    destruct first.
    + cbn [bind]. destruct (scan_tokens (fieldMax long) 0 _) as [[fs n] e] eqn:Es.
      destruct (toks_first _ _ _ _ _ Es) as (T1 & T2 & T3 & T4 & T5 & T6). rewrite (He e T4), Hpk.
      exists fs, (fieldMax long - n). split; [reflexivity|].
      split; [|cbn [concat map fst snd]; rewrite app_nil_r; exact T1].
      cbn [lastk]. rewrite T6. lia.
    + destruct (chop (offsets long) l) as [|t toks] eqn:Et.
      { destruct Hp as (_ & _ & Hne). destruct l; [congruence|]. destruct long; discriminate. }
      cbn [bind]. destruct (scan_tokens (fieldMax long) 1 toks) as [[fs n] e] eqn:Es.
      destruct (toks_next _ _ _ _ _ _ _ Et Es) as (T1 & T2 & T3 & T4 & T5 & T6). rewrite (He e T4), Hpk.
      exists fs, (fieldMax long - n). split; [reflexivity|].
      split; [cbn [lastk]; rewrite Et in T6; rewrite T6, Et; lia|cbn [concat map fst snd app]; rewrite app_nil_r; exact T1].
  - (* continued *)
    cbn [map app snd]. cbn [chain] in Hc. destruct Hc as (Hp' & Hcase & Hch).
    assert (Hd : starts "$" l' = false) by (apply starts_dollar_plain, Hp').
    rewrite (skip_dollar_plain _ _ Hd).
    rewrite (read_plain false l' (map snd conts ++ rest) Hp') by discriminate.
    assert (Hgo : forall fs n e pre, fs ++ repeat [] (fieldMax long - n) = pre ++ line_data long l ->
      n <= fieldMax long -> e = negb (null (line_mark long l)) -> (n = fieldMax long <-> line_full long l) ->
      pre = (if first then [line_keyword l] else []) ->
      exists fields k,
       (if e || peek_in ["+"%char] (l' :: map snd conts ++ rest)
        then splitFixed fuel long false l' (vec ++ fs) (map snd conts ++ rest)
        else if peek_in [" "%char; "+"%char; "*"%char; tab] (l' :: map snd conts ++ rest)
        then splitFixed fuel (peek_in ["*"%char] (l' :: map snd conts ++ rest)) false l'
             ((vec ++ fs) ++ repeat [] (fieldMax long - n)) (map snd conts ++ rest)
        else Ok (vec ++ fs, l' :: map snd conts ++ rest)) = Ok (vec ++ fields, rest) /\ k = lastk long' l' conts /\
       fields ++ repeat [] k = pre ++ concat (map (fun c => line_data (fst c) (snd c)) ((long, l) :: (long', l') :: conts))).
    { intros fs n e pre T1 T2 T4 T5 Hpre.
      assert (Hrec : forall vec', exists fields k, splitFixed fuel long' false l' vec' (map snd conts ++ rest) = Ok (vec' ++ fields, rest) /\
         k = lastk long' l' conts /\ fields ++ repeat [] k = concat (map (fun c => line_data (fst c) (snd c)) ((long', l') :: conts))).
      { intros vec'. apply (IH fuel long' false l' vec' rest); auto. cbn in Hf. lia. }
      assert (Hfin : forall fs', fs' = fs ++ repeat [] (fieldMax long - n) -> exists fields k,
          splitFixed fuel long' false l' (vec ++ fs') (map snd conts ++ rest) = Ok (vec ++ fields, rest) /\ k = lastk long' l' conts /\
          fields ++ repeat [] k = pre ++ concat (map (fun c => line_data (fst c) (snd c)) ((long, l) :: (long', l') :: conts))).
      { intros fs' ->. destruct (Hrec (vec ++ fs ++ repeat [] (fieldMax long - n))) as (fields & k & R1 & R2 & R3).
        exists ((fs ++ repeat [] (fieldMax long - n)) ++ fields), k. split; [rewrite R1, !app_assoc; reflexivity|]. split; [exact R2|].
        rewrite <- (app_assoc _ fields), R3, T1. cbn [map concat fst snd]. rewrite <- app_assoc. reflexivity. }
      assert (Hfull : n = fieldMax long -> fs = fs ++ repeat [] (fieldMax long - n)) by (intros ->; rewrite Nat.sub_diag; cbn; now rewrite app_nil_r).
      destruct Hcase as [[Hm ->]|[(Hst & Hfu & ->)|[(Hm & Hst & ->)|(Hm & Hst & ->)]]].
      - assert (e = true) as -> by (rewrite T4; destruct (line_mark long l); [congruence|reflexivity]). cbn [orb].
        apply Hfin, Hfull, T5. unfold line_mark in Hm. unfold line_full.
        destruct (Nat.lt_ge_cases (if long then 56 else 64) (length l)) as [|Hge]; [assumption|exfalso; apply Hm].
        rewrite <- chop_nth. rewrite nth_overflow; [reflexivity|].
        destruct (Nat.lt_ge_cases (fieldMax long) (length (chop (offsets long) l))) as [Hlt|]; [|assumption]. exfalso.
        apply chop_gt in Hlt; [destruct long; cbn in *; lia| |destruct long; cbn; lia]. destruct long; repeat constructor; lia.
      - rewrite (peek_starts _ _ _ Hst), orb_true_r. apply Hfin, Hfull, T5, Hfu.
      - rewrite T4, Hm. cbn [null negb orb]. destruct l' as [|c l'']; [discriminate|]. cbn in Hst. apply Ascii.eqb_eq in Hst. subst c.
        cbn [peek_in peek existsb]. change (Ascii.eqb " " "+") with false. change (Ascii.eqb " " " ") with true. change (Ascii.eqb " " "*") with false.
        cbn [orb]. rewrite <- app_assoc. now apply Hfin.
      - rewrite T4, Hm. cbn [null negb orb]. destruct l' as [|c l'']; [discriminate|]. cbn in Hst. apply Ascii.eqb_eq in Hst. subst c.
        cbn [peek_in peek existsb]. change (Ascii.eqb "*" "+") with false. change (Ascii.eqb "*" " ") with false. change (Ascii.eqb "*" "*") with true.
        cbn [orb]. rewrite <- app_assoc. now apply Hfin. }
    destruct first.
    + cbn [bind]. destruct (scan_tokens (fieldMax long) 0 _) as [[fs n] e] eqn:Es.
      destruct (toks_first _ _ _ _ _ Es) as (T1 & T2 & T3 & T4 & T5 & T6).
      apply (Hgo fs n e [line_keyword l]); auto.
    + destruct (chop (offsets long) l) as [|t toks] eqn:Et.
      { destruct Hp as (_ & _ & Hne). destruct l; [congruence|]. destruct long; discriminate. }
      cbn [bind]. destruct (scan_tokens (fieldMax long) 1 toks) as [[fs n] e] eqn:Es.
      destruct (toks_next _ _ _ _ _ _ _ Et Es) as (T1 & T2 & T3 & T4 & T5 & T6).
      apply (Hgo fs n e []); auto.
Qed.

(** ** Free format *)

Lemma read_nodollar first l ls : contains "$" l = false -> l <> [] -> (first = true -> forallb is_blank l = false) ->
  readLineSkipComment first (l :: ls) = Some (l, ls).
Proof.
  intros Hd Hn Hf. cbn [readLineSkipComment]. rewrite (starts_dollar_plain _ Hd).
  rewrite before_first_none by exact Hd.
  assert (null l = false) as -> by (destruct l; [congruence|reflexivity]).
  destruct (forallb is_blank l) eqn:Eb; cbn.
  - destruct first; cbn; [discriminate (Hf eq_refl)|reflexivity].
  - reflexivity.
Qed.

(** No field examined by the marker search begins with '+'. *)
Fixpoint no_marks (k : nat) (l : list str) : Prop :=
  match l with
  | [] => True
  | x :: r => match k with
              | O => starts "+" (trim x) = false /\ no_marks 7 r
              | S k => no_marks k r
              end
  end.

Lemma erase_marks_none l : forall k, no_marks k l -> erase_marks k l = (l, false).
Proof.
  induction l as [|x r IH]; intros k; cbn [no_marks erase_marks]; [reflexivity|].
  destruct k; [intros [-> H]|intros H]; rewrite IH by assumption; reflexivity.
Qed.
Lemma erase_marks_end l m : forall k, k < 8 -> no_marks k l -> length l mod 8 = k -> starts "+" (trim m) = true ->
  erase_marks k (l ++ [m]) = (l, true).
Proof.
  induction l as [|x r IH]; intros k Hk; cbn [no_marks erase_marks app length].
  - intros _ <- Hm. cbn [Nat.modulo]. cbn. now rewrite Hm.
  - intros Hn Hl Hm.
    assert (Hs : length r mod 8 = match k with O => 7 | S k => k end).
    { destruct k.
      - assert (S (length r) mod 8 = 0) by exact Hl. pose proof (Nat.div_mod (S (length r)) 8 ltac:(lia)).
        symmetry. apply (Nat.mod_unique (length r) 8 (S (length r) / 8 - 1) 7); lia.
      - pose proof (Nat.div_mod (S (length r)) 8 ltac:(lia)). symmetry.
        apply (Nat.mod_unique (length r) 8 (S (length r) / 8) k); lia. }
    destruct k.
    + destruct Hn as [-> Hn]. rewrite IH by (auto; lia). reflexivity.
    + rewrite IH by (auto; lia). reflexivity.
Qed.
Lemma no_marks_nth k l : no_marks k l <-> (forall i, starts "+" (trim (nth (k + 8 * i) l [])) = false).
Proof.
  revert k. induction l as [|x r IH]; intros k; cbn [no_marks].
  - split; [intros _ i; now destruct (k + 8 * i)|trivial].
  - destruct k; rewrite IH; split.
    + intros [H1 H2] [|i]; [exact H1|]. replace (0 + 8 * S i) with (S (7 + 8 * i)) by lia. apply H2.
    + intros H. split; [exact (H 0)|]. intros i. specialize (H (S i)). now replace (0 + 8 * S i) with (S (7 + 8 * i)) in H by lia.
    + intros H i. exact (H i).
    + intros H i. exact (H i).
Qed.
Lemma no_marks_app k l l' : no_marks k (l ++ l') -> no_marks k l.
Proof.
  revert k. induction l as [|x r IH]; intros k; cbn; [trivial|]. destruct k; [intros [H1 H2]; split; [exact H1|]; now apply IH in H2|apply IH].
Qed.

(** A free-format card: each line holds data fields, and possibly a final
    continuation mark; every line but the first has a first field which is not
    data. *)
Record fline := mkFLine { fhead : str; fdata : list str; fmark : option str }.
Definition flast (f : fline) : list str := fdata f ++ match fmark f with Some m => [m] | None => [] end.
Definition ftext (f : fline) : str := join "," (fhead f :: flast f).

Definition good_piece (x : str) : Prop := contains "," x = false /\ contains "$" x = false.
Definition good_line (f : fline) : Prop := Forall good_piece (fhead f :: flast f) /\ flast f <> [].

(** [fchain n f r]: continuation lines [r] follow [f] properly, [n] data fields
    (keyword included) having been read before the data of [f]. *)
Fixpoint fchain (n : nat) (f : fline) (r : list fline) : Prop :=
  good_line f /\
  match r with
  | [] => fmark f = None
  | f' :: r' =>
    match fmark f with
    | Some m => starts "+" (trim m) = true /\ (n + length (fdata f)) mod 8 = 1
    | None => fhead f' = [] \/ starts "+" (fhead f') = true \/ starts "*" (fhead f') = true
    end /\ fchain (n + length (fdata f)) f' r'
  end.

Definition stops_free (ls : list str) : Prop := peek_in [","%char; "+"%char; "*"%char] ls = false.

Lemma contains_app c a b : contains c (a ++ b) = contains c a || contains c b.
Proof. unfold contains. apply existsb_app. Qed.
Lemma join_cons c f fs : fs <> [] -> join c (f :: fs) = f ++ c :: join c fs.
Proof. destruct fs; [congruence|reflexivity]. Qed.
Lemma join_contains d c fs : Forall (fun f => contains d f = false) fs -> Ascii.eqb d c = false -> contains d (join c fs) = false.
Proof.
  intros H Hd. induction fs as [|f fs IH]; [reflexivity|]. inversion H as [|? ? H1 H2]; subst.
  destruct fs as [|g fs]; [exact H1|]. rewrite join_cons by discriminate. rewrite contains_app, H1.
  change (contains d (c :: join c (g :: fs))) with (Ascii.eqb d c || contains d (join c (g :: fs))). rewrite Hd. now apply IH.
Qed.
Lemma good_forallb fs : Forall good_piece fs -> forallb (fun f => negb (contains "," f)) fs = true.
Proof. intros H. apply forallb_forall. intros x Hx. rewrite Forall_forall in H. destruct (H x Hx) as [-> _]. reflexivity. Qed.
Lemma good_text f : good_line f -> contains "$" (ftext f) = false /\ ftext f <> [] /\
  after_first "," (ftext f) = Some (join "," (flast f)) /\ split_on "," (join "," (flast f)) = flast f /\
  split_on "," (ftext f) = fhead f :: flast f.
Proof.
  intros [Hg Hn]. unfold ftext. inversion Hg as [|? ? Hh Hl]; subst.
  split; [apply join_contains; [eapply Forall_impl; [|exact Hg]; intros a Ha; apply Ha|reflexivity]|].
  rewrite join_cons by exact Hn. split; [destruct (fhead f); discriminate|].
  split; [apply after_first_app, Hh|]. split; [apply split_join; [exact Hn|now apply good_forallb]|].
  rewrite split_on_app by apply Hh. f_equal. apply split_join; [exact Hn|now apply good_forallb].
Qed.

Lemma splitFree_chain r : forall fuel (first : bool) f (vec rest : list str),
  fchain (length (if first then [fhead f] else vec)) f r -> stops_free rest -> length r < fuel ->
  let all := (if first then [fhead f] else vec) ++ concat (map fdata (f :: r)) in
  no_marks 1 all ->
  splitFree fuel first (ftext f) vec (map ftext r ++ rest) = Ok (all, rest).
Proof.
  induction r as [|f' r IH]; intros fuel first f vec rest Hc Hs Hf all Hm;
   (destruct fuel as [|fuel]; [cbn in Hf; lia|]); cbn [splitFree].
  - cbn [fchain] in Hc. destruct Hc as [Hg Hmk]. destruct (good_text f Hg) as (G1 & G2 & G3 & G4 & G5).
    assert (Hall : all = (if first then [fhead f] else vec) ++ fdata f) by (unfold all; cbn; now rewrite app_nil_r).
    rewrite Hall in *.
    assert ((if first then split_on "," (ftext f) else vec ++ split_on "," match after_first "," (ftext f) with Some r => r | None => ftext f end)
            = (if first then [fhead f] else vec) ++ fdata f) as ->.
    { rewrite G3, G4, G5. unfold flast. rewrite Hmk, app_nil_r. destruct first; reflexivity. }
    rewrite erase_marks_none by assumption. cbn [map app]. unfold stops_free in Hs. rewrite Hs. reflexivity.
  - cbn [fchain] in Hc. destruct Hc as (Hg & Hmk & Hch). destruct (good_text f Hg) as (G1 & G2 & G3 & G4 & G5).
    set (pre := (if first then [fhead f] else vec) ++ fdata f) in *.
    assert (Hall : all = pre ++ concat (map fdata (f' :: r))) by (unfold all, pre; cbn [map concat]; now rewrite app_assoc).
    rewrite Hall in *. pose proof (no_marks_app _ _ _ Hm) as Hpre.
    assert ((if first then split_on "," (ftext f) else vec ++ split_on "," match after_first "," (ftext f) with Some r => r | None => ftext f end)
            = pre ++ match fmark f with Some m => [m] | None => [] end) as ->.
    { rewrite G3, G4, G5. unfold flast, pre. destruct first; [reflexivity|]. now rewrite app_assoc. }
    assert (Hg' : good_line f') by (destruct r; apply Hch).
    destruct (good_text f' Hg') as (G1' & G2' & G3' & G4' & G5').
    cbn [map app]. rewrite (read_nodollar false (ftext f') (map ftext r ++ rest)) by (auto; discriminate).
    assert (Hlen : length pre = length (if first then [fhead f] else vec) + length (fdata f)) by (unfold pre; apply app_length).
    assert (Hrec : splitFree fuel false (ftext f') pre (map ftext r ++ rest) = Ok (pre ++ concat (map fdata (f' :: r)), rest)).
    { apply (IH fuel false f' pre rest); [rewrite Hlen; exact Hch|exact Hs|cbn in Hf; lia|exact Hm]. }
    destruct (fmark f) as [m|].
    + destruct Hmk as [Hp Hmod]. rewrite erase_marks_end; [|lia|exact Hpre|rewrite Hlen; exact Hmod|exact Hp]. exact Hrec.
    + rewrite app_nil_r, erase_marks_none by assumption. cbn [orb].
      assert (peek_in [","%char; "+"%char; "*"%char] (ftext f' :: map ftext r ++ rest) = true) as ->; [|exact Hrec].
      unfold ftext. rewrite join_cons by apply Hg'. unfold peek_in, peek.
      destruct Hmk as [Hh|[Hh|Hh]].
      * rewrite Hh. reflexivity.
      * destruct (fhead f') as [|c h]; [discriminate|]. cbn in Hh. apply Ascii.eqb_eq in Hh. subst c. reflexivity.
      * destruct (fhead f') as [|c h]; [discriminate|]. cbn in Hh. apply Ascii.eqb_eq in Hh. subst c. reflexivity.
Qed.

(** ** Comment lines *)

Definition strip (ls : list str) : list str := filter (fun l => negb (starts "$" l)) ls.

Lemma starts_not_blank l : starts "$" l = true -> forallb is_blank l = false.
Proof. destruct l as [|c l]; [discriminate|]. cbn. intros H. apply Ascii.eqb_eq in H. now subst. Qed.

Lemma read_strip first ls : readLineSkipComment first (strip ls) =
  match readLineSkipComment first ls with Some (l, r) => Some (l, strip r) | None => None end.
Proof.
  induction ls as [|l ls IH]; [reflexivity|]. unfold strip in *. cbn [filter].
  destruct (starts "$" l) eqn:E; cbn [negb].
  - cbn [readLineSkipComment]. rewrite E, (starts_not_blank _ E). cbn [negb]. rewrite !andb_false_r. exact IH.
  - cbn [readLineSkipComment]. rewrite E.
    destruct (negb (null l) && negb (forallb is_blank l) && negb false).
    + destruct (negb (forallb is_blank (before_first "$" l))); [reflexivity|exact IH].
    + destruct (negb first && forallb is_blank l); [reflexivity|exact IH].
Qed.
Lemma skip_dollar_strip ls : skip_dollar (strip ls) = strip ls /\ strip (skip_dollar ls) = strip ls.
Proof.
  induction ls as [|l ls [IH1 IH2]]; [split; reflexivity|]. unfold strip in *. cbn [filter skip_dollar].
  destruct (starts "$" l) eqn:E; cbn [negb]; [split; assumption|]. cbn [skip_dollar]. rewrite E. split; [reflexivity|]. cbn [filter]. rewrite E. reflexivity.
Qed.
Lemma peek_strip cs ls : peek_in cs (skip_dollar ls) = peek_in cs (strip ls).
Proof.
  induction ls as [|l ls IH]; [reflexivity|]. unfold strip in *. cbn [filter skip_dollar].
  destruct (starts "$" l) eqn:E; cbn [negb]; [exact IH|reflexivity].
Qed.

Lemma splitFixed_strip fuel : forall long first line vec ls,
  splitFixed fuel long first line vec (strip ls) =
  match splitFixed fuel long first line vec ls with
  | Ok (v, r) => Ok (v, strip r) | Throw => Throw | UB => UB | NoFuel => NoFuel end.
Proof.
  induction fuel as [|fuel IH]; intros long first line vec ls; [reflexivity|]. cbn [splitFixed].
  match goal with |- bind ?x _ = _ => destruct x as [[c0 toks]| | |]; cbn [bind]; try reflexivity end.
  destruct (scan_tokens (fieldMax long) c0 toks) as [[fs n] e].
  destruct (skip_dollar_strip ls) as [-> Hs]. rewrite !peek_strip.
  assert (Hr : readLineSkipComment false (strip ls) = match readLineSkipComment false (skip_dollar ls) with Some (l, r) => Some (l, strip r) | None => None end).
  { rewrite <- Hs. apply read_strip. }
  rewrite Hr. destruct (readLineSkipComment false (skip_dollar ls)) as [[l r]|].
  - rewrite !IH. destruct (e || peek_in ["+"%char] (strip ls)); [reflexivity|].
    destruct (peek_in _ (strip ls)); [reflexivity|]. now rewrite Hs.
  - destruct (e || peek_in ["+"%char] (strip ls)); [reflexivity|].
    destruct (peek_in [" "%char; "+"%char; "*"%char; tab] (strip ls)); [|now rewrite Hs]. exact (IH _ false [] _ []).
Qed.

(** ** Fuel *)

Lemma read_shorter first ls l r : readLineSkipComment first ls = Some (l, r) -> length r < length ls.
Proof.
  induction ls as [|x ls IH]; cbn [readLineSkipComment length]; [discriminate|].
  destruct (negb (null x) && negb (forallb is_blank x) && negb (starts "$" x)).
  - destruct (negb (forallb is_blank (before_first "$" x))); [intros H; injection H as _ <-; lia|intros H; apply IH in H; lia].
  - destruct (negb first && forallb is_blank x); [intros H; injection H as _ <-; lia|intros H; apply IH in H; lia].
Qed.
Lemma skip_dollar_length ls : length (skip_dollar ls) <= length ls.
Proof. induction ls as [|l ls IH]; cbn; [lia|]. destruct (starts "$" l); cbn; lia. Qed.

Lemma splitFixed_fuel fuel : forall long first line vec ls, length ls < fuel ->
  splitFixed fuel long first line vec ls <> NoFuel /\
  forall fuel', length ls < fuel' -> splitFixed fuel' long first line vec ls = splitFixed fuel long first line vec ls.
Proof.
  induction fuel as [|fuel IH]; intros long first line vec ls Hf; [lia|]. cbn [splitFixed].
  assert (Hl := skip_dollar_length ls).
  match goal with |- bind ?x _ <> _ /\ _ => destruct x as [[c0 toks]| | |] eqn:Ex end.
  2,3: split; [discriminate|]; intros [|f'] Hf'; [lia|]; cbn [splitFixed]; rewrite Ex; reflexivity.
  2: destruct first; [discriminate|]; destruct (chop _ _); discriminate.
  cbn [bind].
  destruct (scan_tokens (fieldMax long) c0 toks) as [[fs n] e] eqn:Es.
  assert (Hstep : forall fuel', splitFixed (S fuel') long first line vec ls =
    (let vec := vec ++ fs in
     if e || peek_in ["+"%char] (skip_dollar ls) then
      match readLineSkipComment false (skip_dollar ls) with
      | None => Throw
      | Some (line2, ls) => splitFixed fuel' long false line2 vec ls
      end
    else if peek_in [" "%char; "+"%char; "*"%char; tab] (skip_dollar ls) then
      match readLineSkipComment false (skip_dollar ls) with
      | None => splitFixed fuel' (peek_in ["*"%char] (skip_dollar ls)) false [] (vec ++ repeat [] (fieldMax long - n)) []
      | Some (line2, ls') => splitFixed fuel' (peek_in ["*"%char] (skip_dollar ls)) false line2 (vec ++ repeat [] (fieldMax long - n)) ls'
      end
    else Ok (vec, skip_dollar ls))).
  { intros fuel'. cbn [splitFixed]. rewrite Ex. cbn [bind]. rewrite Es. reflexivity. }
  split.
  - destruct (e || peek_in ["+"%char] (skip_dollar ls)).
    + destruct (readLineSkipComment false (skip_dollar ls)) as [[l r]|] eqn:Er; [|discriminate].
      apply read_shorter in Er. apply IH. lia.
    + destruct (peek_in [" "%char; "+"%char; "*"%char; tab] (skip_dollar ls)) eqn:Ep; [|discriminate].
      destruct (readLineSkipComment false (skip_dollar ls)) as [[l r]|] eqn:Er.
      * apply read_shorter in Er. apply IH. lia.
      * apply IH. destruct ls as [|x ls]; [discriminate Ep|]. cbn in *. lia.
  - intros [|fuel'] Hf'; [lia|]. rewrite Hstep. cbv zeta.
    destruct (e || peek_in ["+"%char] (skip_dollar ls)).
    + destruct (readLineSkipComment false (skip_dollar ls)) as [[l r]|] eqn:Er; [|reflexivity].
      apply read_shorter in Er. apply IH; lia.
    + destruct (peek_in [" "%char; "+"%char; "*"%char; tab] (skip_dollar ls)) eqn:Ep; [|reflexivity].
      destruct (readLineSkipComment false (skip_dollar ls)) as [[l r]|] eqn:Er.
      * apply read_shorter in Er. apply IH; lia.
      * apply IH; cbn [length]; destruct ls as [|x ls]; try discriminate Ep; cbn [length] in *; lia.
Qed.

Lemma chars_length ls : length ls <= chars ls.
Proof. induction ls as [|l ls IH]; [cbn; lia|]. unfold chars in *. cbn [map list_sum fold_right length] in *. change (fold_right Nat.add 0) with list_sum. lia. Qed.
Lemma fuel_for_length line ls : length ls < fuel_for line ls.
Proof. unfold fuel_for. pose proof (chars_length ls). lia. Qed.

Lemma lastk_bound conts : forall long l, plain l -> Forall (fun c => plain (snd c)) conts -> lastk long l conts <= 8.
Proof.
  induction conts as [|[long' l'] r IH]; intros long l Hp Hr; cbn [lastk].
  - destruct Hp as (_ & _ & Hn). destruct l as [|c l]; [congruence|]. destruct long; cbn [offsets chop length fieldMax]; lia.
  - inversion Hr; subst. now apply IH.
Qed.
Lemma chain_plain conts : forall long l, chain long l conts -> Forall (fun c => plain (snd c)) conts.
Proof. induction conts as [|[long' l'] r IH]; intros long l; cbn [chain]; [constructor|]. intros (H1 & _ & H3). constructor; [exact H1|]. eapply IH, H3. Qed.
