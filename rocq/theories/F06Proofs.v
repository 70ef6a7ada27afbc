(** Lemmas about the texts of F06 files. *)
From Coq Require Import Ascii String ZArith List Bool Arith Lia.
From Verif Require Import Base TextModel TextProofs CaseControlModel CaseControlProofs F06Model.
Import ListNotations.
Open Scope nat_scope.
Open Scope list_scope.

Definition occurs (pat l : str) : Prop := exists a b, l = a ++ pat ++ b.

Lemma has_prefix_iff p l : has_prefix p l = true <-> exists b, l = p ++ b.
Proof.
  unfold has_prefix. destruct (str_eqb_spec (firstn (length p) l) p) as [H|H]; split; intros H0; try congruence.
  - exists (skipn (length p) l). rewrite <- H at 1. now rewrite firstn_skipn.
  - destruct H0 as [b ->]. exfalso. apply H. now rewrite firstn_app, Nat.sub_diag, firstn_all, app_nil_r.
Qed.

Lemma after_none p l : after p l = None <-> ~ occurs p l.
Proof.
  induction l as [|c l IH]; cbn [after].
  - destruct (has_prefix p []) eqn:E.
    + apply has_prefix_iff in E as [b E]. split; [discriminate|]. intros H. exfalso. apply H. exists [], b. exact E.
    + split; [|reflexivity]. intros _ (a & b & H). symmetry in H. apply app_eq_nil in H as [-> H].
      assert (has_prefix p [] = true) by (apply has_prefix_iff; exists b; now rewrite H). congruence.
  - destruct (has_prefix p (c :: l)) eqn:E.
    + apply has_prefix_iff in E as [b E]. split; [discriminate|]. intros H. exfalso. apply H. exists [], b. exact E.
    + rewrite IH. split; intros H (a & b & H0); apply H.
      * destruct a as [|x a]; [|exists a, b; cbn in H0; congruence].
        assert (has_prefix p (c :: l) = true) by (apply has_prefix_iff; now exists b). congruence.
      * exists (c :: a), b. cbn. congruence.
Qed.

Lemma has_false p l : has p l = false <-> ~ occurs p l.
Proof. unfold has. destruct (after p l) eqn:E; [|apply after_none in E; tauto]. split; [discriminate|]. intros H. apply after_none in H. congruence. Qed.
Lemma has_true p l : occurs p l -> has p l = true.
Proof. intros H. destruct (has p l) eqn:E; [reflexivity|]. apply has_false in E. tauto. Qed.

(** The first occurrence, when what precedes has not the first letter. *)
Lemma after_found a c p s : ~ In c a -> after (c :: p) (a ++ (c :: p) ++ s) = Some s.
Proof.
  induction a as [|x a IH]; intros H.
  - cbn [app]. assert (E : has_prefix (c :: p) (c :: p ++ s) = true) by (apply has_prefix_iff; now exists s).
    cbn [after]. rewrite E. f_equal. change (c :: p ++ s) with ((c :: p) ++ s). now rewrite skipn_app, skipn_all, Nat.sub_diag.
  - cbn [app after]. assert (E : has_prefix (c :: p) (x :: a ++ c :: p ++ s) = false).
    { destruct (has_prefix _ _) eqn:E; [|reflexivity]. apply has_prefix_iff in E as [b E]. injection E as -> _. exfalso. apply H. now left. }
    change (a ++ (c :: p) ++ s) with (a ++ c :: p ++ s). rewrite E. apply IH. intros Hi. apply H. now right.
Qed.

Lemma occurs_trim p l : occurs p (trim l) -> occurs p l.
Proof.
  intros (a & b & H).
  assert (exists x y, l = x ++ trim l ++ y) as (x & y & E).
  { unfold trim, trim_right, trim_left.
    assert (D : forall q m, exists x, m = x ++ dropWhile q m).
    { intros q m. induction m as [|c m [x IH]]; [now exists []|]. cbn. destruct (q c); [exists (c :: x); cbn; now f_equal|now exists []]. }
    destruct (D is_space l) as [x Hx]. destruct (D is_space (rev (dropWhile is_space l))) as [y Hy].
    exists x, (rev y). rewrite Hx at 1. f_equal. rewrite <- (rev_involutive (dropWhile is_space l)) at 1. rewrite Hy at 1. now rewrite rev_app_distr. }
  exists (x ++ a), (b ++ y). rewrite E, H. rewrite <- !app_assoc. reflexivity.
Qed.

Lemma not_char c p l : In c p -> ~ In c l -> ~ occurs p l.
Proof. intros H H0 (a & b & ->). apply H0. rewrite !in_app_iff. auto. Qed.

(** ** Trimming *)

Definition solid (w : str) : Prop := w <> [] /\ forallb (fun c => negb (is_space c)) w = true.

Lemma dropWhile_mid p a c y : p c = false -> dropWhile p (a ++ c :: y) = dropWhile p a ++ c :: y.
Proof. intros H. induction a as [|x a IH]; cbn; [now rewrite H|]. destruct (p x); [exact IH|reflexivity]. Qed.
Lemma trim_right_keep x c y : is_space c = false -> trim_right (x ++ c :: y) = x ++ c :: trim_right y.
Proof.
  intros H. unfold trim_right. rewrite rev_app_distr. cbn [rev]. rewrite <- app_assoc. cbn [app].
  rewrite dropWhile_mid by exact H. rewrite rev_app_distr. cbn [rev]. now rewrite rev_involutive, <- app_assoc.
Qed.
Lemma solid_last w : solid w -> exists x c, w = x ++ [c] /\ is_space c = false.
Proof.
  intros [H H0]. destruct (exists_last H) as (x & c & ->). exists x, c. split; [reflexivity|].
  rewrite forallb_app in H0. apply andb_true_iff in H0 as [_ H0]. cbn in H0. now destruct (is_space c).
Qed.
Lemma solid_head w : solid w -> exists c y, w = c :: y /\ is_space c = false.
Proof. intros [H H0]. destruct w as [|c y]; [congruence|]. exists c, y. cbn in H0. now destruct (is_space c). Qed.

Lemma trim_right_solid x w b : solid w -> forallb is_space b = true -> trim_right (x ++ w ++ b) = x ++ w.
Proof.
  intros Hw Hb. destruct (solid_last _ Hw) as (y & c & -> & Hc). rewrite <- app_assoc, app_assoc. cbn [app].
  rewrite trim_right_keep by exact Hc. unfold trim_right. rewrite dropWhile_all by now rewrite forallb_rev. rewrite <- app_assoc. reflexivity.
Qed.
Lemma trim_solid a w b : forallb is_space a = true -> solid w -> forallb is_space b = true -> trim (a ++ w ++ b) = w.
Proof.
  intros Ha Hw Hb. rewrite trim_spaces_l by exact Ha. rewrite trim_spaces_r by exact Hb.
  unfold trim, trim_left. destruct (solid_head _ Hw) as (c & y & -> & Hc). rewrite dropWhile_head by exact Hc.
  rewrite <- (app_nil_r (c :: y)) at 1. exact (trim_right_solid [] (c :: y) [] Hw eq_refl).
Qed.
(** A line with a mark: [a], the mark, blanks, a word, blanks. *)
Lemma trim_mark a c p b w d : is_space c = false -> solid w -> forallb is_space d = true ->
  trim (a ++ (c :: p) ++ b ++ w ++ d) = dropWhile is_space a ++ (c :: p) ++ b ++ w.
Proof.
  intros Hc Hw Hd. unfold trim, trim_left. cbn [app]. rewrite dropWhile_mid by exact Hc.
  replace (dropWhile is_space a ++ c :: p ++ b ++ w ++ d) with ((dropWhile is_space a ++ c :: p ++ b) ++ w ++ d)
    by (rewrite <- !app_assoc; cbn; now rewrite <- !app_assoc).
  rewrite trim_right_solid by assumption. rewrite <- app_assoc. cbn. now rewrite <- app_assoc.
Qed.
Lemma dropWhile_in p c a : In c (dropWhile p a) -> In c a.
Proof. induction a as [|x a IH]; cbn; [tauto|]. destruct (p x); cbn; tauto. Qed.

(** ** Words *)

(** Words with the number of spaces before each. *)
Definition laid (items : list (nat * str)) : str := flat_map (fun kw => spaces (fst kw) ++ snd kw) items.
Definition apart (items : list (nat * str)) : Prop :=
  Forall (fun kw => solid (snd kw)) items /\ match items with [] => True | _ :: r => Forall (fun kw => 1 <= fst kw) r end.

Lemma word_list_solid cur w r : forallb (fun c => negb (is_space c)) w = true -> word_list cur (w ++ r) = word_list (rev w ++ cur) r.
Proof.
  revert cur. induction w as [|c w IH]; intros cur H; [reflexivity|]. cbn in H. apply andb_true_iff in H as [H H0].
  cbn. destruct (is_space c); [discriminate|]. rewrite IH by exact H0. now rewrite <- app_assoc.
Qed.
Lemma word_list_spaces k r : word_list [] (spaces k ++ r) = word_list [] r.
Proof. induction k as [|k IH]; [reflexivity|exact IH]. Qed.
Lemma word_list_end k : word_list [] (spaces k) = [].
Proof. rewrite <- (app_nil_r (spaces k)). rewrite word_list_spaces. reflexivity. Qed.
Lemma word_list_flush cur k r : cur <> [] -> 1 <= k -> word_list cur (spaces k ++ r) = rev cur :: word_list [] r.
Proof.
  intros H Hk. destruct k as [|k]; [lia|]. cbn. destruct cur as [|c cur]; [congruence|]. cbn [null]. now rewrite word_list_spaces.
Qed.

Lemma word_list_rest items j : Forall (fun kw => solid (snd kw)) items -> Forall (fun kw => 1 <= fst kw) items ->
  forall cur, cur <> [] -> word_list cur (laid items ++ spaces j) = rev cur :: map snd items.
Proof.
  induction items as [|[k w] r IH]; intros Hs Hk cur Hc.
  - cbn. destruct j; cbn; destruct cur; try congruence; cbn [null]; try reflexivity. now rewrite word_list_end.
  - inversion_clear Hs as [|? ? [Hw Hw'] Hs']. inversion_clear Hk as [|? ? Hk1 Hk']. cbn [fst snd] in *.
    cbn [laid flat_map fst snd]. rewrite <- !app_assoc. rewrite word_list_flush by assumption. f_equal.
    rewrite word_list_solid by exact Hw'. rewrite app_nil_r. cbn [map snd].
    fold (laid r). rewrite (IH Hs' Hk'); [now rewrite rev_involutive|].
    intros E. apply Hw. rewrite <- (rev_involutive w), E. reflexivity.
Qed.
Lemma words_laid items j : apart items -> words (laid items ++ spaces j) = map snd items.
Proof.
  intros [Hs Hk]. unfold words. destruct items as [|[k w] r]; [apply word_list_end|].
  inversion_clear Hs as [|? ? [Hw Hw'] Hs']. cbn [fst snd] in *.
  cbn [laid flat_map fst snd]. rewrite <- !app_assoc, word_list_spaces. rewrite word_list_solid by exact Hw'. rewrite app_nil_r.
  fold (laid r). rewrite word_list_rest; try assumption; [cbn; now rewrite rev_involutive|].
  intros E. apply Hw. rewrite <- (rev_involutive w), E. reflexivity.
Qed.

Lemma in_laid c items : In c (laid items) -> c = " "%char \/ exists w, In w (map snd items) /\ In c w.
Proof.
  unfold laid. rewrite in_flat_map. intros ([k w] & H & H0). apply in_app_or in H0 as [H0|H0].
  - left. unfold spaces in H0. apply repeat_spec in H0. exact H0.
  - right. exists w. split; [|exact H0]. change w with (snd (k, w)). now apply in_map.
Qed.

(** Words made of digits, signs, points, the letters E, G and S. *)
Definition number_char (c : ascii) : bool := is_digit c || Ascii.eqb c "+" || Ascii.eqb c "-" || Ascii.eqb c "." || Ascii.eqb c "E" || Ascii.eqb c "G" || Ascii.eqb c "S".
Lemma number_char_solid c : number_char c = true -> is_space c = false.
Proof. destruct c as [[] [] [] [] [] [] [] []]; vm_compute; congruence. Qed.
Lemma numbers_no c items j : number_char c = false -> c <> " "%char -> Forall (fun w => forallb number_char w = true) (map snd items) ->
  ~ In c (laid items ++ spaces j).
Proof.
  intros Hc Hs H Hi. apply in_app_or in Hi as [Hi|Hi].
  - apply in_laid in Hi as [Hi|(w & Hi & Hw)]; [congruence|]. rewrite Forall_forall in H. specialize (H _ Hi).
    rewrite forallb_forall in H. specialize (H _ Hw). congruence.
  - unfold spaces in Hi. apply repeat_spec in Hi. congruence.
Qed.

(** ** The lines that are seen *)

(** [file] is [lines] with blank lines here and there. *)
Inductive with_blanks : list str -> list str -> Prop :=
| wb_nil : with_blanks [] []
| wb_blank b file lines : forallb is_space b = true -> with_blanks file lines -> with_blanks (b :: file) lines
| wb_line l file lines : forallb is_space l = false -> with_blanks file lines -> with_blanks (l :: file) (l :: lines).
Lemma readable_blanks file lines : with_blanks file lines -> readable file = lines.
Proof.
  unfold readable. induction 1 as [|b file lines Hb H IH|l file lines Hl H IH]; cbn [filter].
  - reflexivity.
  - rewrite (trim_all _ Hb). exact IH.
  - destruct (trim l) eqn:E; [apply trim_nil_iff in E; congruence|]. cbn. now rewrite IH.
Qed.
