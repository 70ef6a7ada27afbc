(** Properties C29, C30, C31: combinations, SET definitions and selections of
    the Nastran case control section. *)
From Coq Require Import Ascii String ZArith List Bool Arith Lia.
From Verif Require Import Base TextModel TextProofs TokenizerModel TokenizerProofs RealModel CaseControlModel CaseControlProofs.
Import ListNotations.
Open Scope nat_scope.
Open Scope list_scope.

(** ** C30: SET *)

(** The items of a SET command and the numbers they stand for. *)
Inductive item := Single (n : Z) | Range (a b : Z).
Definition stands_for (i : item) (x : Z) : Prop :=
  match i with Single n => x = n | Range a b => (a <= x <= b)%Z end.
Definition allowed (i : item) : Prop :=
  match i with
  | Single n => (0 <= n < 2 ^ 31 - 1)%Z
  | Range a b => (0 <= a < 2 ^ 31 - 1)%Z /\ (0 <= b < 2 ^ 31 - 1)%Z
  end.

(** How the items may be typed: THRU in upper or lower case, items and words
    separated by commas and blanks. *)
Inductive item_words : item -> list str -> Prop :=
| iw_single n : item_words (Single n) [int_text n]
| iw_range a b thru : to_upper thru = txt "THRU" -> item_words (Range a b) [int_text a; thru; int_text b].
Inductive items_words : list item -> list str -> Prop :=
| isw_one i ws : item_words i ws -> items_words [i] ws
| isw_cons i ws is wss : item_words i ws -> items_words is wss -> items_words (i :: is) (ws ++ wss).
Definition separator (s : str) : Prop := s <> [] /\ (forall c, In c s -> c = ","%char \/ c = " "%char).
Inductive typed : list str -> str -> Prop :=
| ty_one w : typed [w] w
| ty_cons w s ws t : separator s -> typed ws t -> typed (w :: ws) (w ++ s ++ t).

(** A command may go on over several lines, each but the last ending with a
    comma; blanks around the lines, comment lines and blank lines in between are
    of no importance. *)
Inductive continued (rest : list str) : list str -> list str -> Prop :=
| co_end : continued rest [] rest
| co_skip chunks l ls : (starts "$" l = true \/ forallb is_blank l = true) -> chunks <> [] ->
    continued rest chunks ls -> continued rest chunks (l :: ls)
| co_line chunks a c b ls : forallb is_blank a = true -> forallb is_blank b = true -> c <> [] -> trim c = c -> ~ In "$"%char c ->
    continued rest chunks ls -> continued rest (c :: chunks) ((a ++ c ++ b) :: ls).
Definition ends_with_comma (c : str) : Prop := exists p, c = p ++ [","%char].

Lemma ends_comma_spec c : ends_comma c = true <-> ends_with_comma c.
Proof.
  unfold ends_comma, ends_with_comma. split.
  - intros H. destruct (rev c) as [|d r] eqn:E; [discriminate|]. apply Ascii.eqb_eq in H. subst d.
    exists (rev r). rewrite <- (rev_involutive c), E. reflexivity.
  - intros [p ->]. rewrite rev_app_distr. reflexivity.
Qed.
Lemma ends_comma_app a b : b <> [] -> ends_comma (a ++ b) = ends_comma b.
Proof.
  intros H. unfold ends_comma. rewrite rev_app_distr. destruct (rev b) eqn:E; [|reflexivity].
  exfalso. apply H. rewrite <- (rev_involutive b), E. reflexivity.
Qed.

Lemma set_line_cont rest : forall chunks ls, continued rest chunks ls -> forall fuel line,
  length ls < fuel -> 
  (chunks = [] -> ends_comma line = false) ->
  (chunks <> [] -> ends_comma line = true /\ Forall (fun c => ends_comma c = true) (removelast chunks) /\ ends_comma (last chunks []) = false) ->
  set_line fuel line ls = Ok (line ++ concat chunks, rest).
Proof.
  induction 1 as [|chunks l ls Hs Hn HC IH|chunks a c b ls Ha Hb Hc Ht Hd HC IH]; intros fuel line Hf H0 H1.
  - destruct fuel as [|fuel]; [lia|]. cbn [set_line]. rewrite H0 by reflexivity. cbn. now rewrite app_nil_r.
  - destruct fuel as [|fuel]; [lia|]. specialize (IH (S fuel) line ltac:(cbn in Hf; lia) H0 H1).
    rewrite <- IH. cbn [set_line]. destruct (H1 Hn) as (E & _ & _). rewrite E, (next_skip _ _ Hs). reflexivity.
  - destruct fuel as [|fuel]; [lia|]. cbn [set_line]. destruct (H1 ltac:(discriminate)) as (E & F & L). rewrite E.
    rewrite next_padded; try assumption; [|now apply contains_false]. rewrite Ht.
    cbn [concat]. rewrite app_assoc. apply IH; [cbn in Hf; lia| |].
    + intros ->. cbn in L. now rewrite ends_comma_app.
    + intros Hn. destruct chunks as [|c' chunks]; [congruence|]. cbn [removelast] in F. inversion F; subst.
      rewrite ends_comma_app by assumption. split; [assumption|]. split; [assumption|]. exact L.
Qed.

(** Shape of the words. *)
Definition set_delim := is_any_of [","%char; " "%char].
Lemma digit_not_delim c : is_digit c = true -> set_delim c = false.
Proof. intros H. unfold set_delim, is_any_of. cbn [existsb]. rewrite orb_false_r. apply orb_false_iff. split; apply Ascii.eqb_neq; intros ->; discriminate H. Qed.
Lemma free_digits w : forallb is_digit w = true -> free set_delim w.
Proof. intros H. apply free_in. intros c Hc. apply digit_not_delim. rewrite forallb_forall in H. now apply H. Qed.
Definition word_ok (w : str) : Prop := w <> [] /\ free set_delim w.
Lemma digits_ok w : forallb is_digit w = true -> w <> [] -> word_ok w.
Proof. intros H N. split; [exact N|now apply free_digits]. Qed.

Lemma typed_split ws t : typed ws t -> Forall word_ok ws -> split_compress set_delim t = ws /\ match t with c :: _ => set_delim c = false | [] => False end.
Proof.
  assert (X : forall w t, word_ok w -> match w ++ t with c :: _ => set_delim c = false | [] => False end).
  { intros [|c w] t0 [N F]; [congruence|]. cbn. apply free_in with (c := c) in F; [exact F|now left]. }
  induction 1 as [w|w s ws t [Sn Ss] Ht IH]; intros H; inversion H as [|? ? Hw Hws]; subst.
  - split; [apply split_compress_free; apply Hw|]. rewrite <- (app_nil_r w). now apply X.
  - destruct (IH Hws) as [E1 E2]. split; [|now apply X]. rewrite split_compress_word; [now rewrite E1|apply Hw|exact Sn| |].
    + apply forallb_forall. intros c Hc. destruct (Ss c Hc) as [->| ->]; reflexivity.
    + destruct t; [destruct E2|exact E2].
Qed.
Lemma separator_upper s : separator s -> to_upper s = s.
Proof.
  intros [_ H]. unfold to_upper. rewrite <- (map_id s) at 2. apply map_ext_in. intros c Hc. destruct (H c Hc) as [->| ->]; reflexivity.
Qed.
Lemma typed_upper ws t : typed ws t -> typed (map to_upper ws) (to_upper t).
Proof.
  induction 1 as [w|w s ws t Hs Ht IH]; cbn [map]; [constructor|].
  rewrite !to_upper_app, (separator_upper _ Hs). now constructor.
Qed.

(** Upper-case words of the items. *)
Definition uwords (i : item) : list str :=
  match i with Single n => [int_text n] | Range a b => [int_text a; txt "THRU"; int_text b] end.
Lemma item_upper i ws : item_words i ws -> allowed i -> map to_upper ws = uwords i.
Proof.
  intros H A. inversion H; subst; cbn [map uwords allowed] in *.
  - rewrite to_upper_digits; [reflexivity|]. apply int_text_digits. lia.
  - rewrite (to_upper_digits (int_text a)), (to_upper_digits (int_text b)) by (apply int_text_digits; lia). rewrite H0. reflexivity.
Qed.
Lemma items_upper is ws : items_words is ws -> Forall allowed is -> map to_upper ws = concat (map uwords is).
Proof.
  induction 1 as [i ws H|i ws is wss H Hr IH]; intros A; inversion A; subst; cbn [map concat].
  - rewrite app_nil_r. now apply item_upper.
  - rewrite map_app, (item_upper i ws), IH; auto.
Qed.
Lemma uwords_ok is : Forall allowed is -> Forall word_ok (concat (map uwords is)).
Proof.
  induction 1 as [|i is A H IH]; cbn [map concat]; [constructor|]. apply Forall_app. split; [|exact IH].
  destruct i; cbn [uwords allowed] in *.
  - constructor; [|constructor]. apply digits_ok; apply int_text_digits; lia.
  - destruct A as [A1 A2].
    constructor; [apply digits_ok; apply int_text_digits; lia|]. constructor; [split; [discriminate|reflexivity]|].
    constructor; [|constructor]. apply digits_ok; apply int_text_digits; lia.
Qed.

Lemma int_text_not_thru n : (0 <= n)%Z -> str_eqb (int_text n) (txt "THRU") = false.
Proof.
  intros H. destruct (int_text_digits n H) as [D N]. destruct (str_eqb_spec (int_text n) (txt "THRU")) as [E|]; [|reflexivity].
  rewrite E in D. discriminate D.
Qed.
Lemma head_not_thru is : Forall allowed is -> match concat (map uwords is) with t :: _ :: _ => str_eqb t (txt "THRU") = false | _ => True end.
Proof.
  intros H. destruct is as [|i is]; [exact I|]. inversion H; subst. destruct i as [n|a b]; cbn [map concat uwords app allowed] in *.
  - destruct (concat (map uwords is)); [exact I|]. apply int_text_not_thru. lia.
  - apply int_text_not_thru. lia.
Qed.
Lemma set_values_spec is : Forall allowed is -> exists vs, set_values (concat (map uwords is)) = Ok vs /\
  forall x, In x vs <-> exists i, In i is /\ stands_for i x.
Proof.
  induction 1 as [|i is A H IH]; cbn [map concat].
  - exists []. split; [reflexivity|]. intros x. split; [intros []|intros (? & [] & _)].
  - destruct IH as (vs & E & IH). pose proof (head_not_thru is H) as T.
    destruct i as [n|a b]; cbn [uwords app allowed] in *.
    + exists (n :: vs). split.
      * assert (X : forall r, match r with t :: _ :: _ => str_eqb t (txt "THRU") = false | _ => True end ->
          set_values (int_text n :: r) = do a <- stoi (int_text n); do vs <- set_values r; Ok (a :: vs)).
        { intros [|t [|q r]] Hr; cbn [set_values]; try reflexivity. now rewrite Hr. }
        rewrite (X _ T), E, stoi_text; [reflexivity|]. unfold INT_MAX32. lia.
      * intros x. cbn [In]. rewrite IH. split.
        -- intros [<-|(i & Hi & Hx)]; [exists (Single n); cbn; auto|exists i; cbn; auto].
        -- intros (i & [<-|Hi] & Hx); [left; symmetry; exact Hx|right; eauto].
    + destruct A as [A1 A2]. exists (zrange a b ++ vs). split.
      * cbn [set_values]. rewrite str_eqb_refl, !stoi_text by (unfold INT_MAX32; lia). cbn [bind].
        assert ((b =? INT_MAX32)%Z = false) as -> by (apply Z.eqb_neq; unfold INT_MAX32; lia). cbn [andb]. now rewrite E.
      * intros x. rewrite in_app_iff, zrange_in, IH. split.
        -- intros [Hx|(i & Hi & Hx)]; [exists (Range a b); cbn; auto|exists i; cbn; auto].
        -- intros (i & [<-|Hi] & Hx); [left; exact Hx|right; eauto].
Qed.

Lemma typed_chars ws t : typed ws t -> forall c, In c t -> (exists w, In w ws /\ In c w) \/ c = ","%char \/ c = " "%char.
Proof.
  induction 1 as [w|w s ws t [_ Hs] Ht IH]; intros c Hc.
  - left. exists w. cbn. auto.
  - rewrite !in_app_iff in Hc. destruct Hc as [Hc|[Hc|Hc]]; [left; exists w; cbn; auto|right; auto|].
    destruct (IH c Hc) as [(w' & ? & ?)|X]; [left; exists w'; cbn; auto|right; exact X].
Qed.
Lemma typed_last ws t : typed ws t -> Forall word_ok ws -> exists p d, t = p ++ [d] /\ set_delim d = false.
Proof.
  induction 1 as [w|w s ws t Hs Ht IH]; intros F; inversion F as [|? ? Hw Hws]; subst.
  - destruct Hw as [N Fr]. destruct (exists_last N) as (p & d & ->). exists p, d. split; [reflexivity|].
    apply free_in with (c := d) in Fr; [exact Fr|]. apply in_app_iff. right. now left.
  - destruct (IH Hws) as (p & d & -> & Hd). exists (w ++ s ++ p), d. split; [now rewrite <- !app_assoc|exact Hd].
Qed.
Lemma item_words_digits is ws : items_words is ws -> Forall allowed is ->
  Forall (fun w => w <> [] /\ forall c, In c w -> is_digit c = true \/ In (upper c) (txt "THRU")) ws.
Proof.
  assert (X : forall i ws, item_words i ws -> allowed i -> Forall (fun w => w <> [] /\ forall c, In c w -> is_digit c = true \/ In (upper c) (txt "THRU")) ws).
  { intros i ws' H A. assert (D : forall n, (0 <= n)%Z -> int_text n <> [] /\ forall c, In c (int_text n) -> is_digit c = true \/ In (upper c) (txt "THRU")).
    { intros n Hn. destruct (int_text_digits n Hn) as [D N]. split; [exact N|]. intros c Hc. left. rewrite forallb_forall in D. auto. }
    inversion H; subst; cbn [allowed] in A.
    - constructor; [|constructor]. apply D. lia.
    - constructor; [apply D; lia|]. constructor; [|constructor; [apply D; lia|constructor]].
      split; [intros ->; discriminate|]. intros c Hc. right. rewrite <- H0. now apply in_map. }
  induction 1 as [i ws H|i ws is wss H Hr IH]; intros A; inversion A; subst; [eauto|]. apply Forall_app. split; eauto.
Qed.

(** The body of the command: what follows the equal sign. *)
Lemma body_facts is ws body : Forall allowed is -> items_words is ws -> typed ws body ->
  (forall c, In c body -> c <> "="%char /\ upper c <> "E"%char) /\
  (exists c r, body = c :: r /\ is_space c = false /\ is_digit (upper c) = true) /\
  (exists p d, body = p ++ [d] /\ is_space d = false /\ d <> ","%char).
Proof.
  intros A W T. pose proof (item_words_digits is ws W A) as D. split; [|split].
  - intros c Hc. destruct (typed_chars ws body T c Hc) as [(w & Hw & Hcw)|[->| ->]]; [|split; discriminate|split; discriminate].
    rewrite Forall_forall in D. destruct (D w Hw) as [_ Dw]. destruct (Dw c Hcw) as [X|X].
    + rewrite (upper_digit _ X). split; intros ->; discriminate X.
    + split; [intros ->; cbn in X; intuition discriminate|]. intros E. rewrite E in X. cbn in X. intuition discriminate.
  - pose proof (items_upper is ws W A) as U. assert (exists w ws', ws = w :: ws' /\ forallb is_digit w = true /\ w <> []) as (w & ws' & -> & Dw & Nw).
    { destruct W as [i ws W|i ws is wss W]; inversion A; subst; inversion W; subst; cbn [allowed app] in *;
      (do 2 eexists; split; [reflexivity|]; apply int_text_digits; lia). }
    destruct w as [|c w]; [congruence|]. cbn in Dw. apply andb_true_iff in Dw as [Dc _]. inversion T; subst; cbn [app];
    (do 2 eexists; split; [reflexivity|]; split; [now apply digit_not_space|now rewrite upper_digit]).
  - assert (F : Forall word_ok ws).
    { apply Forall_forall. intros w Hw. rewrite Forall_forall in D. destruct (D w Hw) as [N Dw]. split; [exact N|]. apply free_in.
      intros c Hc. destruct (Dw c Hc) as [X|X]; [now apply digit_not_delim|]. unfold set_delim, is_any_of. cbn [existsb].
      rewrite orb_false_r. apply orb_false_iff. split; apply Ascii.eqb_neq; intros ->; cbn in X; intuition discriminate. }
    destruct (typed_last ws body T F) as (p & d & E & Hd). exists p, d. split; [exact E|].
    unfold set_delim, is_any_of in Hd. cbn [existsb] in Hd. rewrite orb_false_r in Hd. apply orb_false_iff in Hd as [Hd1 Hd2].
    apply Ascii.eqb_neq in Hd1, Hd2. split; [|exact Hd1].
    assert (In d body) as Hb by (rewrite E; apply in_app_iff; right; now left).
    destruct (typed_chars ws body T d Hb) as [(w & Hw & Hcw)|[->| ->]]; try congruence.
    rewrite Forall_forall in D. destruct (D w Hw) as [_ Dw]. destruct (Dw d Hcw) as [X|X]; [now apply digit_not_space|].
    rewrite <- upper_space. cbn in X. destruct X as [<-|[<-|[<-|[<-|[]]]]]; reflexivity.
Qed.

(** The text of the command. *)
Definition set_text (s b0 b1 b2 : str) (id : Z) (body : str) : str :=
  s ++ " "%char :: b0 ++ int_text id ++ b1 ++ "="%char :: b2 ++ body.
Definition blanks (b : str) : Prop := forall c, In c b -> c = " "%char.

Lemma set_of_text s b0 b1 b2 id is ws body : length s = 3 -> ~ In "="%char s -> blanks b0 -> blanks b1 -> blanks b2 -> (0 <= id < 2 ^ 31 - 1)%Z ->
  Forall allowed is -> items_words is ws -> typed ws body ->
  exists vs, set_of_line (set_text s b0 b1 b2 id body) = Ok (SetNumbers id vs) /\ forall x, In x vs <-> exists i, In i is /\ stands_for i x.
Proof.
  intros Hs Hse H0 H1 H2 Hid A W T. destruct (set_values_spec is A) as (vs & EV & SV). exists vs. split; [|exact SV].
  destruct (body_facts is ws body A W T) as (Fc & (c & r & Ec & Sc & Dc) & (p & d & Ed & Sd & _)).
  assert (Heq : free (is_any_of ["="%char]) (s ++ " "%char :: b0 ++ int_text id ++ b1)).
  { apply free_in. intros x Hx. unfold is_any_of. cbn [existsb]. rewrite orb_false_r. apply Ascii.eqb_neq. intros ->.
    change (s ++ " "%char :: b0 ++ int_text id ++ b1) with (s ++ [" "%char] ++ b0 ++ int_text id ++ b1) in Hx. rewrite !in_app_iff in Hx.
    destruct (int_text_digits id ltac:(lia)) as [D _]. rewrite forallb_forall in D.
    destruct Hx as [X|[X|[X|[X|X]]]]; [tauto|destruct X as [X|[]]; discriminate|discriminate (H0 _ X)|discriminate (D _ X)|discriminate (H1 _ X)]. }
  assert (Hb2 : free (is_any_of ["="%char]) (b2 ++ body)).
  { apply free_in. intros x Hx. unfold is_any_of. cbn [existsb]. rewrite orb_false_r. apply Ascii.eqb_neq. intros ->.
    apply in_app_iff in Hx as [X|X]; [discriminate (H2 _ X)|]. now apply (proj1 (Fc _ X)). }
  assert (ES : split_compress (is_any_of ["="%char]) (set_text s b0 b1 b2 id body) = [s ++ " "%char :: b0 ++ int_text id ++ b1; b2 ++ body]).
  { replace (set_text s b0 b1 b2 id body) with ((s ++ " "%char :: b0 ++ int_text id ++ b1) ++ ["="%char] ++ (b2 ++ body)).
    - rewrite split_compress_word; [|exact Heq|discriminate|reflexivity|].
      + now rewrite split_compress_free.
      + destruct (b2 ++ body) as [|x y]; [exact I|]. apply free_in with (c := x) in Hb2; [exact Hb2|now left].
    - unfold set_text. rewrite <- !app_assoc. cbn [app]. now rewrite <- !app_assoc. }
  unfold set_of_line. rewrite ES. cbn [bind].
  assert (length (s ++ " "%char :: b0 ++ int_text id ++ b1) <? 4 = false) as ->.
  { apply Nat.ltb_ge. rewrite app_length. cbn [length]. lia. }
  assert (skipn 4 (s ++ " "%char :: b0 ++ int_text id ++ b1) = b0 ++ int_text id ++ b1) as ->.
  { destruct s as [|x [|y [|z [|]]]]; cbn in Hs; try lia. reflexivity. }
  assert (B : forall b, blanks b -> forallb is_space b = true).
  { intros b Hb. apply forallb_forall. intros x Hx. now rewrite (Hb x Hx). }
  rewrite (trim_spaces_l b0) by now apply B. rewrite trim_spaces_r by now apply B.
  destruct (int_text_digits id ltac:(lia)) as [Did Nid].
  rewrite trim_nospace by (apply free_in; intros x Hx; rewrite forallb_forall in Did; apply digit_not_space; auto).
  rewrite stoi_text by (unfold INT_MAX32; lia). cbn [bind].
  rewrite (trim_spaces_l b2) by now apply B.
  assert (Ht : trim body = body).
  { destruct p as [|q p].
    - cbn in Ed. rewrite Ed. apply trim_nospace. apply free_in. intros x [<-|[]]. exact Sd.
    - cbn [app] in Ed. rewrite Ec in Ed. injection Ed as <- ->. rewrite Ec. apply trim_ends; assumption. }
  rewrite Ht.
  assert (U : exists u, to_upper body = upper c :: u) by (rewrite Ec; eexists; reflexivity). destruct U as [u U].
  assert (P : forall q y, is_digit q = false -> has_prefix (q :: y) (to_upper body) = false).
  { intros q y Hq. rewrite U. unfold has_prefix. cbn [length firstn str_eqb]. assert (Ascii.eqb (upper c) q = false) as ->; [|reflexivity].
    apply Ascii.eqb_neq. intros E. rewrite E in Dc. congruence. }
  rewrite (P "A"%char (txt "LL") eq_refl : has_prefix (txt "ALL") _ = _), (P "I"%char (txt "NCLUDE") eq_refl : has_prefix (txt "INCLUDE") _ = _),
    (P "E"%char (txt "XCLUDE") eq_refl : has_prefix (txt "EXCLUDE") _ = _), (P "E"%char (txt "LEMENTS") eq_refl : has_prefix (txt "ELEMENTS") _ = _),
    (P "G"%char (txt "RID") eq_refl : has_prefix (txt "GRID") _ = _).
  cbn [orb].
  assert (has_infix (txt "EXCEPT") (to_upper body) = false) as ->.
  { apply (has_infix_absent "E"%char (txt "XCEPT")). intros X. apply in_map_iff in X as (x & X & Hx). now apply (proj2 (Fc _ Hx)). }
  assert (negb match to_upper body with c0 :: _ => is_digit c0 | [] => false end = false) as -> by (rewrite U, Dc; reflexivity).
  assert (F : Forall word_ok (map to_upper ws)) by (rewrite (items_upper is ws W A); now apply uwords_ok).
  destruct (typed_split _ _ (typed_upper ws body T) F) as [E _]. unfold set_delim in E. rewrite E, (items_upper is ws W A), EV. reflexivity.
Qed.

(** Whatever the items, the separators, the blanks and the way the command is
    cut into lines, the set defined is the one the items stand for, and reading
    goes on after the command. *)
Theorem C30_set_denotes_items : forall s b0 b1 b2 id is ws body first chunks ls rest,
  to_upper s = txt "SET" -> blanks b0 -> blanks b1 -> blanks b2 -> (0 <= id < 2 ^ 31 - 1)%Z ->
  Forall allowed is -> items_words is ws -> typed ws body ->
  set_text s b0 b1 b2 id body = first ++ concat chunks -> first <> [] ->
  Forall ends_with_comma (removelast (first :: chunks)) -> continued rest chunks ls ->
  exists vs, addSet first ls = Ok (SetNumbers id vs, rest) /\ forall x, In x vs <-> exists i, In i is /\ stands_for i x.
Proof.
  intros s b0 b1 b2 id is ws body first chunks ls rest Hs H0 H1 H2 Hid A W T E Nf F C.
  assert (Hl : length s = 3) by (rewrite <- (to_upper_length s), Hs; reflexivity).
  assert (Hse : ~ In "="%char s).
  { intros X. apply (in_map upper) in X. unfold to_upper in Hs. rewrite Hs in X. cbn in X. intuition discriminate. }
  destruct (set_of_text s b0 b1 b2 id is ws body Hl Hse H0 H1 H2 Hid A W T) as (vs & EV & SV). exists vs. split; [|exact SV].
  destruct (body_facts is ws body A W T) as (_ & _ & (p & d & Ed & _ & Nd)).
  assert (L : ends_comma (first ++ concat chunks) = false).
  { rewrite <- E, Ed. unfold set_text. change (s ++ " "%char :: b0 ++ int_text id ++ b1 ++ "="%char :: b2 ++ p ++ [d]) with
      (s ++ [" "%char] ++ b0 ++ int_text id ++ b1 ++ ["="%char] ++ b2 ++ p ++ [d]). rewrite !app_assoc, ends_comma_app by discriminate.
    cbn. now apply Ascii.eqb_neq. }
  assert (SL : set_line (S (S (length ls))) first ls = Ok (first ++ concat chunks, rest)).
  { assert (CN : Forall (fun c => c <> []) chunks) by (clear -C; induction C; [constructor|assumption|constructor; assumption]).
    apply set_line_cont; [exact C|lia| |].
    - intros ->. cbn in L. rewrite app_nil_r in L. exact L.
    - intros Hc. destruct chunks as [|c1 chunks]; [exfalso; now apply Hc|]. cbn [removelast] in F. inversion F as [|? ? F1 F2]; subst.
      split; [now apply ends_comma_spec|]. split; [revert F2; apply Forall_impl; intros; now apply ends_comma_spec|].
      assert (NL : last (c1 :: chunks) [] <> []).
      { assert (In (last (c1 :: chunks) []) (c1 :: chunks)) as I1.
        { clear. destruct (exists_last (l := c1 :: chunks)) as (q & x & ->); [discriminate|]. rewrite last_last. apply in_app_iff. right. now left. }
        rewrite Forall_forall in CN. now apply CN. }
      destruct (exists_last (l := c1 :: chunks)) as (q & x & Q); [discriminate|]. rewrite Q in L, NL |- *. rewrite last_last in *.
      rewrite concat_app in L. cbn [concat] in L. rewrite app_nil_r, app_assoc, ends_comma_app in L; assumption. }
  unfold addSet. rewrite SL. cbn [bind fst snd]. rewrite <- E, EV. reflexivity.
Qed.

(** A command whose last line ends with a comma, at the end of the file: the
    reader never stops, whatever the number of steps. *)
Theorem C30_unfinished_set_refuted : forall fuel line, ends_with_comma line -> set_line fuel line [] = NoFuel.
Proof.
  intros fuel line H. apply ends_comma_spec in H. induction fuel as [|fuel IH]; [reflexivity|]. cbn [set_line]. rewrite H. exact IH.
Qed.

Example C30_case :
  let lines := [txt "$ comment"; txt "   21 ,12,"; []; txt "30  "; txt "LOAD = 1"] in
  let is := [Single 7; Range 10 12; Single 21; Single 12; Single 30] in
  let body := txt "7, 10 thru 12,21 ,12,30" in
  set_text (txt "Set") [] (txt " ") (txt " ") 5 body = txt "Set 5 = 7, 10 thru 12," ++ concat [txt "21 ,12,"; txt "30"] /\
  (exists ws, items_words is ws /\ typed ws body) /\ Forall allowed is /\
  continued [txt "LOAD = 1"] [txt "21 ,12,"; txt "30"] lines /\
  addSet (txt "Set 5 = 7, 10 thru 12,") lines = Ok (SetNumbers 5 [7; 10; 11; 12; 21; 12; 30], [txt "LOAD = 1"])%Z.
Proof.
  cbv zeta. split; [vm_compute; reflexivity|]. split.
  { exists [txt "7"; txt "10"; txt "thru"; txt "12"; txt "21"; txt "12"; txt "30"]. split.
    - apply (isw_cons (Single 7) [txt "7"]); [apply iw_single|].
      apply (isw_cons (Range 10 12) [txt "10"; txt "thru"; txt "12"]); [now apply (iw_range 10 12 (txt "thru"))|].
      apply (isw_cons (Single 21) [txt "21"]); [apply iw_single|]. apply (isw_cons (Single 12) [txt "12"]); [apply iw_single|].
      apply isw_one. apply (iw_single 30).
    - assert (S : forall s, s <> [] -> forallb set_delim s = true -> separator s).
      { intros s N H. split; [exact N|]. intros c Hc. rewrite forallb_forall in H. specialize (H c Hc).
        unfold set_delim, is_any_of in H. cbn [existsb] in H. rewrite orb_false_r in H. apply orb_true_iff in H as [H|H]; apply Ascii.eqb_eq in H; auto. }
      apply (ty_cons (txt "7") (txt ", ") _ (txt "10 thru 12,21 ,12,30")); [apply S; [discriminate|reflexivity]|].
      apply (ty_cons (txt "10") (txt " ") _ (txt "thru 12,21 ,12,30")); [apply S; [discriminate|reflexivity]|].
      apply (ty_cons (txt "thru") (txt " ") _ (txt "12,21 ,12,30")); [apply S; [discriminate|reflexivity]|].
      apply (ty_cons (txt "12") (txt ",") _ (txt "21 ,12,30")); [apply S; [discriminate|reflexivity]|].
      apply (ty_cons (txt "21") (txt " ,") _ (txt "12,30")); [apply S; [discriminate|reflexivity]|].
      apply (ty_cons (txt "12") (txt ",") _ (txt "30")); [apply S; [discriminate|reflexivity]|]. apply ty_one. }
  split; [repeat constructor; cbn; lia|]. split; [|vm_compute; reflexivity].
  apply co_skip; [left; reflexivity|discriminate|].
  apply (co_line _ [txt "30"] (txt "   ") (txt "21 ,12,") []); try reflexivity; [discriminate|cbn; intuition discriminate|].
  apply co_skip; [right; reflexivity|discriminate|].
  apply (co_line _ [] [] (txt "30") (txt "  ")); try reflexivity; [discriminate|cbn; intuition discriminate|]. apply co_end.
Qed.
Print Assumptions C30_set_denotes_items.
Print Assumptions C30_unfinished_set_refuted.

(** ** C29: combinations *)

Lemma combine_spec ids texts vs : length texts <= length ids -> Forall2 (fun t v => stod t = Ok v) texts vs ->
  forall fuel i, 0 < fuel -> length texts < i + fuel -> exists res, combine_loop fuel i ids texts = Ok res /\
  forall a v, In (a, v) res <-> exists j, nth_error ids (i + 2 * j) = Some a /\ nth_error vs (i + 2 * j) = Some v.
Proof.
  intros Hl HF. assert (Hv : length texts = length vs) by (clear -HF; induction HF; cbn; lia).
  induction fuel as [|fuel IH]; intros i H0 Hi; [lia|]. cbn [combine_loop]. destruct (Nat.ltb_spec i (length texts)) as [Hlt|Hge].
  - destruct (nth_error ids i) as [a|] eqn:Ea; [|apply nth_error_None in Ea; lia].
    destruct (nth_error texts i) as [t|] eqn:Et; [|apply nth_error_None in Et; lia].
    destruct (nth_error vs i) as [v|] eqn:Ev; [|apply nth_error_None in Ev; lia].
    assert (St : stod t = Ok v).
    { clear -HF Et Ev. revert i Et Ev. induction HF; intros [|i] Et Ev; cbn in *; try discriminate; [congruence|eauto]. }
    destruct (IH (i + 2)) as (res & E & IR); [lia|lia|]. exists ((a, v) :: res). cbn [of_option bind]. rewrite St. cbn [bind]. rewrite E. split; [reflexivity|].
    intros a' v'. cbn [In]. rewrite IR. split.
    + intros [X|(j & X & Y)]; [injection X as <- <-; exists 0; rewrite Nat.add_0_r; auto|]. exists (S j).
      replace (i + 2 * S j) with (i + 2 + 2 * j) by lia. auto.
    + intros ([|j] & X & Y); [left; rewrite Nat.add_0_r in X, Y; congruence|right; exists j].
      replace (i + 2 + 2 * j) with (i + 2 * S j) by lia. auto.
  - exists []. split; [reflexivity|]. intros a v. split; [intros []|]. intros (j & _ & X). exfalso.
    assert (i + 2 * j < length vs) by (apply nth_error_Some; congruence). lia.
Qed.

(** The subcases the coefficients of a SUBSEQ command are attached to: the
    i-th coefficient goes to the i-th subcase when i is even (counting from 0),
    to none otherwise. *)
Theorem C29_coefficients_partial : forall ids c texts vs,
  cfind c (txt "SUBSEQ") = Some (join ","%char texts) -> texts <> [] -> Forall (fun t => ~ In ","%char t) texts ->
  Forall2 (fun t v => stod t = Ok v) texts vs -> length texts <= length ids ->
  exists res, addCombination ids c = Ok res /\
    forall a v, In (a, v) res <-> exists i, Nat.Even i /\ nth_error ids i = Some a /\ nth_error vs i = Some v.
Proof.
  intros ids c texts vs E N F HF Hl. unfold addCombination. rewrite E. cbn [of_option bind].
  rewrite split_join; [|exact N|].
  - destruct (combine_spec ids texts vs Hl HF (S (length texts)) 0) as (res & ER & IR); [lia|lia|]. exists res. split; [exact ER|].
    intros a v. rewrite IR. split.
    + intros (j & X). exists (2 * j). split; [exists j; reflexivity|exact X].
    + intros (i & [j ->] & X). exists j. exact X.
  - apply forallb_forall. intros t Ht. rewrite Forall_forall in F. apply negb_true_iff. apply contains_false. auto.
Qed.

(** With two coefficients or more, the second subcase gets none: the
    combination is not the one asked for. *)
Theorem C29_second_coefficient_refuted : forall ids c texts vs id2,
  cfind c (txt "SUBSEQ") = Some (join ","%char texts) -> Forall (fun t => ~ In ","%char t) texts ->
  Forall2 (fun t v => stod t = Ok v) texts vs -> 2 <= length texts <= length ids -> NoDup ids -> nth_error ids 1 = Some id2 ->
  exists res, addCombination ids c = Ok res /\ ~ exists v, In (id2, v) res.
Proof.
  intros ids c texts vs id2 E F HF Hl ND E2. destruct (C29_coefficients_partial ids c texts vs) as (res & ER & IR); try assumption; [destruct texts; cbn in *; [lia|discriminate]|lia|].
  exists res. split; [exact ER|]. intros (v & X). apply IR in X as (i & [j ->] & X & _).
  rewrite NoDup_nth_error in ND. assert (2 * j = 1); [|lia]. apply ND; [apply nth_error_Some; congruence|congruence].
Qed.
Example C29_case :
  let lines := [txt "  SUBSEQ = 1.5,-2.,3.E1"; txt "BEGIN BULK"] in
  let c := [(txt "SUBSEQ", txt "1.5,-2.,3.E1")] in
  parse_case false [] lines = Ok (c, [], txt "BEGIN", []) /\
  Forall2 (fun t v => stod t = Ok v) [txt "1.5"; txt "-2."; txt "3.E1"] [(15, -1); (-2, 0); (3, 1)]%Z /\
  addCombination [10; 20; 30]%Z c = Ok [(10, (15, -1)); (30, (3, 1))]%Z.
Proof. cbv zeta. split; [vm_compute; reflexivity|]. split; [repeat constructor|vm_compute; reflexivity]. Qed.
Print Assumptions C29_coefficients_partial.
Print Assumptions C29_second_coefficient_refuted.

(** ** C31: commands recognised *)

(** Keys with and without options. *)
Definition opt_delim := is_any_of ["("%char; ","%char; " "%char; ")"%char].
Definition plain_word (w : str) : Prop := w <> [] /\ forall c, In c w -> ~ In c ["("%char; ","%char; " "%char; ")"%char].
Definition with_options (base : str) (opts : list str) : str := base ++ "("%char :: join ","%char opts ++ [")"%char].

Lemma plain_free w : plain_word w -> free opt_delim w.
Proof.
  intros [_ H]. apply free_in. intros c Hc. specialize (H c Hc). unfold opt_delim, is_any_of.
  destruct (existsb (Ascii.eqb c) _) eqn:E; [|reflexivity]. exfalso. apply existsb_exists in E as (d & Hd & X). apply Ascii.eqb_eq in X. subst d. tauto.
Qed.
Lemma plain_head w : plain_word w -> match w with c :: _ => opt_delim c = false | [] => True end.
Proof. intros H. apply plain_free in H. destruct w; [exact I|]. apply free_in with (c := a) in H; [exact H|now left]. Qed.
Lemma split_options opts : opts <> [] -> Forall plain_word opts -> split_compress opt_delim (join ","%char opts ++ [")"%char]) = opts ++ [[]].
Proof.
  intros N F. induction F as [|w opts Hw F IH]; [congruence|]. destruct opts as [|w' opts].
  - cbn [join app]. pose proof (split_compress_word opt_delim w [")"%char] []) as X. rewrite app_nil_r in X. rewrite X; [reflexivity|now apply plain_free|discriminate|reflexivity|exact I].
  - rewrite join_cons by discriminate. rewrite <- app_assoc. change (("," :: join "," (w' :: opts))%char ++ [")"%char]) with ([","%char] ++ (join ","%char (w' :: opts) ++ [")"%char])).
    rewrite split_compress_word; [rewrite IH by discriminate; reflexivity|now apply plain_free|discriminate|reflexivity|].
    inversion F as [|? ? Hw' _]; subst. pose proof (plain_head _ Hw') as P. destruct Hw' as [Nw _]. destruct w' as [|c w']; [congruence|].
    destruct opts; exact P.
Qed.
Lemma key_with_options ee base opts : plain_word base -> opts <> [] -> Forall plain_word opts ->
  key_and_options ee (with_options base opts) = Ok (base, opts).
Proof.
  intros Hb N F. unfold key_and_options, with_options. fold opt_delim. cbv zeta.
  assert (E : split_compress opt_delim (base ++ "("%char :: join ","%char opts ++ [")"%char]) = (base :: opts) ++ [[]]).
  { change ("("%char :: join ","%char opts ++ [")"%char]) with (["("%char] ++ (join ","%char opts ++ [")"%char])).
    rewrite split_compress_word; [now rewrite split_options|now apply plain_free|discriminate|reflexivity|].
    destruct opts as [|w opts]; [congruence|]. inversion F as [|? ? Hw _]; subst. pose proof (plain_head _ Hw) as P. destruct Hw as [Nw _].
    destruct w; [congruence|]. destruct opts; exact P. }
  rewrite E.
  assert (K : filter (fun o : str => negb (null o)) (base :: opts) = base :: opts).
  { assert (X : Forall plain_word (base :: opts)) by (constructor; assumption). clear -X. induction X as [|w l [Hn _] _ IH]; [reflexivity|].
    cbn [filter]. destruct w; [congruence|]. cbn [null negb]. now rewrite IH. }
  assert (K2 : filter (fun o : str => negb (null o)) ((base :: opts) ++ [[]]) = base :: opts).
  { rewrite filter_app, K. apply app_nil_r. }
  unfold str in *. rewrite K2.
  assert (length ((base :: opts) ++ [[]]) - length (base :: opts) = 1) as ->.
  { rewrite app_length. cbn [length]. lia. }
  cbn [Nat.eqb Nat.sub repeat]. rewrite app_nil_r. cbn [bind]. destruct opts; [congruence|reflexivity].
Qed.
Lemma key_plain key : plain_word key -> key_and_options erase_end_libstdcxx key = Ok (key, []) /\ key_and_options erase_end_standard key = UB.
Proof.
  intros H. unfold key_and_options. fold opt_delim. rewrite split_compress_free by now apply plain_free.
  destruct H as [N _]. destruct key as [|c key]; [congruence|]. split; reflexivity.
Qed.

Lemma mapM_in {A B} (f : A -> outcome B) l r : mapM f l = Ok r -> forall a, In a l -> exists b, f a = Ok b /\ In b r.
Proof.
  revert r. induction l as [|x l IH]; intros r E a Ha; [destruct Ha|]. cbn in E. destruct (f x) as [b| | |] eqn:Ef; try discriminate. cbn in E.
  destruct (mapM f l) as [bs| | |]; try discriminate. cbn in E. injection E as <-. destruct Ha as [<-|Ha]; [exists b; cbn; auto|].
  destruct (IH bs eq_refl a Ha) as (b' & ? & ?). exists b'. cbn. auto.
Qed.
Lemma mapM_in_inv {A B} (f : A -> outcome B) l r : mapM f l = Ok r -> forall b, In b r -> exists a, f a = Ok b /\ In a l.
Proof.
  revert r. induction l as [|x l IH]; intros r E b Hb; cbn in E; [injection E as <-; destruct Hb|]. destruct (f x) as [b0| | |] eqn:Ef; try discriminate. cbn in E.
  destruct (mapM f l) as [bs| | |]; try discriminate. cbn in E. injection E as <-. destruct Hb as [<-|Hb]; [exists x; cbn; auto|].
  destruct (IH bs eq_refl b Hb) as (a & ? & ?). exists a. cbn. auto.
Qed.
Lemma selections_in ee c ss : selections ee c = Ok ss -> forall s, In s ss <-> exists e l, In e c /\ select_entry ee e = Ok l /\ In s l.
Proof.
  unfold selections. intros E s. destruct (mapM (select_entry ee) c) as [ls| | |] eqn:EM; try discriminate. cbn in E. injection E as <-.
  rewrite in_concat. split.
  - intros (l & Hl & Hs). destruct (mapM_in_inv _ _ _ EM l Hl) as (e & ? & ?). eauto.
  - intros (e & l & He & El & Hs). destruct (mapM_in _ _ _ EM e He) as (l' & El' & ?). exists l'. split; [assumption|congruence].
Qed.

(** No context whatsoever, whichever reading of the option list, makes an
    analysis select a contact set, a frequency output or a stress output: the
    three commands have no effect. *)
Theorem C31_unrecognised_refuted : forall ee c ss, selections ee c = Ok ss ->
  forall id, ~ In (SelCONTACT id) ss /\ ~ In (SelOFREQ id) ss /\ ~ In (SelSTRESS id) ss.
Proof.
  intros ee c ss E id.
  assert (X : forall s, In s ss -> match s with SelCONTACT _ | SelOFREQ _ | SelSTRESS _ => False | _ => True end).
  { intros s Hs. apply (selections_in _ _ _ E) in Hs as (e & l & _ & El & Hs). unfold select_entry in El.
    destruct (selected_id (snd e)) as [i| | |]; try discriminate. cbn [bind] in El.
    destruct (key_and_options ee (fst e)) as [[key options]| | |]; try discriminate. cbn [bind] in El.
    assert (C4 : forall p : str, 4 < length p -> compare0 4 p key = false).
    { intros p Hp. unfold compare0. destruct (str_eqb_spec (firstn 4 key) p) as [<-|]; [|reflexivity]. exfalso. rewrite firstn_length in Hp. lia. }
    rewrite (C4 (txt "BCONTACT")), (C4 (txt "OFREQUENCY")), (C4 (txt "STRESS")) in El by (cbn; lia).
    destruct (compare0 3 (txt "SPC") key); [injection El as <-; destruct Hs as [<-|[]]; exact I|].
    destruct (compare0 3 (txt "MPC") key); [injection El as <-; destruct Hs as [<-|[]]; exact I|].
    destruct (compare0 7 (txt "LOADSET") key); [injection El as <-; destruct Hs as [<-|[]]; exact I|].
    destruct (compare0 4 (txt "LOAD") key); [injection El as <-; destruct Hs as [<-|[]]; exact I|].
    destruct (compare0 5 (txt "DLOAD") key); [injection El as <-; destruct Hs as [<-|[]]; exact I|].
    destruct (compare0 4 (txt "DISP") key); [|injection El as <-; destruct Hs].
    injection El as <-. destruct (i =? 0)%Z; [destruct Hs|]. destruct Hs as [<-|[]]. exact I. }
  repeat split; intros H; exact (X _ H).
Qed.

(** With the standard's meaning of erasing at the end of a vector, a context
    holding a single command without options is never read: undefined
    behaviour. *)
Theorem C31_plain_command_refuted : forall k v c, plain_word k -> In (k, v) c ->
  forall ss, selections erase_end_standard c <> Ok ss.
Proof.
  intros k v c H Hin ss E. unfold selections in E. destruct (mapM (select_entry erase_end_standard) c) as [ls| | |] eqn:EM; try discriminate.
  destruct (mapM_in _ _ _ EM _ Hin) as (l & El & _). unfold select_entry in El. cbn [fst snd] in El.
  destruct (selected_id v) as [n| | |]; try discriminate. cbn [bind] in El. rewrite (proj2 (key_plain k H)) in El. discriminate.
Qed.

(** The displacement output, for its part, is recognised with its options. *)
Theorem C31_displacement_partial : forall ee c ss base opts n,
  plain_word base -> has_prefix (txt "DISP") base = true -> opts <> [] -> Forall plain_word opts -> (0 < n < 2 ^ 31 - 1)%Z ->
  In (with_options base opts, int_text n) c -> selections ee c = Ok ss ->
  exists phase, In (SelDISP n phase) ss /\ (phase = true <-> In (txt "PHASE") opts).
Proof.
  intros ee c ss base opts n Hb Hp N F Hn Hin E.
  exists (existsb (fun o => str_eqb o (txt "PHASE")) opts). split.
  - apply (selections_in _ _ _ E). exists (with_options base opts, int_text n), [SelDISP n (existsb (fun o => str_eqb o (txt "PHASE")) opts)]. split; [exact Hin|]. split; [|left; reflexivity].
    unfold select_entry. cbn [fst snd]. rewrite (key_with_options ee base opts Hb N F).
    destruct (int_text_digits n ltac:(lia)) as [D Nn].
    assert (selected_id (int_text n) = Ok n) as ->.
    { unfold selected_id. rewrite trim_nospace by (apply free_in; intros x Hx; rewrite forallb_forall in D; apply digit_not_space; auto).
      rewrite D. destruct (int_text n) eqn:X; [congruence|]. cbn [null negb andb]. rewrite <- X. apply stoi_text. unfold INT_MAX32. lia. }
    cbn [bind].
    unfold has_prefix in Hp. change (length (txt "DISP")) with 4 in Hp.
    destruct (str_eqb_spec (firstn 4 base) (txt "DISP")) as [X|]; [|discriminate].
    destruct base as [|b1 [|b2 [|b3 [|b4 base]]]]; try discriminate X. cbn [firstn txt] in X. injection X as -> -> -> ->.
    destruct (Z.eqb_spec n 0); [lia|]. reflexivity.
  - rewrite existsb_exists. split.
    + intros (o & Ho & X). destruct (str_eqb_spec o (txt "PHASE")); [now subst|discriminate].
    + intros X. exists (txt "PHASE"). split; [exact X|reflexivity].
Qed.
Example C31_case :
  let c := [(txt "BCONTACT", txt "4"); (txt "DISP(PLOT,PHASE)", txt "5"); (txt "OFREQUENCY", txt "6"); (txt "SPC", txt "7"); (txt "STRESS(VMIS)", txt "8")] in
  selections erase_end_libstdcxx c = Ok [SelDISP 5 true; SelSPC 7] /\
  plain_word (txt "SPC") /\ txt "DISP(PLOT,PHASE)" = with_options (txt "DISP") [txt "PLOT"; txt "PHASE"].
Proof. cbv zeta. split; [vm_compute; reflexivity|]. split; [|reflexivity]. split; [discriminate|]. cbn. intuition (subst; discriminate). Qed.
Print Assumptions C31_unrecognised_refuted.
Print Assumptions C31_plain_command_refuted.
Print Assumptions C31_displacement_partial.
