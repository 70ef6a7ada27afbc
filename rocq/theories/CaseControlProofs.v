(** Lemmas about the case control model. *)
From Coq Require Import Ascii String ZArith List Bool Arith Lia.
From Verif Require Import Base TextModel TextProofs TokenizerModel TokenizerProofs RealModel CaseControlModel.
Import ListNotations.
Open Scope nat_scope.
Open Scope list_scope.

(** ** Splitting *)

Definition free (p : ascii -> bool) (w : str) : Prop := forallb (fun c => negb (p c)) w = true.

Lemma split_compress_cons p c r : p c = false ->
  exists f fs, split_compress p r = f :: fs /\ split_compress p (c :: r) = (c :: f) :: fs.
Proof.
  intros H. cbn. rewrite H. destruct (split_compress p r) as [|f fs] eqn:E; [|eauto].
  exfalso. clear -E. revert E. induction r as [|x r IH]; cbn; [discriminate|].
  destruct (p x); [destruct r as [|y r]; [discriminate|]; destruct (p y); [exact IH|discriminate]|].
  destruct (split_compress p r); discriminate.
Qed.
Lemma split_compress_free p w : free p w -> split_compress p w = [w].
Proof.
  unfold free. induction w as [|c w IH]; intros H; [reflexivity|]. cbn in H. apply andb_true_iff in H as [Hc Hw].
  cbn. apply negb_true_iff in Hc. rewrite Hc, (IH Hw). reflexivity.
Qed.
Lemma split_compress_sep p sep rest : sep <> [] -> forallb p sep = true -> (match rest with c :: _ => p c = false | [] => True end) ->
  split_compress p (sep ++ rest) = [] :: split_compress p rest.
Proof.
  intros Hn Hs Hr. induction sep as [|c sep IH]; [congruence|]. cbn in Hs. apply andb_true_iff in Hs as [Hc Hs].
  destruct sep as [|d sep].
  - change ([c] ++ rest) with (c :: rest). cbn [split_compress]. rewrite Hc. destruct rest as [|y rest]; [reflexivity|]. now rewrite Hr.
  - change ((c :: d :: sep) ++ rest) with (c :: d :: (sep ++ rest)). cbn [split_compress]. rewrite Hc.
    assert (Hd : p d = true) by (cbn in Hs; now apply andb_true_iff in Hs as [? _]). rewrite Hd.
    specialize (IH ltac:(discriminate) Hs). cbn [app] in IH. cbn [split_compress] in IH. rewrite Hd in IH. exact IH.
Qed.
Lemma split_compress_word p w sep rest : free p w -> sep <> [] -> forallb p sep = true ->
  (match rest with c :: _ => p c = false | [] => True end) ->
  split_compress p (w ++ sep ++ rest) = w :: split_compress p rest.
Proof.
  intros Hw Hn Hs Hr. induction w as [|c w IH]; cbn [app]; [now apply split_compress_sep|].
  unfold free in Hw. cbn in Hw. apply andb_true_iff in Hw as [Hc Hw]. apply negb_true_iff in Hc.
  destruct (split_compress_cons p c (w ++ sep ++ rest) Hc) as (f & fs & E1 & ->). rewrite (IH Hw) in E1. now injection E1 as <- <-.
Qed.

Lemma free_app p a b : free p a -> free p b -> free p (a ++ b).
Proof. unfold free. intros H1 H2. now rewrite forallb_app, H1, H2. Qed.
Lemma free_in p w : free p w <-> (forall c, In c w -> p c = false).
Proof.
  unfold free. rewrite forallb_forall. split; intros H c Hc; specialize (H c Hc); [now apply negb_true_iff|now apply negb_true_iff].
Qed.

(** ** Numbers *)

Lemma take_digits_all ds r : forallb is_digit ds = true -> (match r with c :: _ => is_digit c = false | [] => True end) ->
  take_digits (ds ++ r) = (ds, r).
Proof.
  intros H Hr. induction ds as [|c ds IH]; cbn [app take_digits].
  - destruct r as [|c r]; [reflexivity|]. cbn. now rewrite Hr.
  - cbn in H. apply andb_true_iff in H as [Hc H]. rewrite Hc, (IH H). reflexivity.
Qed.
Lemma digit_not_space c : is_digit c = true -> is_space c = false.
Proof.
  unfold is_digit, is_space. intros H. apply andb_true_iff in H as [H1 H2]. apply Nat.leb_le in H1, H2.
  apply orb_false_iff. split; [apply Nat.eqb_neq; lia|]. apply andb_false_iff. right. apply Nat.leb_gt. lia.
Qed.
Lemma digit_not_sign c : is_digit c = true -> Ascii.eqb c "-" = false /\ Ascii.eqb c "+" = false.
Proof.
  intros H. split; apply Ascii.eqb_neq; intros ->; discriminate H.
Qed.
Lemma stoi_digits ds : ds <> [] -> forallb is_digit ds = true -> (digits_val ds <= INT_MAX32)%Z -> stoi ds = Ok (digits_val ds).
Proof.
  intros Hn H Hv. unfold stoi. destruct ds as [|c ds]; [congruence|]. pose proof H as H0. cbn in H0. apply andb_true_iff in H0 as [Hc _].
  rewrite (dropWhile_head _ _ _ (digit_not_space _ Hc)). cbn [take_sign].
  destruct (digit_not_sign _ Hc) as [-> ->].
  pose proof (take_digits_all (c :: ds) [] H I) as E. rewrite app_nil_r in E. rewrite E. cbn [null].
  pose proof (digits_val_bounds _ H) as B. destruct B as [B _].
  assert (((INT_MIN32 <=? digits_val (c :: ds)) && (digits_val (c :: ds) <=? INT_MAX32))%Z = true) as ->; [|reflexivity].
  apply andb_true_iff. split; apply Z.leb_le; [|exact Hv]. unfold INT_MIN32. clear - B. lia.
Qed.
Lemma int_text_nonneg n : (0 <= n)%Z -> int_text n = nat_text n.
Proof. intros H. unfold int_text. destruct (Z.ltb_spec n 0); [lia|reflexivity]. Qed.
Lemma stoi_text n : (0 <= n <= INT_MAX32)%Z -> stoi (int_text n) = Ok n.
Proof.
  intros H. rewrite int_text_nonneg by lia. destruct (nat_text_spec n ltac:(lia)) as (H1 & H2 & H3).
  rewrite stoi_digits; try assumption; rewrite H2; [reflexivity|lia].
Qed.
Lemma int_text_digits n : (0 <= n)%Z -> forallb is_digit (int_text n) = true /\ int_text n <> [].
Proof. intros H. rewrite int_text_nonneg by exact H. destruct (nat_text_spec n H) as (? & ? & ?). tauto. Qed.

(** ** Upper case *)

Lemma upper_digit c : is_digit c = true -> upper c = c.
Proof.
  unfold is_digit, upper. intros H. apply andb_true_iff in H as [H1 H2]. apply Nat.leb_le in H1, H2.
  assert ((97 <=? nat_of_ascii c) = false) as -> by (apply Nat.leb_gt; lia). reflexivity.
Qed.
Lemma to_upper_digits w : forallb is_digit w = true -> to_upper w = w.
Proof.
  intros H. unfold to_upper. rewrite <- (map_id w) at 2. apply map_ext_in. intros c Hc. apply upper_digit.
  rewrite forallb_forall in H. now apply H.
Qed.
Lemma to_upper_app a b : to_upper (a ++ b) = to_upper a ++ to_upper b.
Proof. apply map_app. Qed.
Lemma to_upper_length a : length (to_upper a) = length a.
Proof. apply map_length. Qed.
Lemma upper_idem c : upper (upper c) = upper c.
Proof. destruct c as [[|] [|] [|] [|] [|] [|] [|] [|]]; reflexivity. Qed.
Lemma upper_space c : is_space (upper c) = is_space c.
Proof. destruct c as [[|] [|] [|] [|] [|] [|] [|] [|]]; reflexivity. Qed.
Lemma upper_case_delim c : case_delim (upper c) = case_delim c.
Proof. destruct c as [[|] [|] [|] [|] [|] [|] [|] [|]]; reflexivity. Qed.
Lemma to_upper_idem w : to_upper (to_upper w) = to_upper w.
Proof. unfold to_upper. rewrite map_map. apply map_ext. apply upper_idem. Qed.

(** ** Prefixes *)

Lemma str_eqb_refl a : str_eqb a a = true.
Proof. destruct (str_eqb_spec a a); congruence. Qed.
Lemma has_infix_absent c p l : ~ In c l -> has_infix (c :: p) l = false.
Proof.
  intros H. assert (E : forall l, ~ In c l -> has_prefix (c :: p) l = false).
  { clear. intros l H. unfold has_prefix. destruct l as [|d l]; cbn [length firstn str_eqb]; [reflexivity|].
    destruct (Ascii.eqb d c) eqn:X; [|reflexivity]. apply Ascii.eqb_eq in X. subst. exfalso. apply H. now left. }
  induction l as [|d l IH]; cbn [has_infix]; rewrite E by exact H; cbn [orb]; [reflexivity|]. apply IH. intros X. apply H. now right.
Qed.

(** ** Lists of set items *)

Lemma zrange_in a b x : In x (zrange a b) <-> (a <= x <= b)%Z.
Proof.
  unfold zrange. rewrite in_map_iff. split.
  - intros (i & <- & Hi). apply in_seq in Hi. lia.
  - intros H. exists (Z.to_nat (x - a)). split; [lia|]. apply in_seq. lia.
Qed.

(** ** Reading lines *)

Lemma read_skip first l ls : (starts "$" l = true \/ (first = true /\ forallb is_blank l = true)) ->
  readLineSkipComment first (l :: ls) = readLineSkipComment first ls.
Proof.
  intros [H|[-> H]]; cbn [readLineSkipComment].
  - rewrite (starts_not_blank _ H), H. cbn [negb]. rewrite !andb_false_r. reflexivity.
  - rewrite H. cbn [negb]. rewrite !andb_false_r. cbn [andb]. reflexivity.
Qed.

Lemma trim_padded a w b : forallb is_blank a = true -> forallb is_blank b = true -> trim w = w -> trim (a ++ w ++ b) = w.
Proof.
  intros Ha Hb Hw.
  assert (S : forall x, forallb is_blank x = true -> forallb is_space x = true).
  { intros x Hx. rewrite forallb_forall in *. intros c Hc. apply is_blank_space. now apply Hx. }
  rewrite trim_spaces_l by now apply S. rewrite trim_spaces_r by now apply S. exact Hw.
Qed.
Lemma forallb_sub {A} (p q : A -> bool) l : (forall c, p c = true -> q c = true) -> forallb p l = true -> forallb q l = true.
Proof. intros S H. rewrite forallb_forall in *. auto. Qed.

Lemma next_padded a w b ls : forallb is_blank a = true -> forallb is_blank b = true -> trim w = w -> w <> [] ->
  contains "$" w = false ->
  nextCaseLine ((a ++ w ++ b) :: ls) = Some (w, split_compress case_delim w, ls).
Proof.
  intros Ha Hb Hw Hn Hd. unfold nextCaseLine.
  assert (Hd' : contains "$" (a ++ w ++ b) = false).
  { apply contains_false. intros X. rewrite !in_app_iff in X. destruct X as [X|[X|X]].
    - rewrite forallb_forall in Ha. discriminate (Ha _ X).
    - apply contains_false in Hd. tauto.
    - rewrite forallb_forall in Hb. discriminate (Hb _ X). }
  rewrite read_nodollar; [|exact Hd'| |].
  - rewrite (trim_padded a w b Ha Hb Hw). reflexivity.
  - destruct w; [congruence|]. destruct a; discriminate.
  - intros _. rewrite !forallb_app. destruct (forallb is_blank w) eqn:E; [|now rewrite andb_false_r].
    exfalso. apply Hn. rewrite <- Hw. apply trim_all. apply (forallb_sub is_blank is_space); [apply is_blank_space|exact E].
Qed.

Lemma next_skip l ls : (starts "$" l = true \/ forallb is_blank l = true) -> nextCaseLine (l :: ls) = nextCaseLine ls.
Proof. intros H. unfold nextCaseLine. rewrite read_skip; [reflexivity|]. tauto. Qed.

Lemma trim_nospace w : free is_space w -> trim w = w.
Proof.
  intros H. unfold trim, trim_left, trim_right. unfold free in H.
  destruct w as [|c w]; [reflexivity|]. pose proof H as H0. cbn in H0. apply andb_true_iff in H0 as [Hc _]. apply negb_true_iff in Hc.
  rewrite (dropWhile_head _ _ _ Hc).
  assert (H2 : forallb (fun c => negb (is_space c)) (rev (c :: w)) = true) by now rewrite forallb_rev.
  destruct (rev (c :: w)) as [|d r] eqn:E; [now rewrite <- (rev_involutive (c :: w)), E|].
  cbn in H2. apply andb_true_iff in H2 as [Hd _]. apply negb_true_iff in Hd. rewrite (dropWhile_head _ _ _ Hd), <- E. apply rev_involutive.
Qed.
(** A text that begins and ends with characters other than blanks. *)
Lemma trim_ends c m d : is_space c = false -> is_space d = false -> trim (c :: m ++ [d]) = c :: m ++ [d].
Proof.
  intros Hc Hd. unfold trim, trim_left. rewrite (dropWhile_head _ _ _ Hc). change (c :: m ++ [d]) with ((c :: m) ++ [d]).
  now apply trim_right_nonspace.
Qed.

(** ** Contexts *)

Lemma cfind_cset c k v k' : cfind (cset c k v) k' = if str_eqb k' k then Some v else cfind c k'.
Proof.
  induction c as [|[k0 v0] r IH]; cbn [cset cfind]; [reflexivity|].
  destruct (str_eqb_spec k k0) as [<-|N]; cbn [cfind].
  - destruct (str_eqb k' k); reflexivity.
  - destruct (str_ltb k k0); cbn [cfind].
    + reflexivity.
    + rewrite IH. destruct (str_eqb_spec k' k0) as [->|N2]; [|reflexivity].
      destruct (str_eqb_spec k0 k); [congruence|reflexivity].
Qed.
Lemma in_cset c k v e : In e (cset c k v) -> e = (k, v) \/ In e c.
Proof.
  induction c as [|[k0 v0] r IH]; cbn [cset]; [cbn; intuition|].
  destruct (str_eqb k k0); [cbn; intuition|]. destruct (str_ltb k k0); [cbn; intuition|]. cbn. intuition.
Qed.
Lemma keys_cset c k v : forall x, In x (map fst (cset c k v)) <-> x = k \/ In x (map fst c).
Proof.
  intros x. induction c as [|[k0 v0] r IH]; cbn [cset]; [cbn; intuition|].
  destruct (str_eqb_spec k k0) as [<-|N]; [cbn; intuition|]. destruct (str_ltb k k0); cbn [map fst In]; [intuition|].
  rewrite IH. intuition.
Qed.

Lemma nat_of_ascii_inj a b : nat_of_ascii a = nat_of_ascii b -> a = b.
Proof. intros H. rewrite <- (ascii_nat_embedding a), <- (ascii_nat_embedding b). now f_equal. Qed.
Lemma str_ltb_trans a : forall b c, str_ltb a b = true -> str_ltb b c = true -> str_ltb a c = true.
Proof.
  induction a as [|x a IH]; intros [|y b] [|z c]; cbn [str_ltb]; try discriminate; auto.
  cbv zeta. intros H1 H2. apply orb_true_iff in H1, H2. apply orb_true_iff.
  destruct H1 as [H1|H1]; [apply Nat.ltb_lt in H1|apply andb_true_iff in H1 as [H1 H1']; apply Nat.eqb_eq in H1];
  (destruct H2 as [H2|H2]; [apply Nat.ltb_lt in H2|apply andb_true_iff in H2 as [H2 H2']; apply Nat.eqb_eq in H2]).
  - left. apply Nat.ltb_lt. lia.
  - left. apply Nat.ltb_lt. lia.
  - left. apply Nat.ltb_lt. lia.
  - right. apply andb_true_iff. split; [apply Nat.eqb_eq; lia|]. now apply (IH b c).
Qed.
Lemma str_ltb_irrefl a : str_ltb a a = false.
Proof.
  induction a as [|x a IH]; cbn [str_ltb]; [reflexivity|]. cbv zeta. rewrite IH, andb_false_r, Nat.ltb_irrefl. reflexivity.
Qed.
Lemma str_ltb_total a : forall b, a <> b -> str_ltb a b = false -> str_ltb b a = true.
Proof.
  induction a as [|x a IH]; intros [|y b] N H; cbn [str_ltb] in *; try congruence.
  cbv zeta in *. apply orb_false_iff in H as [H1 H2]. apply Nat.ltb_ge in H1. apply orb_true_iff.
  destruct (Nat.eq_dec (nat_of_ascii x) (nat_of_ascii y)) as [E|E].
  - right. apply andb_true_iff. split; [apply Nat.eqb_eq; lia|]. apply IH.
    + apply nat_of_ascii_inj in E. congruence.
    + rewrite E, Nat.eqb_refl in H2. exact H2.
  - left. apply Nat.ltb_lt. lia.
Qed.

(** The keys of a context are in increasing order. *)
Fixpoint sorted (c : context) : Prop :=
  match c with
  | [] => True
  | (k, _) :: r => (forall k' v', In (k', v') r -> str_ltb k k' = true) /\ sorted r
  end.
Lemma sorted_cset c k v : sorted c -> sorted (cset c k v).
Proof.
  induction c as [|[k0 v0] r IH]; cbn [cset sorted]; [intros _; split; [intros ? ? []|exact I]|].
  intros [H1 H2]. destruct (str_eqb_spec k k0) as [<-|N]; cbn [sorted]; [split; assumption|].
  destruct (str_ltb k k0) eqn:E; cbn [sorted].
  - split; [|split; assumption]. intros k' v' [X|X]; [injection X as <- <-; exact E|]. apply (str_ltb_trans _ k0); [exact E|eauto].
  - split; [|auto]. intros k' v' X. apply in_cset in X as [X|X]; [injection X as -> ->; apply str_ltb_total; congruence|eauto].
Qed.
Lemma sorted_in c k v : sorted c -> (In (k, v) c <-> cfind c k = Some v).
Proof.
  induction c as [|[k0 v0] r IH]; cbn [In cfind sorted]; [split; [tauto|discriminate]|].
  intros [H1 H2]. destruct (str_eqb_spec k k0) as [->|N].
  - split.
    + intros [X|X]; [now injection X as ->|]. specialize (H1 _ _ X). rewrite str_ltb_irrefl in H1. discriminate.
    + intros [= ->]. now left.
  - rewrite <- IH by exact H2. split; [intros [X|X]; [congruence|exact X]|tauto].
Qed.
