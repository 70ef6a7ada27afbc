(** C111: the cards of OptiStruct. *)
From Coq Require Import Ascii String ZArith List Bool Arith Lia.
From Verif Require Import Base TextModel TextProofs TokenizerModel NextIntsProofs RealModel CardModel CardProofs LoadCardModel FieldProofs PropertiesTokenizer OptistructModel.
Import ListNotations.
Open Scope nat_scope.
Open Scope list_scope.

(** ** The specification *)

(** From field [i] on, nothing but blanks and the numbers of the list, in order. *)
Inductive numbers_at (vec : list str) : nat -> list decimal -> Prop :=
| NumEnd i : (forall j, i <= j -> blank_at vec j) -> numbers_at vec i []
| NumBlank i l : blank_at vec i -> numbers_at vec (S i) l -> numbers_at vec i l
| NumReal i v l : real_at vec i v -> numbers_at vec (S i) l -> numbers_at vec i (v :: l).

(** From field [i] on, the faces of the list: an element, two nodes (or blanks) and the
    side of the normal (1: the other way round), with any blanks between the faces. *)
Inductive faces_at (vec : list str) : nat -> list (Z * option Z * option Z * Z) -> Prop :=
| FacesEnd i : (forall j, i <= j -> blank_at vec j) -> faces_at vec i []
| FacesNext i j e a b n l : i <= j -> (forall k, i <= k < j -> blank_at vec k) -> int_at vec j e ->
    (match a with Some x => int_at vec (S j) x | None => blank_at vec (S j) end) ->
    (match b with Some x => int_at vec (S (S j)) x | None => blank_at vec (S (S j)) end) ->
    int_or 0 vec (S (S (S j))) n -> faces_at vec (S (S (S (S j)))) l -> faces_at vec i ((e, a, b, n) :: l).
Definition node_of (o : option Z) : Z := match o with Some x => x | None => INT_MIN32 end.

(** ** Steps *)
Lemma at_end vec i j : length vec <= i -> length vec <= j -> at_field vec i = at_field vec j.
Proof. intros A B. unfold at_field. now rewrite !Nat.min_r. Qed.
Lemma skip_to vec j : (~ blank_at vec j \/ length vec <= j) -> forall n i fuel, n = length vec - i -> n < fuel -> i <= j -> (forall k, i <= k < j -> blank_at vec k) ->
  skip_blanks fuel (at_field vec i) = Ok (at_field vec j).
Proof.
  intros E. induction n as [|n IH]; intros i fuel Hn Hf Hij Hb; destruct fuel as [|fuel]; try lia; cbn [skip_blanks].
  - destruct (f_empty_end vec i ltac:(lia)) as [-> _]. cbn [bind]. f_equal. apply at_end; lia.
  - assert (L : i < length vec) by lia. rewrite (f_empty vec i L). cbn [bind]. destruct (Nat.eq_dec i j) as [-> |N].
    + destruct E as [E|E]; [|lia]. unfold blank_at in E. destruct (trim (field vec j)); [congruence|reflexivity].
    + assert (B : blank_at vec i) by (apply Hb; lia). unfold blank_at in B. rewrite B. cbn [null]. rewrite (f_skip vec i L). cbn [bind].
      apply IH; [lia|lia|lia|]. intros k Hk. apply Hb. lia.
Qed.
Lemma f_to vec i j : i <= j -> (forall k, i <= k < j -> blank_at vec k) -> (~ blank_at vec j \/ length vec <= j) -> skipToNotEmpty (at_field vec i) = Ok (at_field vec j).
Proof. intros A B C. unfold skipToNotEmpty. apply (skip_to vec j C (length vec - i)); auto. unfold at_field, at_pos. cbn [cvec]. lia. Qed.
(** There is always a field to stop at. *)
Lemma next_not_blank vec i : exists j, i <= j /\ (forall k, i <= k < j -> blank_at vec k) /\ (~ blank_at vec j \/ length vec <= j).
Proof.
  remember (length vec - i) as n eqn:Hn. revert i Hn. induction n as [|n IH]; intros i Hn.
  - exists i. split; [lia|]. split; [intros k; lia|right; lia].
  - destruct (trim (field vec i)) eqn:E.
    + destruct (IH (S i) ltac:(lia)) as (j & A & B & C). exists j. split; [lia|]. split; [|exact C]. intros k Hk. destruct (Nat.eq_dec k i) as [-> |N]; [exact E|apply B; lia].
    + exists i. split; [lia|]. split; [intros k; lia|left]. unfold blank_at. congruence.
Qed.

Lemma numbers_skip vec i j l : numbers_at vec i l -> i <= j -> (forall k, i <= k < j -> blank_at vec k) -> numbers_at vec j l.
Proof.
  intros H L. revert H. induction L as [|j L IH]; intros H B; [exact H|]. assert (H' : numbers_at vec j l) by (apply IH; [exact H|intros k Hk; apply B; lia]).
  assert (Bj : blank_at vec j) by (apply B; lia). inversion H' as [? A|? ? _ A|? v ? A _]; subst.
  - constructor. intros k Hk. apply A. lia.
  - exact A.
  - destruct (real_not_blank _ _ _ A Bj).
Qed.
Lemma run_reals vec i l : numbers_at vec i l -> forall fuel, length vec - i < fuel -> exists l1 l2, l = l1 ++ l2 /\
  doubles fuel (at_field vec i) = Ok (l1, at_field vec (i + length l1)) /\ numbers_at vec (i + length l1) l2 /\ blank_at vec (i + length l1).
Proof.
  induction 1 as [i H|i l B H IH|i v l R H IH]; intros fuel Hf; (destruct fuel as [|fuel]; [lia|]); cbn [doubles].
  - assert (B : blank_at vec i) by (apply H; lia). exists [], []. rewrite (f_isdouble_blank vec i B). cbn [bind length app]. rewrite Nat.add_0_r. split; [reflexivity|]. split; [reflexivity|]. split; [now constructor|exact B].
  - exists [], l. rewrite (f_isdouble_blank vec i B). cbn [bind length app]. rewrite Nat.add_0_r. split; [reflexivity|]. split; [reflexivity|]. split; [now constructor|exact B].
  - pose proof (real_present _ _ _ R) as P. destruct (IH fuel ltac:(lia)) as (l1 & l2 & -> & E & N & B). exists (v :: l1), l2. rewrite (f_isdouble _ _ _ R). cbn [bind].
    rewrite (f_double _ _ _ R). cbn [bind]. rewrite E. cbn [bind length]. rewrite Nat.add_succ_r. split; [reflexivity|]. split; [reflexivity|]. now split.
Qed.
Lemma freq_reads vec : forall n i l fuel, length vec - i <= n -> n < fuel -> numbers_at vec i l -> freq_loop fuel (at_field vec i) = Ok l.
Proof.
  induction n as [|n IH]; intros i l fuel Hn Hf H; (destruct fuel as [|fuel]; [lia|]); cbn [freq_loop].
  - destruct (f_empty_end vec i ltac:(lia)) as [_ ->]. f_equal. assert (L : length vec <= i) by lia. clear - H L. induction H as [i B|i l B H IH|i v l R H IH]; [reflexivity|apply IH; lia|].
    apply real_present in R. lia.
  - destruct (isEmptyUntilNextKeyword (at_field vec i)) eqn:E.
    + f_equal. pose proof (until_true _ _ E) as B. clear - H B. induction H as [i _|i l _ H IH|i v l R H IH]; [reflexivity|apply IH; intros j Hj; apply B; lia|].
      destruct (real_not_blank _ _ _ R (B i (le_n i))).
    + destruct (run_reals vec i l H (S (length (cvec (at_field vec i))))) as (l1 & l2 & -> & D & N & B). { cbn [cvec at_field at_pos]. lia. }
      rewrite D. cbn [bind]. destruct (next_not_blank vec (i + length l1)) as (j & J1 & J2 & J3). rewrite (f_to _ _ j J1 J2 J3). cbn [bind].
      rewrite (IH j l2 fuel); [reflexivity| |lia|now apply (numbers_skip vec (i + length l1))].
      assert (i < j); [|lia]. destruct l1 as [|v l1]; [|cbn [length] in J1; lia]. cbn [length] in *. rewrite Nat.add_0_r in *.
      destruct (Nat.eq_dec i j) as [-> |X]; [|lia]. destruct J3 as [J3|J3]; [destruct (J3 B)|]. rewrite (proj2 (f_empty_end vec j J3)) in E. discriminate.
Qed.

(** After a list of integers there is no integer. *)
Lemma ints_stop : forall fuel acc t l t', nextInts_loop fuel acc t = Ok (l, t') -> isNextInt t' = Ok false /\ isNextTHRU t' = Ok false.
Proof.
  induction fuel as [|fuel IH]; intros acc t l t' E; [discriminate E|]. cbn [nextInts_loop] in E.
  destruct (isNextInt t) as [b| | |] eqn:A; cbn [bind] in E; try discriminate E. destruct b.
  - destruct (nextInt t) as [[n t1]| | |]; cbn [bind] in E; try discriminate E. exact (IH _ _ _ _ E).
  - destruct (isNextTHRU t) as [b| | |] eqn:B; cbn [bind] in E; try discriminate E. destruct b; [|injection E as <- <-; now split].
    destruct (skip 1 t) as [t1| | |]; cbn [bind] in E; try discriminate E. destruct acc as [|s acc]; [discriminate E|].
    destruct (nextInt t1) as [[e t2]| | |]; cbn [bind] in E; try discriminate E.
    destruct (if (e <? s)%Z then (e :: acc, e, s) else (s :: acc, s, e)) as [[acc2 s2] e2].
    destruct (isNextBY t2) as [by_| | |]; cbn [bind] in E; try discriminate E.
    destruct (if by_ then _ else _) as [[st t3]| | |]; cbn [bind] in E; try discriminate E.
    destruct (INT_MAX32 <? s2 + 1)%Z; [discriminate E|]. destruct (for_range _ _ _ _); cbn [bind] in E; try discriminate E. exact (IH _ _ _ _ E).
Qed.

Lemma item_first it tx : item_text it tx -> exists f r n, tx = f :: r /\ int_field f n.
Proof. intros [n f H _|a b f t g H _ _ _ _]; eauto. Qed.

Section Head.
Variables (kw f1 f2 f3 : str) (sid : Z).
Hypothesis H1 : int_field f1 sid.
Variables (type sub : str).
Hypothesis H2 : to_upper (trim f2) = type.
Hypothesis Hn : type <> [].
Hypothesis H3 : (trim f3 = [] /\ sub = txt "LIST") \/ (to_upper (trim f3) = sub /\ sub <> []).
Variable rest : list str.
Let vec := kw :: f1 :: f2 :: f3 :: rest.
Lemma set_head j : 4 <= j -> (forall k, 4 <= k < j -> blank_at vec k) -> (~ blank_at vec j \/ length vec <= j) ->
  parseSET (at_field vec 1) =
  if negb (str_eqb sub (txt "LIST")) then Throw
  else if str_eqb type (txt "GRID") then do r <- nextInts (at_field vec j); let '(ids, _) := r in Ok (GridSet sid ids ids)
  else if str_eqb type (txt "ELEM") then do r <- nextInts (at_field vec j); let '(ids, t) := r in do r <- nextInts t; let '(members, _) := r in Ok (ElemSet sid ids members)
  else if str_eqb type (txt "FREQ") then do l <- freq_loop (S (length vec)) (at_field vec j); Ok (FreqSet sid l)
  else Throw.
Proof.
  intros A B C. unfold parseSET. rewrite (f_int vec 1 sid H1). cbn [bind]. rewrite (f_string vec 2 type H2 Hn). cbn [bind].
  rewrite (f_worddef (txt "LIST") vec 3 sub). { cbn [bind]. rewrite (f_to vec 4 j A B C). cbn [bind]. reflexivity. }
  destruct H3 as [X|X]; [right|left]; exact X.
Qed.
End Head.

Ltac picks := repeat match goal with |- context [str_eqb ?a ?b] => let r := eval vm_compute in (str_eqb a b) in change (str_eqb a b) with r end; cbn iota beta delta [negb].
Definition lists (f : str) : Prop := trim f = [] \/ to_upper (trim f) = txt "LIST".
Lemma lists_sub f : lists f -> (trim f = [] /\ txt "LIST" = txt "LIST") \/ (to_upper (trim f) = txt "LIST" /\ txt "LIST" <> []).
Proof. intros [H|H]; [left|right]; (split; [exact H|]); [reflexivity|discriminate]. Qed.

Section Lists.
Variables (kw f1 f2 f3 : str) (sid : Z) (blanks : list str) (items : list item) (texts : list (list str)) (post : list str).
Hypothesis H1 : int_field f1 sid.
Hypothesis H3 : lists f3.
Hypothesis Hb : Forall (fun f => trim f = []) blanks.
Hypothesis Hi : Forall2 item_text items texts.
Hypothesis Hne : items <> [].
Hypothesis He : ends_list post.
Let pre := kw :: f1 :: f2 :: f3 :: blanks.
Let vec := pre ++ concat texts ++ post.
Lemma list_stop : 4 <= length pre /\ (forall k, 4 <= k < length pre -> blank_at vec k) /\ ~ blank_at vec (length pre).
Proof.
  split; [cbn; lia|]. split.
  - intros k Hk. unfold blank_at, field, vec. rewrite app_nth1 by lia. destruct k as [|[|[|[|k]]]]; try lia. cbn [pre nth]. cbn [pre length] in Hk.
    rewrite Forall_forall in Hb. apply Hb, nth_In. lia.
  - unfold blank_at, field, vec. rewrite app_nth2, Nat.sub_diag by lia. inversion Hi as [|it tx its txs Ht Hr]; subst; [congruence|].
    destruct (item_first _ _ Ht) as (f & r & n & -> & F). cbn [concat app nth]. exact (int_not_blank [f] 0 n F).
Qed.
Lemma list_ints : nextInts (at_field vec (length pre)) = Ok (concat (map denote items), at_pos vec (length pre + length (concat texts))).
Proof. rewrite at_field_pos by (unfold vec; rewrite app_length; lia). exact (C21_lists_and_ranges pre items texts post Hi He). Qed.

(** A set of nodes: the set and the group hold the numbers of the list. *)
Theorem C111_grid : word_field "GRID" f2 -> parseSET (at_field (kw :: f1 :: f2 :: f3 :: blanks ++ concat texts ++ post) 1) = Ok (GridSet sid (concat (map denote items)) (concat (map denote items))).
Proof.
  intros W. destruct list_stop as (A & B & C). change (kw :: f1 :: f2 :: f3 :: blanks ++ concat texts ++ post) with vec in *.
  pose proof (set_head kw f1 f2 f3 sid H1 (txt "GRID") (txt "LIST") W ltac:(discriminate) (lists_sub _ H3) (blanks ++ concat texts ++ post) (length pre) A B (or_introl C)) as E.
  change (kw :: f1 :: f2 :: f3 :: blanks ++ concat texts ++ post) with vec in E. rewrite E. picks. rewrite list_ints. reflexivity.
Qed.
(** A set of elements: the set holds them, the group holds none. *)
Theorem C111_elem_partial : word_field "ELEM" f2 -> exists group, parseSET (at_field (kw :: f1 :: f2 :: f3 :: blanks ++ concat texts ++ post) 1) = Ok (ElemSet sid (concat (map denote items)) group).
Proof.
  intros W. destruct list_stop as (A & B & C). change (kw :: f1 :: f2 :: f3 :: blanks ++ concat texts ++ post) with vec in *.
  pose proof (set_head kw f1 f2 f3 sid H1 (txt "ELEM") (txt "LIST") W ltac:(discriminate) (lists_sub _ H3) (blanks ++ concat texts ++ post) (length pre) A B (or_introl C)) as E.
  change (kw :: f1 :: f2 :: f3 :: blanks ++ concat texts ++ post) with vec in E. rewrite E. picks. rewrite list_ints. cbn [bind].
  destruct (ints_stop _ _ _ _ _ list_ints) as [S1 S2]. unfold nextInts. cbn [nextInts_loop]. rewrite S1. cbn [bind]. rewrite S2. cbn [bind rev]. eauto.
Qed.
End Lists.

(** Whatever the card, the group of a set of elements is empty. *)
Theorem C111_elem_refuted : forall t sid values group, parseSET t = Ok (ElemSet sid values group) -> group = [].
Proof.
  intros t sid values group E. unfold parseSET in E.
  destruct (nextInt t) as [[i t1]| | |]; cbn [bind] in E; try discriminate E. destruct (nextString t1) as [[ty t2]| | |]; cbn [bind] in E; try discriminate E.
  destruct (nextStringDefault _ t2) as [[su t3]| | |]; cbn [bind] in E; try discriminate E. destruct (skipToNotEmpty t3) as [t4| | |]; cbn [bind] in E; try discriminate E.
  destruct (negb _); [discriminate E|]. destruct (str_eqb ty (txt "GRID")).
  { destruct (nextInts t4) as [[l t5]| | |]; cbn [bind] in E; discriminate E. }
  destruct (str_eqb ty (txt "ELEM")).
  - destruct (nextInts t4) as [[l t5]| | |] eqn:N; cbn [bind] in E; try discriminate E. destruct (ints_stop _ _ _ _ _ N) as [S1 S2].
    unfold nextInts in E. cbn [nextInts_loop] in E. rewrite S1 in E. cbn [bind] in E. rewrite S2 in E. cbn [bind rev] in E. now injection E as _ _ <-.
  - destruct (str_eqb ty (txt "FREQ")); [|discriminate E]. destruct (freq_loop _ t4); cbn [bind] in E; discriminate E.
Qed.
(** Numbers after a blank field are dropped without a word. *)
Theorem C111_gap_refuted : forall kw f1 f2 f3 sid items texts gap g n, int_field f1 sid -> word_field "GRID" f2 -> lists f3 -> Forall2 item_text items texts -> items <> [] ->
  trim gap = [] -> int_field g n -> ~ In n (concat (map denote items)) ->
  exists values group, parseSET (at_field (kw :: f1 :: f2 :: f3 :: concat texts ++ [gap; g]) 1) = Ok (GridSet sid values group) /\ ~ In n group.
Proof.
  intros kw f1 f2 f3 sid items texts gap g n H1 W H3 Hi Hne G Hn N. exists (concat (map denote items)), (concat (map denote items)). split; [|exact N].
  apply (C111_grid kw f1 f2 f3 sid [] items texts [gap; g] H1 H3 (Forall_nil _) Hi Hne); [|exact W].
  intros f Hf. cbn in Hf. injection Hf as <-. split; [now left|]. unfold word_field. rewrite G. cbn. split; discriminate.
Qed.

(** A set of frequencies: the numbers of the card, in order, blanks skipped. *)
Theorem C111_freq : forall kw f1 f2 f3 sid rest l, int_field f1 sid -> word_field "FREQ" f2 -> lists f3 -> numbers_at (kw :: f1 :: f2 :: f3 :: rest) 4 l ->
  parseSET (at_field (kw :: f1 :: f2 :: f3 :: rest) 1) = Ok (FreqSet sid l).
Proof.
  intros kw f1 f2 f3 sid rest l H1 W H3 N. set (vec := kw :: f1 :: f2 :: f3 :: rest) in *. destruct (next_not_blank vec 4) as (j & A & B & C).
  pose proof (set_head kw f1 f2 f3 sid H1 (txt "FREQ") (txt "LIST") W ltac:(discriminate) (lists_sub _ H3) rest j A B C) as E. fold vec in E. rewrite E. picks.
  rewrite (freq_reads vec (length vec) j l); [reflexivity|lia|lia|]. now apply (numbers_skip vec 4).
Qed.
(** A word among them, and the reading never ends. *)
Theorem C111_word_refuted : forall kw f1 f2 f3 sid rest w c, int_field f1 sid -> word_field "FREQ" f2 -> lists f3 ->
  In c (trim w) -> c <> " "%char -> TextModel.contains c double_chars = false ->
  parseSET (at_field (kw :: f1 :: f2 :: f3 :: w :: rest) 1) = NoFuel /\ forall fuel, freq_loop fuel (at_field (kw :: f1 :: f2 :: f3 :: w :: rest) 4) = NoFuel.
Proof.
  intros kw f1 f2 f3 sid rest w c H1 W H3 Hc Hs Hd. set (vec := kw :: f1 :: f2 :: f3 :: w :: rest) in *.
  assert (Nb : ~ blank_at vec 4) by (unfold blank_at, field; cbn [vec nth]; intros X; rewrite X in Hc; destruct Hc).
  assert (D : isNextDouble (at_field vec 4) = Ok false).
  { unfold isNextDouble. rewrite peek_field_at by reflexivity. f_equal. cbn [field vec nth]. apply andb_false_iff. right. apply not_true_iff_false. intros X. rewrite forallb_forall in X.
    rewrite (X c) in Hd; [discriminate|]. unfold erase_char. apply filter_In. split; [exact Hc|]. destruct (Ascii.eqb_spec c " "); [congruence|reflexivity]. }
  assert (L : forall fuel, freq_loop fuel (at_field vec 4) = NoFuel).
  { induction fuel as [|fuel IH]; [reflexivity|]. cbn [freq_loop]. rewrite (until_false vec 4 4 (le_n _) Nb). cbn [doubles]. rewrite D. cbn [bind].
    rewrite (f_to vec 4 4 (le_n _)); [|intros k; lia|now left]. cbn [bind]. rewrite IH. reflexivity. }
  split; [|exact L].
  pose proof (set_head kw f1 f2 f3 sid H1 (txt "FREQ") (txt "LIST") W ltac:(discriminate) (lists_sub _ H3) (w :: rest) 4 (le_n _) ltac:(intros k; lia) (or_introl Nb)) as E. fold vec in E. rewrite E.
  picks. rewrite L. reflexivity.
Qed.
(** Other types and subtypes are refused. *)
Theorem C111_unsupported : forall kw f1 f2 f3 sid rest, int_field f1 sid -> trim f2 <> [] ->
  (trim f3 <> [] /\ to_upper (trim f3) <> txt "LIST") \/ (to_upper (trim f2) <> txt "GRID" /\ to_upper (trim f2) <> txt "ELEM" /\ to_upper (trim f2) <> txt "FREQ") ->
  parseSET (at_field (kw :: f1 :: f2 :: f3 :: rest) 1) = Throw.
Proof.
  intros kw f1 f2 f3 sid rest H1 N2 H. destruct (next_not_blank (kw :: f1 :: f2 :: f3 :: rest) 4) as (j & A & B & C).
  assert (U : forall x : str, x <> [] -> to_upper x <> []) by (intros [|a x] X; [congruence|discriminate]).
  assert (S3 : exists sub, ((trim f3 = [] /\ sub = txt "LIST") \/ (to_upper (trim f3) = sub /\ sub <> [])) /\ (trim f3 <> [] /\ to_upper (trim f3) <> txt "LIST" -> sub <> txt "LIST")).
  { destruct (trim f3) as [|a x] eqn:X; [exists (txt "LIST"); split; [left; now split|intros [Y _]; congruence]|]. exists (to_upper (a :: x)). split; [right; split; [reflexivity|discriminate]|]. now intros [_ Y]. }
  destruct S3 as (sub & S3 & S4). rewrite (set_head kw f1 f2 f3 sid H1 (to_upper (trim f2)) sub eq_refl (U _ N2) S3 rest j A B C).
  destruct (str_eqb_spec sub (txt "LIST")) as [X|X]; cbn [negb]; [|reflexivity]. destruct H as [H|(G1 & G2 & G3)]; [destruct (S4 H X)|].
  destruct (str_eqb_spec (to_upper (trim f2)) (txt "GRID")); [contradiction|]. destruct (str_eqb_spec (to_upper (trim f2)) (txt "ELEM")); [contradiction|]. destruct (str_eqb_spec (to_upper (trim f2)) (txt "FREQ")); [contradiction|reflexivity].
Qed.

(** ** SURF *)
Lemma surf_reads vec : forall i l, faces_at vec i l -> forall fuel, length vec - i < fuel ->
  surf_loop fuel (at_field vec i) = Ok (map (fun f => let '(e, a, b, n) := f in mkFace e (node_of a) (node_of b) (n =? 1)%Z) l).
Proof.
  induction 1 as [i B|i j e a b n l L B He Ha Hb Hn H IH]; intros fuel Hf; (destruct fuel as [|fuel]; [lia|]); cbn [surf_loop].
  - rewrite (blank_until vec i B). reflexivity.
  - pose proof (int_not_blank _ _ _ He) as Nb. rewrite (until_false vec i j L Nb). rewrite (f_to vec i j L B (or_introl Nb)). cbn [bind]. rewrite (f_int _ _ _ He). cbn [bind].
    rewrite (f_intdef NO_NODE vec (S j) (node_of a)); [|destruct a; [left; exact Ha|right; now split]]. cbn [bind].
    rewrite (f_intdef NO_NODE vec (S (S j)) (node_of b)); [|destruct b; [left; exact Hb|right; now split]]. cbn [bind].
    rewrite (f_intdef 0%Z _ _ _ Hn). cbn [bind]. pose proof (int_present _ _ _ He). rewrite IH by lia. reflexivity.
Qed.
(** The faces of the card, each with its nodes and side; the word before them is optional. *)
Theorem C111_surf : forall vec sid l, int_at vec 1 sid ->
  ((exists e, int_at vec 2 e) /\ faces_at vec 2 l) \/ ((exists c, In c (trim (field vec 2)) /\ is_digit c = false /\ c <> "-"%char) /\ faces_at vec 3 l) \/ (blank_at vec 2 /\ faces_at vec 3 l) ->
  parseSURF (at_field vec 1) = Ok (sid, map (fun f => let '(e, a, b, n) := f in mkFace e (node_of a) (node_of b) (n =? 1)%Z) l).
Proof.
  intros vec sid l H1 H. unfold parseSURF. rewrite (f_int vec 1 sid H1). cbn [bind].
  assert (R : forall i, faces_at vec i l -> surf_loop (S (length vec)) (at_field vec i) = Ok (map (fun f => let '(e, a, b, n) := f in mkFace e (node_of a) (node_of b) (n =? 1)%Z) l)).
  { intros i F. apply surf_reads; [exact F|lia]. }
  destruct H as [[[e H] F]|[[(c & C1 & C2 & C3) F]|[H F]]].
  - rewrite (f_isint _ _ _ H). cbn [bind]. change (cvec (at_field vec 2)) with vec. rewrite (R 2 F). reflexivity.
  - assert (X : isNextInt (at_field vec 2) = Ok false).
    { unfold isNextInt. rewrite peek_field_at by reflexivity. f_equal. apply andb_false_iff. right. apply not_true_iff_false. intros X. rewrite forallb_forall in X. specialize (X c C1). rewrite C2 in X. destruct (Ascii.eqb_spec c "-"); [congruence|discriminate]. }
    rewrite X. cbn [bind]. rewrite f_skipn. cbn [bind]. change (2 + 1) with 3. change (cvec (at_field vec 3)) with vec. rewrite (R 3 F). reflexivity.
  - rewrite (f_isint_blank _ _ H). cbn [bind]. rewrite f_skipn. cbn [bind]. change (2 + 1) with 3. change (cvec (at_field vec 3)) with vec. rewrite (R 3 F). reflexivity.
Qed.

(** ** CONTACT *)
(** The slave and the master of the card; but the contact is that of every analysis,
    whichever sets the analyses select. *)
Theorem C111_contact_partial : forall vec ctid w ssid msid, int_at vec 1 ctid -> word_at vec 2 w -> w <> [] -> int_at vec 3 ssid -> int_at vec 4 msid ->
  exists c, parseCONTACT (at_field vec 1) = Ok c /\ o_set c = ctid /\ o_master c = msid /\ o_slave c = ssid.
Proof.
  intros vec ctid w ssid msid H1 H2 Hw H3 H4. unfold parseCONTACT. rewrite (f_int _ _ _ H1). cbn [bind]. rewrite (f_string _ _ _ H2 Hw). cbn [bind]. rewrite (f_int _ _ _ H3). cbn [bind]. rewrite (f_int _ _ _ H4). cbn [bind].
  eexists. split; [reflexivity|]. now repeat split.
Qed.
Theorem C111_contact_refuted : forall t c, parseCONTACT t = Ok c -> o_in c <> Some (o_set c).
Proof.
  intros t c E. unfold parseCONTACT in E. repeat match type of E with context [bind ?x _] => destruct x as [[? ?]| | |]; cbn [bind] in E; try discriminate E end. injection E as <-. discriminate.
Qed.

(** ** Examples *)
Example C111_case :
  parseSET (at_field (map txt ["SET"; "7"; "GRID"; ""; ""; ""; "3"; "5"; "THRU"; "8"]%string) 1) = Ok (GridSet 7 [3; 5; 6; 7; 8]%Z [3; 5; 6; 7; 8]%Z) /\
  parseSET (at_field (map txt ["SET"; "8"; "ELEM"; "LIST"; ""; "3"; "5"]%string) 1) = Ok (ElemSet 8 [3; 5]%Z []) /\
  numbers_at (map txt ["SET"; "9"; "FREQ"; "LIST"; "1.5"; ""; "2.5"]%string) 4 [(15, -1); (25, -1)]%Z /\
  faces_at (map txt ["SURF"; "4"; "ELFACE"; "11"; "1"; "3"; ""; "12"; ""; ""; "1"]%string) 3 [(11, Some 1, Some 3, 0); (12, None, None, 1)]%Z /\
  parseSURF (at_field (map txt ["SURF"; "4"; "ELFACE"; "11"; "1"; "3"; ""; "12"; ""; ""; "1"]%string) 1) = Ok (4, [mkFace 11 1 3 false; mkFace 12 INT_MIN32 INT_MIN32 true])%Z /\
  parseCONTACT (at_field (map txt ["CONTACT"; "2"; "SLIDE"; "4"; "5"]%string) 1) = Ok (mkContact 2 5 4 None).
Proof.
  split; [vm_compute; reflexivity|]. split; [vm_compute; reflexivity|]. split.
  { apply NumReal; [vm_compute; reflexivity|]. apply NumBlank; [vm_compute; reflexivity|]. apply NumReal; [vm_compute; reflexivity|]. apply NumEnd. intros j Hj. unfold blank_at. rewrite field_beyond; [reflexivity|cbn; lia]. }
  assert (I : forall s n ds, txt s = ds -> forallb is_digit ds = true -> ds <> [] -> trim ds = ds -> digits_val ds = n -> (INT_MIN32 <= n <= INT_MAX32)%Z -> int_field (txt s) n).
  { intros s n ds <- A B C <- D. exists (txt s). split; [exact B|]. split; [exact A|]. split; [exact D|]. left. now split. }
  assert (R : (INT_MIN32 <= 1 /\ 12 <= INT_MAX32)%Z) by (vm_compute; split; discriminate).
  split.
  { apply (FacesNext _ 3 3); [lia|intros k; lia| | | | |].
    - apply (I "11"%string 11%Z _ eq_refl); try reflexivity; try discriminate. lia.
    - apply (I "1"%string 1%Z _ eq_refl); try reflexivity; try discriminate. lia.
    - apply (I "3"%string 3%Z _ eq_refl); try reflexivity; try discriminate. lia.
    - right. split; reflexivity.
    - apply (FacesNext _ 7 7); [lia|intros k; lia| |reflexivity|reflexivity| |].
      + apply (I "12"%string 12%Z _ eq_refl); try reflexivity; try discriminate. lia.
      + left. apply (I "1"%string 1%Z _ eq_refl); try reflexivity; try discriminate. lia.
      + apply FacesEnd. intros j Hj. unfold blank_at. rewrite field_beyond; [reflexivity|cbn; lia]. }
  split; vm_compute; reflexivity.
Qed.

Print Assumptions C111_grid.
Print Assumptions C111_elem_partial.
Print Assumptions C111_elem_refuted.
Print Assumptions C111_gap_refuted.
Print Assumptions C111_freq.
Print Assumptions C111_word_refuted.
Print Assumptions C111_unsupported.
Print Assumptions C111_surf.
Print Assumptions C111_contact_partial.
Print Assumptions C111_contact_refuted.
