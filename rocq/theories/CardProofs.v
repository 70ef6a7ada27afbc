(** Lemmas about reading the fields of a card one after the other. *)
From Coq Require Import Ascii String ZArith List Bool Arith Lia.
From Verif Require Import Base DofModel DofProofs TextModel TextProofs TokenizerModel NextIntsProofs RealModel WriterLineModel WriterLineProofs PropertiesTokenizer PropertiesWriterLine CardModel.
Import ListNotations.
Open Scope nat_scope.
Open Scope list_scope.

Lemma skipn_cons {A} (vec : list A) : forall i f r, skipn i vec = f :: r -> nth_error vec i = Some f /\ skipn (S i) vec = r.
Proof.
  induction vec as [|x vec IH]; intros [|i] f r H; cbn in H; try discriminate.
  - injection H as -> ->. split; reflexivity.
  - apply IH in H. exact H.
Qed.
Lemma skipn_end {A} (vec : list A) i : skipn i vec = [] -> nth_error vec i = None.
Proof. intros H. apply nth_error_None. apply (f_equal (@length A)) in H. rewrite skipn_length in H. cbn in H. lia. Qed.

Section Steps.
Variables (vec : list str) (i : nat) (f : str) (r : list str).
Hypothesis H : skipn i vec = f :: r.

Lemma s_next : skipn (S i) vec = r.
Proof. apply (skipn_cons _ _ _ _ H). Qed.
Lemma s_isint n : int_field f n -> isNextInt (at_pos vec i) = Ok true.
Proof. apply isint_at, (skipn_cons _ _ _ _ H). Qed.
Lemma s_int n : int_field f n -> nextInt (at_pos vec i) = Ok (n, at_pos vec (S i)).
Proof. apply nextInt_at, (skipn_cons _ _ _ _ H). Qed.
Lemma s_notint : (exists c, In c (trim f) /\ (Ascii.eqb c "-" || is_digit c) = false) \/ trim f = [] -> isNextInt (at_pos vec i) = Ok false.
Proof.
  intros Hc. unfold isNextInt. rewrite (peek_at vec i f); [|apply (skipn_cons _ _ _ _ H)]. f_equal.
  destruct Hc as [(c & Hc & E)| ->]; [|reflexivity]. apply andb_false_iff. right.
  destruct (forallb _ (trim f)) eqn:Ef; [|reflexivity]. rewrite forallb_forall in Ef. specialize (Ef c Hc). cbv beta in Ef. rewrite E in Ef. discriminate Ef.
Qed.
Lemma s_intdef d n : int_field f n -> nextIntDefault d (at_pos vec i) = Ok (n, at_pos vec (S i)).
Proof.
  intros Hf. unfold nextIntDefault. rewrite (next_at vec i f) by apply (skipn_cons _ _ _ _ H). rewrite trim_trim_right.
  destruct (int_field_lex _ _ Hf) as [-> ->]. reflexivity.
Qed.
Lemma s_intdef_blank d : trim f = [] -> nextIntDefault d (at_pos vec i) = Ok (d, at_pos vec (S i)).
Proof.
  intros Hf. unfold nextIntDefault. rewrite (next_at vec i f) by apply (skipn_cons _ _ _ _ H). rewrite trim_trim_right, Hf. reflexivity.
Qed.
Lemma real_trim g : real_of_field (trim_right g) = real_of_field g.
Proof. unfold real_of_field. now rewrite trim_trim_right. Qed.
Lemma s_double v : real_of_field f = Ok v -> nextDouble (at_pos vec i) = Ok (v, at_pos vec (S i)).
Proof.
  intros Hf. unfold nextDouble. rewrite (next_at vec i f) by apply (skipn_cons _ _ _ _ H). now rewrite real_trim, Hf.
Qed.
Lemma s_doubledef d v : real_of_field f = Ok v -> nextDoubleDefault d (at_pos vec i) = Ok (v, at_pos vec (S i)).
Proof.
  intros Hf. unfold nextDoubleDefault. rewrite (next_at vec i f) by apply (skipn_cons _ _ _ _ H). rewrite trim_trim_right, real_trim, Hf.
  destruct (null (trim f)) eqn:E; [|reflexivity]. unfold real_of_field in Hf. rewrite E in Hf. discriminate.
Qed.
Lemma s_doubledef_blank d : trim f = [] -> nextDoubleDefault d (at_pos vec i) = Ok (d, at_pos vec (S i)).
Proof.
  intros Hf. unfold nextDoubleDefault. rewrite (next_at vec i f) by apply (skipn_cons _ _ _ _ H). now rewrite trim_trim_right, Hf.
Qed.
Lemma s_skip1 : skip 1 (at_pos vec i) = Ok (at_pos vec (S i)).
Proof. apply (skip_at vec i f), (skipn_cons _ _ _ _ H). Qed.
Lemma s_isdouble p : peek_field (at_pos vec i) p = Ok (p (trim f)).
Proof. apply peek_at, (skipn_cons _ _ _ _ H). Qed.
Lemma s_field : csym (at_pos vec i) = FIELD.
Proof.
  unfold at_pos. cbn. assert (i < length vec) by (apply nth_error_Some; rewrite (proj1 (skipn_cons _ _ _ _ H)); discriminate).
  destruct (Nat.leb_spec (length vec) i); [lia|reflexivity].
Qed.
Lemma s_bound : i < length vec.
Proof. apply nth_error_Some. rewrite (proj1 (skipn_cons _ _ _ _ H)). discriminate. Qed.
End Steps.

Lemma s_end_isint vec i : skipn i vec = [] -> isNextInt (at_pos vec i) = Ok false.
Proof. intros H. apply peek_end. now apply skipn_end. Qed.
Lemma s_end_isdouble vec i : skipn i vec = [] -> isNextDouble (at_pos vec i) = Ok false.
Proof. intros H. apply peek_end. now apply skipn_end. Qed.
Lemma s_skip2 vec i f g r : skipn i vec = f :: g :: r -> skip 2 (at_pos vec i) = Ok (at_pos vec (i + 2)) /\ skipn (i + 2) vec = r.
Proof.
  intros H. destruct (skipn_cons _ _ _ _ H) as [H1 H2]. destruct (skipn_cons _ _ _ _ H2) as [H3 H4].
  replace (i + 2) with (S (S i)) by lia. split; [|exact H4]. unfold skip. rewrite (s_field _ _ _ _ H). cbn [cvec ccur at_pos].
  pose proof (s_bound _ _ _ _ H2) as B. replace (Nat.min (length vec) (i + 2)) with (S (S i)) by lia. unfold at_pos. f_equal. f_equal.
  destruct (Nat.eqb_spec (S (S i)) (length vec)), (Nat.leb_spec (length vec) (S (S i))); try lia; reflexivity.
Qed.
Lemma s_empty vec i : isEmptyUntilNextKeyword (at_pos vec i) = forallb (fun f => null (trim f)) (skipn i vec).
Proof.
  unfold isEmptyUntilNextKeyword, at_pos. cbn [csym cvec ccur]. destruct (Nat.leb_spec (length vec) i); [|reflexivity].
  rewrite skipn_all2 by lia. reflexivity.
Qed.

Lemma dof_digit_code d : nastranCodeToDOFS (nastran_digit d) = Ok (dof_code d).
Proof. destruct d; reflexivity. Qed.

Lemma nonneg_int n : (0 <= n < 10 ^ 8)%Z -> int_field (int_text n) n /\ field_value (int_text n).
Proof.
  intros H. destruct (C23_integers n H) as (_ & F & _). split; [|exact F].
  apply int_field_text; [unfold INT_MIN32, INT_MAX32; lia|]. apply trimmed_trim, F.
Qed.
Lemma digit_int d : int_field (int_text (nastran_digit d)) (nastran_digit d) /\ field_value (int_text (nastran_digit d)).
Proof. apply nonneg_int. destruct d; cbn; lia. Qed.
Lemma blank_value : field_value [].
Proof. split; [cbn; lia|]. split; [intros c [X|X]; discriminate|]. split; intros []. Qed.

(** [int_loop] reads the integers up to the first field that is not one. *)
Lemma int_loop_spec vec ns : forall fs i fuel post,
  skipn i vec = fs ++ post -> Forall2 int_field fs ns -> length fs < fuel ->
  (forall f r, post = f :: r -> (exists c, In c (trim f) /\ (Ascii.eqb c "-" || is_digit c) = false) \/ trim f = []) ->
  int_loop fuel (at_pos vec i) = Ok (ns, at_pos vec (i + length fs)) /\ skipn (i + length fs) vec = post.
Proof.
  induction ns as [|n ns IH]; intros fs i fuel post H Hf Hfuel Hpost; inversion Hf as [|f ? fs' ? Hfn Hfs]; subst; (destruct fuel as [|fuel]; [cbn in Hfuel; lia|]); cbn [int_loop].
  - cbn [app length] in *. rewrite Nat.add_0_r. split; [|exact H].
    destruct post as [|g r]; [rewrite s_end_isint by exact H; reflexivity|].
    rewrite (s_notint _ _ _ _ H (Hpost g r eq_refl)). reflexivity.
  - cbn [app] in H. rewrite (s_isint _ _ _ _ H _ Hfn). cbn [bind]. rewrite (s_int _ _ _ _ H _ Hfn). cbn [bind].
    destruct (IH fs' (S i) fuel post) as [E1 E2]; [apply (s_next _ _ _ _ H)|exact Hfs|cbn in Hfuel; lia|exact Hpost|].
    rewrite E1. cbn [bind length]. rewrite <- plus_n_Sm. split; [reflexivity|exact E2].
Qed.
Lemma F2_length {A B} (P : A -> B -> Prop) l m : Forall2 P l m -> length l = length m.
Proof. induction 1; cbn; congruence. Qed.

(** ** CONM1 *)

Definition double_field (f : str) (v : decimal) : Prop :=
  real_of_field f = Ok v /\ (forall c, In c (trim f) -> c <> " "%char -> In c double_chars).
Lemma double_isdouble vec i f r v : skipn i vec = f :: r -> double_field f v -> isNextDouble (at_pos vec i) = Ok true.
Proof.
  intros H (Hr & Hc). unfold isNextDouble. rewrite (s_isdouble _ _ _ _ H). f_equal. apply andb_true_iff. split.
  - destruct (erase_char " " (trim f)) eqn:E; [|reflexivity]. unfold real_of_field in Hr.
    destruct (null (trim f)); [discriminate|]. exfalso. unfold normalise in Hr.
    assert (erase_char " " (replace_d (trim f)) = []) as E'.
    { clear -E. induction (trim f) as [|c l IH]; [reflexivity|]. cbn in E |- *. destruct (Ascii.eqb_spec c " ") as [->|Hn]; [apply IH, E|discriminate]. }
    rewrite E' in Hr. discriminate.
  - apply forallb_forall. intros c Hin. apply filter_In in Hin. destruct Hin as [Hin Hn].
    assert (In c double_chars) as X. { apply Hc; [exact Hin|]. intros ->. discriminate. }
    unfold TextModel.contains. apply existsb_exists. exists c. split; [exact X|apply Ascii.eqb_refl].
Qed.
Definition not_double (f : str) : Prop := trim f = [] \/ exists c, In c (trim f) /\ c <> " "%char /\ ~ In c double_chars.
Lemma notdouble_isdouble vec i f r : skipn i vec = f :: r -> not_double f -> isNextDouble (at_pos vec i) = Ok false.
Proof.
  intros H Hn. unfold isNextDouble. rewrite (s_isdouble _ _ _ _ H). f_equal. destruct Hn as [->|(c & Hc & Hs & Hd)]; [reflexivity|].
  apply andb_false_iff. right. destruct (forallb _ _) eqn:E; [|reflexivity]. exfalso. rewrite forallb_forall in E.
  assert (Hin : In c (erase_char " " (trim f))). { apply filter_In. split; [exact Hc|]. destruct (Ascii.eqb_spec c " "); [congruence|reflexivity]. }
  specialize (E c Hin). unfold TextModel.contains in E. apply existsb_exists in E. destruct E as (x & Hx & Ex). apply Ascii.eqb_eq in Ex. subst x. contradiction.
Qed.

Definition put (rd : dof) (m : dofmatrix decimal) (cv : dof * decimal) : dofmatrix decimal :=
  if dof_ltb (fst cv) rd then mkMatrix SYMMETRIC (comp_set (comps m) (fst cv, rd) (snd cv))
  else mkMatrix SYMMETRIC (comp_set (comps m) (rd, fst cv) (snd cv)).
Definition puts (rd : dof) (m : dofmatrix decimal) (cds : list dof) (vs : list decimal) : dofmatrix decimal :=
  fold_left (put rd) (combine cds vs) m.
Lemma puts_type rd m cds vs : mtype m = SYMMETRIC -> mtype (puts rd m cds vs) = SYMMETRIC.
Proof.
  intros H. unfold puts. revert m H. induction (combine cds vs) as [|cv l IH]; intros m H; [exact H|]. cbn [fold_left]. apply IH.
  unfold put. destruct (dof_ltb (fst cv) rd); reflexivity.
Qed.

Lemma conm1_cols_spec vec rd post :
  (forall f r, post = f :: r -> not_double f) -> forall cds cols m i fs vs,
  mapM findByPosition cols = Ok cds -> mtype m = SYMMETRIC ->
  skipn i vec = fs ++ post -> Forall2 double_field fs vs ->
  conm1_cols cols rd m (at_pos vec i) = Ok (puts rd m cds vs, at_pos vec (i + Nat.min (length cols) (length fs))) /\
  skipn (i + Nat.min (length cols) (length fs)) vec = skipn (length cols) fs ++ post /\
  Forall2 double_field (skipn (length cols) fs) (skipn (length cols) vs).
Proof.
  intros Hpost. induction cds as [|cd cds IH]; intros cols m i fs vs Hc Hm H Hf.
  - destruct cols as [|col cols]; [|cbn in Hc; destruct (findByPosition col); try discriminate; cbn in Hc; destruct (mapM findByPosition cols); discriminate].
    cbn [length Nat.min skipn conm1_cols]. rewrite Nat.add_0_r. unfold puts. cbn [combine fold_left]. auto.
  - destruct cols as [|col cols]; [discriminate|]. cbn [mapM] in Hc. destruct (findByPosition col) as [cd'| | |] eqn:Ec; try discriminate.
    cbn [bind] in Hc. destruct (mapM findByPosition cols) as [cds'| | |] eqn:Em; try discriminate. cbn [bind] in Hc. injection Hc as -> ->.
    cbn [conm1_cols length]. rewrite Ec. cbn [bind]. inversion Hf as [|f v fs' vs' Hfv Hfs]; subst.
    + cbn [app length Nat.min skipn] in *. rewrite Nat.add_0_r. 
      assert (isNextDouble (at_pos vec i) = Ok false) as ->.
      { destruct post as [|f r]; [now apply s_end_isdouble|]. apply (notdouble_isdouble _ _ _ _ H), (Hpost f r eq_refl). }
      cbn [bind]. unfold puts. cbn [combine fold_left]. split; [reflexivity|]. split; [exact H|constructor].
    + cbn [app length] in *. rewrite (double_isdouble _ _ _ _ _ H Hfv). cbn [bind]. rewrite (s_doubledef _ _ _ _ H _ _ (proj1 Hfv)). cbn [bind].
      assert (addComponent (fun d : decimal => (fst d =? 0)%Z) m rd cd v = Ok (put rd m (cd, v))) as ->.
      { unfold addComponent, put. rewrite Hm. cbn [matrix_type_eqb andb fst snd]. destruct (dof_ltb cd rd); reflexivity. }
      cbn [bind]. pose proof (s_next _ _ _ _ H) as H'.
      assert (Hm' : mtype (put rd m (cd, v)) = SYMMETRIC) by (unfold put; destruct (dof_ltb _ _); reflexivity).
      destruct (IH cols (put rd m (cd, v)) (S i) fs' vs' Em Hm' H' Hfs) as (E1 & E2 & E3).
      cbn [Nat.min skipn]. rewrite <- plus_n_Sm. rewrite E1. auto.
Qed.

(** The five rows. *)
Definition conm1_matrix (vs : list decimal) : dofmatrix decimal :=
  let m := newMatrix SYMMETRIC in
  let m := puts DX m [DX] vs in
  let m := puts DY m [DX; DY] (skipn 1 vs) in
  let m := puts DZ m [DX; DY; DZ] (skipn 3 vs) in
  let m := puts RX m [DX; DY; DZ; RX] (skipn 6 vs) in
  puts RY m [DX; DY; DZ; RX; RY] (skipn 10 vs).
Lemma conm1_rows_spec vec post i fs vs :
  (forall f r, post = f :: r -> not_double f) -> skipn i vec = fs ++ post -> Forall2 double_field fs vs ->
  exists u, conm1_rows (newMatrix SYMMETRIC) (at_pos vec i) = Ok (conm1_matrix vs, u).
Proof.
  intros Hpost H Hf. unfold conm1_rows, conm1_matrix. change (upto 5) with [0; 1; 2; 3; 4]%Z.
  set (m0 := newMatrix SYMMETRIC). assert (M0 : mtype m0 = SYMMETRIC) by reflexivity. clearbody m0. cbn [foldM].
  change (findByPosition 0) with (Ok DX). change (findByPosition 1) with (Ok DY). change (findByPosition 2) with (Ok DZ).
  change (findByPosition 3) with (Ok RX). change (findByPosition 4) with (Ok RY). cbn [bind].
  change (upto (0 + 1)) with [0]%Z. change (upto (1 + 1)) with [0; 1]%Z. change (upto (2 + 1)) with [0; 1; 2]%Z.
  change (upto (3 + 1)) with [0; 1; 2; 3]%Z. change (upto (4 + 1)) with [0; 1; 2; 3; 4]%Z.
  destruct (conm1_cols_spec vec DX post Hpost [DX] [0]%Z m0 i fs vs eq_refl M0 H Hf) as (E1 & H1 & F1). rewrite E1. cbn [bind].
  pose proof (puts_type DX m0 [DX] vs M0) as M1. set (m1 := puts DX m0 [DX] vs) in *. clearbody m1. clear E1. cbn [length] in *.
  revert H1. generalize (i + Nat.min 1 (length fs)). intros i1 H1.
  destruct (conm1_cols_spec vec DY post Hpost [DX; DY] [0; 1]%Z m1 i1 _ _ eq_refl M1 H1 F1) as (E2 & H2 & F2). rewrite E2. cbn [bind].
  pose proof (puts_type DY m1 [DX; DY] (skipn 1 vs) M1) as M2. set (m2 := puts DY m1 _ _) in *. clearbody m2. clear E2. cbn [length] in *.
  rewrite !skipn_skipn' in *. revert H2. match goal with |- context [skipn ?n vec = _] => generalize n end. intros i2 H2.
  destruct (conm1_cols_spec vec DZ post Hpost [DX; DY; DZ] [0; 1; 2]%Z m2 i2 _ _ eq_refl M2 H2 F2) as (E3 & H3 & F3). rewrite E3. cbn [bind].
  pose proof (puts_type DZ m2 [DX; DY; DZ] (skipn (2 + 1) vs) M2) as M3. change (2 + 1) with 3 in *. set (m3 := puts DZ m2 _ _) in *. clearbody m3. clear E3. cbn [length] in *.
  rewrite !skipn_skipn' in *. revert H3. match goal with |- context [skipn ?n vec = _] => generalize n end. intros i3 H3.
  destruct (conm1_cols_spec vec RX post Hpost [DX; DY; DZ; RX] [0; 1; 2; 3]%Z m3 i3 _ _ eq_refl M3 H3 F3) as (E4 & H4 & F4). rewrite E4. cbn [bind].
  pose proof (puts_type RX m3 [DX; DY; DZ; RX] (skipn (3 + 3) vs) M3) as M4. change (3 + 3) with 6 in *. set (m4 := puts RX m3 _ _) in *. clearbody m4. clear E4. cbn [length] in *.
  rewrite !skipn_skipn' in *. revert H4. match goal with |- context [skipn ?n vec = _] => generalize n end. intros i4 H4.
  destruct (conm1_cols_spec vec RY post Hpost [DX; DY; DZ; RX; RY] [0; 1; 2; 3; 4]%Z m4 i4 _ _ eq_refl M4 H4 F4) as (E5 & H5 & F5). rewrite E5. cbn [bind].
  eexists. reflexivity.
Qed.
