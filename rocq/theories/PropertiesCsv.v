(** Solver names (C48) and CSV results (C49). *)
From Coq Require Import Ascii String ZArith List Bool Arith Lia.
From Verif Require Import Base TextModel TokenizerModel CaseControlModel TextProofs NextIntsProofs CaseControlProofs CsvModel.
Import ListNotations.
Open Scope nat_scope.
Open Scope list_scope.

(** ** C48 *)
Lemma dropWhile_split p l : exists a, l = a ++ dropWhile p l /\ forallb p a = true.
Proof.
  induction l as [|c l (a & E & H)]; [exists []; auto|]. cbn. destruct (p c) eqn:P.
  - exists (c :: a). cbn. rewrite P, H. split; [f_equal; exact E|reflexivity].
  - exists []. auto.
Qed.
Lemma trim_split l : exists a b, l = a ++ trim l ++ b /\ forallb is_space a = true /\ forallb is_space b = true.
Proof.
  destruct (dropWhile_split is_space l) as (a & E & A). destruct (trim_right_prefix (trim_left l)) as (b & F & B).
  exists a, b. split; [|auto]. rewrite E at 1. f_equal. exact F.
Qed.
Lemma upper_space c : is_space c = true -> is_space (upper c) = true.
Proof. destruct c as [[] [] [] [] [] [] [] []]; cbn; intros H; (reflexivity || discriminate). Qed.

(** Whatever the case of its letters and the blanks around it, the printed name
    of a solver is read as that solver, and nothing else is. *)
Theorem C48_solver_names s : exists name, solver_to_str s = Ok name /\
  forall t, solver_from_string t = Ok s <->
    exists a n b, t = a ++ n ++ b /\ forallb is_space a = true /\ forallb is_space b = true /\ to_upper n = name.
Proof.
  assert (K : exists name, solver_to_str s = Ok name /\ In (s, name) solver_names) by (destruct s; eexists; cbn; split; try reflexivity; auto 6).
  destruct K as (name & E & I). exists name. split; [exact E|]. intros t. split.
  - intros H. destruct (trim_split t) as (a & b & Et & A & B). exists a, (trim t), b.
    split; [exact Et|]. split; [exact A|]. split; [exact B|]. unfold solver_from_string in H.
    destruct (null (to_upper (trim t))); [discriminate|].
    destruct (find _ _) as [[s' n]|] eqn:F; [|discriminate]. cbn in H. injection H as ->.
    apply find_some in F. destruct F as (F & X). cbn in X. destruct (str_eqb_spec n (to_upper (trim t))); [|discriminate].
    subst n. revert E F. clear. cbn. intros E F.
    destruct s; cbn in E; injection E as <-;
      repeat (destruct F as [F|F]; [try discriminate F; injection F as F; symmetry; exact F|]); destruct F.
  - intros (a & n & b & -> & A & B & U).
    assert (T : trim (a ++ n ++ b) = n).
    { rewrite trim_spaces_l, trim_spaces_r by assumption. apply trim_nospace. unfold free. apply forallb_forall. intros c Ic.
      destruct (is_space c) eqn:Q; [|reflexivity]. exfalso. apply upper_space in Q.
      assert (Iu : In (upper c) name) by (rewrite <- U; apply in_map; exact Ic).
      assert (Z : forallb (fun c => negb (is_space c)) name = true)
        by (destruct s; cbn in E; injection E as <-; reflexivity).
      rewrite forallb_forall in Z. specialize (Z _ Iu). rewrite Q in Z. discriminate. }
    unfold solver_from_string. rewrite T, U. destruct s; cbn in E; injection E as <-; reflexivity.
Qed.
(** A text that is the name of no solver is refused. *)
Theorem C48_unknown t : (forall s, solver_from_string t <> Ok s) -> solver_from_string t = Throw.
Proof.
  unfold solver_from_string. destruct (null _); [reflexivity|]. destruct (find _ _); [|reflexivity].
  intros H. exfalso. exact (H _ eq_refl).
Qed.
Example C48_example : solver_from_string (txt " Code_Aster") = Throw /\ solver_from_string (txt " aStEr  ") = Ok CODE_ASTER.
Proof. split; reflexivity. Qed.

(** ** C49 *)
Definition plain_char (c : ascii) : bool :=
  negb (Ascii.eqb c "," || Ascii.eqb c newline || Ascii.eqb c cr || is_blank c || Ascii.eqb c quote).
Definition plain (s : str) : bool := forallb plain_char s.

(** A column of the header: one of the known names, or another name that does
    not begin with a known one. *)
Definition known := [("RESULTAT", RESULT); ("NUME_ORDRE", NUM_ORD); ("INST", TIME); ("NOEUD", NODE);
  ("DX", D 0); ("DY", D 1); ("DZ", D 2); ("DRX", D 3); ("DRY", D 4); ("DRZ", D 5)]%string.
Definition header_name (name : str) (it : item) : Prop :=
  (exists s, In (s, it) known /\ name = txt s)
  \/ (it = UNUSED /\ name <> [] /\ plain name = true /\ starts "#" name = false
      /\ forall s i t, In (s, i) known -> name <> txt s ++ t).

Definition csv_file (names : list str) (rows : list (list str)) : str :=
  join "," names ++ newline :: join newline (map (join ",") rows).

Section Rows.
  Context {V : Type} (atof : str -> V) (zero : V).
  Definition cells_of (p : item -> bool) (h : list item) (row : list str) : list str :=
    map snd (filter (fun e => p (fst e)) (combine h row)).
  Definition is_result i := match i with RESULT => true | _ => false end.
  Definition is_node i := match i with NODE => true | _ => false end.
  Definition is_order i := match i with NUM_ORD => true | _ => false end.
  Definition is_time i := match i with TIME => true | _ => false end.
  Definition displacements (h : list item) (row : list str) : list (nat * str) :=
    flat_map (fun e => match fst e with D k => [(k, snd e)] | _ => [] end) (combine h row).

  (** What a row is to give: nothing when its number of columns is not that of
      the header, else one assertion for each displacement column. *)
  Definition row_gives (h : list item) (row : list str) (l : list (assertion V)) : Prop :=
    row <> [] /\ Forall (fun c => plain c = true) row /\
    (length row <> length h /\ l = []
     \/ length row = length h /\ exists r n c tim,
        (0 <= r <= INT_MAX32)%Z /\ (0 <= n < INT_MAX32)%Z
        /\ cells_of is_result h row = [txt "RESU" ++ int_text r]
        /\ cells_of is_node h row = [c :: int_text n]
        /\ Forall (fun t => exists k, (0 <= k <= INT_MAX32)%Z /\ t = int_text k) (cells_of is_order h row)
        /\ (cells_of is_time h row = [] /\ tim = zero \/ exists t, cells_of is_time h row = [t] /\ tim = atof t)
        /\ l = map (fun d => mkAssertion r n (fst d) (atof (snd d)) tim) (displacements h row)).

  Lemma scan_spec cells : forall res nod tim r n t,
    (forall c, In (RESULT, c) cells -> c = txt "RESU" ++ int_text r /\ (0 <= r <= INT_MAX32)%Z) ->
    (res = r \/ exists c, In (RESULT, c) cells) ->
    (forall c, In (NODE, c) cells -> exists x, c = x :: int_text n /\ (0 <= n < INT_MAX32)%Z) ->
    (nod = n \/ exists c, In (NODE, c) cells) ->
    (forall c, In (NUM_ORD, c) cells -> exists k, (0 <= k <= INT_MAX32)%Z /\ c = int_text k) ->
    (forall c, In (TIME, c) cells -> atof c = t) ->
    (tim = t \/ exists c, In (TIME, c) cells) ->
    scan atof cells (res, nod, tim) = Ok (Some (r, n, t)).
  Proof.
    induction cells as [|[it c] l IH]; intros res nod tim r n t HR HR' HN HN' HO HT HT'.
    - destruct HR' as [->|(c & [])], HN' as [->|(c & [])], HT' as [->|(c & [])]. reflexivity.
    - assert (S : forall (P : str -> Prop) it', (forall c', In (it', c') ((it, c) :: l) -> P c') -> forall c', In (it', c') l -> P c')
        by (intros P it' H c' I; apply H; right; exact I).
      assert (S' : forall (Q : Prop) it', it' <> it -> (Q \/ exists c', In (it', c') ((it, c) :: l)) -> Q \/ exists c', In (it', c') l).
      { intros Q it' N [H|(c' & [H|H])]; [left; exact H|congruence|right; exists c'; exact H]. }
      destruct it; cbn [scan].
      + destruct (HR c (or_introl eq_refl)) as (-> & B).
        change (has_prefix (txt "RESU") (txt "RESU" ++ int_text r)) with (str_eqb (firstn 4 (txt "RESU" ++ int_text r)) (txt "RESU")).
        rewrite firstn_app. cbn [length txt list_ascii_of_string firstn Nat.sub app].
        match goal with |- context [str_eqb ?x ?y] => replace (str_eqb x y) with true by reflexivity end.
        match goal with |- context [stoi ?x] => replace x with (int_text r) by reflexivity end.
        rewrite stoi_text by exact B. cbn [bind].
        apply IH; try (eapply S; eassumption); try (eapply S'; [|eassumption]; discriminate). left; reflexivity.
      + destruct (HN c (or_introl eq_refl)) as (x & -> & B). rewrite stoi_text by lia. cbn [bind].
        apply IH; try (eapply S; eassumption); try (eapply S'; [|eassumption]; discriminate). left; reflexivity.
      + destruct (HO c (or_introl eq_refl)) as (k & B & ->). rewrite stoi_text by exact B. cbn [bind].
        apply IH; try (eapply S; eassumption); try (eapply S'; [|eassumption]; discriminate).
      + apply IH; try (eapply S; eassumption); try (eapply S'; [|eassumption]; discriminate).
        left. apply HT. left. reflexivity.
      + apply IH; try (eapply S; eassumption); try (eapply S'; [|eassumption]; discriminate).
      + apply IH; try (eapply S; eassumption); try (eapply S'; [|eassumption]; discriminate).
  Qed.

  Lemma assertions_spec cells r n t : n <> INT_MAX32 ->
    assertions atof cells (r, n, t)
    = Ok (map (fun d => mkAssertion r n (fst d) (atof (snd d)) t)
              (flat_map (fun e => match fst e with D k => [(k, snd e)] | _ => [] end) cells)).
  Proof.
    intros N. induction cells as [|[it c] l IH]; [reflexivity|].
    destruct it; cbn [assertions flat_map fst snd app map]; try exact IH.
    unfold unavailable_node. destruct (Z.eqb_spec n INT_MAX32); [congruence|]. rewrite IH. reflexivity.
  Qed.

  Lemma in_cells p h row it c : p it = true -> In (it, c) (combine h row) -> In c (cells_of p h row).
  Proof. intros P I. apply in_map_iff. exists (it, c). split; [reflexivity|]. apply filter_In. auto. Qed.
  Lemma cells_in p h row c : In c (cells_of p h row) -> exists it, p it = true /\ In (it, c) (combine h row).
  Proof.
    intros I. apply in_map_iff in I. destruct I as ([it c'] & E & F). apply filter_In in F. cbn in *.
    subst c'. exists it. split; apply F.
  Qed.

  Lemma convert_spec h row l : row_gives h row l -> convert atof zero h row = Ok l.
  Proof.
    intros (_ & _ & H). unfold convert. destruct H as [(N & ->)|(E & r & n & c & tim & Hr & Hn & ER & EN & EO & ET & ->)].
    - destruct (Nat.eqb_spec (length row) (length h)); [contradiction|reflexivity].
    - rewrite E, Nat.eqb_refl. cbn [negb].
      rewrite (scan_spec (combine h row) (-1)%Z unavailable_node zero r n tim).
      + cbn [bind]. destruct (Z.eqb_spec r (-1)); [lia|]. apply assertions_spec. lia.
      + intros x I. apply (in_cells is_result) in I; [|reflexivity]. rewrite ER in I. destruct I as [<-|[]]. auto.
      + right. assert (I : In (txt "RESU" ++ int_text r) (cells_of is_result h row)) by (rewrite ER; left; reflexivity).
        apply cells_in in I. destruct I as ([] & P & I); try discriminate. eexists. exact I.
      + intros x I. apply (in_cells is_node) in I; [|reflexivity]. rewrite EN in I. destruct I as [<-|[]]. eauto.
      + right. assert (I : In (c :: int_text n) (cells_of is_node h row)) by (rewrite EN; left; reflexivity).
        apply cells_in in I. destruct I as ([] & P & I); try discriminate. eexists. exact I.
      + intros x I. apply (in_cells is_order) in I; [|reflexivity]. rewrite Forall_forall in EO. apply (EO x I).
      + intros x I. apply (in_cells is_time) in I; [|reflexivity]. destruct ET as [(ET & _)|(t & ET & ->)]; rewrite ET in I.
        * destruct I.
        * destruct I as [<-|[]]. reflexivity.
      + destruct ET as [(_ & ->)|(t & ET & _)]; [left; reflexivity|]. right.
        assert (I : In t (cells_of is_time h row)) by (rewrite ET; left; reflexivity).
        apply cells_in in I. destruct I as ([] & P & I); try discriminate. eexists. exact I.
  Qed.

  (** *** The text *)
  (** What may follow a cell: a comma, the end of the line, the end of the text. *)
  Definition ends (r : str) : Prop := match r with [] => True | c :: _ => c = ","%char \/ c = newline end.

  Lemma plain_char_inv c : plain_char c = true ->
    Ascii.eqb c "," = false /\ Ascii.eqb c newline = false /\ Ascii.eqb c cr = false /\ is_blank c = false /\ Ascii.eqb c quote = false.
  Proof.
    unfold plain_char. intros H. apply negb_true_iff in H. repeat (apply orb_false_iff in H; destruct H as [H ?]). auto.
  Qed.
  Lemma column_plain s r : plain s = true -> ends r -> column (s ++ r) = Ok (s, r).
  Proof.
    intros P E. unfold column.
    assert (Q : starts quote (s ++ r) = false).
    { destruct s as [|c s].
      - destruct r as [|c r]; [reflexivity|]. destruct E as [->| ->]; reflexivity.
      - cbn in P. apply andb_true_iff in P. destruct P as (P & _). apply plain_char_inv in P. cbn. apply P. }
    rewrite Q. f_equal. clear Q. induction s as [|c s IH].
    - destruct r as [|c r]; [reflexivity|]. destruct E as [->| ->]; reflexivity.
    - cbn in P. apply andb_true_iff in P. destruct P as (Pc & P). apply plain_char_inv in Pc.
      destruct Pc as (A & B & _ & C & _). cbn [column_chars app]. rewrite A, B. cbn [orb]. rewrite (IH P), C. reflexivity.
  Qed.

  Lemma comma_list_join {A} (cell : str -> outcome (A * str)) (cells : list (str * A)) :
    (forall s a r, In (s, a) cells -> ends r -> cell (s ++ r) = Ok (a, r)) ->
    cells <> [] -> forall fuel r, (length cells <= fuel) -> match r with [] => True | c :: _ => c = newline end ->
    comma_list cell fuel (join "," (map fst cells) ++ r) = Ok (map snd cells, r).
  Proof.
    induction cells as [|[s a] l IH]; intros H N fuel r L E; [congruence|].
    destruct fuel as [|fuel]; [cbn in L; lia|]. cbn [comma_list].
    destruct l as [|[s' a'] l'].
    - cbn [map fst join]. rewrite (H s a r); [|left; reflexivity|].
      + cbn [bind]. destruct r as [|c r]; [reflexivity|]. subst c. reflexivity.
      + destruct r; [exact Logic.I|right; exact E].
    - change (join "," (map fst ((s, a) :: (s', a') :: l'))) with (s ++ ","%char :: join "," (map fst ((s', a') :: l'))).
      rewrite <- app_assoc. rewrite (H s a); [|left; reflexivity|left; reflexivity].
      cbn [bind]. set (rest := (","%char :: join "," (map fst ((s', a') :: l'))) ++ r).
      change (skip_blank rest) with (","%char :: (join "," (map fst ((s', a') :: l')) ++ r)). cbv beta iota.
      change (Ascii.eqb "," ",") with true. cbv iota.
      rewrite IH; [reflexivity| |discriminate|cbn in *; lia|exact E].
      intros s0 a0 r0 I0. apply H. right. exact I0.
  Qed.

  Lemma join_length (l : list str) : length l <= S (length (join "," l)).
  Proof.
    induction l as [|s [|t l] IH]; cbn; [lia|lia|]. rewrite app_length. cbn in *. lia.
  Qed.

  Lemma header_cell_ok s it r : header_name s it -> ends r -> header_cell (s ++ r) = Ok (it, r).
  Proof.
    intros [(n & I & ->)|(-> & N & P & _ & K)] E.
    - cbn in I. repeat (destruct I as [I|I]; [injection I as <- <-; reflexivity|]). destruct I.
    - unfold header_cell.
      assert (B : skip_blank (s ++ r) = s ++ r).
      { destruct s as [|c s]; [congruence|]. cbn in P. apply andb_true_iff in P. destruct P as (P & _).
        apply plain_char_inv in P. unfold skip_blank. cbn. destruct P as (_ & _ & _ & -> & _). reflexivity. }
      rewrite B.
      assert (F : find (fun e => has_prefix (fst e) (s ++ r)) item_names = None).
      { destruct (find _ _) as [[n i]|] eqn:F; [|reflexivity]. exfalso. apply find_some in F.
        destruct F as (I & F). cbn [fst] in F. unfold has_prefix in F.
        destruct (str_eqb_spec (firstn (length n) (s ++ r)) n) as [F'|]; [|discriminate]. clear F.
        assert (I' : exists q, In (q, i) known /\ n = txt q /\ forallb (fun c => negb (Ascii.eqb c "," || Ascii.eqb c newline)) n = true).
        { cbn in I. repeat (destruct I as [I|I]; [injection I as <- <-; eexists; split; [cbn; eauto 12|split; reflexivity]|]). destruct I. }
        destruct I' as (q & Iq & -> & Q). rewrite firstn_app in F'.
        destruct (Nat.leb_spec (length (txt q)) (length s)) as [L|L].
        - replace (length (txt q) - length s) with 0 in F' by lia. rewrite firstn_O, app_nil_r in F'.
          apply (K q i (skipn (length (txt q)) s) Iq). rewrite <- F' at 1. symmetry. apply firstn_skipn.
        - rewrite firstn_all2 in F' by lia. destruct r as [|c r].
          + rewrite firstn_nil, app_nil_r in F'. rewrite <- F' in L. lia.
          + assert (Ic : In c (txt q)).
            { rewrite <- F'. apply in_or_app. right. destruct (length (txt q) - length s) eqn:Z; [lia|]. left. reflexivity. }
            rewrite forallb_forall in Q. specialize (Q c Ic). destruct E as [->| ->]; discriminate. }
      rewrite F, column_plain by assumption. reflexivity.
  Qed.

  Lemma rows_text (h : list item) rows ls : Forall2 (row_gives h) rows ls -> rows <> [] ->
    forall fuel, length rows <= fuel ->
    lines atof zero fuel h (join newline (map (join ",") rows)) = Ok (concat ls).
  Proof.
    induction 1 as [|row l rows ls G F IH]; intros N fuel L; [congruence|].
    destruct fuel as [|fuel]; [cbn in L; lia|]. cbn [lines].
    assert (C : forall r, match r with [] => True | c :: _ => c = newline end ->
                comma_list column (S (length (join "," row ++ r))) (join "," row ++ r) = Ok (row, r)).
    { intros r Hr. destruct G as (Nr & Pr & _).
      assert (M1 : row = map fst (map (fun c => (c, c)) row)) by (rewrite map_map, map_id; reflexivity).
      assert (M2 : row = map snd (map (fun c => (c, c)) row)) by (rewrite map_map, map_id; reflexivity).
      rewrite M1 at 2. rewrite M2 at 3. apply comma_list_join; [| | |exact Hr].
      - intros s a r0 I E. apply in_map_iff in I. destruct I as (c & I & Ic). injection I as <- <-.
        apply column_plain; [|exact E]. rewrite Forall_forall in Pr. apply Pr, Ic.
      - destruct row; [congruence|discriminate].
      - rewrite map_length, app_length. pose proof (join_length row). lia. }
    destruct rows as [|row' rows].
    - inversion F; subst. cbn [map join]. specialize (C [] Logic.I). rewrite app_nil_r in C. rewrite C.
      cbn [bind fst snd]. rewrite (convert_spec _ _ _ G). cbn [bind]. cbn. rewrite app_nil_r. reflexivity.
    - change (join newline (map (join ",") (row :: row' :: rows)))
        with (join "," row ++ newline :: join newline (map (join ",") (row' :: rows))).
      rewrite C by reflexivity. cbn [bind fst snd]. rewrite (convert_spec _ _ _ G). cbn [bind].
      match goal with |- context [eol (skip_blank ?x)] => change (eol (skip_blank x)) with (Some (join newline (map (join ",") (row' :: rows)))) end.
      cbv iota beta. rewrite IH; [reflexivity|discriminate|cbn in *; lia].
  Qed.

  Lemma join_length_nl (l : list str) : length l <= S (length (join newline l)).
  Proof.
    induction l as [|s [|t l] IH]; cbn; [lia|lia|]. rewrite app_length. cbn in *. lia.
  Qed.

  (** A file made of a header and rows gives, for each row in order, exactly the
      assertions of the row. *)
  Theorem C49_csv_rows_partial names h rows ls : h <> [] -> rows <> [] ->
    Forall2 header_name names h -> Forall2 (row_gives h) rows ls ->
    read_csv atof zero (csv_file names rows) = Ok (concat ls).
  Proof.
    intros Nh Nr Hn Hr. unfold read_csv, csv_file.
    set (body := join newline (map (join ",") rows)).
    assert (C : forall fuel, comments (S fuel) (join "," names ++ newline :: body) = Ok (join "," names ++ newline :: body)).
    { intros fuel. destruct Hn as [|s it names h Hs Hn]; [congruence|].
      assert (X : exists c s', s = c :: s' /\ Ascii.eqb c "#" = false /\ Ascii.eqb c newline = false /\ Ascii.eqb c cr = false).
      { destruct Hs as [(n & I & ->)|(-> & N & P & Q & _)].
        - cbn in I. repeat (destruct I as [I|I]; [injection I as <- <-; do 2 eexists; repeat split; reflexivity|]). destruct I.
        - destruct s as [|c s]; [congruence|]. exists c, s. split; [reflexivity|]. split; [exact Q|].
          cbn in P. apply andb_true_iff in P. destruct P as (P & _). apply plain_char_inv in P. split; apply P. }
      destruct X as (c & s' & Es & X1 & X2 & X3).
      assert (J : exists t, join "," (s :: names) = c :: t) by (destruct names; subst s; cbn; eexists; reflexivity).
      destruct J as (t & ->). cbn [comments app]. change (starts "#" (c :: t ++ newline :: body)) with (Ascii.eqb c "#"). rewrite X1. unfold eol. rewrite X2, X3. reflexivity. }
    rewrite C. cbn [bind].
    assert (H : comma_list header_cell (S (length (join "," names ++ newline :: body))) (join "," names ++ newline :: body)
                = Ok (h, newline :: body)).
    { assert (Ln : length names = length h) by (clear - Hn; induction Hn; cbn; lia).
      assert (M1 : map fst (combine names h) = names).
      { clear - Ln. revert h Ln. induction names as [|a l IH]; intros [|b m] L; cbn in *; try lia; [reflexivity|]. f_equal. apply IH. lia. }
      assert (M2 : map snd (combine names h) = h).
      { clear - Ln. revert h Ln. induction names as [|a l IH]; intros [|b m] L; cbn in *; try lia; [reflexivity|]. f_equal. apply IH. lia. }
      rewrite <- M1 at 2. rewrite <- M2 at 2. apply comma_list_join; [| | |reflexivity].
      - intros s a r I E. apply header_cell_ok; [|exact E]. clear - Hn I.
        induction Hn as [|x y l m Hxy Hn IH]; [destruct I|]. destruct I as [I|I]; [injection I as <- <-; exact Hxy|apply IH, I].
      - destruct names, h; cbn in *; congruence || lia.
      - rewrite combine_length, app_length. pose proof (join_length names). lia. }
    rewrite H. cbn [bind fst snd].
    change (eol (skip_blank (newline :: body))) with (Some body). cbv iota beta.
    apply rows_text; [exact Hr|exact Nr|]. unfold body. pose proof (join_length_nl (map (join ",") rows)) as J.
    rewrite map_length in J. exact J.
  Qed.
End Rows.

(** A result file; the values are kept as texts. *)
Example C49_example :
  let file := csv_file [txt "RESULTAT"; txt "LIEU"; txt "NOEUD"; txt "DX"; txt "DRZ"; txt "INST"]
    [[txt "RESU1"; txt "top"; txt "N12"; txt "0.5"; txt "1.5E-3"; txt "2."]; [txt "oops"]; [[]]] in
  let rows := [[mkAssertion 1 12 0 (txt "0.5") (txt "2."); mkAssertion 1 12 5 (txt "1.5E-3") (txt "2.")]; []; []] in
  read_csv (fun s => s) (txt "0") file = Ok (concat rows)
  /\ Forall2 header_name [txt "RESULTAT"; txt "LIEU"; txt "NOEUD"; txt "DX"; txt "DRZ"; txt "INST"]
      [RESULT; UNUSED; NODE; D 0; D 5; TIME]
  /\ Forall2 (row_gives (fun s => s) (txt "0") [RESULT; UNUSED; NODE; D 0; D 5; TIME])
      [[txt "RESU1"; txt "top"; txt "N12"; txt "0.5"; txt "1.5E-3"; txt "2."]; [txt "oops"]; [[]]] rows.
Proof.
  cbv zeta. split; [vm_compute; reflexivity|]. split.
  - repeat apply Forall2_cons; try apply Forall2_nil;
      try (left; eexists; split; [|reflexivity]; cbn; now auto 12).
    right. split; [reflexivity|]. split; [discriminate|]. split; [reflexivity|]. split; [reflexivity|].
    intros s i t I E. cbn in I. repeat (destruct I as [I|I]; [injection I as <- <-; discriminate E|]). destruct I.
  - repeat apply Forall2_cons; try apply Forall2_nil; (split; [discriminate|split; [repeat constructor|]]);
      try (left; split; [discriminate|reflexivity]).
    right. split; [reflexivity|]. exists 1%Z, 12%Z, "N"%char, (txt "2.").
    split; [unfold INT_MAX32; lia|]. split; [unfold INT_MAX32; lia|].
    split; [reflexivity|]. split; [reflexivity|]. split; [constructor|].
    split; [right; eexists; split; reflexivity|reflexivity].
Qed.

(** C49 fails for a header with a column whose name begins with a known one, and
    for a row whose result name is not RESU and a number: nothing is read. *)
Theorem C49_header_refuted : exists names h row,
  length row = length h /\ In (D 0) h /\ Forall (fun s => plain s = true) names
  /\ (forall i, nth_error h i = Some (D 0) -> nth_error names i = Some (txt "DX"))
  /\ cells_of is_result h row = [txt "RESU1"] /\ cells_of is_node h row = [txt "N12"]
  /\ read_csv (fun s => s) (txt "0") (csv_file names [row]) = Ok [].
Proof.
  exists [txt "RESULTAT"; txt "INSTALLATION"; txt "NOEUD"; txt "DX"], [RESULT; UNUSED; NODE; D 0],
    [txt "RESU1"; txt "a"; txt "N12"; txt "0.5"].
  split; [reflexivity|]. split; [cbn; auto|]. split; [repeat constructor|].
  split; [intros [|[|[|[|[]]]]] E; cbn in *; congruence|]. repeat split; vm_compute; reflexivity.
Qed.
Theorem C49_result_refuted : exists names h row,
  length row = length h /\ In (D 0) h /\ Forall2 header_name names h
  /\ read_csv (fun s => s) (txt "0") (csv_file names [row]) = Ok [].
Proof.
  exists [txt "RESULTAT"; txt "NOEUD"; txt "DX"], [RESULT; NODE; D 0], [txt "MODES"; txt "N12"; txt "0.5"].
  split; [reflexivity|]. split; [cbn; auto|].
  split; [repeat apply Forall2_cons; try apply Forall2_nil; left; eexists; (split; [|reflexivity]); cbn; now auto 12|vm_compute; reflexivity].
Qed.

Print Assumptions C48_solver_names.
Print Assumptions C49_csv_rows_partial.
Print Assumptions C49_header_refuted.
