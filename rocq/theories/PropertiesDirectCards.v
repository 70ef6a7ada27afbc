(** C116: matrices given term by term, imposed displacements, scalar loads, temperatures,
    sets, contact lines and increments are what the cards list. *)
From Coq Require Import Ascii String ZArith List Bool Arith Lia.
From Verif Require Import Base TextModel TextProofs TokenizerModel NextIntsProofs RealModel CardModel CardProofs LoadCardModel FieldProofs
  DofModel DofProofs CaseControlModel DirectCardModel MatrixElementModel MatrixElementProofs PropertiesMatrixElement PropertiesTokenizer.
Import ListNotations.
Open Scope Z_scope.
Open Scope list_scope.

(** ** Components *)

(** The code of one component: its digit, or 0 for a scalar point (its only component). *)
Definition component (c : Z) (d : dof) : Prop := c = nastran_digit d \/ (c = 0 /\ d = DX).
Lemma code_component c d : component c d -> code_dof c = Ok d.
Proof. intros [-> | [-> ->]]; [destruct d|]; vm_compute; reflexivity. Qed.

(** ** Names *)

(** A name as a command gives it: a letter first, no comma, blank or star. *)
Definition plain_name (n : str) : Prop :=
  trim n = n /\ (exists c r, n = c :: r /\ is_digit c = false /\ c <> "-"%char /\ c <> "+"%char /\ is_space c = false) /\
  forall c, In c n -> c <> ","%char /\ c <> "*"%char /\ c <> " "%char.
Lemma plain_starts n : plain_name n -> starts_int n = false.
Proof.
  intros (_ & (c & r & -> & D & M & P & S) & _). unfold starts_int. cbn [dropWhile]. rewrite S. cbn [take_sign].
  destruct (Ascii.eqb_spec c "-") as [E|_]; [congruence|]. destruct (Ascii.eqb_spec c "+") as [E|_]; [congruence|].
  cbn [take_digits]. rewrite D. reflexivity.
Qed.
Lemma plain_clean n : plain_name n -> existsb (is_any_of [","; " "; "*"]%char) n = false.
Proof.
  intros (_ & _ & H). destruct (existsb _ n) eqn:E; [|reflexivity]. apply existsb_exists in E. destruct E as (c & C & E).
  destruct (H c C) as (A & B & D). unfold is_any_of in E. cbn [existsb] in E. rewrite !orb_true_iff in E.
  destruct E as [E|[E|[E|E]]]; try discriminate E; apply Ascii.eqb_eq in E; congruence.
Qed.

(** ** Which matrix a name means *)

(** The first command that gives the name; commands are pairs of a kind and a name. *)
Inductive selected : list (mkind * str) -> str -> nat -> Prop :=
| sel_here k n r : selected ((k, n) :: r) n 0
| sel_later k m n r i : m <> n -> selected r n i -> selected ((k, m) :: r) n (S i).
Lemma selected_fun cmds n i : selected cmds n i -> forall j, selected cmds n j -> i = j.
Proof. induction 1; intros j J; inversion J; subst; try congruence. f_equal. auto. Qed.

Lemma find_insert n m i l : find_name n (insert_name m i l) =
  match find_name n l with Some j => Some j | None => if str_eqb m n then Some i else None end.
Proof.
  assert (A : forall l, find_name n (l ++ [(m, i)]) = match find_name n l with Some j => Some j | None => if str_eqb m n then Some i else None end).
  { clear l. induction l as [|[a j] l IH]; cbn [app find_name]; [reflexivity|]. destruct (str_eqb a n); [reflexivity|exact IH]. }
  unfold insert_name. destruct (find_name m l) as [j|] eqn:F; [|apply A].
  destruct (find_name n l) as [j'|] eqn:G; [reflexivity|]. destruct (str_eqb_spec m n) as [->|_]; [congruence|reflexivity].
Qed.

(** A command with one name makes an empty matrix of its kind. *)
Lemma select_one k f n st : word f = n -> plain_name n ->
  select k [f] st = Ok (mkDState (insert_name n (length (matrices st)) (by_name st)) (matrices st ++ [mkDirect k []])).
Proof.
  intros W P. assert (N : n <> []) by (destruct P as (_ & (c & r & -> & _) & _); discriminate).
  unfold select. cbn [joined]. rewrite W. destruct n as [|c r] eqn:E; [congruence|]. rewrite <- E in *. replace (null n) with false by (now rewrite E).
  cbn [andb bind]. rewrite app_nil_r. rewrite (proj1 P), (plain_clean _ P), (plain_starts _ P). reflexivity.
Qed.

(** ** Cards *)

(** A row of a column card: node, component, value in fields [i], [i+1], [i+2]; field [i+3]
    (an imaginary part) is any. *)
Definition row := (Z * dof * decimal)%type.
Definition row_at (vec : list str) (i : nat) (r : row) : Prop :=
  let '(g, d, a) := r in int_at vec i g /\ (exists c, int_at vec (i + 1) c /\ component c d) /\ real_at vec (i + 2) a.
(** A DMIG card that gives a column: name, node and component of the column, the rows from
    field 5 on, four fields each. *)
Record column := mkColumn { c_name : str; c_node : Z; c_dof : dof; c_rows : list row }.
Definition column_card (vec : list str) (c : column) : Prop :=
  word_at vec 1 (c_name c) /\ c_name c <> [] /\ c_name c <> txt "UACCEL" /\ c_name c <> txt "CDSHUT" /\
  int_at vec 2 (c_node c) /\ c_node c <> 0 /\ (exists k, int_at vec 3 k /\ component k (c_dof c)) /\
  (forall j r, nth_error (c_rows c) j = Some r -> row_at vec (5 + 4 * j) r) /\ blank_at vec (5 + 4 * length (c_rows c)).
(** The entries it gives. *)
Definition column_entries (c : column) : list dentry := map (fun r => let '(g, d, a) := r in (c_node c, c_dof c, g, d, a)) (c_rows c).

Lemma dmig_rows vec gj dj : forall rows i fuel, (forall j r, nth_error rows j = Some r -> row_at vec (i + 4 * j) r) -> blank_at vec (i + 4 * length rows) ->
  (length rows < fuel)%nat -> dmig_loop fuel gj dj (at_field vec i) = Ok (map (fun r => let '(g, d, a) := r in (gj, dj, g, d, a)) rows).
Proof.
  induction rows as [|[[g d] a] rows IH]; intros i fuel H B F; (destruct fuel as [|fuel]; [cbn in F; lia|]); cbn [dmig_loop map].
  - rewrite Nat.mul_0_r, Nat.add_0_r in B. rewrite (f_isint_blank _ _ B). reflexivity.
  - destruct (H 0%nat _ eq_refl) as (G & (c & C & K) & A). rewrite Nat.mul_0_r, Nat.add_0_r in G, C, A.
    replace (i + 1)%nat with (S i) in C by lia. replace (i + 2)%nat with (S (S i)) in A by lia.
    rewrite (f_isint _ _ _ G). cbn [bind]. rewrite (f_int _ _ _ G). cbn [bind]. rewrite (f_int _ _ _ C). cbn [bind]. rewrite (code_component _ _ K). cbn [bind].
    rewrite (f_double _ _ _ A). cbn [bind]. rewrite f_skipn. cbn [bind]. replace (S (S (S i)) + 1)%nat with (i + 4)%nat by lia.
    rewrite (IH (i + 4)%nat fuel); [reflexivity| | |cbn in F; lia].
    + intros j r J. replace (i + 4 + 4 * j)%nat with (i + 4 * S j)%nat by lia. now apply H.
    + cbn [length] in B. replace (i + 4 + 4 * length rows)%nat with (i + 4 * S (length rows))%nat by lia. exact B.
Qed.
Lemma rows_short vec rows i : (forall j r, nth_error rows j = Some r -> row_at vec (i + 4 * j) r) -> (length rows <= length vec)%nat.
Proof.
  intros H. destruct rows as [|r0 rows]; [cbn; lia|]. destruct (nth_error (r0 :: rows) (length rows)) as [[[g d] a]|] eqn:E.
  - destruct (H _ _ E) as (G & _). apply int_present in G. cbn [length]. lia.
  - apply nth_error_None in E. cbn [length] in E. lia.
Qed.
Definition start (v : list str) : cursor := mkCursor v 1 (if (length v <=? 1)%nat then KEYWORD else FIELD).
Lemma start_field v i n : (1 <= i)%nat -> int_at v i n -> start v = at_field v 1.
Proof. intros I H. apply int_present in H. unfold start, at_field, at_pos. rewrite Nat.min_l by lia. reflexivity. Qed.

Lemma column_read vec c st : column_card vec c -> parseDMIG (start vec) st =
  Ok (match find_name (c_name c) (by_name st) with
      | Some i => mkDState (by_name st) (upd (matrices st) i (push (column_entries c)))
      | None => st
      end).
Proof.
  intros (W & N & U & D & G & Z0 & (k & K & C) & R & B). rewrite (start_field _ 2 _ ltac:(lia) G). unfold parseDMIG.
  rewrite (f_string _ _ _ W N). cbn [bind]. destruct (str_eqb_spec (c_name c) (txt "UACCEL")) as [E|_]; [congruence|].
  destruct (str_eqb_spec (c_name c) (txt "CDSHUT")) as [E|_]; [congruence|]. cbn [orb]. rewrite (f_int _ _ _ G). cbn [bind].
  destruct (Z.eqb_spec (c_node c) 0) as [E|_]; [congruence|]. destruct (find_name (c_name c) (by_name st)) as [i|]; [|reflexivity].
  rewrite (f_int _ _ _ K). cbn [bind]. rewrite (code_component _ _ C). cbn [bind]. rewrite f_skipn. cbn [bind]. change (4 + 1)%nat with 5%nat.
  rewrite (dmig_rows vec _ _ (c_rows c) 5); [reflexivity|exact R|exact B|]. change (cvec (at_field vec 5)) with vec. pose proof (rows_short _ _ _ R). lia.
Qed.

(** A header card: name, 0, 6 (symmetric), 1 or 2 (real), no output type, no polar, any
    number of columns. *)
Definition header_fields (vec : list str) (n : str) (ifo tin tout polar : Z) : Prop :=
  word_at vec 1 n /\ n <> [] /\ n <> txt "UACCEL" /\ n <> txt "CDSHUT" /\ int_at vec 2 0 /\ int_at vec 3 ifo /\ int_at vec 4 tin /\
  int_or 0 vec 5 tout /\ int_or 0 vec 6 polar /\ exists ncol, int_or 0 vec 8 ncol.
Definition header_card (vec : list str) : Prop := exists n tin, header_fields vec n 6 tin 0 0 /\ (tin = 1 \/ tin = 2).
Lemma header_read vec n ifo tin tout polar st : header_fields vec n ifo tin tout polar -> parseDMIG (start vec) st =
  match find_name n (by_name st) with
  | None => Ok st
  | Some _ => if (ifo =? 6) && ((tin =? 1) || (tin =? 2)) && (tout =? 0) && (polar =? 0) then Ok st else Throw
  end.
Proof.
  intros (W & N & U & D & G & I & T & O & P & (nc & C)). rewrite (start_field _ 2 _ ltac:(lia) G). unfold parseDMIG.
  rewrite (f_string _ _ _ W N). cbn [bind]. destruct (str_eqb_spec n (txt "UACCEL")) as [E|_]; [congruence|].
  destruct (str_eqb_spec n (txt "CDSHUT")) as [E|_]; [congruence|]. cbn [orb]. rewrite (f_int _ _ _ G). cbn [bind Z.eqb].
  destruct (find_name n (by_name st)) as [i|]; [|reflexivity]. rewrite (f_int _ _ _ I). cbn [bind]. destruct (ifo =? 6); cbn [negb andb]; [|reflexivity].
  rewrite (f_int _ _ _ T). cbn [bind]. destruct (tin =? 1), (tin =? 2); cbn [negb andb orb]; try reflexivity;
    rewrite (f_intdef _ _ _ _ O); cbn [bind]; destruct (tout =? 0); cbn [negb andb]; try reflexivity;
    rewrite (f_intdef _ _ _ _ P); cbn [bind]; destruct (polar =? 0); cbn [negb andb]; try reflexivity;
    rewrite f_skipn; cbn [bind]; change (7 + 1)%nat with 8%nat; rewrite (f_intdef _ _ _ _ C); reflexivity.
Qed.

(** A DMIG card and the columns it gives: a column card one, a header none. *)
Inductive dmig_card : list str -> list column -> Prop :=
| is_column vec c : column_card vec c -> dmig_card vec [c]
| is_header vec : header_card vec -> dmig_card vec [].
Definition deck (cards : list (list str)) (cs : list column) : Prop := exists css, Forall2 dmig_card cards css /\ cs = concat css.

(** ** Decks *)

(** What the commands say, one name each. *)
Definition command_text (cmd : mkind * list str) (c : mkind * str) : Prop :=
  fst cmd = fst c /\ plain_name (snd c) /\ exists f, snd cmd = [f] /\ word f = snd c.
(** The entries a list of columns gives to a name. *)
Definition entries_of (n : str) (cs : list column) : list dentry :=
  concat (map (fun c => if str_eqb (c_name c) n then column_entries c else []) cs).

Lemma upd_nth {A} (f : A -> A) : forall l i j, nth_error (upd l i f) j = if (i =? j)%nat then option_map f (nth_error l j) else nth_error l j.
Proof.
  induction l as [|a l IH]; intros i j; [destruct i, j; cbn; try reflexivity; now destruct (_ =? _)%nat|]. destruct i, j; cbn; try reflexivity. apply IH.
Qed.
Lemma select_all_spec : forall cmds cs st, Forall2 command_text cmds cs ->
  exists st', select_all cmds st = Ok st' /\ matrices st' = matrices st ++ map (fun c => mkDirect (fst c) []) cs /\
    forall n i, find_name n (by_name st') = Some i <->
      find_name n (by_name st) = Some i \/ (find_name n (by_name st) = None /\ exists j, selected cs n j /\ i = (length (matrices st) + j)%nat).
Proof.
  intros cmds cs st H. revert st. induction H as [|[k fs] [k' n0] cmds cs (E & P & f & F & W) _ IH]; intros st.
  - exists st. cbn [map]. rewrite app_nil_r. repeat split; try reflexivity; [auto|]. intros [H|(_ & j & J & _)]; [exact H|inversion J].
  - cbn [fst snd] in E, P, F, W. subst k' fs. unfold select_all. cbn [foldM fst snd]. rewrite (select_one k f n0 st W P). cbn [bind].
    destruct (IH (mkDState (insert_name n0 (length (matrices st)) (by_name st)) (matrices st ++ [mkDirect k []]))) as (st' & R & M & N).
    exists st'. split; [exact R|]. split; [rewrite M; cbn [matrices map fst]; now rewrite <- app_assoc|].
    intros n i. rewrite N. cbn [by_name matrices]. rewrite find_insert, app_length. cbn [length]. destruct (find_name n (by_name st)) as [j0|] eqn:Fn.
    + split; [intros [H|(H & _)]; [auto|discriminate]|intros [H|(H & _)]; [auto|discriminate]].
    + destruct (str_eqb_spec n0 n) as [->|Ne].
      * split.
        -- intros [H|(H & _)]; [|discriminate]. right. injection H as <-. split; [reflexivity|]. exists 0%nat. split; [constructor|lia].
        -- intros [H|(_ & j & J & ->)]; [discriminate|]. inversion J; subst; [left; f_equal; lia|congruence].
      * split.
        -- intros [H|(_ & j & J & ->)]; [discriminate|]. right. split; [reflexivity|]. exists (S j). split; [now constructor|lia].
        -- intros [H|(_ & j & J & ->)]; [discriminate|]. right. split; [reflexivity|]. inversion J; subst; [congruence|]. eexists. split; [eassumption|lia].
Qed.
Lemma read_spec : forall cards cs st, deck cards cs ->
  exists st', read_dmigs cards st = Ok st' /\ by_name st' = by_name st /\
    forall i m, nth_error (matrices st) i = Some m ->
      nth_error (matrices st') i = Some (mkDirect (d_kind m) (d_entries m ++
        concat (map (fun c => match find_name (c_name c) (by_name st) with Some j => if (j =? i)%nat then column_entries c else [] | None => [] end) cs))).
Proof.
  intros cards cs st (css & H & ->). revert st. induction H as [|v co cards css C _ IH]; intros st.
  { exists st. split; [reflexivity|]. split; [reflexivity|]. intros i m M. cbn [map concat]. rewrite app_nil_r, M. now destruct m. }
  destruct C as [v c C|v (n & tin & Hd & Ht)].
  2:{ cbn [concat app]. unfold read_dmigs. cbn [foldM]. fold (start v). rewrite (header_read _ _ _ _ _ _ st Hd). cbn [Z.eqb andb].
      replace ((tin =? 1) || (tin =? 2)) with true by (destruct Ht as [-> | ->]; reflexivity). cbn [andb].
      destruct (find_name n (by_name st)); cbn [bind]; apply IH. }
  - cbn [concat app]. unfold read_dmigs. cbn [foldM]. fold (start v). rewrite (column_read v c st C). cbn [bind].
    set (st1 := match find_name (c_name c) (by_name st) with Some i => _ | None => _ end).
    assert (B1 : by_name st1 = by_name st) by (unfold st1; now destruct (find_name _ _)).
    destruct (IH st1) as (st' & R & Nm & M). exists st'. split; [exact R|]. split; [congruence|]. intros i m I. rewrite B1 in M.
    cbn [map concat]. unfold st1 in M. destruct (find_name (c_name c) (by_name st)) as [j|]; cbn [matrices] in M.
    + destruct (Nat.eqb_spec j i) as [->|Ne].
      * specialize (M i (push (column_entries c) m)). rewrite upd_nth, Nat.eqb_refl, I in M. rewrite (M eq_refl). cbn [push d_kind d_entries]. now rewrite <- app_assoc.
      * apply M. rewrite upd_nth. destruct (Nat.eqb_spec j i); [congruence|exact I].
    + apply M, I.
Qed.

(** The commands name the matrices, one each; the cards, in any order, give columns.  The
    matrix of each command that is the first to give its name holds exactly the entries of
    the cards of that name, in order; the matrix of a command that gives again a name holds
    nothing; no other card changes anything. *)
Theorem C116_matrices : forall cmds names cards cs,
  Forall2 command_text cmds names -> deck cards cs ->
  exists st0 st, select_all cmds (mkDState [] []) = Ok st0 /\ read_dmigs cards st0 = Ok st /\ length (matrices st) = length names /\
    forall i k n, nth_error names i = Some (k, n) -> exists m, nth_error (matrices st) i = Some m /\ d_kind m = k /\
      (selected names n i -> d_entries m = entries_of n cs) /\ (~ selected names n i -> d_entries m = []).
Proof.
  intros cmds names cards cs H1 H2. destruct (select_all_spec cmds names (mkDState [] []) H1) as (st0 & S0 & M0 & N0). cbn [matrices by_name app length] in *.
  destruct (read_spec cards cs st0 H2) as (st & R & Nm & M). exists st0, st. split; [exact S0|]. split; [exact R|].
  assert (Ln : forall cds s s', read_dmigs cds s = Ok s' -> length (matrices s') = length (matrices s)).
  { clear. assert (U : forall A (f : A -> A) l i, length (upd l i f) = length l) by (intros A f; induction l as [|a l IH]; intros [|i]; cbn; auto).
    induction cds as [|v cds IH]; intros s s' H; [injection H as <-; reflexivity|]. unfold read_dmigs in H. cbn [foldM] in H.
    destruct (parseDMIG _ s) as [s1| | |] eqn:P; try discriminate H. cbn [bind] in H. rewrite (IH _ _ H). clear - P U. unfold parseDMIG in P.
    repeat match type of P with
    | bind ?x _ = _ => destruct x eqn:?; try discriminate P; cbn [bind] in P
    | (let '(_, _) := ?p in _) = _ => destruct p
    | (if ?b then _ else _) = _ => destruct b
    | match find_name ?a ?b with _ => _ end = _ => destruct (find_name a b)
    | Ok _ = Ok _ => injection P as <-; cbn [matrices]; auto
    | Throw = _ => discriminate P
    end. }
  split; [rewrite (Ln _ _ _ R), M0; apply map_length|].
  intros i k n I. specialize (M i (mkDirect k [])). rewrite M0, nth_error_map, I in M. specialize (M eq_refl). cbn [d_kind d_entries app] in M.
  eexists. split; [exact M|]. split; [reflexivity|]. cbn [d_entries].
  assert (Uniq : forall a j, selected names a j -> exists k, nth_error names j = Some (k, a)) by (clear; intros a j S; induction S; cbn; eauto).
  assert (F : forall a, match find_name a (by_name st0) with Some j => selected names a j | None => forall j, ~ selected names a j end).
  { intros a. destruct (find_name a (by_name st0)) as [j|] eqn:E.
    - apply N0 in E. destruct E as [E|(_ & j' & J & ->)]; [discriminate E|]. exact J.
    - intros j J. assert (find_name a (by_name st0) = Some j) by (apply N0; right; split; [reflexivity|]; eauto). congruence. }
  split; intros S; clear - S F Uniq I.
  - unfold entries_of. f_equal. apply map_ext. intros c. specialize (F (c_name c)). destruct (find_name (c_name c) (by_name st0)) as [j|].
    + destruct (str_eqb_spec (c_name c) n) as [Eq|Ne].
      * rewrite <- Eq in S. rewrite (selected_fun _ _ _ F _ S), Nat.eqb_refl. reflexivity.
      * destruct (Nat.eqb_spec j i) as [->|_]; [|reflexivity]. destruct (Uniq _ _ F) as (k' & K). congruence.
    + destruct (str_eqb_spec (c_name c) n) as [Eq|Ne]; [rewrite <- Eq in S; destruct (F _ S)|reflexivity].
  - induction cs as [|c cs IH]; [reflexivity|]. cbn [map concat]. rewrite IH, app_nil_r. specialize (F (c_name c)).
    destruct (find_name (c_name c) (by_name st0)) as [j|]; [|reflexivity]. destruct (Nat.eqb_spec j i) as [->|_]; [|reflexivity].
    destruct (Uniq _ _ F) as (k' & K). assert (c_name c = n) by congruence. congruence.
Qed.
Print Assumptions C116_matrices.

(** The coefficients a writer sees: with the nodes at different places, each coefficient of a
    selected matrix is seen once, with the last value that a card of that name gives between
    these nodes and components, whatever the order of the two. *)
Definition placed (pos : Z -> Z) (e : dentry) : write decimal := let '(g1, d1, g2, d2, a) := e in (pos g1, d1, pos g2, d2, a).
Theorem C116_coefficients : forall (is_zero : decimal -> bool) (pos : Z -> Z) cmds names cards cs,
  (forall a b, pos a = pos b -> a = b) -> Forall2 command_text cmds names -> deck cards cs ->
  exists st0 st, select_all cmds (mkDState [] []) = Ok st0 /\ read_dmigs cards st0 = Ok st /\
    forall i k n, nth_error names i = Some (k, n) -> selected names n i -> exists m e, nth_error (matrices st) i = Some m /\ d_kind m = k /\
      build is_zero [] (map (placed pos) (d_entries m)) = Ok e /\
      forall g1 d1 g2 d2 v, last_value (entries_of n cs) g1 d1 g2 d2 (Some v) <->
        In (pos g1, d1, pos g2, d2, v) (terms e) \/ In (pos g2, d2, pos g1, d1, v) (terms e).
Proof.
  intros is_zero pos cmds names cards cs Inj H1 H2. destruct (C116_matrices _ _ _ _ H1 H2) as (st0 & st & S0 & R & _ & M).
  exists st0, st. split; [exact S0|]. split; [exact R|]. intros i k n I S. destruct (M i k n I) as (m & Mi & K & E & _). specialize (E S).
  destruct (C61_terms_last_value decimal is_zero (map (placed pos) (d_entries m))) as (e & B & T & _). exists m, e. split; [exact Mi|]. split; [exact K|].
  split; [exact B|]. intros g1 d1 g2 d2 v. rewrite <- T, E. generalize (entries_of n cs) as h. clear - Inj. intros h.
  assert (Sm : forall a b c d p q r s, same_entry (pos a) b (pos c) d (pos p) q (pos r) s <-> same_entry a b c d p q r s).
  { intros. unfold same_entry. split; intros [(A & B & C & D)|(A & B & C & D)]; [left|right|left|right]; repeat split; auto; congruence. }
  assert (Fw : forall h g1 d1 g2 d2 o, last_value h g1 d1 g2 d2 o -> last_value (map (placed pos) h) (pos g1) d1 (pos g2) d2 o).
  { intros h0 a b c d o L. induction L; [constructor| |]; rewrite map_app; cbn [map placed].
    - apply lv_hit. now apply Sm.
    - apply lv_miss; [now rewrite Sm|assumption]. }
  split; [apply Fw|]. intros L. destruct (last_value_total h g1 d1 g2 d2) as (o & O). pose proof (Fw _ _ _ _ _ _ O) as L'.
  assert (Det : forall V (h : list (write V)) a b c d o, last_value h a b c d o -> forall o', last_value h a b c d o' -> o = o').
  { clear. intros V h a b c d o L. induction L; intros o' L'.
    - inversion L'; subst; [reflexivity| |]; destruct h; discriminate.
    - inversion L' as [? ? ? ? E|? ? ? ? ? ? ? ? ? ? Sn E|? ? ? ? ? ? ? ? ? ? ? Sn L1 E]; subst; [destruct h; discriminate| |];
        apply app_inj_tail in E; destruct E as [_ E]; injection E as -> -> -> -> ->; [reflexivity|contradiction].
    - inversion L' as [? ? ? ? E|? ? ? ? ? ? ? ? ? ? Sn E|? ? ? ? ? ? ? ? ? ? ? Sn L1 E]; subst; [destruct h; discriminate| |];
        apply app_inj_tail in E; destruct E as [-> E]; injection E as -> -> -> -> ->; [contradiction|auto]. }
  rewrite <- (Det _ _ _ _ _ _ _ L' _ L). exact O.
Qed.
Print Assumptions C116_coefficients.

(** ** What is refused *)

(** A header of a selected matrix that is not symmetric or not real, or that asks for a type
    of output or polar values, is an error. *)
Theorem C116_header_refused : forall vec n ifo tin tout polar st i, header_fields vec n ifo tin tout polar -> find_name n (by_name st) = Some i ->
  ifo <> 6 \/ (tin <> 1 /\ tin <> 2) \/ tout <> 0 \/ polar <> 0 -> parseDMIG (start vec) st = Throw.
Proof.
  intros vec n ifo tin tout polar st i H F B. rewrite (header_read _ _ _ _ _ _ st H), F.
  destruct (Z.eqb_spec ifo 6), (Z.eqb_spec tin 1), (Z.eqb_spec tin 2), (Z.eqb_spec tout 0), (Z.eqb_spec polar 0); cbn [andb orb]; try reflexivity; lia.
Qed.
Print Assumptions C116_header_refused.

(** A code of several components means the first of them. *)
Theorem C116_first_component : forall c s d, nastranCodeToDOFS c = Ok s -> code_dof c = Ok d ->
  member d s /\ forall d', member d' s -> dof_position d <= dof_position d'.
Proof.
  intros c s d H1 H2. unfold code_dof in H2. rewrite H1 in H2. cbn [bind] in H2. unfold first_dof in H2. rewrite iterate_spec in H2.
  cbn [filter] in H2. pose proof (fun x => contains_iff s x) as C.
  destruct (contains s DX) eqn:E1; [|destruct (contains s DY) eqn:E2; [|destruct (contains s DZ) eqn:E3; [|destruct (contains s RX) eqn:E4;
    [|destruct (contains s RY) eqn:E5; [|destruct (contains s RZ) eqn:E6]]]]]; cbn [bind] in H2; try discriminate H2; injection H2 as <-;
    (split; [apply C; assumption|]; intros d' M; apply C in M; destruct d'; cbn; try lia; congruence).
Qed.
Print Assumptions C116_first_component.
Example C116_first_component_case : nastranCodeToDOFS 62 = Ok (dof_code DY + dof_code RZ) /\ code_dof 62 = Ok DY.
Proof. now vm_compute. Qed.

(** A list with commas or factors, a set number, and for K2GG and M2GG a missing name after
    '=', are errors. *)
Lemma joined_in k : forall fields l f c, joined k fields = Ok l -> In f fields -> In c (word f) -> In c l.
Proof.
  induction fields as [|g r IH]; intros l f c J Hf Hc; [destruct Hf|]. cbn [joined] in J. destruct (null (word g) && _); [discriminate|].
  destruct (joined k r) as [l'| | |] eqn:E; try discriminate. cbn [bind] in J. injection J as <-. apply in_app_iff.
  destruct Hf as [-> |Hf]; [auto|]. right. eapply IH; eauto.
Qed.
Lemma in_trim c l : is_space c = false -> In c l -> In c (trim l).
Proof.
  intros S H. assert (D : forall l, In c l -> In c (dropWhile is_space l)).
  { clear l H. induction l as [|x l IH]; [auto|]. cbn [dropWhile]. destruct (is_space x) eqn:E; [|auto]. intros [-> |H]; [congruence|auto]. }
  unfold trim, trim_right, trim_left. apply in_rev. rewrite rev_involutive. apply D. apply in_rev. rewrite rev_involutive. now apply D.
Qed.
Theorem C116_lists_refused : forall k fields st f, In f fields -> In ","%char (word f) \/ In "*"%char (word f) -> select k fields st = Throw.
Proof.
  intros k fields st f Hf Hc. unfold select. destruct (joined k fields) as [l| | |] eqn:J; cbn [bind].
  - assert (In "," (trim l) \/ In "*" (trim l))%char as E by (destruct Hc as [H|H]; [left|right]; (apply in_trim; [reflexivity|]); eapply joined_in; eauto).
    replace (existsb (is_any_of [","; " "; "*"]%char) (trim l)) with true; [reflexivity|]. symmetry. apply existsb_exists.
    destruct E as [E|E]; eexists; (split; [exact E|reflexivity]).
  - reflexivity.
  - exfalso. clear - J. revert J. induction fields as [|g r IH]; cbn [joined]; [discriminate|]. destruct (null (word g) && _); [discriminate|].
    destruct (joined k r); cbn [bind]; try discriminate. auto.
  - exfalso. clear - J. revert J. induction fields as [|g r IH]; cbn [joined]; [discriminate|]. destruct (null (word g) && _); [discriminate|].
    destruct (joined k r); cbn [bind]; try discriminate. auto.
Qed.
Print Assumptions C116_lists_refused.
Theorem C116_blank_name_refused : forall k fields st f, k <> Damping -> In f fields -> word f = [] -> select k fields st = Throw.
Proof.
  intros k fields st f K. unfold select. induction fields as [|g r IH]; intros H W; [destruct H|]. cbn [joined]. destruct (null (word g)) eqn:E.
  - destruct k; [reflexivity|reflexivity|congruence].
  - cbn [andb]. destruct H as [-> |H]; [rewrite W in E; discriminate|]. specialize (IH H W).
    assert (J : joined k r = Throw).
    { clear - H W K. induction r as [|g r IH]; [destruct H|]. cbn [joined]. destruct (null (word g)) eqn:E; [destruct k; [reflexivity|reflexivity|congruence]|].
      cbn [andb]. destruct H as [-> |H]; [rewrite W in E; discriminate|]. now rewrite (IH H). }
    now rewrite J.
Qed.
Print Assumptions C116_blank_name_refused.

(** Full statement: every name a command lists is the matrix of the cards of that name.
    False for names separated by blanks, which the command language allows: the names become
    one and the cards of each are skipped without an error. *)
Definition two_names : list (mkind * list str) := [(Stiffness, map txt ["K1"; "K2"]%string)].
Definition k1_card : list str := map txt ["DMIG"; "K1"; "7"; "1"; ""; "7"; "1"; "100."; ""]%string.
Theorem C116_names_refuted : exists cmds cards c st0 st, In (Stiffness, map txt ["K1"; "K2"]%string) cmds /\ column_card (hd [] cards) c /\ c_name c = txt "K1" /\
  column_entries c <> [] /\ select_all cmds (mkDState [] []) = Ok st0 /\ read_dmigs cards st0 = Ok st /\ forall m, In m (matrices st) -> d_entries m = [].
Proof.
  exists two_names, [k1_card], (mkColumn (txt "K1") 7 DX [(7, DX, (100, 0))]). do 2 eexists. split; [left; reflexivity|]. split.
  { split; [vm_compute; reflexivity|]. split; [discriminate|]. split; [discriminate|]. split; [discriminate|].
    assert (F : forall s n, field k1_card s = txt "7" -> n = 7 -> int_at k1_card s n) by (intros s n E ->; unfold int_at; rewrite E; eexists; split; [|split; [|split; [|left; split; vm_compute; reflexivity]]]; [discriminate|reflexivity|vm_compute; split; discriminate]).
    assert (G : forall s n, field k1_card s = txt "1" -> n = 1 -> int_at k1_card s n) by (intros s n E ->; unfold int_at; rewrite E; eexists; split; [|split; [|split; [|left; split; vm_compute; reflexivity]]]; [discriminate|reflexivity|vm_compute; split; discriminate]).
    split; [now apply F|]. split; [discriminate|]. split; [exists 1; split; [now apply G|now left]|]. split; [|vm_compute; reflexivity].
    intros [|[|j]] r E; [|discriminate|destruct j; discriminate]. injection E as <-. split; [now apply F|]. split; [exists 1; split; [now apply G|now left]|]. vm_compute. reflexivity. }
  split; [reflexivity|]. split; [discriminate|]. split; [vm_compute; reflexivity|]. split; [vm_compute; reflexivity|]. intros m [<-|[]]. reflexivity.
Qed.
Print Assumptions C116_names_refuted.
(** ... and for a name that two commands give: the second matrix stays empty. *)
Theorem C116_shared_name_refuted : forall k1 k2 f n cards cs, word f = n -> plain_name n -> deck cards cs ->
  exists st0 st m1 m2, select_all [(k1, [f]); (k2, [f])] (mkDState [] []) = Ok st0 /\ read_dmigs cards st0 = Ok st /\ matrices st = [m1; m2] /\
    d_kind m1 = k1 /\ d_entries m1 = entries_of n cs /\ d_kind m2 = k2 /\ d_entries m2 = [].
Proof.
  intros k1 k2 f n cards cs W P D.
  destruct (C116_matrices [(k1, [f]); (k2, [f])] [(k1, n); (k2, n)] cards cs) as (st0 & st & S0 & R & L & M); [|exact D|].
  { constructor; [|constructor; [|constructor]]; (split; [reflexivity|]; split; [exact P|]; exists f; auto). }
  destruct (M 0%nat _ _ eq_refl) as (m1 & I1 & K1 & E1 & _). destruct (M 1%nat _ _ eq_refl) as (m2 & I2 & K2 & _ & E2).
  exists st0, st, m1, m2. split; [exact S0|]. split; [exact R|]. cbn [length] in L. destruct (matrices st) as [|a [|b [|? ?]]]; try discriminate L.
  cbn in I1, I2. injection I1 as ->. injection I2 as ->. split; [reflexivity|]. split; [exact K1|]. split; [apply E1; constructor|]. split; [exact K2|].
  apply E2. intros H. inversion H; subst; congruence.
Qed.
Print Assumptions C116_shared_name_refuted.

(** ** Loads *)

(** A list of pairs (node, number) from field [i] on, then a blank. *)
Definition pairs_at (vec : list str) (i : nat) (l : list (Z * decimal)) : Prop :=
  (forall j g a, nth_error l j = Some (g, a) -> int_at vec (i + 2 * j) g /\ real_at vec (i + 2 * j + 1) a) /\ blank_at vec (i + 2 * length l).
Lemma pairs_tail vec i p l : pairs_at vec i (p :: l) -> pairs_at vec (i + 2) l.
Proof.
  intros (H & B). split.
  - intros j g a J. specialize (H (S j) g a J). replace (i + 2 + 2 * j)%nat with (i + 2 * S j)%nat by lia. exact H.
  - cbn [length] in B. replace (i + 2 + 2 * length l)%nat with (i + 2 * S (length l))%nat by lia. exact B.
Qed.
Lemma pairs_head vec i g a l : pairs_at vec i ((g, a) :: l) -> int_at vec i g /\ real_at vec (S i) a.
Proof.
  intros (H & _). destruct (H 0%nat g a eq_refl) as (G & A). rewrite Nat.mul_0_r, Nat.add_0_r in G, A. replace (i + 1)%nat with (S i) in A by lia. auto.
Qed.
Lemma pairs_nil vec i : pairs_at vec i [] -> blank_at vec i.
Proof. intros (_ & B). cbn [length] in B. now rewrite Nat.mul_0_r, Nat.add_0_r in B. Qed.
Lemma pairs_short vec : forall l i, pairs_at vec i l -> (length l <= length vec)%nat.
Proof.
  intros l i (H & _). destruct l as [|p l]; [cbn; lia|]. destruct (nth_error (p :: l) (length l)) as [[g a]|] eqn:E.
  - destruct (H _ _ _ E) as (G & _). apply int_present in G. cbn [length]. lia.
  - apply nth_error_None in E. cbn [length] in E. lia.
Qed.
(** An SLOAD card is one force along the first component for each pair. *)
Theorem C116_scalar_loads : forall vec set l, int_at vec 1 set -> pairs_at vec 2 l ->
  parseSLOAD (at_field vec 1) = Ok (map (fun p => mkNodal set (fst p) 0 (snd p, dzero, dzero) dvec0) l).
Proof.
  intros vec set l S P. unfold parseSLOAD. rewrite (f_int _ _ _ S). cbn [bind]. change (cvec (at_field vec 2)) with vec.
  assert (F : (length l < Datatypes.S (length vec))%nat) by (pose proof (pairs_short _ _ _ P); lia). revert F P. generalize (Datatypes.S (length vec)) as fuel. generalize 2%nat as i. clear S.
  induction l as [|[g a] l IH]; intros i fuel F P; (destruct fuel as [|fuel]; [cbn in F; lia|]); cbn [sload_loop map].
  - rewrite (f_isint_blank _ _ (pairs_nil _ _ P)). reflexivity.
  - destruct (pairs_head _ _ _ _ _ P) as (G & A). rewrite (f_isint _ _ _ G). cbn [bind]. rewrite (f_int _ _ _ G). cbn [bind]. rewrite (f_double _ _ _ A). cbn [bind].
    apply pairs_tail in P. replace (i + 2)%nat with (S (S i)) in P by lia. rewrite (IH (S (S i)) fuel); [reflexivity|cbn in F; lia|exact P].
Qed.
Print Assumptions C116_scalar_loads.
(** A TEMP card is the temperature of one, two or three nodes. *)
Theorem C116_temperatures : forall vec set g1 t1 l, int_at vec 1 set -> int_at vec 2 g1 -> real_at vec 3 t1 -> pairs_at vec 4 l -> (length l <= 2)%nat ->
  parseTEMP (at_field vec 1) = Ok ((set, g1, t1) :: map (fun p => (set, fst p, snd p)) l).
Proof.
  intros vec set g1 t1 l S G T P L. unfold parseTEMP. rewrite (f_int _ _ _ S). cbn [bind]. rewrite (f_int _ _ _ G). cbn [bind]. rewrite (f_double _ _ _ T). cbn [bind].
  unfold temp_pair. destruct l as [|[g a] l].
  - rewrite (f_isint_blank _ _ (pairs_nil _ _ P)). cbn [bind]. rewrite (f_isint_blank _ _ (pairs_nil _ _ P)). reflexivity.
  - destruct (pairs_head _ _ _ _ _ P) as (G2 & A2). rewrite (f_isint _ _ _ G2). cbn [bind]. rewrite (f_int _ _ _ G2). cbn [bind]. rewrite (f_double _ _ _ A2). cbn [bind].
    apply pairs_tail in P. cbn [Nat.add] in P. destruct l as [|[g3 a3] l].
    + rewrite (f_isint_blank _ _ (pairs_nil _ _ P)). reflexivity.
    + destruct (pairs_head _ _ _ _ _ P) as (G3 & A3). rewrite (f_isint _ _ _ G3). cbn [bind]. rewrite (f_int _ _ _ G3). cbn [bind]. rewrite (f_double _ _ _ A3). cbn [bind].
      destruct l; [reflexivity|cbn in L; lia].
Qed.
Print Assumptions C116_temperatures.
(** A pair after a blank one is lost without an error. *)
Theorem C116_temperature_gap_refuted : forall vec set g1 t1, int_at vec 1 set -> int_at vec 2 g1 -> real_at vec 3 t1 -> blank_at vec 4 ->
  forall g3 t3, int_at vec 6 g3 -> real_at vec 7 t3 -> parseTEMP (at_field vec 1) = Ok [(set, g1, t1)].
Proof.
  intros vec set g1 t1 S G T B g3 t3 _ _. apply (C116_temperatures vec set g1 t1 [] S G T); [|cbn; lia].
  split; [intros [|j] g a J; discriminate|exact B].
Qed.
Print Assumptions C116_temperature_gap_refuted.

(** The components a code lists. *)
Definition lists (c : Z) (s : dofs) : Prop := is_set s /\ forall d, member d s <-> has_digit c (nastran_digit d).
(** An SPCD card: one or two imposed displacements. *)
Theorem C116_imposed : forall vec set g1 c1 v1, int_at vec 1 set -> int_at vec 2 g1 -> int_at vec 3 c1 -> real_at vec 4 v1 ->
  0 < c1 -> (forall d, has_digit c1 d -> 1 <= d <= 6) ->
  (blank_at vec 5 -> exists s1, lists c1 s1 /\ parseSPCD (at_field vec 1) = Ok [mkImposed set g1 s1 v1]) /\
  (forall g2 c2 v2, int_at vec 5 g2 -> int_at vec 6 c2 -> real_at vec 7 v2 -> 0 <= g2 -> 0 < c2 -> (forall d, has_digit c2 d -> 1 <= d <= 6) ->
     exists s1 s2, lists c1 s1 /\ lists c2 s2 /\ parseSPCD (at_field vec 1) = Ok [mkImposed set g1 s1 v1; mkImposed set g2 s2 v2]).
Proof.
  intros vec set g1 c1 v1 S G C V P D. destruct (decode_digits c1 P D) as (s1 & E1 & L1).
  assert (R : parseSPCD (at_field vec 1) = do isint <- isNextInt (at_field vec 5);
      do r <- (if isint then do r <- nextInt (at_field vec 5); let '(g2, t) := r in do r <- nextInt t; let '(c2, t) := r in do r <- nextDouble t; let '(d2, t) := r in Ok (g2, c2, d2)
               else Ok (-1, -1, (-1, 0)));
      let '(g2, c2, d2) := r in do s1 <- nastranCodeToDOFS c1;
      if negb (g2 =? -1) && negb (c2 =? -1) then do s2 <- nastranCodeToDOFS c2; Ok [mkImposed set g1 s1 v1; mkImposed set g2 s2 d2] else Ok [mkImposed set g1 s1 v1]).
  { unfold parseSPCD. rewrite (f_int _ _ _ S). cbn [bind]. rewrite (f_int _ _ _ G). cbn [bind]. rewrite (f_int _ _ _ C). cbn [bind]. rewrite (f_double _ _ _ V). reflexivity. }
  rewrite R. split.
  - intros B. exists s1. split; [exact L1|]. rewrite (f_isint_blank _ _ B). cbn [bind]. rewrite E1. reflexivity.
  - intros g2 c2 v2 G2 C2 V2 N2 P2 D2. destruct (decode_digits c2 P2 D2) as (s2 & E2 & L2). exists s1, s2. split; [exact L1|]. split; [exact L2|].
    rewrite (f_isint _ _ _ G2). cbn [bind]. rewrite (f_int _ _ _ G2). cbn [bind]. rewrite (f_int _ _ _ C2). cbn [bind]. rewrite (f_double _ _ _ V2). cbn [bind].
    rewrite E1. cbn [bind]. destruct (Z.eqb_spec g2 (-1)); [lia|]. destruct (Z.eqb_spec c2 (-1)); [lia|]. cbn [negb andb]. rewrite E2. reflexivity.
Qed.
Print Assumptions C116_imposed.

(** ** Sets *)

(** SET1, BCGRID, BLSEG, BSURF: the number and the listed numbers, ranges expanded. *)
Theorem C116_lists : forall kw f1 id items texts post, int_field f1 id -> Forall2 item_text items texts -> ends_list post ->
  parse_list (at_field (kw :: f1 :: concat texts ++ post) 1) = Ok (id, concat (map denote items)).
Proof.
  intros kw f1 id items texts post H1 Hi He. set (vec := kw :: f1 :: concat texts ++ post). unfold parse_list. rewrite (f_int vec 1 id H1). cbn [bind].
  rewrite at_field_pos by (unfold vec; cbn; lia). pose proof (C21_lists_and_ranges [kw; f1] items texts post Hi He) as E. cbn [app length] in E. fold vec in E. rewrite E. reflexivity.
Qed.
Print Assumptions C116_lists.
(** SET3: the same, of nodes or of elements; anything else is an error. *)
Theorem C116_labelled_set : forall kw f1 id fd des items texts post, int_field f1 id -> to_upper (trim fd) = des -> des <> [] ->
  Forall2 item_text items texts -> ends_list post ->
  let r := parseSET3 (at_field (kw :: f1 :: fd :: concat texts ++ post) 1) in
  (des = txt "GRID" -> r = Ok (NodeSet id (concat (map denote items)))) /\ (des = txt "ELEM" -> r = Ok (CellSet id (concat (map denote items)))) /\
  (des <> txt "GRID" -> des <> txt "ELEM" -> r = Throw).
Proof.
  intros kw f1 id fd des items texts post H1 W N Hi He. set (vec := kw :: f1 :: fd :: concat texts ++ post). cbv zeta. unfold parseSET3.
  rewrite (f_int vec 1 id H1). cbn [bind]. rewrite (f_string vec 2 des W N). cbn [bind].
  assert (L : nextInts (at_field vec 3) = Ok (concat (map denote items), at_pos vec (3 + length (concat texts)))).
  { rewrite at_field_pos by (unfold vec; cbn; lia). apply (C21_lists_and_ranges [kw; f1; fd] items texts post Hi He). }
  rewrite L. cbn [bind fst]. split; [intros ->; reflexivity|]. split; [intros ->; reflexivity|]. intros A B.
  destruct (str_eqb_spec des (txt "GRID")); [congruence|]. destruct (str_eqb_spec des (txt "ELEM")); [congruence|reflexivity].
Qed.
Print Assumptions C116_labelled_set.

(** The sets a set of constraints includes; [None]: there is no such set. *)
Fixpoint includes (id : Z) (l : spcsets) : option (list Z) :=
  match l with [] => None | (i, js) :: r => if i =? id then Some js else includes id r end.
Lemma has_includes id l : has_set id l = match includes id l with Some _ => true | None => false end.
Proof. induction l as [|[i js] l IH]; [reflexivity|]. cbn. destruct (i =? id); [reflexivity|exact IH]. Qed.
Lemma includes_snoc id l j : includes id (l ++ [(j, [])]) = match includes id l with Some x => Some x | None => if j =? id then Some [] else None end.
Proof. induction l as [|[i js] l IH]; [reflexivity|]. cbn. destruct (i =? id); [reflexivity|exact IH]. Qed.
Lemma includes_refer k id j l : includes k (refer id j l) = if k =? id then option_map (fun js => js ++ [j]) (includes k l) else includes k l.
Proof.
  induction l as [|[i js] l IH]; [now destruct (k =? id)|]. cbn. destruct (Z.eqb_spec i id) as [->|Ne]; cbn [includes].
  - destruct (Z.eqb_spec id k) as [->|Nk]; [now rewrite Z.eqb_refl|]. destruct (Z.eqb_spec k id); [congruence|reflexivity].
  - destruct (Z.eqb_spec i k) as [->|Nk]; [destruct (Z.eqb_spec k id); [congruence|reflexivity]|exact IH].
Qed.
(** SPCADD, for a set that the case control names: the set includes the listed sets after
    those it included; each of them now exists; no other set changes.  Otherwise an error. *)
Theorem C116_spcadd : forall vec id js l, int_at vec 1 id -> (forall j x, nth_error js j = Some x -> int_at vec (2 + j) x) -> blank_at vec (2 + length js) ->
  (includes id l = None -> parseSPCADD (at_field vec 1) l = Throw) /\
  (forall old, includes id l = Some old -> exists l', parseSPCADD (at_field vec 1) l = Ok l' /\ includes id l' = Some (old ++ js) /\
     forall k, k <> id -> includes k l' = match includes k l with Some x => Some x | None => if existsb (Z.eqb k) js then Some [] else None end).
Proof.
  intros vec id js l H J B. unfold parseSPCADD. rewrite (f_int _ _ _ H). cbn [bind]. rewrite has_includes. split; [intros ->; reflexivity|].
  intros old O. rewrite O. change (cvec (at_field vec 2)) with vec.
  assert (F : (length js < S (length vec))%nat).
  { destruct js as [|x0 js]; [cbn; lia|]. destruct (nth_error (x0 :: js) (length js)) as [x|] eqn:E; [apply J, int_present in E; cbn [length]; lia|].
    apply nth_error_None in E. cbn [length] in E. lia. }
  revert F J B old l O. generalize (S (length vec)) as fuel. generalize 2%nat as i. clear H.
  induction js as [|x js IH]; intros i fuel F J B old l O; (destruct fuel as [|fuel]; [cbn in F; lia|]); cbn [spcadd_loop].
  - cbn [length] in B. rewrite Nat.add_0_r in B. rewrite (f_isint_blank _ _ B). cbn [bind]. exists l. split; [reflexivity|]. rewrite app_nil_r. split; [exact O|].
    intros k K. cbn [existsb]. now destruct (includes k l).
  - pose proof (J 0%nat x eq_refl) as X. rewrite Nat.add_0_r in X. rewrite (f_isint _ _ _ X). cbn [bind]. rewrite (f_int _ _ _ X). cbn [bind].
    set (l1 := if has_set x l then l else l ++ [(x, [])]).
    assert (E1 : forall k, includes k l1 = match includes k l with Some y => Some y | None => if x =? k then Some [] else None end).
    { intros k. unfold l1. rewrite has_includes. destruct (includes x l) as [y|] eqn:Y.
      - destruct (includes k l) eqn:K; [reflexivity|]. destruct (Z.eqb_spec x k) as [->|_]; [congruence|reflexivity].
      - apply includes_snoc. }
    destruct (IH (S i) fuel) with (old := old ++ [x]) (l := refer id x l1) as (l' & R & I & K).
    + cbn in F; lia.
    + intros j y Y. replace (S i + j)%nat with (i + S j)%nat by lia. now apply J.
    + cbn [length] in B. replace (S i + length js)%nat with (i + S (length js))%nat by lia. exact B.
    + rewrite includes_refer, Z.eqb_refl, E1, O. reflexivity.
    + exists l'. split; [exact R|]. split; [rewrite I, <- app_assoc; reflexivity|]. intros k Nk. rewrite (K k Nk), includes_refer.
      destruct (Z.eqb_spec k id); [congruence|]. rewrite E1. cbn [existsb]. rewrite (Z.eqb_sym k x). destruct (includes k l); [reflexivity|].
      destruct (x =? k); [reflexivity|]. reflexivity.
Qed.
Print Assumptions C116_spcadd.

(** ** Contact lines, increments *)
Theorem C116_friction : forall vec fid v, int_at vec 1 fid -> real_at vec 4 v ->
  ((forall j, (5 <= j)%nat -> blank_at vec j) -> parseBFRIC (at_field vec 1) = Ok (fid, v)) /\
  ((exists j, (5 <= j)%nat /\ ~ blank_at vec j) -> parseBFRIC (at_field vec 1) = Throw).
Proof.
  intros vec fid v H V. unfold parseBFRIC. rewrite (f_int _ _ _ H). cbn [bind]. rewrite f_skipn. cbn [bind]. change (2 + 2)%nat with 4%nat. rewrite (f_double _ _ _ V). cbn [bind].
  split; [intros B; now rewrite (blank_until _ _ B)|]. intros (j & J & B). now rewrite (until_false _ _ _ J B).
Qed.
Print Assumptions C116_friction.
Theorem C116_slide : forall vec id slave master sfact fric ptype cid, int_at vec 1 id -> int_at vec 2 slave -> int_at vec 3 master ->
  real_or (1, 0) vec 5 sfact -> int_at vec 6 fric -> int_or 1 vec 7 ptype -> int_at vec 8 cid ->
  ((forall j, (9 <= j)%nat -> blank_at vec j) -> parseBCONP (at_field vec 1) = Ok (mkSlide id fric master slave)) /\
  ((exists j, (9 <= j)%nat /\ ~ blank_at vec j) -> parseBCONP (at_field vec 1) = Throw).
Proof.
  intros vec id slave master sfact fric ptype cid H1 H2 H3 H5 H6 H7 H8. unfold parseBCONP. rewrite (f_int _ _ _ H1). cbn [bind]. rewrite (f_int _ _ _ H2). cbn [bind].
  rewrite (f_int _ _ _ H3). cbn [bind]. rewrite f_skipn. cbn [bind]. change (4 + 1)%nat with 5%nat. rewrite (f_doubledef _ _ _ _ H5). cbn [bind]. rewrite (f_int _ _ _ H6). cbn [bind].
  rewrite (f_intdef _ _ _ _ H7). cbn [bind]. rewrite (f_int _ _ _ H8). cbn [bind].
  split; [intros B; now rewrite (blank_until _ _ B)|]. intros (j & J & B). now rewrite (until_false _ _ _ J B).
Qed.
Print Assumptions C116_slide.
Theorem C116_increments : forall vec sid n, int_at vec 1 sid -> int_or 10 vec 2 n -> parseNLPARM (at_field vec 1) = Ok (sid, n).
Proof. intros vec sid n H N. unfold parseNLPARM. rewrite (f_int _ _ _ H). cbn [bind]. rewrite (f_intdef _ _ _ _ N). reflexivity. Qed.
Print Assumptions C116_increments.

(** ** Examples *)
Definition case_commands : list (mkind * list str) := [(Stiffness, [txt "kaax"]); (Mass, [txt "MAAX"])].
Definition case_deck : list (list str) :=
  [map txt ["DMIG"; "KAAX"; "0"; "6"; "1"; ""; ""; ""; "4"]%string;
   map txt ["DMIG"; "KAAX"; "7"; "1"; ""; "7"; "1"; "100."; ""; "8"; "3"; "-5."]%string;
   map txt ["DMIG"; "OTHER"; "7"; "1"; ""; "7"; "1"; "9."; ""]%string;
   map txt ["DMIG"; "MAAX"; "8"; "0"; ""; "8"; "0"; "2."; ""]%string;
   map txt ["DMIG"; "KAAX"; "8"; "3"; ""; "7"; "1"; "-6."; ""]%string].
Definition case_columns : list column :=
  [mkColumn (txt "KAAX") 7 DX [(7, DX, (100, 0)); (8, DZ, (-5, 0))]; mkColumn (txt "OTHER") 7 DX [(7, DX, (9, 0))];
   mkColumn (txt "MAAX") 8 DX [(8, DX, (2, 0))]; mkColumn (txt "KAAX") 8 DZ [(7, DX, (-6, 0))]].
Ltac lit_int := eexists; (split; [|split; [|split; [|left; split; vm_compute; reflexivity]]]); [discriminate|reflexivity|vm_compute; split; discriminate].
Ltac col_tac := apply is_column; (split; [vm_compute; reflexivity|]); (split; [discriminate|]); (split; [discriminate|]); (split; [discriminate|]);
  (split; [lit_int|]); (split; [discriminate|]); (split; [eexists; (split; [lit_int|first [left; reflexivity | right; split; reflexivity]])|]);
  (split; [|vm_compute; reflexivity]); intros [|[|j]] r E; try (destruct j; discriminate E); try discriminate E; injection E as <-;
  (split; [lit_int|]); (split; [eexists; (split; [lit_int|first [left; reflexivity | right; split; reflexivity]])|vm_compute; reflexivity]).
Example C116_matrices_case : Forall2 command_text case_commands [(Stiffness, txt "KAAX"); (Mass, txt "MAAX")] /\ deck case_deck case_columns /\
  entries_of (txt "KAAX") case_columns = [(7, DX, 7, DX, (100, 0)); (7, DX, 8, DZ, (-5, 0)); (8, DZ, 7, DX, (-6, 0))] /\
  last_value (entries_of (txt "KAAX") case_columns) 7 DX 8 DZ (Some (-6, 0)) /\
  exists st0 st, select_all case_commands (mkDState [] []) = Ok st0 /\ read_dmigs case_deck st0 = Ok st /\
    matrices st = [mkDirect Stiffness [(7, DX, 7, DX, (100, 0)); (7, DX, 8, DZ, (-5, 0)); (8, DZ, 7, DX, (-6, 0))]; mkDirect Mass [(8, DX, 8, DX, (2, 0))]].
Proof.
  split.
  { constructor; [|constructor; [|constructor]]; (split; [reflexivity|]; split; [split; [vm_compute; reflexivity|]; split|eexists; split; [reflexivity|vm_compute; reflexivity]]).
    1,3: do 2 eexists; repeat split; try reflexivity; discriminate.
    all: intros c H; cbn in H; repeat match goal with H : _ \/ _ |- _ => destruct H as [<-|H] end; try destruct H; repeat split; discriminate. }
  split.
  { exists [[]; [nth 0 case_columns (mkColumn [] 0 DX [])]; [nth 1 case_columns (mkColumn [] 0 DX [])]; [nth 2 case_columns (mkColumn [] 0 DX [])]; [nth 3 case_columns (mkColumn [] 0 DX [])]].
    split; [|reflexivity]. constructor.
    { apply is_header. exists (txt "KAAX"), 1. split; [|auto]. split; [vm_compute; reflexivity|]. split; [discriminate|]. split; [discriminate|]. split; [discriminate|].
      split; [lit_int|]. split; [lit_int|]. split; [lit_int|]. split; [right; split; vm_compute; reflexivity|]. split; [right; split; vm_compute; reflexivity|].
      eexists. left. lit_int. }
    constructor; [col_tac|]. constructor; [col_tac|]. constructor; [col_tac|]. constructor; [col_tac|]. constructor. }
  split; [reflexivity|]. split; [apply (lv_hit [(7, DX, 7, DX, (100, 0)); (7, DX, 8, DZ, (-5, 0))]); right; auto|].
  do 2 eexists. split; [vm_compute; reflexivity|]. split; vm_compute; reflexivity.
Qed.
Example C116_refused_case : header_fields (map txt ["DMIG"; "KAAX"; "0"; "1"; "3"]%string) (txt "KAAX") 1 3 0 0 /\
  find_name (txt "KAAX") [(txt "KAAX", 0%nat)] = Some 0%nat /\
  In ","%char (word (txt "K1,")) /\ word (txt " ") = [].
Proof.
  split.
  { split; [vm_compute; reflexivity|]. split; [discriminate|]. split; [discriminate|]. split; [discriminate|]. split; [lit_int|]. split; [lit_int|]. split; [lit_int|].
    split; [right; split; vm_compute; reflexivity|]. split; [right; split; vm_compute; reflexivity|]. eexists. right. split; vm_compute; reflexivity. }
  split; [reflexivity|]. split; [vm_compute; auto|vm_compute; reflexivity].
Qed.
Definition sload_card : list str := map txt ["SLOAD"; "16"; "2"; "5.9"; "17"; "-6.3"]%string.
Definition temp_card : list str := map txt ["TEMP"; "3"; "94"; "316.2"; "49"; "219.8"]%string.
Definition temp_gap_card : list str := map txt ["TEMP"; "3"; "94"; "316.2"; ""; ""; "49"; "219.8"]%string.
Definition spcd_card : list str := map txt ["SPCD"; "100"; "32"; "436"; "-2.6"; "5"; "2"; "2.9"]%string.
Example C116_loads_case :
  (int_at sload_card 1 16 /\ pairs_at sload_card 2 [(2, (59, -1)); (17, (-63, -1))]) /\
  (int_at temp_card 1 3 /\ int_at temp_card 2 94 /\ real_at temp_card 3 (3162, -1) /\ pairs_at temp_card 4 [(49, (2198, -1))]) /\
  (int_at temp_gap_card 6 49 /\ real_at temp_gap_card 7 (2198, -1) /\ blank_at temp_gap_card 4) /\
  (int_at spcd_card 3 436 /\ int_at spcd_card 5 5 /\ int_at spcd_card 6 2 /\
   parseSPCD (at_field spcd_card 1) = Ok [mkImposed 100 32 (4 + 8 + 32) (-26, -1); mkImposed 100 5 2 (29, -1)]).
Proof.
  assert (P : forall v i l, (forall j g a, nth_error l j = Some (g, a) -> int_at v (i + 2 * j) g /\ real_at v (i + 2 * j + 1) a) -> blank_at v (i + 2 * length l) -> pairs_at v i l) by (intros; split; assumption).
  split; [split; [lit_int|apply P; [|vm_compute; reflexivity]; intros [|[|j]] g a E; try (destruct j; discriminate E); injection E as <- <-; (split; [lit_int|vm_compute; reflexivity])]|].
  split; [split; [lit_int|]; split; [lit_int|]; split; [vm_compute; reflexivity|]; apply P; [|vm_compute; reflexivity]; intros [|j] g a E; [|destruct j; discriminate E]; injection E as <- <-; (split; [lit_int|vm_compute; reflexivity])|].
  split; [split; [lit_int|]; split; vm_compute; reflexivity|]. split; [lit_int|]. split; [lit_int|]. split; [lit_int|]. vm_compute. reflexivity.
Qed.
Example C116_sets_case :
  parse_list (at_field (map txt ["SET1"; "3"; "31"; "62"; "THRU"; "64"]%string) 1) = Ok (3, [31; 62; 63; 64]) /\
  parseSET3 (at_field (map txt ["SET3"; "1"; "grid"; "11"; "THRU"; "13"]%string) 1) = Ok (NodeSet 1 [11; 12; 13]) /\
  parseSET3 (at_field (map txt ["SET3"; "1"; "POINT"; "11"]%string) 1) = Throw /\
  parseSPCADD (at_field (map txt ["SPCADD"; "100"; "45"; "2"]%string) 1) [(100, []); (2, [])] = Ok [(100, [45; 2]); (2, []); (45, [])].
Proof. split; [vm_compute; reflexivity|]. split; [vm_compute; reflexivity|]. split; vm_compute; reflexivity. Qed.
Example C116_contact_case :
  parseBCONP (at_field (map txt ["BCONP"; "95"; "10"; "15"; ""; "1.0"; "33"; "1"; "5"]%string) 1) = Ok (mkSlide 95 33 15 10) /\
  parseBFRIC (at_field (map txt ["BFRIC"; "33"; ""; ""; "0.3"]%string) 1) = Ok (33, (3, -1)) /\
  parseNLPARM (at_field (map txt ["NLPARM"; "15"; ""]%string) 1) = Ok (15, 10).
Proof. split; [vm_compute; reflexivity|]. split; vm_compute; reflexivity. Qed.
