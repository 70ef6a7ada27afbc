(** Lemmas on the executive and case control section, written and read. *)
From Coq Require Import Ascii String ZArith List Bool Arith Lia.
From Verif Require Import Base TextModel TextProofs TokenizerModel TokenizerProofs RealModel CaseControlModel CaseControlProofs PropertiesCaseControl PropertiesCaseControl2 NastranControlModel.
Import ListNotations.
Open Scope nat_scope.
Open Scope list_scope.

Definition ranged (n : Z) : Prop := (0 <= n < 2 ^ 31 - 1)%Z.

(** ** Lines *)
Lemma next_comment a w b c ls : forallb is_blank a = true -> forallb is_blank b = true -> trim w = w -> w <> [] ->
  contains "$" w = false -> nextCaseLine ((a ++ w ++ b ++ "$"%char :: c) :: ls) = Some (w, split_compress case_delim w, ls).
Proof.
  intros Ha Hb Hw Hn Hd.
  assert (NB : forallb is_blank w = false).
  { destruct (forallb is_blank w) eqn:E; [|reflexivity]. exfalso. apply Hn. rewrite <- Hw. apply trim_all.
    apply (forallb_sub is_blank is_space); [apply is_blank_space|exact E]. }
  assert (X : forall l, ~ In "$"%char l -> before_first "$" (l ++ "$"%char :: c) = l).
  { induction l as [|x l IH]; cbn; intros H; [reflexivity|].
    assert (Ascii.eqb x "$" = false) as -> by (apply Ascii.eqb_neq; intros ->; tauto). rewrite IH; tauto. }
  assert (ND : ~ In "$"%char (a ++ w ++ b)).
  { rewrite !in_app_iff. rewrite forallb_forall in Ha, Hb. apply contains_false in Hd. intros [Y|[Y|Y]]; [discriminate (Ha _ Y)|tauto|discriminate (Hb _ Y)]. }
  unfold nextCaseLine. cbn [readLineSkipComment].
  replace (a ++ w ++ b ++ "$"%char :: c) with ((a ++ w ++ b) ++ "$"%char :: c) by now rewrite <- !app_assoc.
  rewrite X by exact ND.
  assert (E1 : null ((a ++ w ++ b) ++ "$"%char :: c) = false) by (destruct (a ++ w ++ b); reflexivity).
  assert (E2 : forallb is_blank ((a ++ w ++ b) ++ "$"%char :: c) = false) by (rewrite !forallb_app, NB; now rewrite andb_false_r).
  assert (E3 : starts "$" ((a ++ w ++ b) ++ "$"%char :: c) = false).
  { assert (N : a ++ w ++ b <> []) by (destruct w; [congruence|]; destruct a; discriminate).
    destruct (a ++ w ++ b) as [|x y]; [congruence|]. cbn. apply Ascii.eqb_neq. intros ->. apply ND. now left. }
  rewrite E1, E2, E3. cbn [negb andb]. rewrite !forallb_app, NB, andb_false_r. cbn [negb andb].
  rewrite trim_padded by assumption. reflexivity.
Qed.

(** A keyword, then a separator, then a value without blanks. *)
Lemma next_pair a k s v ls : forallb is_blank a = true -> token k -> token v -> s <> [] -> (forall c, In c s -> c = " "%char \/ c = "="%char) ->
  nextCaseLine ((a ++ k ++ s ++ v) :: ls) = Some (k ++ s ++ v, [k; v], ls).
Proof.
  intros Ha Hk Hv Ns Hs. destruct (token_free k Hk) as (Dk & Sk & Xk & Nk). destruct (token_free v Hv) as (Dv & Sv & Xv & Nv).
  replace (a ++ k ++ s ++ v) with (a ++ (k ++ s ++ v) ++ []) by now rewrite app_nil_r.
  rewrite next_padded; try assumption; try reflexivity.
  - rewrite split_compress_word; [now rewrite split_compress_free|exact Dk|exact Ns| |].
    + apply forallb_forall. intros c Hc. destruct (Hs c Hc) as [->| ->]; reflexivity.
    + destruct v as [|c v]; [exact I|]. apply free_in with (c := c) in Dv; [exact Dv|now left].
  - destruct k as [|c k]; [congruence|]. destruct (exists_last Nv) as (p & d & ->).
    change ((c :: k) ++ s ++ p ++ [d]) with (c :: (k ++ s ++ p ++ [d])). rewrite !app_assoc. apply trim_ends.
    + apply free_in with (c := c) in Sk; [exact Sk|now left].
    + apply free_in with (c := d) in Sv; [exact Sv|]. apply in_app_iff. right. now left.
  - destruct k; [congruence|discriminate].
  - apply contains_false. intros X. rewrite !in_app_iff in X. apply contains_false in Xk, Xv. destruct X as [X|[X|X]]; [tauto| |tauto].
    destruct (Hs _ X) as [Y|Y]; discriminate Y.
Qed.

(** Numbers and lists of numbers. *)
Definition numeric (v : str) : Prop := forall c, In c v -> is_digit c = true \/ c = ","%char.
Lemma numeric_token v : v <> [] -> numeric v -> token v.
Proof.
  intros N H. split; [exact N|]. intros c Hc. destruct (H c Hc) as [D| ->].
  - split; [now apply digit_not_space|]. intros [<-|[<-|[<-|[]]]]; discriminate D.
  - split; [reflexivity|]. intros [X|[X|[X|[]]]]; discriminate X.
Qed.
Lemma int_numeric n : (0 <= n)%Z -> numeric (int_text n) /\ int_text n <> [].
Proof. intros H. destruct (int_text_digits n H) as [D N]. rewrite forallb_forall in D. split; [|exact N]. intros c Hc. left. now apply D. Qed.
Lemma int_token n : (0 <= n)%Z -> token (int_text n).
Proof. intros H. destruct (int_numeric n H). now apply numeric_token. Qed.
Lemma commas_numeric l : Forall (fun n => (0 <= n)%Z) l -> numeric (commas (map int_text l)).
Proof.
  induction l as [|n [|m l] IH]; intros F; inversion F as [|? ? Hn F']; subst; cbn [map commas].
  - intros c [].
  - now apply int_numeric.
  - intros c Hc. apply in_app_iff in Hc as [Hc|[<-|Hc]]; [now apply (proj1 (int_numeric n Hn))|now right|]. apply (IH F'). exact Hc.
Qed.
Lemma commas_nonempty n l : (0 <= n)%Z -> commas (map int_text (n :: l)) <> [].
Proof. intros H. destruct (int_numeric n H) as [_ N]. destruct l; cbn [map commas]; [exact N|]. destruct (int_text n); [congruence|discriminate]. Qed.
Lemma numeric_upper v : numeric v -> to_upper v = v.
Proof.
  induction v as [|c v IH]; intros H; [reflexivity|]. cbn. fold (to_upper v). rewrite IH by (intros x Hx; apply H; now right). f_equal.
  destruct (H c (or_introl eq_refl)) as [D| ->]; [now apply upper_digit|reflexivity].
Qed.
Lemma numeric_trim v : numeric v -> trim v = v.
Proof.
  intros H. apply trim_nospace. apply free_in. intros c Hc. destruct (H c Hc) as [D| ->]; [now apply digit_not_space|reflexivity].
Qed.
Lemma numeric_word v : numeric v -> word v = v.
Proof. intros H. unfold word. rewrite numeric_trim by exact H. now apply numeric_upper. Qed.

(** What a number selects: a list of several numbers, or none, counts as 0. *)
Definition picked (l : list Z) : Z := match l with [n] => n | _ => 0%Z end.
Lemma selected_number n : ranged n -> selected_id (int_text n) = Ok n.
Proof.
  intros H. unfold ranged in H. destruct (int_text_digits n ltac:(lia)) as [D N]. unfold selected_id. rewrite numeric_trim by (apply int_numeric; lia).
  rewrite D. assert (null (int_text n) = false) as -> by (destruct (int_text n); [congruence|reflexivity]). cbn [negb andb].
  apply stoi_text. unfold INT_MAX32. lia.
Qed.
Lemma selected_list l : Forall ranged l -> selected_id (commas (map int_text l)) = Ok (picked l).
Proof.
  intros F. assert (F' : Forall (fun n => (0 <= n)%Z) l) by (revert F; apply Forall_impl; unfold ranged; intros; lia).
  destruct l as [|n [|m l]]; [reflexivity| |].
  - inversion F; subst. now apply selected_number.
  - unfold selected_id. rewrite numeric_trim by now apply commas_numeric.
    assert (forallb is_digit (commas (map int_text (n :: m :: l))) = false) as ->; [|now rewrite andb_false_r].
    cbn [map commas]. rewrite forallb_app. cbn [forallb]. now rewrite andb_false_r.
Qed.
Lemma selected_sp v : selected_id (" "%char :: v) = selected_id v.
Proof. unfold selected_id. change (" "%char :: v) with ([" "%char] ++ v). now rewrite (trim_spaces_l [" "%char]) by reflexivity. Qed.

(** ** The blocks *)
Definition set_cmds (c : context) (cmds : list (str * str)) : context := fold_left (fun c kv => cset c (fst kv) (snd kv)) cmds c.
(** A line read as a command. *)
Definition reads_as (l : str) (kv : str * str) : Prop :=
  str_eqb (fst kv) (txt "SET") = false /\ ends_subcase (fst kv) = false /\
  forall ls, exists raw t fields, nextCaseLine (l :: ls) = Some (raw, t :: fields, ls) /\ word t = fst kv /\ command_value fields = snd kv.
Lemma block_cmds rest ds : forall lines cmds, Forall2 reads_as lines cmds -> forall fuel c, length (lines ++ rest) < fuel ->
  exists fuel', length rest < fuel' /\ block_loop fuel true c ds (lines ++ rest) = block_loop fuel' true (set_cmds c cmds) ds rest.
Proof.
  induction 1 as [|l kv lines cmds (NS & NE & H) F IH]; intros fuel c Hf.
  - exists fuel. split; [exact Hf|reflexivity].
  - destruct fuel as [|fuel]; [lia|]. cbn [app length] in Hf. destruct (IH fuel (cset c (fst kv) (snd kv)) ltac:(lia)) as (f' & L & E).
    exists f'. split; [exact L|].
    change (set_cmds c (kv :: cmds)) with (set_cmds (cset c (fst kv) (snd kv)) cmds). rewrite <- E. cbn [app block_loop]. destruct (H (lines ++ rest)) as (raw & t & fields & X & W & V).
    rewrite X, W, NS, NE, V. reflexivity.
Qed.
Lemma block_stop fuel c ds l ls raw t fields : nextCaseLine (l :: ls) = Some (raw, t :: fields, ls) -> In (word t) [txt "BEGIN"; txt "SUBCASE"] ->
  0 < fuel -> block_loop fuel true c ds (l :: ls) = Ok (c, ds, l :: ls).
Proof.
  intros H W Hf. destruct fuel as [|fuel]; [lia|]. cbn [block_loop]. rewrite H. destruct W as [W|[W|[]]]; rewrite <- W; reflexivity.
Qed.
Lemma block_skip fuel c ds l ls raw t fields r : (starts "$" l = true \/ forallb is_blank l = true) ->
  nextCaseLine ls = Some (raw, t :: fields, r) -> str_eqb (word t) (txt "SET") = false -> ends_subcase (word t) = false ->
  block_loop fuel true c ds (l :: ls) = block_loop fuel true c ds ls.
Proof.
  intros H N S E. destruct fuel as [|fuel]; [reflexivity|]. cbn [block_loop]. rewrite (next_skip _ _ H), N, S, E. reflexivity.
Qed.

(** ** The executive section *)
Definition plain_key (k : str) : bool :=
  negb (null k) && negb (has_infix (txt "BEGIN") k) && negb (str_eqb k (txt "SUBCASE")) && negb (str_eqb k (txt "SUBCOM")) &&
  negb (silent k) && negb (str_eqb k (txt "SET")).
Lemma exec_skip fuel c found as_ ds l ls : (starts "$" l = true \/ forallb is_blank l = true) ->
  exec_loop fuel c found as_ ds (l :: ls) = exec_loop fuel c found as_ ds ls.
Proof. intros H. destruct fuel as [|fuel]; [reflexivity|]. cbn [exec_loop]. now rewrite (next_skip _ _ H). Qed.
Lemma exec_plain fuel c c' found as_ ds l ls raw t fields : nextCaseLine (l :: ls) = Some (raw, t :: fields, ls) -> plain_key (word t) = true ->
  exec_command c raw (t :: fields) = Ok c' ->
  exec_loop (S fuel) c found as_ ds (l :: ls) = exec_loop fuel c' found as_ ds ls.
Proof.
  intros H P E. cbn [exec_loop]. rewrite H. unfold plain_key in P. rewrite !andb_true_iff, !negb_true_iff in P. destruct P as (((((P1 & P2) & P3) & P4) & P5) & P6).
  rewrite P1, P2, P3, P4, P5, P6, E. reflexivity.
Qed.
Lemma exec_silent fuel c found as_ ds l ls raw t fields : nextCaseLine (l :: ls) = Some (raw, t :: fields, ls) -> In (word t) [txt "CEND"; txt "TITLE"] ->
  exec_loop (S fuel) c found as_ ds (l :: ls) = exec_loop fuel c found as_ ds ls.
Proof. intros H W. cbn [exec_loop]. rewrite H. destruct W as [W|[W|[]]]; rewrite <- W; reflexivity. Qed.
Lemma exec_begin fuel c as_ ds l ls raw t fields : nextCaseLine (l :: ls) = Some (raw, t :: fields, ls) -> word t = txt "BEGIN" ->
  exec_loop (S fuel) c true as_ ds (l :: ls) = Ok (as_, ds, ls).
Proof. intros H W. cbn [exec_loop]. rewrite H, W. reflexivity. Qed.

(** ** SET commands *)
Inductive reads (rest : list str) : list str -> list str -> Prop :=
| rd_nil : reads rest [] rest
| rd_cons c chunks l ls toks : nextCaseLine (l :: ls) = Some (c, toks, ls) -> trim c = c -> c <> [] -> reads rest chunks ls -> reads rest (c :: chunks) (l :: ls).
Lemma set_line_reads rest : forall chunks ls, reads rest chunks ls -> forall fuel line, length ls < fuel ->
  (chunks = [] -> ends_comma line = false) ->
  (chunks <> [] -> ends_comma line = true /\ Forall (fun c => ends_comma c = true) (removelast chunks) /\ ends_comma (last chunks []) = false) ->
  set_line fuel line ls = Ok (line ++ concat chunks, rest).
Proof.
  induction 1 as [|c chunks l ls toks Hl Ht Hc R IH]; intros fuel line Hf H0 H1.
  - destruct fuel as [|fuel]; [lia|]. cbn [set_line]. rewrite H0 by reflexivity. cbn. now rewrite app_nil_r.
  - destruct fuel as [|fuel]; [lia|]. cbn [set_line]. destruct (H1 ltac:(discriminate)) as (E & F & L). rewrite E, Hl, Ht.
    cbn [concat]. rewrite app_assoc. apply IH; [cbn in Hf; lia| |].
    + intros ->. cbn in L. now rewrite ends_comma_app.
    + intros Hn. destruct chunks as [|c' chunks]; [congruence|]. cbn [removelast] in F. inversion F; subst.
      rewrite ends_comma_app by assumption. split; [assumption|]. split; [assumption|]. exact L.
Qed.

(** The lines of a SET: what they make up. *)
Fixpoint tail_text (ns : list Z) : str := match ns with [] => [] | n :: r => ","%char :: int_text n ++ tail_text r end.
Lemma broken_spec : forall ns count cur, Forall (fun n => (0 <= n)%Z) ns -> ends_comma cur = false ->
  concat (broken count false cur ns) = cur ++ tail_text ns /\ Forall (fun c => ends_comma c = true) (removelast (broken count false cur ns)) /\
  ends_comma (last (broken count false cur ns) []) = false /\
  exists x cs, broken count false cur ns = (cur ++ x) :: cs /\ numeric x /\ Forall (fun c => numeric c /\ c <> []) cs.
Proof.
  induction ns as [|n ns IH]; intros count cur F Hc; cbn [broken tail_text].
  - cbn. rewrite app_nil_r. split; [reflexivity|]. split; [constructor|]. split; [exact Hc|]. exists [], []. rewrite app_nil_r. split; [reflexivity|]. split; [intros c []|constructor].
  - inversion F as [|? ? Hn F']; subst. destruct (int_numeric n Hn) as [Nn Nn'].
    assert (Ec : ends_comma (int_text n) = false).
    { unfold ends_comma. destruct (int_text_digits n Hn) as [D _]. destruct (rev (int_text n)) as [|d r] eqn:E; [reflexivity|].
      rewrite forallb_forall in D. assert (Hd : In d (int_text n)) by (rewrite <- (rev_involutive (int_text n)), E; apply in_app_iff; right; now left).
      apply D in Hd. apply Ascii.eqb_neq. intros ->. discriminate. }
    destruct (count mod 8 =? 0).
    + destruct (IH (S count) (int_text n) F' Ec) as (C & R & L & (x & cs & B & Nx & Ncs)). rewrite B in *.
      cbn [concat] in *. split; [rewrite C, <- app_assoc; reflexivity|]. split.
      { change (removelast ((cur ++ [","%char]) :: (int_text n ++ x) :: cs)) with ((cur ++ [","%char]) :: removelast ((int_text n ++ x) :: cs)).
        constructor; [rewrite ends_comma_app by discriminate; reflexivity|exact R]. }
      split; [exact L|]. exists [","%char], ((int_text n ++ x) :: cs). split; [reflexivity|]. split; [intros c [<-|[]]; now right|].
      constructor; [|exact Ncs]. split; [|destruct (int_text n); [congruence|discriminate]]. intros c Hx. apply in_app_iff in Hx as [Hx|Hx]; auto.
    + destruct (IH (S count) ((cur ++ [","%char]) ++ int_text n) F') as (C & R & L & (x & cs & B & Nx & Ncs)).
      { rewrite ends_comma_app; [exact Ec|exact Nn']. }
      rewrite B in *. split; [rewrite C, <- !app_assoc; reflexivity|]. split; [exact R|]. split; [exact L|].
      exists ([","%char] ++ int_text n ++ x), cs. split; [now rewrite <- !app_assoc|]. split; [|exact Ncs].
      intros c Hx. rewrite !in_app_iff in Hx. destruct Hx as [[<-|[]]|[Hx|Hx]]; auto.
Qed.
Lemma tail_typed n ns : exists ws, items_words (map Single (n :: ns)) ws /\ typed ws (int_text n ++ tail_text ns).
Proof.
  revert n. induction ns as [|m ns IH]; intros n.
  - exists [int_text n]. cbn [map tail_text]. rewrite app_nil_r. split; [apply isw_one; constructor|constructor].
  - destruct (IH m) as (ws & W & T). exists ([int_text n] ++ ws). split; [apply isw_cons; [constructor|exact W]|].
    cbn [tail_text app]. change (","%char :: int_text m ++ tail_text ns) with ([","%char] ++ int_text m ++ tail_text ns).
    apply ty_cons; [|exact T]. split; [discriminate|]. intros c [<-|[]]. now left.
Qed.

Lemma on_last_snoc f l x : on_last f (l ++ [x]) = l ++ [f x].
Proof. unfold on_last. rewrite rev_app_distr. cbn [rev app]. now rewrite rev_involutive. Qed.

(** The set read from the lines of a group. *)
Definition set_of (g : wgroup) (d : set_def) : Prop :=
  match g_numbers g with
  | [] => d = SetIgnored (g_id g)
  | _ => exists vs, d = SetNumbers (g_id g) vs /\ forall x, In x vs <-> In x (g_numbers g)
  end.
Definition set_ok (g : wgroup) : Prop := ranged (g_id g) /\ Forall ranged (g_numbers g).

Lemma set_toks id r : (0 <= id)%Z -> exists fields, split_compress case_delim (txt "SET " ++ int_text id ++ r) = txt "SET" :: fields.
Proof.
  intros H. change (txt "SET " ++ int_text id ++ r) with (txt "SET" ++ [" "%char] ++ (int_text id ++ r)).
  rewrite split_compress_word; [eexists; reflexivity|reflexivity|discriminate|reflexivity|].
  destruct (int_text_digits id H) as [D N]. destruct (int_text id) as [|c t]; [congruence|]. cbn [app]. cbn [forallb] in D. apply andb_true_iff in D as [D _].
  unfold case_delim, is_any_of. cbn [existsb]. rewrite orb_false_r. rewrite !orb_false_iff. repeat split; apply Ascii.eqb_neq; intros ->; discriminate D.
Qed.
Lemma numeric_dollar v : numeric v -> ~ In "$"%char v.
Proof. intros H X. destruct (H _ X) as [D|D]; discriminate D. Qed.
(** A written line: cut in two, nothing but numbers in the second. *)
Lemma set_head_shape id x : (0 <= id)%Z -> numeric x -> x <> [] ->
  let w := (txt "SET " ++ int_text id ++ txt " = ") ++ x in trim w = w /\ w <> [] /\ contains "$" w = false.
Proof.
  intros Hi Hx Nx w. split; [|split; [discriminate|]].
  - unfold w. destruct (exists_last Nx) as (p & d & ->). rewrite app_assoc.
    change (txt "SET " ++ int_text id ++ txt " = ") with ("S"%char :: (txt "ET " ++ int_text id ++ txt " = ")).
    change ((("S"%char :: txt "ET " ++ int_text id ++ txt " = ") ++ p) ++ [d]) with ("S"%char :: ((txt "ET " ++ int_text id ++ txt " = ") ++ p) ++ [d]).
    apply trim_ends; [reflexivity|]. destruct (Hx d) as [D| ->]; [apply in_app_iff; right; now left|now apply digit_not_space|reflexivity].
  - apply contains_false. unfold w. rewrite !in_app_iff. destruct (int_numeric id Hi) as [Ni _].
    intros [[X|[X|X]]|X]; [cbn in X; intuition discriminate|now apply numeric_dollar in X|cbn in X; intuition discriminate|now apply numeric_dollar in X].
Qed.

Lemma reads_numeric rest com : forall cs, cs <> [] -> Forall (fun c => numeric c /\ c <> []) cs ->
  reads rest cs (on_last (fun l => l ++ txt " $ " ++ com) cs ++ rest).
Proof.
  intros cs Nc F. destruct (exists_last Nc) as (p & d & ->). rewrite on_last_snoc. clear Nc. apply Forall_app in F as [F1 F2]. inversion F2 as [|? ? [Nd Nd'] _]; subst.
  induction F1 as [|c p [Hc Hc'] F1 IH]; cbn [app].
  - eapply rd_cons; [|now apply numeric_trim|exact Nd'|constructor].
    apply (next_comment [] d [" "%char] (" "%char :: com) rest); try reflexivity; [now apply numeric_trim|exact Nd'|]. apply contains_false. now apply numeric_dollar.
  - eapply rd_cons; [|now apply numeric_trim|exact Hc'|exact IH].
    replace c with ([] ++ c ++ []) at 1 by now rewrite app_nil_r. apply next_padded; try reflexivity; [now apply numeric_trim|exact Hc'|]. apply contains_false. now apply numeric_dollar.
Qed.

Lemma write_set_read g rest : set_ok g -> exists l ls raw fields d, write_set g ++ rest = l :: ls /\
  nextCaseLine (l :: ls) = Some (raw, txt "SET" :: fields, ls) /\ addSet raw ls = Ok (d, rest) /\ set_of g d.
Proof.
  intros [Hi Hn]. destruct g as [id ns com]. unfold set_of, write_set. cbn [g_id g_numbers g_comment] in *. unfold ranged in Hi.
  destruct (set_toks id (txt " =") ltac:(lia)) as [f0 T0].
  destruct ns as [|n ns].
  - exists ((txt "SET " ++ int_text id ++ txt " = ") ++ txt " $ " ++ com), rest, (txt "SET " ++ int_text id ++ txt " ="), f0, (SetIgnored id).
    split; [reflexivity|]. assert (S : trim (txt "SET " ++ int_text id ++ txt " =") = txt "SET " ++ int_text id ++ txt " =").
    { change (txt "SET " ++ int_text id ++ txt " =") with ("S"%char :: txt "ET " ++ int_text id ++ [" "%char] ++ ["="%char]). rewrite !app_assoc. now apply trim_ends. }
    split; [|split; [|reflexivity]].
    + replace ((txt "SET " ++ int_text id ++ txt " = ") ++ txt " $ " ++ com) with ([] ++ (txt "SET " ++ int_text id ++ txt " =") ++ txt "  " ++ "$"%char :: " "%char :: com).
      * rewrite <- T0. apply next_comment; try reflexivity; [exact S|discriminate|]. apply contains_false. rewrite !in_app_iff.
        intros [X|[X|X]]; [cbn in X; intuition discriminate|apply numeric_dollar in X; [exact X|apply int_numeric; lia]|cbn in X; intuition discriminate].
      * cbn [app]. rewrite <- !app_assoc. reflexivity.
    + unfold addSet. assert (ends_comma (txt "SET " ++ int_text id ++ txt " =") = false) as EC by (rewrite !app_assoc, ends_comma_app by discriminate; reflexivity).
      cbn [set_line]. rewrite EC. cbn [bind fst snd]. unfold set_of_line.
      assert (split_compress (is_any_of ["="%char]) (txt "SET " ++ int_text id ++ txt " =") = [txt "SET " ++ int_text id ++ txt " "; []]) as ->.
      { replace (txt "SET " ++ int_text id ++ txt " =") with ((txt "SET " ++ int_text id ++ txt " ") ++ ["="%char] ++ []) by (rewrite <- !app_assoc; reflexivity).
        rewrite split_compress_word; [reflexivity| |discriminate|reflexivity|exact I].
        apply free_app; [reflexivity|]. apply free_app; [|reflexivity]. apply free_in. intros c Hc. destruct (int_text_digits id ltac:(lia)) as [D _].
        rewrite forallb_forall in D. apply D in Hc. unfold is_any_of. cbn. rewrite orb_false_r. apply Ascii.eqb_neq. intros ->. discriminate. }
      cbn [bind]. change (length (txt "SET " ++ int_text id ++ txt " ") <? 4) with false. cbn [andb].
      change (skipn 4 (txt "SET " ++ int_text id ++ txt " ")) with (int_text id ++ txt " "). rewrite trim_spaces_r by reflexivity.
      rewrite numeric_trim by (apply int_numeric; lia). rewrite stoi_text by (unfold INT_MAX32; lia). reflexivity.
  - inversion Hn as [|? ? Hn1 Hn2]; subst. unfold ranged in Hn1. cbn [broken]. change (1 mod 8 =? 0) with false. cbn iota.
    assert (F : Forall (fun n => (0 <= n)%Z) ns) by (revert Hn2; apply Forall_impl; unfold ranged; intros; lia).
    destruct (int_numeric n ltac:(lia)) as [Nn Nn'].
    set (head := txt "SET " ++ int_text id ++ txt " = ").
    assert (Ec : ends_comma (head ++ int_text n) = false).
    { rewrite ends_comma_app by exact Nn'. unfold ends_comma. destruct (rev (int_text n)) as [|d r] eqn:E; [reflexivity|].
      destruct (int_text_digits n ltac:(lia)) as [D _]. rewrite forallb_forall in D.
      assert (Hd : In d (int_text n)) by (rewrite <- (rev_involutive (int_text n)), E; apply in_app_iff; right; now left).
      apply D in Hd. apply Ascii.eqb_neq. intros ->. discriminate. }
    destruct (broken_spec ns 2 (head ++ int_text n) F Ec) as (C & R & L & (x & cs & B & Nx & Ncs)). rewrite B in *.
    destruct (set_head_shape id (int_text n ++ x) ltac:(lia)) as (Hw1 & Hw2 & Hw3).
    { intros c Hc. apply in_app_iff in Hc as [Hc|Hc]; auto. } { destruct (int_text n); [congruence|discriminate]. }
    fold head in Hw1, Hw2, Hw3. rewrite app_assoc in Hw1, Hw2, Hw3. set (w := (head ++ int_text n) ++ x) in *.
    assert (TW : exists f, split_compress case_delim w = txt "SET" :: f).
    { unfold w, head. rewrite <- !app_assoc. apply set_toks. lia. } destruct TW as [f TW].
    destruct (tail_typed n ns) as (ws & W & T).
    assert (A : Forall allowed (map Single (n :: ns))).
    { apply Forall_forall. intros i Hi'. apply in_map_iff in Hi' as (m & <- & Hm). rewrite Forall_forall in Hn. now apply Hn. }
    assert (V : exists vs, set_of_line (set_text (txt "SET") [] (txt " ") (txt " ") id (int_text n ++ tail_text ns)) = Ok (SetNumbers id vs) /\
      forall x, In x vs <-> exists i, In i (map Single (n :: ns)) /\ stands_for i x).
    { assert (BL : blanks (txt " ")) by (intros c [<-|[]]; reflexivity).
      apply (set_of_text _ _ _ _ _ _ ws); try assumption; [reflexivity|cbn; intuition discriminate|intros c []]. }
    destruct V as (vs & EV & SV).
    assert (EL : set_text (txt "SET") [] (txt " ") (txt " ") id (int_text n ++ tail_text ns) = w ++ concat cs).
    { cbn [concat] in C. rewrite C. unfold set_text, head. rewrite <- !app_assoc. reflexivity. }
    assert (Final : forall ls, set_line (S (S (length ls))) w ls = Ok (w ++ concat cs, rest) -> addSet w ls = Ok (SetNumbers id vs, rest)).
    { intros ls E. unfold addSet. rewrite E. cbn [bind fst snd]. rewrite <- EL, EV. reflexivity. }
    assert (In' : forall y, In y vs <-> In y (n :: ns)).
    { intros y. rewrite SV. split.
      - intros (i & Hi' & Hs). apply in_map_iff in Hi' as (m & <- & Hm). cbn in Hs. now subst.
      - intros Hy. exists (Single y). split; [now apply in_map|reflexivity]. }
    destruct cs as [|c0 cs].
    + exists (w ++ txt " $ " ++ com), rest, w, f, (SetNumbers id vs). split; [reflexivity|]. split; [|split; [|exists vs; auto]].
      * rewrite <- TW. apply (next_comment [] w [" "%char] (" "%char :: com) rest); try reflexivity; assumption.
      * apply Final. apply (set_line_reads rest []); [constructor|lia| |congruence]. intros _. exact L.
    + exists w, (on_last (fun l => l ++ txt " $ " ++ com) (c0 :: cs) ++ rest), w, f, (SetNumbers id vs).
      split; [|split; [|split; [|exists vs; auto]]].
      * destruct (exists_last (l := c0 :: cs)) as (p & d & E); [discriminate|]. rewrite E. change (w :: p ++ [d]) with ((w :: p) ++ [d]). now rewrite !on_last_snoc.
      * rewrite <- TW. replace w with ([] ++ w ++ []) at 1 by now rewrite app_nil_r. apply next_padded; try reflexivity; assumption.
      * apply Final. apply (set_line_reads rest (c0 :: cs)); [apply reads_numeric; [discriminate|exact Ncs]|lia|discriminate|].
        intros _. change (removelast (w :: c0 :: cs)) with (w :: removelast (c0 :: cs)) in R. inversion R; subst. auto.
Qed.

Lemma exec_sets rest c found as_ : forall gs, Forall set_ok gs -> forall fuel ds, length (flat_map write_set gs ++ rest) < fuel ->
  exists fuel' ds', length rest < fuel' /\ Forall2 set_of gs ds' /\
  exec_loop fuel c found as_ ds (flat_map write_set gs ++ rest) = exec_loop fuel' c found as_ (ds ++ ds') rest.
Proof.
  induction 1 as [|g gs Hg F IH]; intros fuel ds Hf.
  - exists fuel, []. split; [exact Hf|]. split; [constructor|]. now rewrite app_nil_r.
  - cbn [flat_map] in *. rewrite <- app_assoc in *. destruct (write_set_read g (flat_map write_set gs ++ rest) Hg) as (l & ls & raw & fields & d & E & N & A & S).
    rewrite E in *. destruct fuel as [|fuel]; [lia|].
    assert (Hl : length (flat_map write_set gs ++ rest) <= length ls).
    { destruct (write_set g) as [|x y] eqn:W; [|cbn [app] in E; injection E as _ <-; rewrite (app_length y); lia].
      exfalso. clear - W. unfold write_set, on_last in W. destruct (rev _) as [|x r] eqn:R; [|destruct (rev r); discriminate W].
      apply (f_equal (@rev str)) in R. rewrite rev_involutive in R. destruct (g_numbers g); [discriminate R|]. cbn [broken] in R. change (1 mod 8 =? 0) with false in R. cbn iota in R.
      clear - R. revert R. generalize (S 1) as k. generalize ((txt "SET " ++ int_text (g_id g) ++ txt " = ") ++ int_text z) as cur. induction l as [|m l IH]; intros cur k R; cbn [broken] in R; [discriminate|].
      destruct (k mod 8 =? 0); [discriminate R|]. now apply IH in R. }
    destruct (IH fuel (ds ++ [d])) as (f' & ds' & L & F2 & X); [cbn [length] in Hf; lia|].
    exists f', (d :: ds'). split; [exact L|]. split; [constructor; assumption|]. rewrite <- app_assoc in X. cbn [app] in X. rewrite <- X.
    cbn [exec_loop]. rewrite N. change (word (txt "SET")) with (txt "SET").
    change (null (txt "SET")) with false. change (has_infix (txt "BEGIN") (txt "SET")) with false. change (str_eqb (txt "SET") (txt "SUBCASE")) with false.
    change (str_eqb (txt "SET") (txt "SUBCOM")) with false. change (silent (txt "SET")) with false. change (str_eqb (txt "SET") (txt "SET")) with true. cbn iota.
    rewrite A. reflexivity.
Qed.
