(** Properties C59, C60: what a subcase inherits and selects; choice of the
    analysis. *)
From Coq Require Import Ascii String ZArith List Bool Arith Lia.
From Verif Require Import Base TextModel TextProofs TokenizerModel TokenizerProofs RealModel CaseControlModel CaseControlProofs PropertiesCaseControl.
Import ListNotations.
Open Scope nat_scope.
Open Scope list_scope.

(** ** C59: inheritance *)

(** A command "KEY = value" on a line of its own: a key and a value without
    blanks, separated by blanks, tabulations and equal signs. *)
Definition token (w : str) : Prop := w <> [] /\ forall c, In c w -> is_space c = false /\ ~ In c ["="%char; "\"%char; "$"%char].
Inductive command_line (k v : str) : str -> Prop :=
| cl a s b : forallb is_blank a = true -> forallb is_blank b = true -> s <> [] -> (forall c, In c s -> c = " "%char \/ c = tab \/ c = "="%char) ->
    command_line k v (a ++ (k ++ s ++ v) ++ b).
Definition reserved (k : str) : Prop := In (to_upper k) [txt "SET"; txt "BEGIN"; txt "SUBCASE"; txt "SUBCOM"].
(** The lines of a subcase: its commands in order, with blank and comment lines
    anywhere, up to the line that starts what follows. *)
Inductive subcase_lines (stop : str) (rest : list str) : list (str * str) -> list str -> Prop :=
| sl_end : subcase_lines stop rest [] (stop :: rest)
| sl_skip cmds l ls : (starts "$" l = true \/ forallb is_blank l = true) -> subcase_lines stop rest cmds ls -> subcase_lines stop rest cmds (l :: ls)
| sl_cmd k v cmds l ls : token k -> token v -> ~ reserved k -> command_line k v l -> subcase_lines stop rest cmds ls ->
    subcase_lines stop rest ((k, v) :: cmds) (l :: ls).
(** The value of a key in a list of commands: the last one given. *)
Fixpoint last_value (key : str) (cmds : list (str * str)) : option str :=
  match cmds with
  | [] => None
  | (k, v) :: r => match last_value key r with
                   | Some x => Some x
                   | None => if str_eqb key (to_upper k) then Some (to_upper v) else None
                   end
  end.
Definition in_force (above : context) (cmds : list (str * str)) (key : str) : option str :=
  match last_value key cmds with Some v => Some v | None => cfind above key end.

Lemma token_free w : token w -> free case_delim w /\ free is_space w /\ contains "$" w = false /\ w <> [].
Proof.
  intros [N H]. split; [|split; [|split; [|exact N]]].
  - apply free_in. intros c Hc. destruct (H c Hc) as [S X]. unfold case_delim, is_any_of. cbn [existsb]. rewrite orb_false_r.
    apply orb_false_iff. split; [apply Ascii.eqb_neq; intros ->; discriminate S|].
    apply orb_false_iff. split; [apply Ascii.eqb_neq; intros ->; apply X; cbn; auto|].
    apply orb_false_iff. split; apply Ascii.eqb_neq; intros ->; [apply X; cbn; auto|discriminate S].
  - apply free_in. intros c Hc. apply (H c Hc).
  - apply contains_false. intros X. apply (proj2 (H _ X)). cbn. auto.
Qed.
Lemma word_token w : token w -> word w = to_upper w.
Proof. intros H. unfold word. rewrite trim_nospace; [reflexivity|apply (token_free w H)]. Qed.
Lemma next_command k v l ls : token k -> token v -> command_line k v l ->
  exists raw, nextCaseLine (l :: ls) = Some (raw, [k; v], ls).
Proof.
  intros Hk Hv H. destruct H as [a s b Ha Hb Ns Hs]. exists (k ++ s ++ v).
  destruct (token_free k Hk) as (Dk & Sk & Xk & Nk). destruct (token_free v Hv) as (Dv & Sv & Xv & Nv).
  rewrite next_padded; try assumption.
  - rewrite split_compress_word; [now rewrite split_compress_free|exact Dk|exact Ns| |].
    + apply forallb_forall. intros c Hc. destruct (Hs c Hc) as [->|[->| ->]]; reflexivity.
    + destruct v as [|c v]; [exact I|]. apply free_in with (c := c) in Dv; [exact Dv|now left].
  - destruct k as [|c k]; [congruence|]. destruct (exists_last Nv) as (p & d & ->).
    change ((c :: k) ++ s ++ p ++ [d]) with (c :: (k ++ s ++ p ++ [d])). rewrite !app_assoc. apply trim_ends.
    + apply free_in with (c := c) in Sk; [exact Sk|now left].
    + apply free_in with (c := d) in Sv; [exact Sv|]. apply in_app_iff. right. now left.
  - destruct k; [congruence|discriminate].
  - apply contains_false. intros X. rewrite !in_app_iff in X. apply contains_false in Xk, Xv. destruct X as [X|[X|X]]; [tauto| |tauto].
    destruct (Hs _ X) as [Y|[Y|Y]]; discriminate Y.
Qed.

Lemma case_loop_spec stop rest raw t fields : nextCaseLine (stop :: rest) = Some (raw, t :: fields, rest) ->
  In (word t) [txt "BEGIN"; txt "SUBCASE"; txt "SUBCOM"] ->
  forall cmds ls, subcase_lines stop rest cmds ls -> forall fuel c ds, length ls < fuel ->
  exists c', case_loop fuel true c ds ls = Ok (c', ds, word t, rest) /\
    (forall key, cfind c' key = in_force c cmds key) /\ (sorted c -> sorted c') /\
    (forall k, In k (map fst c') -> In k (map fst c) \/ In k (map (fun kv => to_upper (fst kv)) cmds)).
Proof.
  intros Hst Hw. induction 1 as [|cmds l ls Hs HS IH|k v cmds l ls Hk Hv Hr Hl HS IH]; intros fuel c ds Hf; (destruct fuel as [|fuel]; [lia|]).
  - exists c. cbn [case_loop]. rewrite Hst. split; [|split; [reflexivity|split; [auto|auto]]].
    assert (true && str_eqb (word t) (txt "SET") = false) as ->.
    { cbn [andb]. destruct (str_eqb_spec (word t) (txt "SET")) as [E|]; [|reflexivity]. rewrite E in Hw. cbn in Hw. intuition discriminate. }
    assert (ends_subcase (word t) = true) as ->; [|reflexivity].
    unfold ends_subcase. cbn [In] in Hw. destruct Hw as [E|[E|[E|[]]]]; rewrite <- E; reflexivity.
  - cbn [length] in Hf. destruct (IH (S fuel) c ds ltac:(lia)) as (c' & E & R). exists c'. split; [|exact R]. rewrite <- E. cbn [case_loop].
    now rewrite (next_skip _ _ Hs).
  - cbn [length] in Hf. destruct (next_command k v l ls Hk Hv Hl) as [raw' E']. cbn [case_loop]. rewrite E', (word_token k Hk).
    assert (true && str_eqb (to_upper k) (txt "SET") = false) as ->.
    { cbn [andb]. destruct (str_eqb_spec (to_upper k) (txt "SET")) as [E|]; [|reflexivity]. exfalso. apply Hr. unfold reserved. rewrite E. cbn. auto. }
    assert (ends_subcase (to_upper k) = false) as ->.
    { unfold ends_subcase. destruct (token_free k Hk) as (_ & _ & _ & Nk). assert (null (to_upper k) = false) as -> by (destruct k; [congruence|reflexivity]).
      cbn [orb]. apply orb_false_iff. split; [apply orb_false_iff; split|];
      (match goal with |- str_eqb ?a ?b = false => destruct (str_eqb_spec a b) as [E|]; [|reflexivity] end; exfalso; apply Hr; unfold reserved; rewrite E; cbn; auto). }
    destruct (IH fuel (cset c (to_upper k) (command_value [v])) ds ltac:(lia)) as (c' & E & F & S & K). exists c'. split; [exact E|]. split; [|split].
    + intros key. rewrite F. unfold in_force. cbn [last_value]. destruct (last_value key cmds); [reflexivity|]. rewrite cfind_cset.
      destruct (str_eqb key (to_upper k)); [|reflexivity]. unfold command_value. cbn [map join_words]. now rewrite (word_token v Hv).
    + intros Hc. apply S. now apply sorted_cset.
    + intros k' Hk'. destruct (K k' Hk') as [X|X]; [|right; cbn; auto]. apply keys_cset in X as [->|X]; [right; cbn; auto|left; exact X].
Qed.

(** A subcase: for every key, the value used is the last one given in the
    subcase, and if it gives none the one given above the subcases; reading goes
    on after the subcase. *)
Theorem C59_subcase_inherits : forall above cmds ls stop rest raw t fields,
  nextCaseLine (stop :: rest) = Some (raw, t :: fields, rest) -> In (word t) [txt "BEGIN"; txt "SUBCASE"; txt "SUBCOM"] ->
  subcase_lines stop rest cmds ls ->
  exists c, parse_case true above ls = Ok (c, [], word t, rest) /\ (forall key, cfind c key = in_force above cmds key).
Proof.
  intros above cmds ls stop rest raw t fields H1 H2 H3.
  destruct (case_loop_spec stop rest raw t fields H1 H2 cmds ls H3 (S (length ls)) above []) as (c & E & F & _); [lia|]. exists c. auto.
Qed.

(** The sets an analysis selects. *)
Inductive kind := KSPC | KMPC | KLOADSET | KLOAD | KDLOAD.
Definition command_name (kd : kind) : str :=
  match kd with KSPC => txt "SPC" | KMPC => txt "MPC" | KLOADSET => txt "LOADSET" | KLOAD => txt "LOAD" | KDLOAD => txt "DLOAD" end.
Definition selected (kd : kind) (id : Z) : selection :=
  match kd with KSPC => SelSPC id | KMPC => SelMPC id | KLOADSET => SelLOADSET id | KLOAD => SelLOAD id | KDLOAD => SelDLOAD id end.
(** A key is a name or a name with options. *)
Inductive key_shape : str -> str -> Prop :=
| ks_plain k : plain_word k -> key_shape k k
| ks_options base opts : plain_word base -> opts <> [] -> Forall plain_word opts -> key_shape (with_options base opts) base.

Lemma key_shape_eval k base : key_shape k base -> exists opts, key_and_options erase_end_libstdcxx k = Ok (base, opts).
Proof. intros [k0 H|b opts H1 H2 H3]; [exists []; now apply key_plain|exists opts; now apply key_with_options]. Qed.
Definition begins (p l : str) : Prop := exists r, l = p ++ r.
Lemma compare0_begins n p l : length p = n -> (compare0 n p l = true <-> begins p l).
Proof.
  intros <-. unfold compare0, begins. destruct (str_eqb_spec (firstn (length p) l) p) as [E|N]; split; try discriminate; try reflexivity.
  - intros _. exists (skipn (length p) l). rewrite <- E at 1. symmetry. apply firstn_skipn.
  - intros [r ->]. exfalso. apply N. rewrite firstn_app, Nat.sub_diag, firstn_all. cbn. apply app_nil_r.
Qed.

Lemma select_kind k base v l kd id : key_shape k base -> select_entry erase_end_libstdcxx (k, v) = Ok l ->
  (In (selected kd id) l -> begins (command_name kd) base /\ selected_id v = Ok id) /\
  (begins (command_name kd) base -> (kd = KLOAD -> ~ begins (txt "LOADSET") base) -> selected_id v = Ok id -> In (selected kd id) l).
Proof.
  intros Hs E. unfold select_entry in E. cbn [fst snd] in E. destruct (selected_id v) as [n| | |] eqn:En; try discriminate. cbn [bind] in E.
  destruct (key_shape_eval k base Hs) as [opts Eo]. rewrite Eo in E. cbn [bind] in E. clear Eo.
  destruct (compare0 3 (txt "SPC") base) eqn:C1.
  { injection E as <-. apply compare0_begins in C1; [|reflexivity]. split.
    - intros [X|[]]. destruct kd; try discriminate X. injection X as <-. split; [exact C1|reflexivity].
    - intros [r Br] _ [= <-]. destruct C1 as [r1 ->]. destruct kd; try discriminate Br. now left. }
  destruct (compare0 3 (txt "MPC") base) eqn:C2.
  { injection E as <-. apply compare0_begins in C2; [|reflexivity]. split.
    - intros [X|[]]. destruct kd; try discriminate X. injection X as <-. split; [exact C2|reflexivity].
    - intros [r Br] _ [= <-]. destruct C2 as [r1 ->]. destruct kd; try discriminate Br. now left. }
  destruct (compare0 7 (txt "LOADSET") base) eqn:C3.
  { injection E as <-. apply compare0_begins in C3; [|reflexivity]. split.
    - intros [X|[]]. destruct kd; try discriminate X. injection X as <-. split; [exact C3|reflexivity].
    - intros [r Br] NL [= <-]. destruct kd; try (destruct C3 as [r1 ->]; discriminate Br); [now left|]. exfalso. now apply NL. }
  destruct (compare0 4 (txt "LOAD") base) eqn:C4.
  { injection E as <-. apply compare0_begins in C4; [|reflexivity]. split.
    - intros [X|[]]. destruct kd; try discriminate X. injection X as <-. split; [exact C4|reflexivity].
    - intros Br _ [= <-]. destruct kd; try (destruct C4 as [r1 ->]; destruct Br as [r Br]; discriminate Br); [|now left].
      apply (compare0_begins 7) in Br; [cbn [command_name] in Br; congruence|reflexivity]. }
  destruct (compare0 5 (txt "DLOAD") base) eqn:C5.
  { injection E as <-. apply compare0_begins in C5; [|reflexivity]. split.
    - intros [X|[]]. destruct kd; try discriminate X. injection X as <-. split; [exact C5|reflexivity].
    - intros [r Br] _ [= <-]. destruct C5 as [r1 ->]. destruct kd; try discriminate Br. now left. }
  split.
  - intros X. exfalso.
    assert (Y : forall s, In s l -> match s with SelCONTACT _ | SelDISP _ _ | SelOFREQ _ | SelSTRESS _ => True | _ => False end).
    { intros s Hin. destruct (compare0 4 (txt "BCONTACT") base); [injection E as <-; destruct Hin as [<-|[]]; exact I|].
      destruct (compare0 4 (txt "DISP") base); [injection E as <-; destruct (n =? 0)%Z; [destruct Hin|destruct Hin as [<-|[]]; exact I]|].
      destruct (compare0 4 (txt "OFREQUENCY") base); [injection E as <-; destruct (n =? 0)%Z; [destruct Hin|destruct Hin as [<-|[]]; exact I]|].
      destruct (compare0 4 (txt "STRESS") base); [injection E as <-; destruct (n =? 0)%Z; [destruct Hin|destruct Hin as [<-|[]]; exact I]|].
      injection E as <-. destruct Hin. }
    specialize (Y _ X). destruct kd; exact Y.
  - intros Br _ _. exfalso. destruct kd.
    + apply (compare0_begins 3) in Br; [cbn [command_name] in Br; congruence|reflexivity].
    + apply (compare0_begins 3) in Br; [cbn [command_name] in Br; congruence|reflexivity].
    + apply (compare0_begins 7) in Br; [cbn [command_name] in Br; congruence|reflexivity].
    + apply (compare0_begins 4) in Br; [cbn [command_name] in Br; congruence|reflexivity].
    + apply (compare0_begins 5) in Br; [cbn [command_name] in Br; congruence|reflexivity].
Qed.

(** The constraint and load sets an analysis uses are those in force for the
    subcase, when no key other than the command's name begins like it (for LOAD,
    keys beginning with LOADSET apart). *)
Theorem C59_selected_sets_partial : forall above cmds ls stop rest raw t fields c ss kd,
  nextCaseLine (stop :: rest) = Some (raw, t :: fields, rest) -> In (word t) [txt "BEGIN"; txt "SUBCASE"; txt "SUBCOM"] ->
  subcase_lines stop rest cmds ls -> sorted above ->
  (forall k, In k (map fst above) \/ In k (map (fun kv => to_upper (fst kv)) cmds) -> exists base, key_shape k base /\
     (begins (command_name kd) base -> k = command_name kd \/ (kd = KLOAD /\ begins (txt "LOADSET") base))) ->
  parse_case true above ls = Ok (c, [], word t, rest) -> selections erase_end_libstdcxx c = Ok ss ->
  (kd <> KLOAD -> forall id, In (selected kd id) ss <-> exists v, in_force above cmds (command_name kd) = Some v /\ selected_id v = Ok id) /\
  (kd = KLOAD -> forall id v, in_force above cmds (command_name kd) = Some v -> selected_id v = Ok id -> In (selected kd id) ss).
Proof.
  intros above cmds ls stop rest raw t fields c ss kd H1 H2 H3 Hs Hk Hc Hss.
  destruct (case_loop_spec stop rest raw t fields H1 H2 cmds ls H3 (S (length ls)) above []) as (c' & E & F & S & K); [lia|].
  unfold parse_case in Hc. rewrite Hc in E. injection E as <-. specialize (S Hs).
  assert (P : plain_word (command_name kd)).
  { destruct kd; (split; [discriminate|]; cbn; intuition (subst; discriminate)). }
  assert (D : forall id v, in_force above cmds (command_name kd) = Some v -> selected_id v = Ok id -> In (selected kd id) ss).
  { intros id v Ev Ei. apply (selections_in _ _ _ Hss). rewrite <- F in Ev. apply sorted_in in Ev; [|exact S].
    unfold selections in Hss. destruct (mapM (select_entry erase_end_libstdcxx) c) as [lss| | |] eqn:EM; try discriminate.
    destruct (mapM_in _ _ _ EM _ Ev) as (l & El & _). exists (command_name kd, v), l. split; [exact Ev|]. split; [exact El|].
    apply (select_kind _ _ _ _ kd id (ks_plain _ P) El); [exists []; now rewrite app_nil_r| |exact Ei].
    intros -> [r Er]. discriminate Er. }
  split.
  - intros Nk id. split; [|intros (v & Ev & Ei); eauto].
    intros X. apply (selections_in _ _ _ Hss) in X as ([k v] & l & Hin & El & Hl).
    destruct (Hk k) as (base & Sh & Hb); [apply K; apply in_map_iff; exists (k, v); auto|].
    destruct (select_kind _ _ _ _ kd id Sh El) as [Y _]. destruct (Y Hl) as [B Ei]. destruct (Hb B) as [->|[Z _]]; [|contradiction].
    exists v. split; [|exact Ei]. rewrite <- F. now apply sorted_in.
  - intros _. exact D.
Qed.

(** An output request for the constraint forces makes the analysis use the
    constraint set of that number. *)
Theorem C59_spcforces_refuted : forall n c ss, (0 <= n < 2 ^ 31 - 1)%Z ->
  selections erase_end_libstdcxx c = Ok ss -> In (txt "SPCFORCES", int_text n) c -> In (SelSPC n) ss.
Proof.
  intros n c ss Hn E Hin. apply (selections_in _ _ _ E). unfold selections in E.
  destruct (mapM (select_entry erase_end_libstdcxx) c) as [lss| | |] eqn:EM; try discriminate.
  destruct (mapM_in _ _ _ EM _ Hin) as (l & El & _). exists (txt "SPCFORCES", int_text n), l. split; [exact Hin|]. split; [exact El|].
  assert (P : plain_word (txt "SPCFORCES")) by (split; [discriminate|]; cbn; intuition (subst; discriminate)).
  apply (select_kind _ _ _ _ KSPC n (ks_plain _ P) El).
  - exists (txt "FORCES"). reflexivity.
  - discriminate.
  - destruct (int_text_digits n ltac:(lia)) as [D Nn]. unfold selected_id.
    rewrite trim_nospace by (apply free_in; intros x Hx; rewrite forallb_forall in D; apply digit_not_space; auto).
    rewrite D. destruct (int_text n) eqn:X; [congruence|]. cbn [null negb andb]. rewrite <- X. apply stoi_text. unfold INT_MAX32. lia.
Qed.
(** A displacement request of the subcase does not supersede the one above when
    their options differ. *)
Theorem C59_options_not_superseded_refuted : exists above lines c,
  exec_command [] (txt "DISP(PLOT) = 1") [txt "DISP(PLOT)"; txt "1"] = Ok above /\
  parse_case true above lines = Ok (c, [], txt "BEGIN", []) /\ subcase_lines (txt "BEGIN BULK") [] [(txt "DISP", txt "2")] lines /\
  selections erase_end_libstdcxx c = Ok [SelDISP 2 false; SelDISP 1 false].
Proof.
  exists [(txt "DISP(PLOT)", txt " 1")], [txt "DISP=2"; txt "BEGIN BULK"], [(txt "DISP", txt "2"); (txt "DISP(PLOT)", txt " 1")].
  split; [vm_compute; reflexivity|]. split; [vm_compute; reflexivity|]. split; [|vm_compute; reflexivity].
  apply (sl_cmd _ _ (txt "DISP") (txt "2")).
  - split; [discriminate|]. intros c Hc. cbn in Hc. intuition (subst; try reflexivity; cbn in *; intuition discriminate).
  - split; [discriminate|]. intros c Hc. cbn in Hc. intuition (subst; try reflexivity; cbn in *; intuition discriminate).
  - unfold reserved. cbn. intuition discriminate.
  - apply (cl (txt "DISP") (txt "2") [] (txt "=") []); try reflexivity; [discriminate|]. cbn. intuition.
  - apply sl_end.
Qed.
Example C59_case :
  let above := [(txt "LOAD", txt " 4"); (txt "SOL", txt "101"); (txt "SPC", txt " 1")] in
  let lines := [txt "$ second case"; txt "  spc = 2  "; txt "SUBCASE 3"; txt "SPC=5"] in
  sorted above /\ nextCaseLine [txt "SUBCASE 3"; txt "SPC=5"] = Some (txt "SUBCASE 3", [txt "SUBCASE"; txt "3"], [txt "SPC=5"]) /\
  subcase_lines (txt "SUBCASE 3") [txt "SPC=5"] [(txt "spc", txt "2")] lines /\
  parse_case true above lines = Ok ([(txt "LOAD", txt " 4"); (txt "SOL", txt "101"); (txt "SPC", txt "2")], [], txt "SUBCASE", [txt "SPC=5"]) /\
  selections erase_end_libstdcxx [(txt "LOAD", txt " 4"); (txt "SOL", txt "101"); (txt "SPC", txt "2")] = Ok [SelLOAD 4; SelSPC 2].
Proof.
  cbv zeta. split; [|split; [vm_compute; reflexivity|split; [|split; vm_compute; reflexivity]]].
  { cbn [sorted]. repeat split; intros k' v' H; cbn in H; intuition; try match goal with E : (_, _) = _ |- _ => injection E as <- <- end; reflexivity. }
  apply sl_skip; [left; reflexivity|]. apply (sl_cmd _ _ (txt "spc") (txt "2")).
  - split; [discriminate|]. intros c Hc. cbn in Hc. intuition (subst; try reflexivity; cbn in *; intuition discriminate).
  - split; [discriminate|]. intros c Hc. cbn in Hc. intuition (subst; try reflexivity; cbn in *; intuition discriminate).
  - unfold reserved. cbn. intuition discriminate.
  - apply (cl (txt "spc") (txt "2") (txt "  ") (txt " = ") (txt "  ")); try reflexivity; [discriminate|]. cbn. intuition.
  - apply sl_end.
Qed.
Print Assumptions C59_subcase_inherits.
Print Assumptions C59_selected_sets_partial.
Print Assumptions C59_spcforces_refuted.
Print Assumptions C59_options_not_superseded_refuted.

(** ** C60: choice of the analysis *)

Definition contains_text (p l : str) : Prop := exists a b, l = a ++ p ++ b.
Lemma has_prefix_begins p l : has_prefix p l = true <-> begins p l.
Proof. apply (compare0_begins (length p)). reflexivity. Qed.
Lemma has_infix_spec p l : has_infix p l = true <-> contains_text p l.
Proof.
  unfold contains_text. induction l as [|c l IH]; cbn [has_infix].
  - rewrite orb_false_r, has_prefix_begins. split.
    + intros [r E]. exists [], r. exact E.
    + intros (a & b & E). destruct a; [exists b; exact E|discriminate E].
  - rewrite orb_true_iff, has_prefix_begins, IH. split.
    + intros [[r E]|(a & b & E)]; [exists [], r; exact E|exists (c :: a), b; cbn; now f_equal].
    + intros ([|d a] & b & E); [left; exists b; exact E|right; exists a, b; now injection E].
Qed.

Lemma find_unique (c : context) p k v : In (k, v) c -> sorted c -> (forall k', In k' (map fst c) -> has_infix p k' = true -> k' = k) -> has_infix p k = true ->
  find (fun e : str * str => has_infix p (fst e)) c = Some (k, v).
Proof.
  intros Hin Hs Hu Hp. apply sorted_in in Hin; [|exact Hs]. clear Hs. induction c as [|[k0 v0] r IH]; [discriminate|]. cbn [find fst cfind] in *.
  destruct (has_infix p k0) eqn:E.
  - assert (k0 = k) as <- by (apply Hu; [cbn; auto|exact E]). rewrite str_eqb_refl in Hin. now injection Hin as ->.
  - destruct (str_eqb_spec k k0) as [->|N]; [congruence|]. apply IH; [exact Hin|]. intros k' Hk'. apply Hu. cbn. auto.
Qed.

(** A normal modes solution uses the method asked for, when one command only
    has METHOD in its name. *)
Theorem C60_modes_partial : forall c previous known v n,
  sorted c -> cfind c (txt "SOL") = Some v -> In (trim v) [txt "3"; txt "103"; txt "MODES"; txt "SEMODES"] ->
  (0 <= n < 2 ^ 31 - 1)%Z -> In (txt "METHOD", int_text n) c -> (forall k, In k (map fst c) -> contains_text (txt "METHOD") k -> k = txt "METHOD") ->
  choose_analysis c previous known = Ok (Some (LinearModal n)).
Proof.
  intros c previous known v n Hs Hv Hl Hn Hin Hu. unfold choose_analysis. rewrite Hv.
  assert (null (trim v) = false /\ label_find (trim v) = Some MODES) as [-> ->].
  { cbn [In] in Hl. destruct Hl as [E|[E|[E|[E|[]]]]]; rewrite <- E; split; reflexivity. }
  cbn [nastran_analysis_eqb]. unfold make_analysis, first_containing. rewrite (find_unique c (txt "METHOD") (txt "METHOD") (int_text n) Hin Hs).
  - cbn [snd]. rewrite stoi_text by (unfold INT_MAX32; lia). reflexivity.
  - intros k' Hk' X. apply Hu; [exact Hk'|]. now apply has_infix_spec.
  - apply has_infix_spec. exists [], []. reflexivity.
Qed.

(** A complex modes solution with METHOD = m and CMETHOD = cm uses cm for both:
    whatever the other commands, the search for METHOD finds CMETHOD first.  The
    real modes are computed with the wrong method. *)
Theorem C60_complex_method_refuted : forall c previous known v m cm,
  sorted c -> cfind c (txt "SOL") = Some v -> In (trim v) [txt "110"; txt "SEMCEIG"] ->
  (0 <= cm < 2 ^ 31 - 1)%Z -> In (txt "METHOD", int_text m) c -> In (txt "CMETHOD", int_text cm) c ->
  (forall k, In k (map fst c) -> contains_text (txt "METHOD") k -> k = txt "METHOD" \/ k = txt "CMETHOD") ->
  choose_analysis c previous known = Ok (Some (LinearModalComplex cm cm)).
Proof.
  intros c previous known v m cm Hs Hv Hl Hn Hm Hcm Hu. unfold choose_analysis. rewrite Hv.
  assert (null (trim v) = false /\ label_find (trim v) = Some MCEIG) as [-> ->].
  { cbn [In] in Hl. destruct Hl as [E|[E|[]]]; rewrite <- E; split; reflexivity. }
  cbn [nastran_analysis_eqb]. unfold make_analysis, first_containing.
  assert (E1 : find (fun e : str * str => has_infix (txt "METHOD") (fst e)) c = Some (txt "CMETHOD", int_text cm)).
  { apply sorted_in in Hcm; [|exact Hs]. clear Hm Hv. induction c as [|[k0 v0] r IH]; [discriminate|]. cbn [find fst cfind sorted] in *. destruct Hs as [Hs1 Hs2].
    destruct (has_infix (txt "METHOD") k0) eqn:E.
    - destruct (str_eqb_spec (txt "CMETHOD") k0) as [<-|N]; [now injection Hcm as ->|]. exfalso.
      destruct (Hu k0) as [->| ->]; [cbn; auto|now apply has_infix_spec| |congruence].
      apply sorted_in in Hcm; [|exact Hs2]. specialize (Hs1 _ _ Hcm). discriminate Hs1.
    - destruct (str_eqb_spec (txt "CMETHOD") k0) as [<-|N]; [discriminate E|]. apply IH; try assumption. intros k Hk; apply Hu; cbn; auto. }
  assert (E2 : find (fun e : str * str => has_infix (txt "CMETHOD") (fst e)) c = Some (txt "CMETHOD", int_text cm)).
  { apply find_unique; [exact Hcm|exact Hs| |reflexivity]. intros k Hk X. apply has_infix_spec in X as (a & b & ->).
    destruct (Hu (a ++ txt "CMETHOD" ++ b)) as [X|X]; [exact Hk|exists (a ++ txt "C"), b; now rewrite <- app_assoc| |exact X]. exfalso.
    apply (f_equal (@length ascii)) in X. rewrite !app_length in X. cbn in X. lia. }
  rewrite E1. cbn [snd]. rewrite stoi_text by (unfold INT_MAX32; lia). cbn [bind]. rewrite E2. cbn [snd]. rewrite stoi_text by (unfold INT_MAX32; lia). reflexivity.
Qed.
(** And a missing METHOD is not reported. *)
Theorem C60_missing_method_refuted : exists c, sorted c /\ cfind c (txt "SOL") = Some (txt "110") /\ cfind c (txt "METHOD") = None /\
  forall previous known, choose_analysis c previous known = Ok (Some (LinearModalComplex 20 20)).
Proof.
  exists [(txt "CMETHOD", txt "20"); (txt "SOL", txt "110")]. split; [|repeat split; vm_compute; reflexivity].
  cbn [sorted]. repeat split; intros k' v' H; cbn in H; intuition; match goal with E : (_, _) = _ |- _ => injection E as <- <- end; reflexivity.
Qed.

(** The solution named in lower case, or separated by a tabulation, is not
    understood: an error for the first, undefined behaviour for the second. *)
Theorem C60_lower_case_refuted : exists toks c, nextCaseLine [txt "sol sestatic"] = Some (txt "sol sestatic", toks, []) /\
  exec_command [] (txt "sol sestatic") toks = Ok c /\ forall previous known, choose_analysis c previous known = Throw.
Proof.
  exists [txt "sol"; txt "sestatic"], [(txt "SOL", txt "sestatic")]. repeat split; vm_compute; reflexivity.
Qed.
Theorem C60_tabulation_refuted : forall v c, token v ->
  exists toks, nextCaseLine [txt "SOL" ++ tab :: v] = Some (txt "SOL" ++ tab :: v, toks, []) /\ exec_command c (txt "SOL" ++ tab :: v) toks = UB.
Proof.
  intros v c Hv. exists [txt "SOL"; v].
  assert (Hk : token (txt "SOL")).
  { split; [discriminate|]. intros x Hx. cbn in Hx. intuition (subst; try reflexivity; cbn in *; intuition discriminate). }
  destruct (token_free v Hv) as (Dv & Sv & Xv & Nv). destruct (token_free _ Hk) as (Dk & Sk & Xk & Nk).
  change (txt "SOL" ++ tab :: v) with (txt "SOL" ++ [tab] ++ v).
  assert (T : trim (txt "SOL" ++ [tab] ++ v) = txt "SOL" ++ [tab] ++ v).
  { destruct (exists_last Nv) as (p & d & ->). change (txt "SOL" ++ [tab] ++ p ++ [d]) with ("S"%char :: (txt "OL" ++ [tab] ++ p) ++ [d]). apply trim_ends; [reflexivity|].
    apply free_in with (c := d) in Sv; [exact Sv|]. apply in_app_iff. right. now left. }
  split.
  - cbn [app]. pose proof (next_padded [] (txt "SOL" ++ [tab] ++ v) [] []) as X. cbn [app] in X. rewrite app_nil_r in X. rewrite X; try reflexivity.
    + pose proof (split_compress_word case_delim (txt "SOL") [tab] v Dk) as Y. cbn [app] in Y. rewrite Y; [now rewrite split_compress_free|discriminate|reflexivity|].
      destruct v; [congruence|]. apply free_in with (c := a) in Dv; [exact Dv|now left].
    + exact T.
    + discriminate.
    + apply contains_false. apply contains_false in Xv. intros Z. cbn in Z. intuition discriminate.
  - unfold exec_command. cbn [null].
    rewrite split_compress_free.
    + rewrite split_compress_free; [reflexivity|]. apply free_in. intros x Hx. destruct (Ascii.eqb_spec x " "); [|cbn; rewrite (proj2 (Ascii.eqb_neq x " ")); auto]. subst x.
      exfalso. cbn in Hx. destruct Hx as [X|[X|[X|[X|X]]]]; try discriminate X. apply free_in with (c := " "%char) in Sv; [discriminate Sv|exact X].
    + apply free_in. intros x Hx. destruct (Ascii.eqb_spec x "="); [|cbn; rewrite (proj2 (Ascii.eqb_neq x "=")); auto]. subst x.
      exfalso. cbn in Hx. destruct Hx as [X|[X|[X|[X|X]]]]; try discriminate X. apply free_in with (c := "="%char) in Dv; [discriminate Dv|exact X].
Qed.
Example C60_case :
  let c := [(txt "CMETHOD", txt "20"); (txt "METHOD", txt "10"); (txt "SOL", txt "110")] in
  sorted c /\ choose_analysis c false (fun _ => false) = Ok (Some (LinearModalComplex 20 20)) /\
  choose_analysis [(txt "METHOD", txt "10"); (txt "SOL", txt "103")] false (fun _ => false) = Ok (Some (LinearModal 10)) /\
  token (txt "101").
Proof.
  cbv zeta. split; [|split; [vm_compute; reflexivity|split; [vm_compute; reflexivity|]]].
  - cbn [sorted]. repeat split; intros k' v' H; cbn in H; intuition; try match goal with E : (_, _) = _ |- _ => injection E as <- <- end; reflexivity.
  - split; [discriminate|]. intros c Hc. cbn in Hc. intuition (subst; try reflexivity; cbn in *; intuition discriminate).
Qed.
Print Assumptions C60_modes_partial.
Print Assumptions C60_complex_method_refuted.
Print Assumptions C60_missing_method_refuted.
Print Assumptions C60_lower_case_refuted.
Print Assumptions C60_tabulation_refuted.

(** The other solutions.  A number is asked for by one command only of those whose
    name satisfies [q]; or by none. *)
Definition only (q : str -> Prop) (c : context) (n : Z) : Prop :=
  (0 <= n < 2 ^ 31 - 1)%Z /\ exists k, In (k, int_text n) c /\ q k /\ forall k', In k' (map fst c) -> q k' -> k' = k.
Definition none (q : str -> Prop) (c : context) : Prop := forall k, In k (map fst c) -> ~ q k.

Lemma last_none q b c : none q c -> (forall k, b k = true <-> q k) -> last_matching b c = Ok 0%Z.
Proof.
  intros H B. unfold last_matching. generalize 0%Z. induction c as [|[k v] c IH]; intros z; [reflexivity|]. cbn [foldM fst snd].
  destruct (b k) eqn:E; [exfalso; apply (H k); [now left|now apply B]|]. cbn [bind]. apply IH. intros k' Hk. apply H. now right.
Qed.
Lemma last_only q b c n : sorted c -> only q c n -> (forall k, b k = true <-> q k) -> last_matching b c = Ok n.
Proof.
  intros Hs (Hn & k & Hin & Hk & Hu) B. unfold last_matching. generalize 0%Z. induction c as [|[k0 v0] c IH]; intros z; [destruct Hin|]. cbn [foldM fst snd].
  cbn [sorted] in Hs. destruct Hs as [Hs1 Hs2]. destruct Hin as [E|Hin].
  - injection E as -> ->. rewrite (proj2 (B k) Hk). rewrite stoi_text by (unfold INT_MAX32; lia). cbn [bind].
    assert (N : forall k', In k' (map fst c) -> ~ q k').
    { intros k' Hk' Q. assert (k' = k) as -> by (apply Hu; [now right|exact Q]). apply in_map_iff in Hk' as ([k1 v1] & <- & I). cbn [fst] in *. specialize (Hs1 _ _ I).
      rewrite str_ltb_irrefl in Hs1. discriminate. }
    clear -N B. revert N. generalize n. induction c as [|[k1 v1] c IH]; intros z N; [reflexivity|]. cbn [foldM fst snd].
    destruct (b k1) eqn:E; [exfalso; apply (N k1); [now left|now apply B]|]. cbn [bind]. apply IH. intros k' H. apply N. now right.
  - assert (b k0 = false) as ->.
    { destruct (b k0) eqn:E; [|reflexivity]. apply B in E. assert (k0 = k) as -> by (apply Hu; [now left|exact E]). specialize (Hs1 _ _ Hin). rewrite str_ltb_irrefl in Hs1. discriminate. }
    cbn [bind]. apply IH; [exact Hs2|exact Hin|]. intros k' H. apply Hu. now right.
Qed.

(** The solution asked for: by SOL, or by ANALYSIS in an optimisation. *)
Definition asked (c : context) (labels : list string) : Prop :=
  exists v, cfind c (txt "SOL") = Some v /\
    (In (trim v) (map txt labels) \/
     (In (trim v) [txt "200"; txt "DESOPT"] /\ exists a, cfind c (txt "ANALYSIS") = Some a /\ In (trim a) (map txt labels))).
Lemma asked_type c labels t previous known : asked c labels -> Forall (fun l => label_find (txt l) = Some t) labels -> t <> DESOPT ->
  choose_analysis c previous known = make_analysis t c previous known.
Proof.
  intros (v & Ev & H) F Nt. rewrite Forall_forall in F. unfold choose_analysis. rewrite Ev.
  assert (G : forall l, In l (map txt labels) -> label_find l = Some t) by (intros l Hl; apply in_map_iff in Hl as (x & <- & Hx); auto).
  assert (Nn : forall l, label_find l <> None -> null l = false) by (intros [|x l] Hl; [destruct Hl; reflexivity|reflexivity]).
  destruct H as [H|(H & a & Ea & Ha)].
  - rewrite (Nn (trim v)) by (rewrite (G _ H); discriminate). rewrite (G _ H). destruct t; try reflexivity. congruence.
  - assert (label_find (trim v) = Some DESOPT) as L by (cbn [In] in H; destruct H as [E|[E|[]]]; rewrite <- E; reflexivity).
    rewrite (Nn (trim v)) by (rewrite L; discriminate). rewrite L, Ea, (G _ Ha). reflexivity.
Qed.
Ltac labels := repeat apply Forall_cons; try apply Forall_nil; try reflexivity.

Theorem C60_static : forall c previous known,
  asked c ["1"; "101"; "1,1"; "STATIC"; "STATICS"; "SESTATIC"; "SESTATICS"]%string ->
  choose_analysis c previous known = Ok (Some LinearMecaStat).
Proof. intros c previous known H. rewrite (asked_type _ _ STATIC _ _ H); [reflexivity|labels|discriminate]. Qed.
Theorem C60_nonlinear : forall c previous known, asked c ["6"; "106"; "NLSTATIC"]%string ->
  (forall n, (0 <= n < 2 ^ 31 - 1)%Z -> cfind c (txt "NLPARM") = Some (int_text n) ->
     choose_analysis c previous known = Ok (Some (NonLinearMecaStat n))) /\
  (cfind c (txt "NLPARM") = None -> choose_analysis c previous known = Throw).
Proof.
  intros c previous known H. rewrite (asked_type _ _ NLSTATIC _ _ H); [|labels|discriminate]. cbn [make_analysis]. split.
  - intros n Hn ->. rewrite stoi_text by (unfold INT_MAX32; lia). reflexivity.
  - now intros ->.
Qed.
Theorem C60_frequency : forall c previous known, sorted c -> asked c ["108"; "SEDFREQ"]%string ->
  (forall n, n <> 0%Z -> only (begins (txt "FREQ")) c n -> choose_analysis c previous known = Ok (Some (LinearDynaDirectFreq n))) /\
  (none (begins (txt "FREQ")) c -> choose_analysis c previous known = Throw).
Proof.
  intros c previous known Hs H. rewrite (asked_type _ _ DFREQ _ _ H); [|labels|discriminate]. cbn [make_analysis]. split.
  - intros n Nz Hn. rewrite (last_only _ _ _ _ Hs Hn (has_prefix_begins _)). cbn [bind]. destruct (Z.eqb_spec n 0); [contradiction|reflexivity].
  - intros Hn. rewrite (last_none _ _ _ Hn (has_prefix_begins _)). reflexivity.
Qed.

(** The modal frequency response: modes, excitation and damping as asked for, no
    damping being number 0; both METHOD and FREQ must be there. *)
Definition given (q : str -> Prop) (c : context) (n : Z) : Prop := (n <> 0%Z /\ only q c n) \/ (n = 0%Z /\ none q c).
Lemma last_given q b c n : sorted c -> given q c n -> (forall k, b k = true <-> q k) -> last_matching b c = Ok n.
Proof. intros Hs [[_ H]|[-> H]] B; [now apply (last_only q)|now apply (last_none q)]. Qed.
Lemma begins_ltb p k k' : begins p k -> ~ begins p k' -> str_ltb k' p = false -> str_ltb k k' = true.
Proof.
  intros [r ->]. revert k'. induction p as [|a p IH]; intros k' N L; [destruct N; now exists k'|]. destruct k' as [|b k']; [discriminate L|].
  cbn [app str_ltb] in *. apply orb_false_iff in L. destruct L as [L1 L2]. apply Nat.ltb_ge in L1.
  destruct (Nat.eqb_spec (nat_of_ascii a) (nat_of_ascii b)) as [D|D].
  - cbn [andb] in *. rewrite D, Nat.eqb_refl in L2. cbn [andb] in L2. rewrite IH; [apply orb_true_r| |exact L2]. intros [q ->]. apply N. exists q. cbn [app]. f_equal.
    rewrite <- (ascii_nat_embedding a), <- (ascii_nat_embedding b). now f_equal.
  - apply orb_true_iff. left. apply Nat.ltb_lt. lia.
Qed.
Lemma begins_not_less p k : begins p k -> str_ltb k p = false.
Proof. intros [r ->]. induction p as [|a p IH]; [now destruct r|]. cbn [app str_ltb]. rewrite Nat.ltb_irrefl, Nat.eqb_refl. exact IH. Qed.
Definition residuals (c : context) (r : bool) : Prop :=
  (exists k v, In (k, v) c /\ begins (txt "RESVEC") k /\ (forall k', In k' (map fst c) -> begins (txt "RESVEC") k' -> k' = k) /\
     (r = true <-> v = txt "YES")) \/ (none (begins (txt "RESVEC")) c /\ r = false).
Lemma residuals_asked c r : sorted c -> residuals c r ->
  match lower_bound (txt "RESVEC") c with Some (k, v) => has_prefix (txt "RESVEC") k && str_eqb v (txt "YES") | None => false end = r.
Proof.
  intros Hs [(k & v & Hin & Hk & Hu & Hr)|[Hn ->]].
  - assert (lower_bound (txt "RESVEC") c = Some (k, v)) as ->.
    { unfold lower_bound. clear Hr. induction c as [|[k0 v0] c IH]; [destruct Hin|]. cbn [find fst]. cbn [sorted] in Hs. destruct Hs as [Hs1 Hs2].
      destruct (str_ltb k0 (txt "RESVEC")) eqn:L; cbn [negb].
      - apply IH; [exact Hs2| |intros k' H; apply Hu; now right]. destruct Hin as [E|Hin]; [|exact Hin]. injection E as -> ->. rewrite (begins_not_less _ _ Hk) in L. discriminate.
      - destruct Hin as [E|Hin]; [now injection E as -> ->|]. exfalso. specialize (Hs1 _ _ Hin).
        destruct (has_prefix (txt "RESVEC") k0) eqn:P.
        + apply has_prefix_begins in P. assert (k0 = k) as -> by (apply Hu; [now left|exact P]). rewrite str_ltb_irrefl in Hs1. discriminate.
        + assert (~ begins (txt "RESVEC") k0) as P' by (intros Q; apply has_prefix_begins in Q; congruence).
          pose proof (str_ltb_trans _ _ _ Hs1 (begins_ltb _ _ _ Hk P' L)) as X. rewrite str_ltb_irrefl in X. discriminate. }
    rewrite (proj2 (has_prefix_begins _ _) Hk). cbn [andb]. destruct (str_eqb_spec v (txt "YES")) as [E|E], r; try reflexivity.
    + destruct Hr as [_ Hr]. symmetry. exact (Hr E).
    + destruct E. now apply Hr.
  - unfold lower_bound. destruct (find _ c) as [[k v]|] eqn:E; [|reflexivity]. apply find_some in E. destruct E as [E _].
    destruct (has_prefix (txt "RESVEC") k) eqn:P; [|reflexivity]. exfalso. apply (Hn k); [apply (in_map fst) in E; exact E|now apply has_prefix_begins].
Qed.
Theorem C60_modal_frequency : forall c previous known m d f r, sorted c -> asked c ["111"; "SEMFREQ"]%string ->
  given (begins (txt "METHOD")) c m -> given (begins (txt "SDAMPING")) c d -> given (begins (txt "FREQ")) c f -> residuals c r ->
  choose_analysis c previous known = if (m =? 0)%Z || (f =? 0)%Z then Throw else Ok (Some (LinearDynaModalFreq m d f r)).
Proof.
  intros c previous known m d f r Hs H Hm Hd Hf Hr. rewrite (asked_type _ _ MFREQ _ _ H); [|labels|discriminate]. cbn [make_analysis].
  rewrite (last_given _ _ _ _ Hs Hm (has_prefix_begins _)). cbn [bind]. rewrite (last_given _ _ _ _ Hs Hd (has_prefix_begins _)). cbn [bind].
  rewrite (last_given _ _ _ _ Hs Hf (has_prefix_begins _)). cbn [bind]. cbv zeta. rewrite (residuals_asked _ _ Hs Hr).
  destruct (f =? 0)%Z, (m =? 0)%Z; reflexivity.
Qed.

(** Buckling: the first subcase is the static one; the others need METHOD, and
    STATSUB, if given, must name a subcase already read. *)
Definition statsub (k : str) : Prop := contains_text (txt "STATSUB") k /\ ~ contains_text (txt "PRELOAD") k.
Theorem C60_buckling : forall c known m s, sorted c -> asked c ["5"; "105"; "BUCKL"; "SEBUCKL"]%string ->
  choose_analysis c false known = Ok (Some LinearMecaStat) /\
  (given (contains_text (txt "METHOD")) c m -> given statsub c s ->
   choose_analysis c true known =
   if (m =? 0)%Z then Throw else if (s =? 0)%Z then Ok (Some (LinearBuckling m None)) else if known s then Ok (Some (LinearBuckling m (Some s))) else Throw).
Proof.
  intros c known m s Hs H. rewrite !(asked_type _ _ BUCKL _ _ H); [|labels|discriminate|labels|discriminate]. split; [reflexivity|]. intros Hm Hst. cbn [make_analysis negb].
  rewrite (last_given _ _ _ _ Hs Hm (has_infix_spec _)). cbn [bind]. rewrite (last_given _ _ _ _ Hs Hst); [reflexivity|].
  intros k. unfold statsub. rewrite andb_true_iff, negb_true_iff, <- !has_infix_spec. destruct (has_infix (txt "PRELOAD") k); intuition congruence.
Qed.

(** An optimisation that does not name its analysis: nonlinear if there is NLPARM,
    complex modes if there is CMETHOD, modal response if METHOD and SDAMPING, modes
    if METHOD alone, static otherwise. *)
Theorem C60_guessed : forall c previous known v, cfind c (txt "SOL") = Some v -> In (trim v) [txt "200"; txt "DESOPT"] ->
  (cfind c (txt "ANALYSIS") = None \/ exists a, cfind c (txt "ANALYSIS") = Some a /\ trim a = []) ->
  let has p := exists k, In k (map fst c) /\ contains_text (txt p) k in
  exists t, choose_analysis c previous known = make_analysis t c previous known /\
    (t = NLSTATIC <-> has "NLPARM"%string) /\
    (t = MCEIG <-> ~ has "NLPARM"%string /\ has "CMETHOD"%string) /\
    (t = MFREQ <-> ~ has "NLPARM"%string /\ ~ has "CMETHOD"%string /\ has "METHOD"%string /\ has "SDAMPING"%string) /\
    (t = MODES <-> ~ has "NLPARM"%string /\ ~ has "CMETHOD"%string /\ has "METHOD"%string /\ ~ has "SDAMPING"%string) /\
    (t = STATIC <-> ~ has "NLPARM"%string /\ ~ has "CMETHOD"%string /\ ~ has "METHOD"%string).
Proof.
  intros c previous known v Ev Hv Ha has. exists (autoSubcaseAnalysis c). split.
  - unfold choose_analysis. rewrite Ev.
    assert (null (trim v) = false /\ label_find (trim v) = Some DESOPT) as [-> ->] by (cbn [In] in Hv; destruct Hv as [E|[E|[]]]; rewrite <- E; split; reflexivity).
    destruct Ha as [-> |(a & -> & Ea)]; [reflexivity|]. rewrite Ea. reflexivity.
  - assert (M : forall p, mentions p c = true <-> has p).
    { intros p. unfold mentions, has. rewrite existsb_exists. split.
      - intros ([k w] & I & P). exists k. split; [apply (in_map fst) in I; exact I|now apply has_infix_spec].
      - intros (k & I & P). apply in_map_iff in I as ([k1 w] & <- & I). exists (k1, w). split; [exact I|now apply has_infix_spec]. }
    unfold autoSubcaseAnalysis. rewrite <- !M. destruct (mentions "NLPARM" c), (mentions "CMETHOD" c), (mentions "METHOD" c), (mentions "SDAMPING" c); intuition congruence.
Qed.
Example C60_other_cases :
  let c1 := [(txt "FREQUENCY", txt "4"); (txt "METHOD", txt "10"); (txt "RESVEC", txt "YES"); (txt "SOL", txt "111")] in
  let c2 := [(txt "METHOD", txt "10"); (txt "SOL", txt "105"); (txt "STATSUB", txt "1")] in
  let c3 := [(txt "METHOD", txt "10"); (txt "SDAMPING", txt "3"); (txt "SOL", txt "200")] in
  sorted c1 /\ residuals c1 true /\ choose_analysis c1 false (fun _ => false) = Ok (Some (LinearDynaModalFreq 10 0 4 true)) /\
  given statsub c2 1 /\ choose_analysis c2 true (Z.eqb 1) = Ok (Some (LinearBuckling 10 (Some 1%Z))) /\
  choose_analysis c3 true (Z.eqb 1) = Throw /\ autoSubcaseAnalysis c3 = MFREQ /\ asked c2 ["5"; "105"; "BUCKL"; "SEBUCKL"]%string.
Proof.
  cbv zeta. split; [|split; [|split; [vm_compute; reflexivity|split; [|split; [vm_compute; reflexivity|split; [vm_compute; reflexivity|split; [vm_compute; reflexivity|]]]]]]].
  - cbn [sorted]. repeat split; intros k' v' H; cbn in H; intuition; try match goal with E : (_, _) = _ |- _ => injection E as <- <- end; reflexivity.
  - left. exists (txt "RESVEC"), (txt "YES"). split; [cbn; auto|]. split; [exists []; reflexivity|]. split; [|split; reflexivity].
    intros k' H P. apply has_prefix_begins in P. cbn [map fst In] in H. destruct H as [<-|[<-|[<-|[<-|[]]]]]; try reflexivity; discriminate P.
  - left. split; [discriminate|]. split; [lia|]. exists (txt "STATSUB"). split; [cbn; auto|]. split.
    + split; [exists [], []; reflexivity|]. intros P. apply has_infix_spec in P. discriminate P.
    + intros k' H [P _]. apply has_infix_spec in P. cbn [map fst In] in H. destruct H as [<-|[<-|[<-|[]]]]; try reflexivity; discriminate P.
  - exists (txt "105"). split; [reflexivity|]. left. cbn. auto.
Qed.
Print Assumptions C60_static.
Print Assumptions C60_nonlinear.
Print Assumptions C60_frequency.
Print Assumptions C60_modal_frequency.
Print Assumptions C60_buckling.
Print Assumptions C60_guessed.
