(** Properties C27, C28, C56, C57, C58: constraint and mass cards. *)
From Coq Require Import Ascii String ZArith List Bool Arith Lia.
From Verif Require Import Base DofModel DofProofs TextModel TextProofs TokenizerModel NextIntsProofs RealModel WriterLineModel WriterLineProofs PropertiesTokenizer PropertiesWriterLine CardModel CardProofs.
Import ListNotations.
Open Scope nat_scope.
Open Scope list_scope.

(** The tokenizer in front of the first field after the keyword. *)
Definition after_keyword (fields : list str) : cursor := at_pos fields 1.
(** A node identifier or any number that fits a field. *)
Definition short_number (n : Z) : Prop := (0 <= n < 10 ^ 8)%Z.
(** The text of a coefficient and its value; written reals contain a point (C24). *)
Definition real_field (t : str) (v : decimal) : Prop :=
  field_value t /\ real_of_field t = Ok v /\ In "."%char t.
Lemma real_field_notint t v : real_field t v -> (exists c, In c (trim t) /\ (Ascii.eqb c "-" || is_digit c) = false) \/ trim t = [].
Proof.
  intros ((_ & Ht & _) & _ & Hp). left. exists "."%char. apply trimmed_trim in Ht. rewrite Ht. split; [exact Hp|reflexivity].
Qed.

(** ** C27: multiple point constraints *)

(** A term of the equation: node, DOF, coefficient with its text. *)
Record mpc_term := mkTerm { tnode : Z; tdof : dof; ttext : str; tvalue : decimal }.
Definition good_term (t : mpc_term) : Prop := short_number (tnode t) /\ real_field (ttext t) (tvalue t).
Definition to_write (t : mpc_term) : term := (tnode t, tdof t, ttext t).
Definition read_term (t : mpc_term) (p : participation) : Prop :=
  pnode p = tnode t /\ pcoef p = tvalue t /\ is_set (pdofs p) /\ forall d, member d (pdofs p) <-> d = tdof t.

(** The layout of the Nastran manual: two terms per line, the last field of a
    line and the first of the next one blank. *)
Definition term_fields (t : mpc_term) : list str := [int_text (tnode t); int_text (nastran_digit (tdof t)); ttext t].
Fixpoint manual_layout (second : bool) (ts : list mpc_term) : list str :=
  match ts with
  | [] => []
  | t :: r => term_fields t ++ (if second then match r with [] => [] | _ => [[]; []] end else []) ++ manual_layout (negb second) r
  end.

Definition to_part (t : mpc_term) : participation := mkPart (tnode t) (dof_code (tdof t)) (tvalue t).
Lemma to_part_read ts : Forall2 read_term ts (map to_part ts).
Proof.
  induction ts as [|t ts IH]; cbn; constructor; [|exact IH]. split; [reflexivity|]. split; [reflexivity|]. split; [apply code_set|].
  intros d. apply member_code.
Qed.

Lemma mpc_step fuel i vec p t r : good_term t -> skipn p vec = term_fields t ++ r ->
  skipn (p + 3) vec = r /\
  mpc_loop (S fuel) i (at_pos vec p) =
   (do it <- (if ((i + 3) mod 8 =? 0) && negb (forallb (fun f => null (trim f)) r)
                then do t <- skip 2 (at_pos vec (p + 3)); Ok (i + 3 + 2, t) else Ok (i + 3, at_pos vec (p + 3)));
    let '(i, u) := it in do x <- mpc_loop fuel i u; let '(l, u) := x in Ok (to_part t :: l, u)).
Proof.
  intros (Hn & Hf & Hr & Hp) H. unfold term_fields in H. cbn [app] in H.
  destruct (nonneg_int _ Hn) as [Hi _]. destruct (digit_int (tdof t)) as [Hd _].
  pose proof (s_next _ _ _ _ H) as H1. pose proof (s_next _ _ _ _ H1) as H2. pose proof (s_next _ _ _ _ H2) as H3.
  replace (p + 3) with (S (S (S p))) by lia. split; [exact H3|].
  cbn [mpc_loop]. rewrite (s_isint _ _ _ _ H _ Hi). cbn [bind]. rewrite (s_int _ _ _ _ H _ Hi). cbn [bind].
  rewrite (s_int _ _ _ _ H1 _ Hd). cbn [bind]. rewrite (s_double _ _ _ _ H2 _ Hr). cbn [bind].
  rewrite dof_digit_code. cbn [bind]. rewrite s_empty, H3. reflexivity.
Qed.
Lemma int_nonblank n : short_number n -> null (trim (int_text n)) = false.
Proof. intros H. apply (int_field_lex _ _ (proj1 (nonneg_int n H))). Qed.

Lemma mpc_layout_read vec k : forall ts (second : bool) i p fuel, Forall good_term ts ->
  skipn p vec = manual_layout second ts ++ repeat [] k ->
  i mod 8 = (if second then 5 else 2) -> length ts < fuel ->
  exists u, mpc_loop fuel i (at_pos vec p) = Ok (map to_part ts, u).
Proof.
  induction ts as [|t ts IH]; intros second i p fuel Hg H Hi Hfuel; (destruct fuel as [|fuel]; [cbn in Hfuel; lia|]).
  - cbn [manual_layout app] in H. cbn [mpc_loop map]. destruct k as [|k]; cbn [repeat] in H.
    + rewrite s_end_isint by exact H. eexists. reflexivity.
    + rewrite (s_notint _ _ _ _ H); [eexists; reflexivity|now right].
  - inversion Hg as [|? ? Ht Hts]; subst. cbn [manual_layout] in H. rewrite <- !app_assoc in H.
    destruct (mpc_step fuel i vec p t _ Ht H) as [H3 ->].
    assert (Hmod : (i + 3) mod 8 = if second then 0 else 5).
    { rewrite Nat.add_mod, Hi by lia. destruct second; reflexivity. }
    rewrite Hmod. cbn [map length] in *. destruct second; cbn [Nat.eqb andb] in *.
    + destruct ts as [|t2 ts].
      * cbn [app manual_layout negb] in *.
        assert (forallb (fun f : str => null (trim f)) (repeat [] k) = true) as -> by (apply forallb_forall; intros x Hx; apply repeat_spec in Hx; now subst x).
        cbn [negb bind]. destruct fuel as [|fuel]; [lia|]. cbn [mpc_loop]. destruct k as [|k]; cbn [repeat] in H3.
        -- rewrite s_end_isint by exact H3. eexists. reflexivity.
        -- rewrite (s_notint _ _ _ _ H3); [eexists; reflexivity|now right].
      * cbn [app] in H3 |- *. inversion Hts as [|? ? Ht2 _]; subst.
        match goal with |- context [forallb ?q ?l] => assert (forallb q l = false) as -> end.
        { cbn [forallb manual_layout term_fields app]. rewrite (int_nonblank _ (proj1 Ht2)). reflexivity. }
        cbn [negb]. destruct (s_skip2 _ _ _ _ _ H3) as [-> H5]. cbn [bind].
        destruct (IH false (i + 3 + 2) (p + 3 + 2) fuel Hts H5) as [u E]; [|lia|].
        { rewrite Nat.add_mod, Hmod by lia. reflexivity. }
        rewrite E. cbn [bind]. eexists. reflexivity.
    + cbn [app bind] in *. destruct (IH true (i + 3) (p + 3) fuel Hts H3 Hmod) as [u E]; [lia|]. rewrite E. cbn [bind]. eexists. reflexivity.
Qed.

Lemma layout_length second ts : length ts <= length (manual_layout second ts).
Proof.
  revert second. induction ts as [|t ts IH]; intros second; cbn [manual_layout]; [cbn; lia|]. rewrite app_length.
  specialize (IH (negb second)). rewrite app_length. cbn [length]. unfold term_fields. cbn [length]. unfold str in *. lia.
Qed.

(** Reading: every equation written as the manual says, of any number of terms,
    is read term by term, whatever blank fields end the card. *)
Theorem C27_manual_layout_read : forall set_id ts k,
  short_number set_id -> Forall good_term ts ->
  exists ps, parseMPC (after_keyword (txt "MPC" :: int_text set_id :: manual_layout false ts ++ repeat [] k)) = Ok (set_id, ps) /\
    Forall2 read_term ts ps.
Proof.
  intros set_id ts k Hs Hg. exists (map to_part ts). split; [|apply to_part_read].
  set (vec := txt "MPC" :: int_text set_id :: manual_layout false ts ++ repeat [] k).
  assert (H1 : skipn 1 vec = int_text set_id :: manual_layout false ts ++ repeat [] k) by reflexivity.
  unfold parseMPC, after_keyword. rewrite (s_int _ _ _ _ H1 _ (proj1 (nonneg_int _ Hs))). cbn [bind].
  destruct (mpc_layout_read vec k ts false 2 2 (S (length vec))) as [u E]; [exact Hg|reflexivity|reflexivity| |].
  - unfold vec. cbn [length]. rewrite app_length. pose proof (layout_length false ts). lia.
  - change (cvec (at_pos vec 2)) with vec. rewrite E. reflexivity.
Qed.

Lemma mpc_fields_values ts : Forall good_term ts -> forall n, Forall field_value (mpc_fields n (map to_write ts)).
Proof.
  induction 1 as [|t ts Ht Hts IH]; intros n; cbn [map mpc_fields to_write]; [constructor|].
  apply Forall_app. split; [destruct (n mod 8 =? 0); repeat constructor; apply blank_value|].
  apply Forall_app. split; [|apply IH]. destruct Ht as (Hn & Hf & _).
  constructor; [apply (nonneg_int _ Hn)|]. constructor; [apply digit_int|]. constructor; [exact Hf|constructor].
Qed.
Lemma mpc_fields_length ts : forall n, length (mpc_fields n (map to_write ts)) <= 5 * length ts.
Proof.
  induction ts as [|t ts IH]; intros n; cbn [map mpc_fields to_write length]; [lia|].
  rewrite !app_length. specialize (IH (n + 3)). destruct (n mod 8 =? 0); cbn [length] in *; lia.
Qed.
Lemma mpc_keyword : keyword (txt "MPC").
Proof.
  split; [discriminate|]. split; [|split; [|split]]; [|cbn; intuition discriminate..|discriminate].
  split; [cbn; lia|]. split; [apply trimmed_trim; reflexivity|]. split; cbn; intuition discriminate.
Qed.

(** The card of an equation through the writer's line breaking and the reader's
    splitting. *)
Lemma mpc_lines set_id ts counter rest : short_number set_id -> Forall good_term ts ->
  (0 <= counter)%Z -> (counter + 1 + 5 * Z.of_nat (length ts) < 10 ^ 7)%Z -> next_card rest ->
  nextLine (fst (write_card (txt "MPC") (write_mpc set_id (map to_write ts)) counter) ++ rest) =
    Ok (Some (txt "MPC" :: write_mpc set_id (map to_write ts), rest)).
Proof.
  intros Hs Hg Hc Hc2 Hr.
  pose proof (C23_card_roundtrip (txt "MPC") (write_mpc set_id (map to_write ts)) counter rest mpc_keyword) as R.
  pose proof (mpc_fields_length ts 2) as L.
  destruct (write_card _ _ _) as [ls c]. apply R; [|exact Hc| |exact Hr].
  - constructor; [apply (nonneg_int _ Hs)|]. now apply mpc_fields_values.
  - unfold write_mpc. cbn [length]. lia.
Qed.

(** Writing then reading an equation of at most four terms. *)
Theorem C27_roundtrip_partial : forall set_id ts counter rest,
  short_number set_id -> Forall good_term ts -> length ts <= 4 ->
  (0 <= counter)%Z -> (counter + 1 + 5 * Z.of_nat (length ts) < 10 ^ 7)%Z -> next_card rest ->
  exists fields ps,
    nextLine (fst (write_card (txt "MPC") (write_mpc set_id (map to_write ts)) counter) ++ rest) = Ok (Some (fields, rest)) /\
    parseMPC (after_keyword fields) = Ok (set_id, ps) /\ Forall2 read_term ts ps.
Proof.
  intros set_id ts counter rest Hs Hg Hl Hc Hc2 Hr. eexists. 
  destruct (C27_manual_layout_read set_id ts 0 Hs Hg) as (ps & E & R). exists ps.
  split; [apply mpc_lines; assumption|]. split; [|exact R]. rewrite <- E. f_equal. f_equal. f_equal. unfold write_mpc. f_equal.
  cbn [repeat]. rewrite app_nil_r.
  destruct ts as [|a [|b [|c [|d [|e ts]]]]]; try reflexivity. cbn [length] in Hl. lia.
Qed.

(** Any equation of five terms or more: the card written is read back as an
    equation with the first four terms only.  (The fields left over make the
    section loop, NastranParser.cpp:557-559, report an error: in strict mode
    reading stops there; otherwise the shortened equation stays in the model.) *)
Theorem C27_longer_equations_refuted : forall set_id ts counter rest,
  short_number set_id -> Forall good_term ts -> 4 < length ts ->
  (0 <= counter)%Z -> (counter + 1 + 5 * Z.of_nat (length ts) < 10 ^ 7)%Z -> next_card rest ->
  exists fields ps,
    nextLine (fst (write_card (txt "MPC") (write_mpc set_id (map to_write ts)) counter) ++ rest) = Ok (Some (fields, rest)) /\
    parseMPC (after_keyword fields) = Ok (set_id, ps) /\ Forall2 read_term (firstn 4 ts) ps /\ ~ Forall2 read_term ts ps.
Proof.
  intros set_id ts counter rest Hs Hg Hl Hc Hc2 Hr. eexists. exists (map to_part (firstn 4 ts)).
  split; [apply mpc_lines; assumption|]. split; [|split; [apply to_part_read|]].
  2:{ intros X. apply F2_length in X. rewrite map_length, firstn_length in X. lia. }
  clear Hc Hc2 Hr. destruct ts as [|t1 [|t2 [|t3 [|t4 [|t5 ts]]]]]; cbn [length] in Hl; try lia. clear Hl.
  inversion Hg as [|? ? G1 Hg1]; subst. inversion Hg1 as [|? ? G2 Hg2]; subst. inversion Hg2 as [|? ? G3 Hg3]; subst.
  inversion Hg3 as [|? ? G4 Hg4]; subst. inversion Hg4 as [|? ? G5 Hg5]; subst. clear Hg Hg1 Hg2 Hg3 Hg4.
  set (tail := mpc_fields 17 (map to_write ts)).
  set (vec := txt "MPC" :: write_mpc set_id (map to_write (t1 :: t2 :: t3 :: t4 :: t5 :: ts))).
  assert (Hv : vec = txt "MPC" :: int_text set_id :: term_fields t1 ++ term_fields t2 ++ [] :: [] :: term_fields t3 ++ term_fields t4 ++ term_fields t5 ++ tail) by reflexivity.
  clearbody vec tail. unfold parseMPC, after_keyword.
  assert (H1 : skipn 1 vec = int_text set_id :: skipn 2 vec) by (rewrite Hv; reflexivity).
  rewrite (s_int _ _ _ _ H1 _ (proj1 (nonneg_int _ Hs))). cbn [bind].
  change (cvec (at_pos vec 2)) with vec.
  assert (HL : exists n, S (length vec) = S (S (S (S (S n))))).
  { rewrite Hv. cbn [length term_fields app]. eexists. reflexivity. }
  destruct HL as [n ->]. assert (H2 : skipn 2 vec = term_fields t1 ++ term_fields t2 ++ [] :: [] :: term_fields t3 ++ term_fields t4 ++ term_fields t5 ++ tail) by (rewrite Hv; reflexivity).
  destruct (mpc_step (S (S (S (S n)))) 2 vec 2 t1 _ G1 H2) as [H3 ->]. change ((2 + 3) mod 8 =? 0) with false. cbn [andb bind].
  destruct (mpc_step (S (S (S n))) (2 + 3) vec (2 + 3) t2 _ G2 H3) as [H4 ->]. change ((2 + 3 + 3) mod 8 =? 0) with true. cbn [andb bind].
  assert (forallb (fun f : str => null (trim f)) ([] :: [] :: term_fields t3 ++ term_fields t4 ++ term_fields t5 ++ tail) = false) as ->.
  { cbn [forallb app term_fields]. rewrite (int_nonblank _ (proj1 G3)). reflexivity. }
  cbn [negb]. destruct (s_skip2 _ _ _ _ _ H4) as [-> H5]. cbn [bind].
  destruct (mpc_step (S (S n)) (2 + 3 + 3 + 2) vec (2 + 3 + 3 + 2) t3 _ G3 H5) as [H6 ->]. change ((2 + 3 + 3 + 2 + 3) mod 8 =? 0) with false. cbn [andb bind].
  destruct (mpc_step (S n) (2 + 3 + 3 + 2 + 3) vec (2 + 3 + 3 + 2 + 3) t4 _ G4 H6) as [H7 ->]. change ((2 + 3 + 3 + 2 + 3 + 3) mod 8 =? 0) with true. cbn [andb bind].
  assert (forallb (fun f : str => null (trim f)) (term_fields t5 ++ tail) = false) as ->.
  { cbn [forallb app term_fields]. rewrite (int_nonblank _ (proj1 G5)). reflexivity. }
  cbn [negb]. unfold term_fields in H7. cbn [app] in H7. destruct (s_skip2 _ _ _ _ _ H7) as [-> H8]. cbn [bind].
  cbn [mpc_loop]. rewrite (s_notint _ _ _ _ H8 (real_field_notint _ _ (proj2 G5))). reflexivity.
Qed.

Example C27_case :
  let t n d := mkTerm n d (txt "-1.5+0") (-15, -1)%Z in
  let ts := [t 1%Z DX; t 2%Z DY; t 3%Z DZ; t 4%Z RX; t 5%Z RY] in
  Forall good_term ts /\ next_card [txt "ENDDATA"] /\
  fst (write_card (txt "MPC") (write_mpc 7 (map to_write ts)) 0) =
   [txt "MPC            7       1       1  -1.5+0       2       2  -1.5+0        +1";
    txt "+1                     3       3  -1.5+0       4       4  -1.5+0       5+2";
    txt "+2             5  -1.5+0"] /\
  parseMPC (after_keyword (txt "MPC" :: write_mpc 7 (map to_write (firstn 4 ts)))) = Ok (7%Z, map to_part (firstn 4 ts)) /\
  parseMPC (after_keyword (txt "MPC" :: write_mpc 7 (map to_write ts))) = Ok (7%Z, map to_part (firstn 4 ts)) /\
  parseMPC (after_keyword (txt "MPC" :: int_text 7 :: manual_layout false ts ++ repeat [] 3)) = Ok (7%Z, map to_part ts).
Proof.
  cbv zeta. split; [|split; [|vm_compute; repeat split]].
  - assert (R : real_field (txt "-1.5+0") (-15, -1)%Z).
    { split; [|split; [reflexivity|cbn; tauto]]. split; [cbn; lia|]. split; [apply trimmed_trim; reflexivity|]. split; cbn; intuition discriminate. }
    repeat (constructor; [split; [unfold short_number; cbn; lia|exact R]|]). constructor.
  - intros l r c E Hc. injection E as <- <-. cbn in Hc. injection Hc as <-. cbn. intuition discriminate.
Qed.
Print Assumptions C27_manual_layout_read.
Print Assumptions C27_roundtrip_partial.
Print Assumptions C27_longer_equations_refuted.

(** ** C28: CONM1 *)

(** Rank of the entry (r, c) of the lower triangle listed row by row. *)
Definition rank (d : dof) : nat := match d with DX => 0 | DY => 1 | DZ => 2 | RX => 3 | RY => 4 | RZ => 5 end.
Definition triangle_index (r c : dof) : nat :=
  let a := Nat.max (rank r) (rank c) in let b := Nat.min (rank r) (rank c) in a * (a + 1) / 2 + b.

(** Whatever follows on the card, the mass between two DOFs other than RZ is
    the entry of the lower triangle, provided the reals before it are not
    interrupted by a blank field; every other mass is zero. *)
Theorem C28_entries_read_partial : forall kw ide g cid fs vs post eid node ci,
  int_field ide eid -> int_field g node -> (int_field cid ci \/ trim cid = []) ->
  Forall2 double_field fs vs -> (forall f r, post = f :: r -> not_double f) ->
  exists m, parseCONM1 (after_keyword (kw :: ide :: g :: cid :: fs ++ post)) = Ok (eid, node, m) /\
    forall r c, r <> RZ -> c <> RZ -> findComponent (0, 0)%Z m r c = nth (triangle_index r c) vs (0, 0)%Z.
Proof.
  intros kw ide g cid fs vs post eid node ci Hi Hg Hc Hf Hp. exists (conm1_matrix vs). split.
  - unfold parseCONM1, after_keyword. set (vec := kw :: ide :: g :: cid :: fs ++ post).
    assert (H1 : skipn 1 vec = ide :: g :: cid :: fs ++ post) by reflexivity.
    pose proof (s_next _ _ _ _ H1) as H2. pose proof (s_next _ _ _ _ H2) as H3. pose proof (s_next _ _ _ _ H3) as H4.
    rewrite (s_int _ _ _ _ H1 _ Hi). cbn [bind]. rewrite (s_int _ _ _ _ H2 _ Hg). cbn [bind].
    destruct (conm1_rows_spec vec post 4 fs vs Hp H4 Hf) as [u E].
    destruct Hc as [Hc|Hc]; [rewrite (s_intdef _ _ _ _ H3 _ _ Hc)|rewrite (s_intdef_blank _ _ _ _ H3 _ Hc)]; cbn [bind]; rewrite E; reflexivity.
  - clear. intros r c Hr Hc.
    destruct vs as [|v1 [|v2 [|v3 [|v4 [|v5 [|v6 [|v7 [|v8 [|v9 [|v10 [|v11 [|v12 [|v13 [|v14 [|v15 vs]]]]]]]]]]]]]]];
      destruct r, c; try congruence; reflexivity.
Qed.

(** The six masses of the last row are never read. *)
Theorem C28_last_row_refuted : forall kw ide g cid fs vs post eid node ci,
  int_field ide eid -> int_field g node -> int_field cid ci ->
  Forall2 double_field fs vs -> (forall f r, post = f :: r -> not_double f) -> length fs = 21 ->
  exists m, parseCONM1 (after_keyword (kw :: ide :: g :: cid :: fs ++ post)) = Ok (eid, node, m) /\
    forall d, findComponent (0, 0)%Z m RZ d = (0, 0)%Z /\ findComponent (0, 0)%Z m d RZ = (0, 0)%Z.
Proof.
  intros kw ide g cid fs vs post eid node ci Hi Hg Hc Hf Hp Hl. exists (conm1_matrix vs). split.
  - unfold parseCONM1, after_keyword. set (vec := kw :: ide :: g :: cid :: fs ++ post).
    assert (H1 : skipn 1 vec = ide :: g :: cid :: fs ++ post) by reflexivity.
    pose proof (s_next _ _ _ _ H1) as H2. pose proof (s_next _ _ _ _ H2) as H3. pose proof (s_next _ _ _ _ H3) as H4.
    rewrite (s_int _ _ _ _ H1 _ Hi). cbn [bind]. rewrite (s_int _ _ _ _ H2 _ Hg). cbn [bind].
    destruct (conm1_rows_spec vec post 4 fs vs Hp H4 Hf) as [u E].
    rewrite (s_intdef _ _ _ _ H3 _ _ Hc). cbn [bind]. rewrite E. reflexivity.
  - apply F2_length in Hf. rewrite Hl in Hf. clear -Hf. intros d.
    do 15 (destruct vs as [|? vs]; [discriminate|]). destruct d; split; reflexivity.
Qed.

(** A blank entry (zero, in Nastran) discards every entry after it: the result
    does not depend on them. *)
Theorem C28_blank_entry_refuted : forall kw ide g cid fs vs blank post post' eid node ci,
  int_field ide eid -> int_field g node -> int_field cid ci ->
  Forall2 double_field fs vs -> trim blank = [] ->
  parseCONM1 (after_keyword (kw :: ide :: g :: cid :: fs ++ blank :: post)) =
  parseCONM1 (after_keyword (kw :: ide :: g :: cid :: fs ++ blank :: post')).
Proof.
  intros kw ide g cid fs vs blank post post' eid node ci Hi Hg Hc Hf Hb.
  assert (K : forall p, parseCONM1 (after_keyword (kw :: ide :: g :: cid :: fs ++ blank :: p)) = Ok (eid, node, conm1_matrix vs)).
  { intros p. unfold parseCONM1, after_keyword. set (vec := kw :: ide :: g :: cid :: fs ++ blank :: p).
    assert (H1 : skipn 1 vec = ide :: g :: cid :: fs ++ blank :: p) by reflexivity.
    pose proof (s_next _ _ _ _ H1) as H2. pose proof (s_next _ _ _ _ H2) as H3. pose proof (s_next _ _ _ _ H3) as H4.
    rewrite (s_int _ _ _ _ H1 _ Hi). cbn [bind]. rewrite (s_int _ _ _ _ H2 _ Hg). cbn [bind].
    destruct (conm1_rows_spec vec (blank :: p) 4 fs vs) as [u E]; [|exact H4|exact Hf|].
    { intros f r X. injection X as <- <-. now left. }
    rewrite (s_intdef _ _ _ _ H3 _ _ Hc). cbn [bind]. rewrite E. reflexivity. }
  now rewrite !K.
Qed.

(** The written card contains neither the diagonal nor the last row: matrices
    that agree elsewhere give the same card. *)
Theorem C28_written_diagonal_refuted : forall (V : Type) (zero : V) text id node m m',
  (forall r c, r <> c -> r <> RZ -> c <> RZ -> findComponent zero m r c = findComponent zero m' r c) ->
  write_conm1 zero text id node m = write_conm1 zero text id node m'.
Proof.
  intros V zero text id node m m' H. unfold write_conm1. change (upto 5) with [0; 1; 2; 3; 4]%Z. cbn [mapM].
  change (findByPosition 0) with (Ok DX). change (findByPosition 1) with (Ok DY). change (findByPosition 2) with (Ok DZ).
  change (findByPosition 3) with (Ok RX). change (findByPosition 4) with (Ok RY). cbn [bind].
  change (upto 0) with (@nil Z). change (upto 1) with [0]%Z. change (upto 2) with [0; 1]%Z. change (upto 3) with [0; 1; 2]%Z. change (upto 4) with [0; 1; 2; 3]%Z.
  cbn [mapM]. change (findByPosition 0) with (Ok DX). change (findByPosition 1) with (Ok DY). change (findByPosition 2) with (Ok DZ).
  change (findByPosition 3) with (Ok RX). cbn [bind].
  repeat (rewrite (H _ _) by discriminate). reflexivity.
Qed.

Example C28_case :
  let fs := map txt ["1."; "2."; "3."; "4."; "5."; "6.+2"]%string in
  parseCONM1 (after_keyword (map txt ["CONM1"; "7"; "21"; ""]%string ++ fs ++ map txt [""; "9."]%string)) =
    Ok (7%Z, 21%Z, conm1_matrix [(1, 0); (2, 0); (3, 0); (4, 0); (5, 0); (6, 2)]%Z) /\
  Forall2 double_field fs [(1, 0); (2, 0); (3, 0); (4, 0); (5, 0); (6, 2)]%Z /\
  findComponent (0, 0)%Z (conm1_matrix [(1, 0); (2, 0); (3, 0); (4, 0); (5, 0); (6, 2)]%Z) DY DZ = (5, 0)%Z /\
  write_conm1 0%Z int_text 7 21 (mkMatrix SYMMETRIC [((DX, DX), 5%Z); ((DX, DY), 3%Z)]) =
    Ok (map txt ["7"; "21"; "0"; "3"; "0"; "0"; "0"; "0"; "0"; "0"; "0"; "0"; "0"]%string).
Proof.
  cbv zeta. split; [vm_compute; reflexivity|]. split; [|split; vm_compute; reflexivity].
  assert (D : forall w v, real_of_field (txt w) = Ok v -> forallb (fun c => TextModel.contains c double_chars) (trim (txt w)) = true -> double_field (txt w) v).
  { intros w v H1 H2. split; [exact H1|]. intros c Hc _. rewrite forallb_forall in H2. specialize (H2 c Hc).
    apply existsb_exists in H2. destruct H2 as (x & Hx & E). apply Ascii.eqb_eq in E. now subst x. }
  repeat (constructor; [apply D; reflexivity|]). constructor.
Qed.
Print Assumptions C28_entries_read_partial.
Print Assumptions C28_last_row_refuted.
Print Assumptions C28_blank_entry_refuted.
Print Assumptions C28_written_diagonal_refuted.
