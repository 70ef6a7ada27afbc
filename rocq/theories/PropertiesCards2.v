(** Properties C56, C57, C58: rigid links, RBE3 and single point constraints. *)
From Coq Require Import Ascii String ZArith List Bool Arith Lia.
From Verif Require Import Base DofModel DofProofs TextModel TextProofs TokenizerModel NextIntsProofs RealModel WriterLineModel WriterLineProofs PropertiesTokenizer PropertiesWriterLine PropertiesDof CardModel CardProofs PropertiesCards.
Import ListNotations.
Open Scope nat_scope.
Open Scope list_scope.

Lemma code_short s : is_set s -> s <> 0%Z -> exists n, nastranCode s = Ok n /\ short_number n /\ nastranCodeToDOFS n = Ok s.
Proof.
  intros Hs Hz. destruct (C01_code_roundtrip_partial s Hs Hz) as (n & E & D). exists n. split; [exact E|]. split; [|exact D].
  assert (K : forallb (fun k => match nastranCode (Z.of_nat k) with Ok n => ((0 <=? n) && (n <? 10 ^ 8))%Z | _ => false end) (seq 0 64) = true) by (vm_compute; reflexivity).
  rewrite forallb_forall in K. specialize (K (Z.to_nat s)). destruct Hs as [H0 H1]. rewrite Z2Nat.id in K by lia. rewrite E in K.
  assert (In (Z.to_nat s) (seq 0 64)) as X by (apply in_seq; lia). specialize (K X). apply andb_true_iff in K. destruct K as [K1 K2].
  apply Z.leb_le in K1. apply Z.ltb_lt in K2. split; assumption.
Qed.
Lemma short_keyword kw : In kw (map txt ["RBE2"; "RBE3"; "SPC1"]%string) -> keyword kw.
Proof.
  intros H. cbn in H. destruct H as [<-|[<-|[<-|[]]]]; (split; [discriminate|]; split; [|split; [|split]]; [|cbn; intuition discriminate..|discriminate];
    split; [cbn; lia|]; split; [apply trimmed_trim; reflexivity|]; split; cbn; intuition discriminate).
Qed.

(** The lines of a card followed by the next card, read back. *)
Definition written_and_split (kw : string) (vs : list str) (counter : Z) (rest : list str) (fields : list str) : Prop :=
  nextLine (fst (write_card (txt kw) vs counter) ++ rest) = Ok (Some (fields, rest)).
Definition room (counter : Z) (vs : list str) : Prop := (0 <= counter)%Z /\ (counter + Z.of_nat (length vs) < 10 ^ 7)%Z.
Lemma split_again kw vs counter rest : In (txt kw) (map txt ["RBE2"; "RBE3"; "SPC1"]%string) ->
  Forall field_value vs -> room counter vs -> next_card rest -> written_and_split kw vs counter rest (txt kw :: vs).
Proof.
  intros Hk Hv [H1 H2] Hr. unfold written_and_split. pose proof (C23_card_roundtrip (txt kw) vs counter rest (short_keyword _ Hk) Hv H1 H2 Hr) as R.
  destruct (write_card (txt kw) vs counter). apply R.
Qed.

(** ** C56: RBE2 *)

(** A rigid link with any number of slave nodes: the card is written, and the
    reader gets the identifier, the master, the DOFs and the slaves back. *)
Theorem C56_rbe2_roundtrip_partial : forall id master ds slaves,
  short_number id -> short_number master -> is_set ds -> ds <> NO_DOFS -> Forall short_number slaves ->
  exists vs, write_rbe2 id master ds slaves = Ok vs /\
  forall counter rest, room counter vs -> next_card rest ->
  exists fields, written_and_split "RBE2" vs counter rest fields /\ parseRBE2 (after_keyword fields) = Ok (id, master, ds, slaves).
Proof.
  intros id master ds slaves Hid Hm Hds Hnz Hsl. destruct (code_short ds Hds Hnz) as (code & Hc & Hcs & Hcd).
  unfold write_rbe2. rewrite Hc. cbn [bind]. eexists. split; [reflexivity|]. intros counter rest Hroom Hrest. eexists.
  split; [apply split_again; [cbn; tauto| |exact Hroom|exact Hrest]|].
  { repeat (constructor; [now apply nonneg_int|]). apply Forall_map. eapply Forall_impl; [|exact Hsl]. intros n Hn. now apply nonneg_int. }
  set (vec := txt "RBE2" :: int_text id :: int_text master :: int_text code :: map int_text slaves).
  assert (H1 : skipn 1 vec = int_text id :: int_text master :: int_text code :: map int_text slaves) by reflexivity.
  pose proof (s_next _ _ _ _ H1) as H2. pose proof (s_next _ _ _ _ H2) as H3. pose proof (s_next _ _ _ _ H3) as H4.
  unfold parseRBE2, after_keyword.
  rewrite (s_int _ _ _ _ H1 _ (proj1 (nonneg_int _ Hid))). cbn [bind]. rewrite (s_int _ _ _ _ H2 _ (proj1 (nonneg_int _ Hm))). cbn [bind].
  rewrite (s_int _ _ _ _ H3 _ (proj1 (nonneg_int _ Hcs))). cbn [bind]. rewrite Hcd. cbn [bind].
  destruct (int_loop_spec vec slaves (map int_text slaves) 4 (S (length vec)) []) as [E1 E2].
  - now rewrite app_nil_r.
  - clear -Hsl. induction Hsl as [|n l Hn Hl IH]; cbn; constructor; [apply (nonneg_int _ Hn)|exact IH].
  - unfold vec. cbn [length]. lia.
  - intros f r X. discriminate.
  - change (cvec (at_pos vec 4)) with vec. rewrite E1. cbn [bind].
    assert (nextSymbolString (at_pos vec (4 + length (map int_text slaves))) = ([], mkCursor vec (4 + length (map int_text slaves)) KEYWORD)) as En.
    { unfold nextSymbolString. cbn [at_pos cvec ccur]. now rewrite (skipn_end _ _ E2). }
    unfold nextDoubleDefault. rewrite En. reflexivity.
Qed.
(** Without any DOF the card says 0, which is read as DX. *)
Theorem C56_no_dofs_refuted : forall id master slaves, short_number id -> short_number master ->
  exists vs, write_rbe2 id master NO_DOFS slaves = Ok vs /\
  forall r, parseRBE2 (after_keyword (txt "RBE2" :: vs)) = Ok r -> snd (fst r) = dof_code DX.
Proof.
  intros id master slaves Hid Hm. exists (int_text id :: int_text master :: int_text 0 :: map int_text slaves). split; [reflexivity|]. intros r Hr.
  set (vec := txt "RBE2" :: int_text id :: int_text master :: int_text 0 :: map int_text slaves) in *.
  assert (H1 : skipn 1 vec = int_text id :: int_text master :: int_text 0 :: map int_text slaves) by reflexivity.
  pose proof (s_next _ _ _ _ H1) as H2. pose proof (s_next _ _ _ _ H2) as H3.
  unfold parseRBE2, after_keyword in Hr.
  rewrite (s_int _ _ _ _ H1 _ (proj1 (nonneg_int _ Hid))) in Hr. cbn [bind] in Hr. rewrite (s_int _ _ _ _ H2 _ (proj1 (nonneg_int _ Hm))) in Hr. cbn [bind] in Hr.
  assert (S0 : short_number 0) by (unfold short_number; lia).
  rewrite (s_int _ _ _ _ H3 _ (proj1 (nonneg_int _ S0))) in Hr. cbn [bind] in Hr. change (nastranCodeToDOFS 0) with (@Ok dofs 1%Z) in Hr. cbn [bind] in Hr.
  destruct (int_loop _ _) as [[l t]| | |]; try discriminate. cbn [bind] in Hr. destruct (nextDoubleDefault _ _); try discriminate. cbn [bind] in Hr.
  injection Hr as <-. reflexivity.
Qed.
Example C56_case : exists vs, write_rbe2 12 3 33%Z [4; 5; 6; 7; 8; 9; 10]%Z = Ok vs /\
  fst (write_card (txt "RBE2") vs 0) = [txt "RBE2          12       3      16       4       5       6       7       8+1"; txt "+1             9      10"] /\
  parseRBE2 (after_keyword (txt "RBE2" :: vs)) = Ok (12, 3, 33, [4; 5; 6; 7; 8; 9; 10])%Z.
Proof. exists (map txt ["12"; "3"; "16"; "4"; "5"; "6"; "7"; "8"; "9"; "10"]%string). vm_compute. repeat split. Qed.
Print Assumptions C56_rbe2_roundtrip_partial.
Print Assumptions C56_no_dofs_refuted.

(** ** C57: RBE3 *)

(** A slave: node, DOFs, text and value of its weight. *)
Record slave := mkSlave { snode : Z; sdofs : dofs; stext : str; sweight : decimal }.
Definition good_slave (s : slave) : Prop :=
  short_number (snode s) /\ is_set (sdofs s) /\ sdofs s <> NO_DOFS /\ real_field (stext s) (sweight s) /\ double_field (stext s) (sweight s).

(** The reader recovers the identifier, the reference node and DOFs printed, and
    every slave with its DOFs and weight, for any number of slaves. *)
Theorem C57_rbe3_roundtrip_partial : forall id ref refdofs slaves,
  short_number id -> short_number ref -> is_set refdofs -> refdofs <> NO_DOFS -> Forall good_slave slaves ->
  exists vs, write_rbe3 id ref refdofs (map (fun s => (snode s, sdofs s, stext s)) slaves) = Ok vs /\
  forall counter rest, room counter vs -> next_card rest ->
  exists fields, written_and_split "RBE3" vs counter rest fields /\
    parseRBE3 (after_keyword fields) = Ok (id, ref, refdofs, map (fun s => (snode s, sdofs s, sweight s)) slaves).
Proof.
  intros id ref refdofs slaves Hid Hm Hds Hnz Hsl. destruct (code_short refdofs Hds Hnz) as (code & Hc & Hcs & Hcd).
  assert (HW : exists l, mapM (fun s => let '(n, ds, w) := s in do c <- nastranCode ds; Ok [w; int_text c; int_text n]) (map (fun s => (snode s, sdofs s, stext s)) slaves) = Ok l /\
    Forall2 (fun s tr => exists c, tr = [stext s; int_text c; int_text (snode s)] /\ short_number c /\ nastranCodeToDOFS c = Ok (sdofs s)) slaves l).
  { induction Hsl as [|s slaves (S1 & S2 & S3 & S4 & S5) Hsl IH]; [exists []; split; [reflexivity|constructor]|].
    destruct IH as (l & El & Fl). destruct (code_short _ S2 S3) as (c & C1 & C2 & C3). cbn [map mapM]. rewrite C1. cbn [bind]. rewrite El. cbn [bind].
    eexists. split; [reflexivity|]. constructor; [|exact Fl]. exists c. auto. }
  destruct HW as (l & El & Fl). unfold write_rbe3. rewrite Hc. cbn [bind]. rewrite El. cbn [bind]. eexists. split; [reflexivity|].
  intros counter rest Hroom Hrest. eexists. split; [apply split_again; [cbn; tauto| |exact Hroom|exact Hrest]|].
  { constructor; [now apply nonneg_int|]. constructor; [apply blank_value|]. constructor; [now apply nonneg_int|]. constructor; [now apply nonneg_int|].
    clear -Hsl Fl. induction Fl as [|s tr slaves l (c & -> & C1 & C2) Fl IH]; cbn [concat]; [constructor|]. inversion Hsl as [|? ? (S1 & S2 & S3 & S4 & S5) Hsl']; subst.
    apply Forall_app. split; [|now apply IH]. constructor; [apply S4|]. repeat (constructor; [now apply nonneg_int|]). constructor. }
  set (vec := txt "RBE3" :: int_text id :: [] :: int_text ref :: int_text code :: concat l).
  assert (H1 : skipn 1 vec = int_text id :: [] :: int_text ref :: int_text code :: concat l) by reflexivity.
  pose proof (s_next _ _ _ _ H1) as H2. pose proof (s_next _ _ _ _ H2) as H3. pose proof (s_next _ _ _ _ H3) as H4. pose proof (s_next _ _ _ _ H4) as H5.
  unfold parseRBE3, after_keyword.
  rewrite (s_int _ _ _ _ H1 _ (proj1 (nonneg_int _ Hid))). cbn [bind]. rewrite (s_skip1 _ _ _ _ H2). cbn [bind].
  rewrite (s_int _ _ _ _ H3 _ (proj1 (nonneg_int _ Hm))). cbn [bind].
  rewrite (s_int _ _ _ _ H4 _ (proj1 (nonneg_int _ Hcs))). cbn [bind]. rewrite Hcd. cbn [bind]. change (cvec (at_pos vec 5)) with vec.
  assert (Hlen : length slaves <= length vec).
  { unfold vec. cbn [length]. enough (length slaves <= length (concat l)) by lia.
    clear -Fl. induction Fl as [|s tr slaves l (c & -> & _) Fl IH]; cbn [concat length]; [lia|]. rewrite app_length. cbn [length]. unfold str in *. lia. }
  assert (Hgo : forall i fuel, skipn i vec = concat l -> length slaves < fuel ->
     rbe3_loop fuel (at_pos vec i) = Ok (map (fun s => (snode s, sdofs s, sweight s)) slaves)).
  { clear -Hsl Fl. clearbody vec. induction Fl as [|s tr slaves l (c & -> & C1 & C2) Fl IH]; intros i fuel H Hfuel; (destruct fuel as [|fuel]; [cbn in Hfuel; lia|]); cbn [rbe3_loop].
    - rewrite s_end_isdouble by exact H. reflexivity.
    - inversion Hsl as [|? ? (S1 & S2 & S3 & S4 & S5) Hsl']; subst. cbn [concat app] in H.
      rewrite (double_isdouble _ _ _ _ _ H S5). cbn [bind]. rewrite (s_double _ _ _ _ H _ (proj1 S5)). cbn [bind].
      pose proof (s_next _ _ _ _ H) as H'. rewrite (s_int _ _ _ _ H' _ (proj1 (nonneg_int _ C1))). cbn [bind]. rewrite C2. cbn [bind].
      pose proof (s_next _ _ _ _ H') as H''.
      destruct (int_loop_spec vec [snode s] [int_text (snode s)] (S (S i)) (S (length vec)) (concat l)) as [E1 E2].
      + exact H''.
      + constructor; [apply (nonneg_int _ S1)|constructor].
      + pose proof (s_bound _ _ _ _ H). cbn [length]. lia.
      + intros f r X. destruct Fl as [|s2 tr2 slaves2 l2 (c2 & -> & _) Fl2]; [discriminate|]. cbn in X. injection X as <- _.
        inversion Hsl' as [|? ? (T1 & T2 & T3 & T4 & T5) _]; subst. apply (real_field_notint _ _ T4).
      + cbn [cvec at_pos] in *. change (cvec (at_pos vec (S (S i)))) with vec. rewrite E1. cbn [bind].
        rewrite (IH Hsl' _ fuel E2) by (cbn in Hfuel; lia). reflexivity. }
  rewrite Hgo; [reflexivity|exact H5|lia].
Qed.

(** The reference node printed is the right one only when the identifier of the
    node, used as a position, leads back to the node; the printed card is wrong
    in every mesh where it does not. *)
Theorem C57_reference_node_refuted : forall ids p id md sd n ds,
  NoDup ids -> nth_error ids p = Some id -> rbe3_reference ids p md sd = Ok (n, ds) ->
  (n = id <-> id = Z.of_nat p).
Proof.
  intros ids p id md sd n ds Hnd Hp H. unfold rbe3_reference in H. rewrite Hp in H. cbn [of_option bind] in H.
  destruct (Z.ltb_spec id 0); [discriminate|]. destruct (nth_error ids (Z.to_nat id)) as [m|] eqn:E; [|discriminate]. cbn [of_option bind] in H.
  injection H as <- <-. split.
  - intros ->. assert (Z.to_nat id = p); [|lia]. rewrite NoDup_nth_error in Hnd. apply Hnd; [apply nth_error_Some; congruence|congruence].
  - intros ->. rewrite Nat2Z.id in E. congruence.
Qed.
Theorem C57_reference_outside_refuted : forall ids p id md sd,
  nth_error ids p = Some id -> (Z.of_nat (length ids) <= id)%Z -> rbe3_reference ids p md sd = UB.
Proof.
  intros ids p id md sd Hp H. unfold rbe3_reference. rewrite Hp. cbn [of_option bind]. destruct (Z.ltb_spec id 0); [reflexivity|].
  assert (nth_error ids (Z.to_nat id) = None) as -> by (apply nth_error_None; lia). reflexivity.
Qed.
Example C57_case :
  write_rbe3 5 1 63%Z [(2, 7, txt "1.+0"); (3, 7, txt "2.5+0")]%Z = Ok (map txt ["5"; ""; "1"; "123456"; "1.+0"; "123"; "2"; "2.5+0"; "123"; "3"]%string) /\
  parseRBE3 (after_keyword (map txt ["RBE3"; "5"; ""; "1"; "123456"; "1.+0"; "123"; "2"; "4"; "2.5+0"; "123"; "3"]%string)) =
    Ok (5, 1, 63, [(2, 7, (1, 0)); (4, 7, (1, 0)); (3, 7, (25, -1))])%Z /\
  rbe3_reference [1; 2; 3]%Z 0 7%Z [] = Ok (2, 63)%Z /\ rbe3_reference [101; 102]%Z 0 7%Z [] = UB.
Proof. vm_compute. repeat split. Qed.
Print Assumptions C57_rbe3_roundtrip_partial.
Print Assumptions C57_reference_node_refuted.
Print Assumptions C57_reference_outside_refuted.

(** ** C58: single point constraints *)

(** A group of an SPC card: blank fields, node, code of the DOFs, value. *)
Record spc_group := mkGroup { gblank : nat; gnode : Z; gcode : Z; gcodetext : str; gtext : str; gvalue : decimal; gdofs : dofs }.
(** The components (all six when left blank) and the value (0 when left blank). *)
Definition code_field (g : spc_group) (t : str) : Prop :=
  (t = int_text (gcode g) /\ short_number (gcode g) /\ nastranCodeToDOFS (gcode g) = Ok (gdofs g)) \/
  (t = [] /\ gdofs g = ALL_DOFS).
Definition value_field (g : spc_group) : Prop :=
  real_of_field (gtext g) = Ok (gvalue g) \/ (gtext g = [] /\ gvalue g = (0, 0)%Z).
Definition good_group (g : spc_group) : Prop := short_number (gnode g) /\ code_field g (gcodetext g) /\ value_field g.
Definition group_fields (g : spc_group) : list str :=
  repeat [] (gblank g) ++ [int_text (gnode g); gcodetext g; gtext g].
Definition imposes (s : spc) (ds : dofs) (v : decimal) : Prop :=
  forall d, s d = (if Z.testbit ds (dof_rank d) then Some v else None).

(** Reading: any number of groups, with blank fields before and after them. *)
Theorem C58_spc_read : forall set_id gs k, short_number set_id -> Forall good_group gs ->
  exists l, parseSPC (after_keyword (txt "SPC" :: int_text set_id :: concat (map group_fields gs) ++ repeat [] k)) = Ok (set_id, l) /\
    Forall2 (fun g ns => fst ns = gnode g /\ imposes (snd ns) (gdofs g) (gvalue g)) gs l.
Proof.
  intros set_id gs k Hs Hg. set (vec := txt "SPC" :: int_text set_id :: concat (map group_fields gs) ++ repeat [] k).
  assert (H1 : skipn 1 vec = int_text set_id :: concat (map group_fields gs) ++ repeat [] k) by reflexivity.
  pose proof (s_next _ _ _ _ H1) as H2. unfold parseSPC, after_keyword. rewrite (s_int _ _ _ _ H1 _ (proj1 (nonneg_int _ Hs))). cbn [bind].
  change (cvec (at_pos vec 2)) with vec.
  assert (Hblank : forall n i fuel r, skipn i vec = repeat [] n ++ r -> n <= fuel -> spc_loop fuel (at_pos vec i) = spc_loop (fuel - n) (at_pos vec (i + n)) /\ skipn (i + n) vec = r).
  { clear. clearbody vec. induction n as [|n IH]; intros i fuel r H Hf; [rewrite Nat.sub_0_r, Nat.add_0_r; auto|].
    destruct fuel as [|fuel]; [lia|]. cbn [repeat app] in H. cbn [spc_loop]. rewrite (s_field _ _ _ _ H).
    rewrite (s_intdef_blank _ _ _ _ H) by reflexivity. cbn [bind]. rewrite Z.eqb_refl. destruct (IH (S i) fuel r (s_next _ _ _ _ H) ltac:(lia)) as [E1 E2].
    replace (S fuel - S n) with (fuel - n) by lia. replace (i + S n) with (S i + n) by lia. auto. }
  assert (Hgo : forall i fuel, skipn i vec = concat (map group_fields gs) ++ repeat [] k -> length (concat (map group_fields gs)) + k < fuel ->
    exists l, spc_loop fuel (at_pos vec i) = Ok l /\ Forall2 (fun g ns => fst ns = gnode g /\ imposes (snd ns) (gdofs g) (gvalue g)) gs l).
  { clear H1 H2. clearbody vec. induction Hg as [|g gs (G1 & G2 & G4) Hg IH]; intros i fuel H Hfuel.
    - cbn [map concat app length] in *. destruct (Hblank k i fuel [] ltac:(now rewrite app_nil_r) ltac:(lia)) as [-> H']. exists []. split; [|constructor].
      destruct (fuel - k) eqn:Ef; [lia|]. cbn [spc_loop]. unfold at_pos. cbn [csym]. apply (f_equal (@length str)) in H'. rewrite skipn_length in H'. cbn [length] in H'.
      destruct (Nat.leb_spec (length vec) (i + k)); [reflexivity|lia].
    - cbn [map concat] in H, Hfuel. unfold group_fields at 1 in H; unfold group_fields at 1 in Hfuel. rewrite <- !app_assoc in H. rewrite !app_length, repeat_length in Hfuel. cbn [length] in Hfuel.
      destruct (Hblank (gblank g) i fuel _ H ltac:(lia)) as [-> H']. cbn [app] in H'. destruct (fuel - gblank g) as [|f] eqn:Ef; [lia|]. cbn [spc_loop].
      rewrite (s_field _ _ _ _ H'). rewrite (s_intdef _ _ _ _ H' _ _ (proj1 (nonneg_int _ G1))). cbn [bind].
      destruct (Z.eqb_spec (gnode g) INT_MIN32) as [X|_]; [exfalso; unfold short_number, INT_MIN32 in *; lia|].
      pose proof (s_next _ _ _ _ H') as H2.
      assert (exists gi, nextIntDefault 123456 (at_pos vec (S (i + gblank g))) = Ok (gi, at_pos vec (S (S (i + gblank g)))) /\ nastranCodeToDOFS gi = Ok (gdofs g)) as (gi & -> & G3).
      { destruct G2 as [(Et & Gs & Gd)|(Et & Gd)]; rewrite Et in H2.
        - exists (gcode g). split; [|exact Gd]. exact (s_intdef _ _ _ _ H2 _ _ (proj1 (nonneg_int _ Gs))).
        - exists 123456%Z. split; [|rewrite Gd; reflexivity]. apply (s_intdef_blank _ _ _ _ H2). reflexivity. }
      cbn [bind]. pose proof (s_next _ _ _ _ H2) as H3.
      assert (nextDoubleDefault (0, 0)%Z (at_pos vec (S (S (i + gblank g)))) = Ok (gvalue g, at_pos vec (S (S (S (i + gblank g)))))) as ->.
      { destruct G4 as [G4|(Et & ->)]; [exact (s_doubledef _ _ _ _ H3 _ _ G4)|]. rewrite Et in H3. apply (s_doubledef_blank _ _ _ _ H3). reflexivity. }
      cbn [bind]. rewrite G3. cbn [bind].
      destruct (IH _ f (s_next _ _ _ _ H3)) as (l & E & F). { unfold str in *. lia. }
      rewrite E. cbn [bind]. eexists. split; [reflexivity|]. constructor; [|exact F]. cbn [fst snd]. split; [reflexivity|]. intros d. unfold spc_make. now rewrite contains_testbit. }
  destruct (Hgo 2 (S (length vec)) H2) as (l & E & F).
  - unfold vec. cbn [length]. rewrite app_length, repeat_length. lia.
  - exists l. rewrite E. auto.
Qed.

(** Writing: the card of a node fixed on at least one DOF is read back with the
    same set, DOFs and node. *)
Theorem C58_spc1_roundtrip_partial : forall set_id ds v node, short_number set_id -> short_number node -> is_set ds -> ds <> NO_DOFS ->
  exists vs, write_spc set_id (spc_make ds v) node = Ok vs /\
  forall counter rest, room counter vs -> next_card rest ->
  exists fields, written_and_split "SPC1" vs counter rest fields /\ parseSPC1 (after_keyword fields) = Ok (set_id, ds, [node]).
Proof.
  intros set_id ds v node Hs Hn Hds Hnz. destruct (code_short ds Hds Hnz) as (code & Hc & Hcs & Hcd).
  assert (spc_dofs (spc_make ds v) = ds) as E.
  { apply set_ext; [|exact Hds|].
    - unfold spc_dofs, combineCodes. repeat match goal with |- context [if ?b then _ else _] => destruct b end; vm_compute; intuition congruence.
    - intros d. unfold spc_dofs. rewrite combineCodes_member. unfold spc_make, member. destruct d; rewrite contains_testbit; cbn [dof_rank]; destruct (Z.testbit ds _); cbn; intuition congruence. }
  unfold write_spc, write_spc1. rewrite E, Hc. cbn [bind]. eexists. split; [reflexivity|]. intros counter rest Hroom Hrest. eexists.
  split; [apply split_again; [cbn; tauto| |exact Hroom|exact Hrest]|].
  { repeat (constructor; [now apply nonneg_int|]). constructor. }
  set (vec := [txt "SPC1"; int_text set_id; int_text code; int_text node]).
  assert (H1 : skipn 1 vec = [int_text set_id; int_text code; int_text node]) by reflexivity.
  pose proof (s_next _ _ _ _ H1) as H2. unfold parseSPC1, after_keyword.
  rewrite (s_int _ _ _ _ H1 _ (proj1 (nonneg_int _ Hs))). cbn [bind]. rewrite (s_int _ _ _ _ H2 _ (proj1 (nonneg_int _ Hcs))). cbn [bind]. rewrite Hcd. cbn [bind].
  pose proof (C21_lists_and_ranges [txt "SPC1"; int_text set_id; int_text code] [One node] [[int_text node]] []) as L. cbv zeta in L.
  assert (HF : Forall2 item_text [One node] [[int_text node]]).
  { constructor; [|constructor]. constructor; [apply (nonneg_int _ Hn)|unfold short_number, INT_MAX32 in *; lia]. }
  specialize (L HF ltac:(intros f X; discriminate)). cbn [length concat app map denote] in L. change (at_pos vec 3) with (at_pos [txt "SPC1"; int_text set_id; int_text code; int_text node] 3). rewrite L. reflexivity.
Qed.

(** The value of an imposed displacement is not on the card: constraints that
    differ only by their values give the same card. *)
Theorem C58_imposed_value_refuted : forall set_id node ds v w, write_spc set_id (spc_make ds v) node = write_spc set_id (spc_make ds w) node.
Proof.
  intros. unfold write_spc. f_equal. unfold spc_dofs, spc_make. destruct (DofModel.contains ds DX), (DofModel.contains ds DY), (DofModel.contains ds DZ), (DofModel.contains ds RX), (DofModel.contains ds RY), (DofModel.contains ds RZ); reflexivity.
Qed.
Example C58_case :
  (exists l, parseSPC (after_keyword (map txt ["SPC"; "1"; "12"; "13"; "0.5"; ""; "14"; "2"; "-1."; ""; ""]%string)) = Ok (1%Z, l) /\
     map (fun ns => (fst ns, map (snd ns) [DX; DY; DZ])) l = [(12%Z, [Some (5, -1)%Z; None; Some (5, -1)%Z]); (14%Z, [None; Some (-1, 0)%Z; None])]) /\
  good_group (mkGroup 1 14 2 (txt "2") (txt "-1.") (-1, 0)%Z 2%Z) /\ good_group (mkGroup 0 14 2 [] [] (0, 0)%Z ALL_DOFS) /\
  write_spc 1 (spc_make 5%Z (5, -1)%Z) 12 = Ok (map txt ["1"; "13"; "12"]%string).
Proof.
  split; [exists [(12%Z, spc_make 5%Z (5, -1)%Z); (14%Z, spc_make 2%Z (-1, 0)%Z)]; split; [reflexivity|vm_compute; reflexivity]|]. split; [|split; [|vm_compute; reflexivity]]; (split; [unfold short_number; cbn; lia|]).
  - split; [left; split; [reflexivity|split; [unfold short_number; cbn; lia|reflexivity]]|left; reflexivity].
  - split; [right; split; reflexivity|right; split; reflexivity].
Qed.
Print Assumptions C58_spc_read.
Print Assumptions C58_spc1_roundtrip_partial.
Print Assumptions C58_imposed_value_refuted.
