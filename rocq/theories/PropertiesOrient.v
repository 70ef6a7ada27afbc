(** Property C95: the orientation of bars, beams and bushes. *)
From Coq Require Import Ascii String Reals Qreals ZArith List Bool Arith Lia Lra Permutation Sorted.
From Verif Require Import Base TextModel TextProofs TokenizerModel NextIntsProofs RealModel WriterLineModel WriterLineProofs PropertiesTokenizer PropertiesWriterLine CardModel CardProofs LoadCardModel FieldProofs PropCardModel GridModel PropertiesGrid PropertiesLoadCards PropertiesPropCards PropertiesRbar SystusMatrixProofs GeomModel GeomProofs OrientModel OrientProofs.
Import ListNotations.
Open Scope Z_scope.
Open Scope list_scope.

(** ** Reading *)
(** The messages printed are those of the fields that are not followed. *)
Definition announced (w : list warning) (offt : str) (pa pb : option Z) (offsets : list decimal) : Prop :=
  (In WOfft w <-> offt <> [] /\ offt <> txt "GGG") /\
  (In WPins w <-> pa <> None \/ pb <> None) /\
  (In WOffsets w <-> exists x, In x offsets /\ dec_is_zero x = false) /\
  (forall x, In x w -> x = WOfft \/ x = WPins \/ x = WOffsets).
(** The fields 8 to 16 of a bar or a beam. *)
Definition ends_at (vec : list str) (offt : str) (pa pb : option Z) (offsets : list decimal) : Prop :=
  word_or [] vec 8 offt /\ int_opt vec 9 pa /\ int_opt vec 10 pb /\ length offsets = 6%nat /\
  forall j, (j < 6)%nat -> real_or (0, 0) vec (11 + j) (nth j offsets (0, 0)).
Lemma cvec_at vec i : cvec (at_field vec i) = vec.
Proof. reflexivity. Qed.
Lemma in_when b w x : In x (when b w) <-> b = true /\ x = w.
Proof. destruct b; cbn; split; intros H; [destruct H as [H|[]]; auto|left; now destruct H|destruct H|destruct H; discriminate]. Qed.
Lemma six {A} (l : list A) : length l = 6%nat -> exists a b c d e f, l = [a; b; c; d; e; f].
Proof.
  destruct l as [|a [|b [|c [|d [|e [|f [|]]]]]]]; cbn; try discriminate. intros _. now exists a, b, c, d, e, f.
Qed.
Lemma some_not_none {A} (o : option A) : is_some o = true <-> o <> None.
Proof. destruct o; cbn; split; congruence. Qed.
Lemma ends_read vec offt pa pb offsets : ends_at vec offt pa pb offsets ->
  exists w, parse_ends (at_field vec 8) = Ok (w, at_field vec 17) /\ announced w offt pa pb offsets.
Proof.
  intros (H1 & H2 & H3 & L & H4). destruct (six _ L) as (a & b & c & d & e & f & ->).
  pose proof (H4 0%nat ltac:(lia)) as X0. pose proof (H4 1%nat ltac:(lia)) as X1. pose proof (H4 2%nat ltac:(lia)) as X2.
  pose proof (H4 3%nat ltac:(lia)) as X3. pose proof (H4 4%nat ltac:(lia)) as X4. pose proof (H4 5%nat ltac:(lia)) as X5. cbn [nth plus] in *.
  unfold parse_ends. rewrite (f_worddef _ _ _ _ H1). cbn [bind]. rewrite (f_optional _ _ _ H2). cbn [bind]. rewrite (f_optional _ _ _ H3). cbn [bind].
  rewrite (f_doubledef _ _ _ _ X0). cbn [bind]. rewrite (f_doubledef _ _ _ _ X1). cbn [bind]. rewrite (f_doubledef _ _ _ _ X2). cbn [bind].
  rewrite (f_doubledef _ _ _ _ X3). cbn [bind]. rewrite (f_doubledef _ _ _ _ X4). cbn [bind]. rewrite (f_doubledef _ _ _ _ X5). cbn [bind].
  eexists. split; [reflexivity|].
  set (b1 := negb (null offt) && negb (str_eqb offt (txt "GGG"))). set (b2 := is_some pa || is_some pb). set (b3 := negb (forallb dec_is_zero [a; b; c; d; e; f])).
  assert (I : forall x, In x (when b1 WOfft ++ when b2 WPins ++ when b3 WOffsets) <-> (b1 = true /\ x = WOfft) \/ (b2 = true /\ x = WPins) \/ (b3 = true /\ x = WOffsets)).
  { intros x. rewrite !in_app_iff, !in_when. tauto. }
  assert (B1 : b1 = true <-> offt <> [] /\ offt <> txt "GGG").
  { unfold b1. rewrite andb_true_iff, !negb_true_iff. destruct (str_eqb_spec offt (txt "GGG")); destruct offt; cbn [null]; intuition (try discriminate; try congruence). }
  assert (B2 : b2 = true <-> pa <> None \/ pb <> None) by (unfold b2; rewrite orb_true_iff, !some_not_none; tauto).
  assert (B3 : b3 = true <-> exists x, In x [a; b; c; d; e; f] /\ dec_is_zero x = false).
  { unfold b3. rewrite negb_true_iff. split.
    - intros Q. apply not_true_iff_false in Q. rewrite forallb_forall in Q.
      destruct (existsb (fun x => negb (dec_is_zero x)) [a; b; c; d; e; f]) eqn:X.
      + apply existsb_exists in X. destruct X as (x & Ix & Ex). exists x. split; [exact Ix|now apply negb_true_iff].
      + exfalso. apply Q. intros x Ix. destruct (dec_is_zero x) eqn:E; [reflexivity|]. exfalso. apply not_true_iff_false in X. apply X, existsb_exists. exists x. now rewrite E.
    - intros (x & Ix & Ex). apply not_true_iff_false. rewrite forallb_forall. intros Q. rewrite (Q _ Ix) in Ex. discriminate. }
  clearbody b1 b2 b3. unfold announced. rewrite !I, B1, B2, B3. split; [intuition discriminate|]. split; [intuition discriminate|]. split; [intuition discriminate|].
  intros x K. apply I in K. tauto.
Qed.

(** The two ways of giving the plane of an element, at the fields 5 to 7. *)
Definition plane_at (vec : list str) (d : direction) : Prop :=
  match d with
  | ByVector x1 x2 x3 => exists y, real_at vec 5 x1 /\ real_at vec 6 y /\ real_at vec 7 x3 /\
      ((dec_is_zero x1 = true /\ dec_is_zero y = true /\ dec_is_zero x3 = true /\ x2 = (1, 0)) \/
       (x2 = y /\ ~ (dec_is_zero x1 = true /\ dec_is_zero y = true /\ dec_is_zero x3 = true)))
  | ByNode g => int_at vec 5 g /\ field vec 6 = [] /\ field vec 7 = []
  end.
Lemma not_empty_field vec i v : real_at vec i v -> null (nth i vec []) = false.
Proof.
  intros H. pose proof (real_not_blank _ _ _ H) as N. unfold blank_at, field in N. destruct (nth i vec []) as [|c r]; [|reflexivity]. elim N. reflexivity.
Qed.
Lemma plane_read vec d : plane_at vec d -> parse_orientation (at_field vec 5) = Ok (d, at_field vec 8).
Proof.
  intros H. unfold parse_orientation. cbv zeta. rewrite cvec_at. destruct d as [g|x1 x2 x3]; cbn [plane_at] in H.
  - destruct H as (H1 & H2 & H3). change (nth 6 vec []) with (field vec 6). change (nth 7 vec []) with (field vec 7). rewrite H2, H3. cbn [null]. rewrite orb_true_r. cbn [orb].
    rewrite (f_int _ _ _ H1). cbn [bind]. rewrite (f_optdouble vec 6 None) by (cbn [real_opt]; unfold blank_at; rewrite H2; reflexivity). cbn [bind].
    rewrite (f_optdouble vec 7 None) by (cbn [real_opt]; unfold blank_at; rewrite H3; reflexivity). reflexivity.
  - destruct H as (y & H1 & H2 & H3 & H4). rewrite (not_empty_field _ _ _ H2), (not_empty_field _ _ _ H3).
    pose proof (real_present _ _ _ H3) as L. destruct (Nat.ltb_spec (length vec) 8) as [L'|_]; [lia|]. cbn [orb].
    rewrite (f_double _ _ _ H1). cbn [bind]. rewrite (f_double _ _ _ H2). cbn [bind]. rewrite (f_double _ _ _ H3). cbn [bind]. unfold one.
    destruct H4 as [(-> & -> & -> & ->)|(-> & N)]; [reflexivity|].
    destruct (dec_is_zero x1), (dec_is_zero y), (dec_is_zero x3); try reflexivity. elim N; auto.
Qed.

(** A bar: the fields are followed one by one; a vector that is nil is replaced
    by Y; what is not followed is announced. *)
Theorem C95_bar_read_partial : forall vec id pid ga gb d offt pa pb offsets,
  int_at vec 1 id -> int_at vec 2 pid -> int_at vec 3 ga -> int_at vec 4 gb -> plane_at vec d -> ends_at vec offt pa pb offsets ->
  exists w, parseCBAR (at_field vec 1) = Ok (mkSegment id pid ga (Some gb) (Towards d), w, at_field vec 17) /\ announced w offt pa pb offsets.
Proof.
  intros vec id pid ga gb d offt pa pb offsets H1 H2 H3 H4 H5 H6. destruct (ends_read _ _ _ _ _ H6) as (w & E & A). exists w. split; [|exact A].
  unfold parseCBAR. rewrite (f_int _ _ _ H1). cbn [bind]. rewrite (f_int _ _ _ H2). cbn [bind]. rewrite (f_int _ _ _ H3). cbn [bind]. rewrite (f_int _ _ _ H4). cbn [bind].
  rewrite (plane_read _ _ H5). cbn [bind]. rewrite E. reflexivity.
Qed.
(** A beam: the same, with two scalar points that are not followed either. *)
Theorem C95_beam_read_partial : forall vec id pid ga gb d offt pa pb offsets sa sb,
  int_at vec 1 id -> int_at vec 2 pid -> int_at vec 3 ga -> int_at vec 4 gb -> plane_at vec d -> ends_at vec offt pa pb offsets ->
  int_opt vec 17 sa -> int_opt vec 18 sb ->
  exists w w', parseCBEAM (at_field vec 1) = Ok (mkSegment id pid ga (Some gb) (Towards d), w ++ w', at_field vec 19) /\
    announced w offt pa pb offsets /\ (In WScalars w' <-> sa <> None \/ sb <> None) /\ forall x, In x w' -> x = WScalars.
Proof.
  intros vec id pid ga gb d offt pa pb offsets sa sb H1 H2 H3 H4 H5 H6 H7 H8.
  destruct (C95_bar_read_partial _ _ _ _ _ _ _ _ _ _ H1 H2 H3 H4 H5 H6) as (w & E & A). exists w, (when (is_some sa || is_some sb) WScalars).
  unfold parseCBEAM. rewrite E. cbn [bind]. rewrite (f_optional _ _ _ H7). cbn [bind]. rewrite (f_optional _ _ _ H8). cbn [bind].
  split; [reflexivity|]. split; [exact A|]. split.
  - rewrite in_when, orb_true_iff, !some_not_none. tauto.
  - intros x K. apply in_when in K. tauto.
Qed.

(** A bush: no axes, axes of a numbered system (which wins over the rest), or a plane as
    for a bar when there are two nodes. *)
Definition bush_axes_at (vec : list str) (gb : option Z) (a : axes) : Prop :=
  match a with
  | NoAxes => gb = None /\ field vec 8 = []
  | InSystem cid => int_at vec 8 cid
  | Towards d => gb <> None /\ plane_at vec d /\ field vec 8 = []
  end.
Theorem C95_bush_read_partial : forall vec id pid ga gb a s ocid s1 s2 s3,
  int_at vec 1 id -> int_at vec 2 pid -> int_at vec 3 ga -> int_opt vec 4 gb -> bush_axes_at vec gb a ->
  (exists j, (5 <= j)%nat /\ ~ blank_at vec j) ->
  real_or (5, -1) vec 9 s -> int_or (-1) vec 10 ocid -> real_opt vec 11 s1 -> real_opt vec 12 s2 -> real_opt vec 13 s3 ->
  exists w, parseCBUSH (at_field vec 1) = Ok (mkSegment id pid ga gb a, w, at_field vec 14) /\
    (In WSingleNode w <-> a = NoAxes) /\ (In WLocation w <-> is_half s = false) /\ (In WOcid w <-> ocid <> -1).
Proof.
  intros vec id pid ga gb a s ocid s1 s2 s3 H1 H2 H3 H4 H5 (j & Hj & Nj) H6 H7 H8 H9 H10.
  unfold parseCBUSH. rewrite (f_int _ _ _ H1). cbn [bind]. rewrite (f_int _ _ _ H2). cbn [bind]. rewrite (f_int _ _ _ H3). cbn [bind]. rewrite (f_optional _ _ _ H4). cbn [bind].
  rewrite (until_false vec 5 j Hj Nj). cbv zeta. rewrite cvec_at. change (nth 8 vec []) with (field vec 8).
  assert (G : exists w0, (if (8 <? length vec)%nat && negb (null (field vec 8)) then do t <- skip 3 (at_field vec 5); do r <- nextInt t; let '(cid, t) := r in Ok (InSystem cid, [], t)
             else match gb with
                  | None => do t <- skip 4 (at_field vec 5); Ok (NoAxes, [WSingleNode], t)
                  | Some _ => do r <- parse_orientation (at_field vec 5); let '(d, t) := r in do r <- optional_int t; let '(_, t) := r in Ok (Towards d, [], t)
                  end) = Ok (a, w0, at_field vec 9) /\ (w0 = [] /\ a <> NoAxes \/ w0 = [WSingleNode] /\ a = NoAxes)).
  { destruct a as [|d|cid]; cbn [bush_axes_at] in H5.
    - destruct H5 as [-> E]. rewrite E. cbn [null negb]. rewrite andb_false_r. rewrite f_skipn. cbn [bind]. eexists. split; [reflexivity|]. now right.
    - destruct H5 as (N & P & E). rewrite E. cbn [null negb]. rewrite andb_false_r. destruct gb as [gb|]; [|congruence]. rewrite (plane_read _ _ P). cbn [bind].
      rewrite (f_optional vec 8 None) by (cbn [int_opt]; unfold blank_at; rewrite E; reflexivity). cbn [bind]. eexists. split; [reflexivity|]. left. split; [reflexivity|discriminate].
    - pose proof (int_present _ _ _ H5) as L. destruct (Nat.ltb_spec 8 (length vec)) as [_|L']; [|lia].
      assert (E : null (field vec 8) = false). { pose proof (int_not_blank _ _ _ H5) as N. unfold blank_at in N. destruct (field vec 8); [elim N; reflexivity|reflexivity]. }
      rewrite E. cbn [negb andb]. rewrite f_skipn. cbn [bind plus]. rewrite (f_int _ _ _ H5). cbn [bind]. eexists. split; [reflexivity|]. left. split; [reflexivity|discriminate]. }
  destruct G as (w0 & -> & W). cbn [bind]. unfold half. rewrite (f_doubledef _ _ _ _ H6). cbn [bind]. rewrite (f_intdef _ _ _ _ H7). cbn [bind].
  rewrite (f_optdouble _ _ _ H8). cbn [bind]. rewrite (f_optdouble _ _ _ H9). cbn [bind]. rewrite (f_optdouble _ _ _ H10). cbn [bind].
  eexists. split; [reflexivity|]. rewrite !in_app_iff, !in_when, !negb_true_iff, Z.eqb_neq.
  destruct W as [[-> N]|[-> ->]]; cbn [In]; intuition (try discriminate; try congruence).
Qed.
(** A bush of which nothing is said. *)
Theorem C95_bush_bare : forall vec id pid ga gb, int_at vec 1 id -> int_at vec 2 pid -> int_at vec 3 ga -> int_opt vec 4 gb ->
  (forall j, (5 <= j)%nat -> blank_at vec j) ->
  parseCBUSH (at_field vec 1) = Ok (mkSegment id pid ga gb NoAxes, [], at_field vec 5).
Proof.
  intros vec id pid ga gb H1 H2 H3 H4 B.
  unfold parseCBUSH. rewrite (f_int _ _ _ H1). cbn [bind]. rewrite (f_int _ _ _ H2). cbn [bind]. rewrite (f_int _ _ _ H3). cbn [bind]. rewrite (f_optional _ _ _ H4). cbn [bind].
  rewrite (blank_until vec 5 B). reflexivity.
Qed.

(** ** Whole decks *)
Lemma position_of l st p r : wf_store l st -> In (p, r) (refs st) -> find_by_position st p = Ok (defs st r).
Proof.
  intros W I. unfold find_by_position. pose proof (ws_range _ _ W) as R. rewrite Forall_forall in R. specialize (R _ I). cbn [fst] in R.
  destruct (Z.eqb_spec p 0) as [E|_]; [lia|]. rewrite (find_pos _ _ _ (ws_nodup _ _ W) I). reflexivity.
Qed.
(** Whatever the deck, as long as it is read: one cell for each element, with its
    number, property and nodes; the orientation of the cell is the one its own
    card asks for, though equal orientations are shared; the system named by a
    bush is its last definition, before or after the bush. *)
Definition right_axes (tol : R) (l : list ocard) (m : omesh) (s : segment) (c : ocell) : Prop :=
  match saxes s, sgb s with
  | Towards d, Some gb => exists o, cell_orientation m c = Ok (Some o) /\ meant tol (sga s) gb d o
  | InSystem cid, _ => if cid =? 0 then cpos c = 0 else cpos c <> 0 /\ find_by_position (mcs m) (cpos c) = Ok (option_map User (defined cid l))
  | _, _ => cell_orientation m c = Ok None
  end.
Theorem C95_deck_partial : forall tol taken n l m, (0 <= tol)%R -> 1 <= n -> read_deck tol taken n l = Ok m ->
  Forall2 (fun s c => cell_of s c /\ right_axes tol l m s c) (elements l) (mcells m).
Proof.
  intros tol taken n l m T H R. destruct (deck_state _ _ _ _ _ T H R) as [W F _ _]. eapply Forall2_impl'; [|exact F]. cbn beta. intros s c [C A]. split; [exact C|].
  unfold right_axes, axes_ok, cell_orientation in *. destruct (saxes s) as [|d|cid]; [now rewrite A| |].
  - destruct (sgb s) as [gb|]; [|now rewrite A]. destruct A as (N & I & o & D & M). exists o. split; [|exact M].
    apply Z.eqb_neq in N. rewrite N, (position_of _ _ _ _ W I), D. reflexivity.
  - destruct A as [[-> ->]|(N & P & I)]; [reflexivity|]. apply Z.eqb_neq in N. rewrite N. split; [exact P|]. now rewrite (position_of _ _ _ _ W I), (ws_named _ _ W).
Qed.

(** The groups: one for each system used, with the cells that use it and no
    others, under distinct names, none of them taken. *)
Theorem C95_groups : forall tol taken n l m, (0 <= tol)%R -> 1 <= n -> read_deck tol taken n l = Ok m ->
  NoDup (map gpos (mgroups m)) /\ NoDup (map gname (mgroups m)) /\
  (forall g, In g (mgroups m) -> ~ In (gname g) taken /\ gcells g = map cno (filter (fun c => cpos c =? gpos g) (mcells m)) /\ gcells g <> []) /\
  (forall c, In c (mcells m) -> cpos c <> 0 -> exists g, In g (mgroups m) /\ gpos g = cpos c).
Proof.
  intros tol taken n l m T H R. destruct (deck_state _ _ _ _ _ T H R) as [_ _ [S P C A N D K U] _].
  split; [|split; [exact D|split]].
  - clear - S. induction S as [|g gs S IH F]; cbn [map]; constructor; [|exact IH]. intros I. apply in_map_iff in I. destruct I as (h & E & I). rewrite Forall_forall in F. specialize (F _ I). cbn beta in F. lia.
  - intros g I. rewrite Forall_forall in *. split; [now apply K|]. split; [now apply C|]. rewrite (C _ I). destruct (U _ I) as (c & Ic & E).
    assert (Ix : In (cno c) (map cno (filter (fun c => cpos c =? gpos g) (mcells m)))) by (apply in_map, filter_In; split; [exact Ic|now apply Z.eqb_eq]).
    intros X. rewrite X in Ix. destruct Ix.
  - intros c I Nc. specialize (A c I Nc). apply in_map_iff in A. destruct A as (g & E & Ig). eauto.
Qed.

(** A deck is read when it has fewer than ten million elements, no group of
    another kind is called C1, C2, ..., and no element with a vector comes after
    one with a third node on the same two nodes. *)
Definition sound_order (l : list ocard) : Prop := forall l1 s1 l2 s2 l3 gb g x1 x2 x3,
  l = l1 ++ Element s1 :: l2 ++ Element s2 :: l3 -> sga s1 = sga s2 -> sgb s1 = Some gb -> sgb s2 = Some gb ->
  saxes s1 = Towards (ByNode g) -> saxes s2 = Towards (ByVector x1 x2 x3) -> False.
Lemma group_name_short n : Z.of_nat n < 10 ^ 7 -> group_name n = "C"%char :: nat_text (Z.of_nat n).
Proof.
  intros H. unfold group_name. pose proof (nat_text_length (Z.of_nat n) 6) as L. destruct (Nat.ltb_spec 7 (length (nat_text (Z.of_nat n)))) as [X|_]; [|reflexivity].
  exfalso. assert (B : 0 <= Z.of_nat n < 10 ^ Z.of_nat 7) by (change (10 ^ Z.of_nat 7) with (10 ^ 7); lia). specialize (L B). lia.
Qed.
Lemma group_name_inj a b : Z.of_nat a < 10 ^ 7 -> Z.of_nat b < 10 ^ 7 -> group_name a = group_name b -> a = b.
Proof.
  intros Ha Hb. rewrite !group_name_short by assumption. intros E. injection E as E.
  destruct (nat_text_spec (Z.of_nat a) ltac:(lia)) as (_ & Va & _). destruct (nat_text_spec (Z.of_nat b) ltac:(lia)) as (_ & Vb & _). rewrite E in Va. lia.
Qed.
Lemma in_elements s l : In s (elements l) -> exists l1 l2, l = l1 ++ Element s :: l2.
Proof.
  intros H. unfold elements in H. apply in_flat_map in H. destruct H as ([s'|c f] & I & K); [|destruct K]. destruct K as [K|[]]. subst s'. now apply in_split.
Qed.
Theorem C95_accepted : forall tol taken n l, (0 <= tol)%R -> 1 <= n ->
  sound_order l -> (forall k, ~ In ("C"%char :: nat_text (Z.of_nat k)) taken) -> Z.of_nat (length l) + 1 < 10 ^ 7 ->
  exists m, read_deck tol taken n l = Ok m.
Proof.
  intros tol taken n l T H. induction l as [|c l IH] using rev_ind; intros O K L; [eexists; reflexivity|].
  rewrite app_length in L. cbn [length] in L. destruct IH as [m R]; [|exact K|lia|].
  { intros l1 s1 l2 s2 l3 gb g x1 x2 x3 E. apply (O l1 s1 l2 s2 (l3 ++ [c]) gb g x1 x2 x3). rewrite E. rewrite <- app_assoc. cbn [app]. rewrite <- app_assoc. reflexivity. }
  pose proof (deck_state _ _ _ _ _ T H R) as [W F G Cn]. unfold read_deck. rewrite foldM_app'. fold (read_deck tol taken n l). rewrite R. cbn [bind foldM].
  assert (X : exists m', read_ocard tol taken m c = Ok m'); [|destruct X as [m' ->]; eexists; reflexivity].
  destruct c as [s|cid f]; cbn [read_ocard]; [|eauto]. unfold read_element.
  assert (Pl : exists r, place_axes tol (mcs m) s = Ok r).
  { unfold place_axes. destruct (saxes s) as [|d|cid] eqn:A; [eauto| |].
    - destruct (sgb s) as [gb|] eqn:Gb; [|eauto]. unfold add_orientation.
      destruct (find_orientation_ok tol (defs (mcs m)) (make_orientation (sga s) gb d) (refs (mcs m))) as [r ->]; [|destruct r; cbn [bind]; eauto].
      intros p k old I D. destruct (ws_auto _ _ W _ _ I) as (-> & s' & gb' & d' & Is & G' & A' & D'). rewrite D' in D. injection D as <-.
      unfold same_orientation, make_orientation. cbn [oO oX oV]. destruct (Z.eqb_spec (sga s) (sga s')) as [E1|N1]; [|cbn; eauto]. destruct (Z.eqb_spec gb gb') as [E2|N2]; [|cbn; eauto]. cbn [negb orb]. subst gb'.
      destruct d as [g|x1 x2 x3]; destruct d' as [g'|y1 y2 y3]; cbn; eauto. exfalso. apply in_elements in Is. destruct Is as (l1 & l2 & El).
      apply (O l1 s' l2 s [] gb g' x1 x2 x3); auto. rewrite El, <- app_assoc. reflexivity.
    - unfold find_or_reserve, reserve. destruct (csref_eqb (Named cid) (Named 0)); [eauto|]. destruct (find_position _ _); eauto. }
  destruct Pl as [[st p] ->]. cbn [bind]. destruct (p =? 0); [cbn [bind]; eauto|]. unfold join_group. destruct (existsb (fun g => gpos g =? p) (mgroups m)); [cbn [bind]; eauto|].
  assert (Le : (length (elements l) <= length l)%nat). { clear. induction l as [|[] l IH]; cbn [elements flat_map app length] in *; unfold elements in *; lia. }
  cbv zeta. match goal with |- context [if existsb ?f ?k then _ else _] => destruct (existsb f k) eqn:X end; [|cbn [bind]; eauto]. exfalso. apply existsb_name, in_app_or in X. destruct X as [X|X].
  - rewrite group_name_short in X by lia. exact (K _ X).
  - apply (Permutation_in _ (wg_names _ _ _ G)), in_map_iff in X. destruct X as (k & E & Ik). apply in_seq in Ik. apply group_name_inj in E; lia.
Qed.

(** ** Code_Aster *)
(** The direction written for an element is the one its card gives. *)
Definition points (tol : R) (nodes : Z -> outcome vec) (ga : Z) (d : direction) (v : vec) : Prop :=
  match d with
  | ByNode g => exists a c, nodes ga = Ok a /\ nodes g = Ok c /\ v = normalized (vsub c a)
  | ByVector x1 x2 x3 => (norm (vsub (normalized (dir_vec x1 x2 x3)) v) <= tol)%R
  end.
(** The nodes of an element exist, and the system it names. *)
Definition known (nodes : Z -> outcome vec) (l : list ocard) (s : segment) : Prop :=
  (exists a, nodes (sga s) = Ok a) /\ (forall gb, sgb s = Some gb -> exists b, nodes gb = Ok b) /\
  (forall g, saxes s = Towards (ByNode g) -> exists c, nodes g = Ok c) /\
  (forall cid, saxes s = InSystem cid -> cid <> 0 -> defined cid l <> None).
Lemma built_points tol nodes ga gb d o : meant tol ga gb d o -> (exists a, nodes ga = Ok a) -> (exists b, nodes gb = Ok b) ->
  (forall g, d = ByNode g -> exists c, nodes g = Ok c) -> exists v, built_vector nodes o = Ok v /\ points tol nodes ga d v.
Proof.
  intros (E1 & E2 & M) [a Ea] [b Eb] Hg. unfold built_vector. rewrite E1, E2, Ea, Eb. cbn [bind]. destruct d as [g|x1 x2 x3]; destruct (oV o) as [g'|v]; try contradiction.
  - subst g'. destruct (Hg g eq_refl) as [c Ec]. rewrite Ec. cbn [bind]. eexists. split; [reflexivity|]. exists a, c. auto.
  - eexists. split; [reflexivity|exact M].
Qed.
Lemma forall2_in_l {A B} (P : A -> B -> Prop) l l' : Forall2 P l l' -> forall a, In a l -> exists b, In b l' /\ P a b.
Proof. intros F. induction F as [|x y l l' H F IH]; intros a I; [destruct I|]. destruct I as [<-|I]; [exists y; split; [now left|exact H]|]. destruct (IH a I) as (b & Ib & Pb). exists b. split; [now right|exact Pb]. Qed.
Lemma forall2_in_r {A B} (P : A -> B -> Prop) l l' : Forall2 P l l' -> forall b, In b l' -> exists a, In a l /\ P a b.
Proof. intros F. induction F as [|x y l l' H F IH]; intros b I; [destruct I|]. destruct I as [<-|I]; [exists x; split; [now left|exact H]|]. destruct (IH b I) as (a & Ia & Pa). exists a. split; [now right|exact Pa]. Qed.
Lemma nodup_same {A B} (f : A -> B) : forall l a b, NoDup (map f l) -> In a l -> In b l -> f a = f b -> a = b.
Proof.
  induction l as [|x l IH]; intros a b N Ia Ib E; [destruct Ia|]. cbn [map] in N. inversion N as [|? ? Nx N']; subst.
  destruct Ia as [<-|Ia], Ib as [<-|Ib]; auto; exfalso; apply Nx; [rewrite E|rewrite <- E]; now apply in_map.
Qed.
Definition entry_of (m : omesh) (nodes : Z -> outcome vec) (g : ogroup) : list (vec * str * list Z) :=
  match vect_y m nodes g with Ok r => r | _ => [] end.
Lemma filter_flat_none {A B} (P : B -> bool) (F : A -> list B) l : (forall a b, In a l -> In b (F a) -> P b = false) -> filter P (flat_map F l) = [].
Proof.
  intros H. destruct (filter P (flat_map F l)) as [|b r] eqn:E; [reflexivity|]. exfalso. assert (I : In b (filter P (flat_map F l))) by (rewrite E; now left).
  apply filter_In in I. destruct I as [I X]. apply in_flat_map in I. destruct I as (a & Ia & Ib). rewrite (H a b Ia Ib) in X. discriminate.
Qed.
Lemma entries_cells m nodes g e : In e (entry_of m nodes g) -> snd e = gcells g /\ snd (fst e) = gname g.
Proof.
  unfold entry_of, vect_y. destruct (find_by_position _ _) as [[[f|o]|]| | |]; cbn [bind]; try (intros []; fail).
  destruct (built_vector nodes o) as [v| | |]; cbn [bind]; try (intros []; fail). intros [<-|[]]. auto.
Qed.
(** Each element with a plane gets one vector, through one group, and it is the
    direction of its own card; the others get none; the groups named are distinct. *)
Theorem C95_aster_partial : forall tol taken n l m nodes, (0 <= tol)%R -> 1 <= n -> read_deck tol taken n l = Ok m ->
  NoDup (map sid (elements l)) -> Forall (known nodes l) (elements l) ->
  exists out, aster_orientations false m nodes = Ok out /\ NoDup (map (fun e => snd (fst e)) out) /\
  forall s, In s (elements l) ->
    match saxes s, sgb s with
    | Towards d, Some gb => exists v name ids, filter (fun e => existsb (Z.eqb (sid s)) (snd e)) out = [(v, name, ids)] /\ points tol nodes (sga s) d v
    | _, _ => filter (fun e => existsb (Z.eqb (sid s)) (snd e)) out = []
    end.
Proof.
  intros tol taken n l m nodes T H R Nd Kn. pose proof (deck_state _ _ _ _ _ T H R) as [W F G _].
  destruct (C95_groups _ _ _ _ _ T H R) as (Gp & Gn & Gc & Ga). rewrite Forall_forall in Kn.
  assert (Fp : forall s c, In s (elements l) -> axes_ok tol (mcs m) s (cpos c) -> cpos c <> 0 ->
    match saxes s, sgb s with
    | Towards d, Some gb => exists v, forall g, gpos g = cpos c -> vect_y m nodes g = Ok [(v, gname g, gcells g)] /\ points tol nodes (sga s) d v
    | _, _ => forall g, gpos g = cpos c -> vect_y m nodes g = Ok []
    end).
  { intros s c Is A Np. destruct (Kn _ Is) as (K1 & K2 & K3 & K4). unfold axes_ok in A. unfold vect_y. destruct (saxes s) as [|d|cid] eqn:X; [congruence| |].
    - destruct (sgb s) as [gb|]; [|congruence]. destruct A as (N & I & o & D & M).
      destruct (built_points tol nodes (sga s) gb d o M K1 (K2 gb eq_refl)) as (v & V & P); [intros g ->; now apply K3|].
      exists v. intros g Eg. rewrite Eg, (position_of _ _ _ _ W I), D. cbn [bind]. rewrite V. auto.
    - intros g Eg. destruct A as [[_ E]|(N & P & I)]; [congruence|]. rewrite Eg, (position_of _ _ _ _ W I), (ws_named _ _ W). cbn [bind]. specialize (K4 cid eq_refl N). destruct (defined cid l); [reflexivity|congruence]. }
  assert (Vt : forall g, In g (mgroups m) -> vect_y m nodes g = Ok (entry_of m nodes g)).
  { intros g Ig. pose proof (wg_used _ _ _ G) as U. rewrite Forall_forall in U. destruct (U _ Ig) as (c & Ic & Ec).
    pose proof (wg_pos _ _ _ G) as P0. rewrite Forall_forall in P0. specialize (P0 _ Ig). cbn beta in P0.
    destruct (forall2_in_r _ _ _ F c Ic) as (s & Is & _ & A). specialize (Fp s c Is A ltac:(congruence)). unfold entry_of.
    destruct (saxes s) as [|d|cid]; [now rewrite (Fp g (eq_sym Ec))| |now rewrite (Fp g (eq_sym Ec))]. destruct (sgb s); [|now rewrite (Fp g (eq_sym Ec))].
    destruct Fp as (v & Fp). destruct (Fp g (eq_sym Ec)) as [-> _]. reflexivity. }
  exists (flat_map (entry_of m nodes) (mgroups m)). split; [|split].
  - unfold aster_orientations. rewrite (mapM_ok _ _ _ Vt). cbn [bind]. now rewrite flat_map_concat_map.
  - clear - Gn. induction (mgroups m) as [|g gs IH]; cbn [flat_map map]; [constructor|]. cbn [map] in Gn. inversion Gn as [|? ? N1 N2]; subst. rewrite map_app.
    assert (E : map (fun e => snd (fst e)) (entry_of m nodes g) = [] \/ map (fun e => snd (fst e)) (entry_of m nodes g) = [gname g]).
    { unfold entry_of, vect_y. destruct (find_by_position _ _) as [[[f|o]|]| | |]; cbn [bind]; auto. destruct (built_vector nodes o); cbn [bind]; auto. }
    destruct E as [E|E]; rewrite E; cbn [app]; [now apply IH|]. constructor; [|now apply IH]. intros I. apply in_map_iff in I. destruct I as (e & Ee & Ie). apply in_flat_map in Ie. destruct Ie as (h & Ih & Ie).
    apply entries_cells in Ie. apply N1. rewrite <- Ee. destruct Ie as [_ ->]. now apply in_map.
  - intros s Is. destruct (forall2_in_l _ _ _ F s Is) as (c & Ic & (C1 & C2 & C3) & A).
    assert (Nc : NoDup (map cno (mcells m))).
    { replace (map cno (mcells m)) with (map sid (elements l)); [exact Nd|]. clear - F. induction F as [|s c ss cs [(E & _) _] F IH]; cbn [map]; [reflexivity|]. now rewrite E, IH. }
    assert (Only : forall g e, In g (mgroups m) -> In e (entry_of m nodes g) -> existsb (Z.eqb (sid s)) (snd e) = true -> gpos g = cpos c).
    { intros g e Ig Ie X. apply entries_cells in Ie. destruct Ie as [Ie _]. rewrite Ie in X. apply existsb_exists in X. destruct X as (i & Ii & Ei). apply Z.eqb_eq in Ei. subst i.
      destruct (Gc _ Ig) as (_ & Eg & _). rewrite Eg in Ii. apply in_map_iff in Ii. destruct Ii as (c' & E' & I'). apply filter_In in I'. destruct I' as [I' P']. apply Z.eqb_eq in P'.
      rewrite <- P'. f_equal. apply (nodup_same cno (mcells m)); auto. congruence. }
    assert (None : cpos c = 0 \/ (forall g, gpos g = cpos c -> vect_y m nodes g = Ok []) -> filter (fun e => existsb (Z.eqb (sid s)) (snd e)) (flat_map (entry_of m nodes) (mgroups m)) = []).
    { intros Q. apply filter_flat_none. intros g e Ig Ie. destruct (existsb (Z.eqb (sid s)) (snd e)) eqn:X; [|reflexivity]. exfalso. pose proof (Only g e Ig Ie X) as E.
      destruct Q as [Q|Q]; [pose proof (wg_pos _ _ _ G) as P0; rewrite Forall_forall in P0; specialize (P0 _ Ig); cbn beta in P0; congruence|]. unfold entry_of in Ie. rewrite (Q g E) in Ie. destruct Ie. }
    destruct (Z.eq_dec (cpos c) 0) as [E0|N0].
    + unfold axes_ok in A. destruct (saxes s) as [|d|cid]; [now apply None; left| |now apply None; left]. destruct (sgb s); [|now apply None; left]. destruct A as (N & _). congruence.
    + specialize (Fp s c Is A N0). destruct (saxes s) as [|d|cid]; [now apply None; right| |now apply None; right]. destruct (sgb s) as [gb|]; [|now apply None; right].
      destruct Fp as (v & Fp). destruct (Ga c Ic N0) as (g & Ig & Eg). destruct (Fp g Eg) as (Ev & P). exists v, (gname g), (gcells g). split; [|exact P].
      apply in_split in Ig. destruct Ig as (g1 & g2 & Es). rewrite Es in Only, Gp |- *. rewrite map_app in Gp. cbn [map] in Gp. apply NoDup_remove_2 in Gp.
      rewrite flat_map_app, filter_app. cbn [flat_map]. rewrite filter_app.
      rewrite (filter_flat_none _ _ g1), (filter_flat_none _ _ g2).
      * unfold entry_of. rewrite Ev. cbn [filter snd app].
        assert (X : existsb (Z.eqb (sid s)) (gcells g) = true).
        { apply existsb_exists. exists (sid s). split; [|apply Z.eqb_refl]. destruct (Gc g) as (_ & Ec & _); [rewrite Es; apply in_or_app; right; now left|]. rewrite Ec, <- C1. apply in_map, filter_In. split; [exact Ic|apply Z.eqb_eq; congruence]. }
        now rewrite X.
      * intros h e Ih Ie. destruct (existsb (Z.eqb (sid s)) (snd e)) eqn:X; [|reflexivity]. exfalso. apply Gp, in_or_app. right. rewrite Eg, <- (Only h e); [now apply in_map|apply in_or_app; right; now right|exact Ie|exact X].
      * intros h e Ih Ie. destruct (existsb (Z.eqb (sid s)) (snd e)) eqn:X; [|reflexivity]. exfalso. apply Gp, in_or_app. left. rewrite Eg, <- (Only h e); [now apply in_map|apply in_or_app; now left|exact Ie|exact X].
Qed.

(** ** Axes *)
(** The axes of an element: a direct orthonormal base whose first vector goes from
    the first node to the second, and whose second is on the side of the given direction, in
    the plane that it makes with the element. *)
Theorem C95_axes : forall nodes o f a b v, built_axes nodes o = Ok f -> nodes (oO o) = Ok a -> nodes (oX o) = Ok b -> built_vector nodes o = Ok v ->
  cross (vsub b a) v <> vzero ->
  ortho (ex f) (ey f) (ez f) /\ ez f = cross (ex f) (ey f) /\ vscale (norm (vsub b a)) (ex f) = vsub b a /\
  exists x y, (0 < y)%R /\ ey f = vadd (vscale x (vsub b a)) (vscale y v).
Proof.
  intros nodes o f a b v E Ea Eb Ev Nz. unfold built_axes in E. rewrite Ea, Eb, Ev in E. cbn [bind] in E. injection E as <-. unfold oriented.
  set (d := vsub b a) in *. pose proof (cross_nonzero_l _ _ Nz) as Hd. pose proof (norm_pos d Hd) as Pd.
  assert (N1 : cross (normalized d) v <> vzero).
  { rewrite normalized_scale. intros E. apply Nz. assert (X : cross (vscale (/ norm d) d) v = vscale (/ norm d) (cross d v)) by (apply vec_eq; unfold cross, vscale; cbn; ring).
    rewrite X in E. assert (Y : cross d v = vscale (norm d) (vscale (/ norm d) (cross d v))).
    { rewrite vscale_vscale. replace (norm d * / norm d)%R with 1%R by (field; lra). now rewrite vscale_one. }
    rewrite Y, E. apply vec_eq; unfold vscale, vzero; cbn; ring. }
  set (e1 := normalized d) in *.
  assert (O : ortho e1 (orthonormalized v e1) (cross e1 (orthonormalized v e1))).
  { apply ortho_of_two; [now apply normalized_unit|now apply orthonormalized_unit|now apply orthonormalized_orth]. }
  rewrite build_ortho by exact O. cbn [built_frame ex ey ez]. split; [exact O|]. split; [reflexivity|]. split; [now apply normalized_back|].
  pose proof (norm_pos _ (reject_nonzero v e1 N1)) as Pr.
  exists (- (/ norm (reject v e1) * (dot e1 v / dot e1 e1) * / norm d))%R, (/ norm (reject v e1))%R. split; [now apply Rinv_0_lt_compat|].
  rewrite orthonormalized_eq, normalized_scale. set (k := (dot e1 v / dot e1 e1)%R).
  assert (E1 : e1 = vscale (/ norm d) d) by apply normalized_scale.
  assert (E2 : reject v e1 = vsub v (vscale k (vscale (/ norm d) d))) by (rewrite <- E1; reflexivity).
  set (q := (/ norm (reject v e1))%R). rewrite E2. clearbody q k. set (r := (/ norm d)%R). clearbody r.
  apply vec_eq; unfold vadd, vsub, vscale; cbn [vx vy vz]; ring.
Qed.
(** Before the vector is stored it is made of length one: this changes nothing to
    the axes. *)
Theorem C95_length : forall nodes ga gb x1 x2 x3 k a b, nodes ga = Ok a -> nodes gb = Ok b -> (0 < k)%R -> dir_vec x1 x2 x3 <> vzero ->
  exists f, built_axes nodes (make_orientation ga gb (ByVector x1 x2 x3)) = Ok f /\
    built_axes nodes (mkOrient ga gb (Along (normalized (vscale k (dir_vec x1 x2 x3))))) = Ok f.
Proof.
  intros nodes ga gb x1 x2 x3 k a b Ea Eb Hk Nz. unfold built_axes, make_orientation, built_vector. cbn [oO oX oV]. rewrite Ea, Eb. cbn [bind].
  eexists. split; [reflexivity|]. now rewrite normalized_pos_scale.
Qed.

(** ** Nastran *)
(** A beam written by the Nastran writer is read back with the same number,
    property and nodes, and with the vector as printed (any texts that read as
    its components); only the flag of the COSMIC dialect is announced. *)
Lemma blank_field vec i : (length vec <= i)%nat -> blank_at vec i.
Proof. intros H. unfold blank_at. rewrite field_beyond by exact H. reflexivity. Qed.
Theorem C95_rewritten_partial : forall (cosmic : bool) id pid ga gb x y z dx dy dz,
  Forall (fun n => 0 <= n < 10 ^ 8) [id; pid; ga; gb] -> real_of_field x = Ok dx -> real_of_field y = Ok dy -> real_of_field z = Ok dz ->
  ~ (dec_is_zero dx = true /\ dec_is_zero dy = true /\ dec_is_zero dz = true) ->
  exists t, (if cosmic then parseCBAR else parseCBEAM) (at_field (written_beam cosmic id pid ga gb x y z) 1) =
    Ok (mkSegment id pid ga (Some gb) (Towards (ByVector dx dy dz)), if cosmic then [WOfft] else [], t) /\ isEmptyUntilNextKeyword t = true.
Proof.
  intros cosmic id pid ga gb x y z dx dy dz B Hx Hy Hz N. inversion B as [|? ? B1 B']; subst. inversion B' as [|? ? B2 B'']; subst. inversion B'' as [|? ? B3 B3']; subst. inversion B3' as [|? ? B4 _]; subst. clear B B' B'' B3'.
  set (vec := written_beam cosmic id pid ga gb x y z).
  assert (L : length vec = 9%nat) by reflexivity.
  assert (Q1 : int_at vec 1 id) by (apply int_text_at; [exact B1|reflexivity]). assert (Q2 : int_at vec 2 pid) by (apply int_text_at; [exact B2|reflexivity]).
  assert (Q3 : int_at vec 3 ga) by (apply int_text_at; [exact B3|reflexivity]). assert (Q4 : int_at vec 4 gb) by (apply int_text_at; [exact B4|reflexivity]).
  assert (Q5 : plane_at vec (ByVector dx dy dz)) by (exists dy; split; [exact Hx|]; split; [exact Hy|]; split; [exact Hz|]; right; auto).
  assert (Q6 : ends_at vec (if cosmic then txt "1" else []) None None (repeat (0, 0) 6)).
  { split; [destruct cosmic; [left; split; [reflexivity|discriminate]|right; split; reflexivity]|]. split; [apply blank_field; lia|]. split; [apply blank_field; lia|]. split; [reflexivity|].
    intros j Hj. right. split; [apply blank_field; lia|]. destruct j as [|[|[|[|[|[|]]]]]]; try reflexivity; lia. }
  destruct cosmic.
  - destruct (C95_bar_read_partial _ _ _ _ _ _ _ _ _ _ Q1 Q2 Q3 Q4 Q5 Q6) as (w & E & A1 & A2 & A3 & A4).
    exists (at_field vec 17). split; [|apply blank_until; intros j Hj; apply blank_field; lia]. rewrite E. f_equal. f_equal. f_equal.
    unfold parseCBAR in E. rewrite (f_int _ _ _ Q1) in E. cbn [bind] in E. rewrite (f_int _ _ _ Q2) in E. cbn [bind] in E. rewrite (f_int _ _ _ Q3) in E. cbn [bind] in E. rewrite (f_int _ _ _ Q4) in E. cbn [bind] in E.
    rewrite (plane_read _ _ Q5) in E. cbn [bind] in E. change (parse_ends (at_field vec 8)) with (Ok ([WOfft], at_field vec 17)) in E. cbn [bind] in E. now injection E as <-.
  - destruct (C95_beam_read_partial vec id pid ga gb (ByVector dx dy dz) [] None None (repeat (0, 0) 6) None None Q1 Q2 Q3 Q4 Q5 Q6) as (w & w' & E & (A1 & A2 & A3 & A4) & S & S'); [apply blank_field; lia|apply blank_field; lia|].
    exists (at_field vec 19). split; [|apply blank_until; intros j Hj; apply blank_field; lia]. rewrite E. f_equal. f_equal. f_equal.
    assert (W : w = []). { destruct w as [|x0 r]; [reflexivity|]. exfalso. destruct (A4 x0 (or_introl eq_refl)) as [-> | [-> | ->]].
      - destruct (proj1 A1 (or_introl eq_refl)) as [Q _]. now apply Q.
      - destruct (proj1 A2 (or_introl eq_refl)); congruence.
      - destruct (proj1 A3 (or_introl eq_refl)) as (u & Iu & Eu). apply repeat_spec in Iu. subst u. discriminate. }
    assert (W' : w' = []). { destruct w' as [|x0 r]; [reflexivity|]. exfalso. pose proof (S' x0 (or_introl eq_refl)). subst x0. destruct (proj1 S (or_introl eq_refl)); congruence. }
    subst. reflexivity.
Qed.
(** The direction written is the one the element has after reading, for a third
    node too; read back from an exact text, it gives the same axes. *)
Theorem C95_rewritten_axes : forall nodes o v dx dy dz f, built_axes nodes o = Ok f -> built_vector nodes o = Ok v -> dot v v = 1%R -> dir_vec dx dy dz = v ->
  built_axes nodes (make_orientation (oO o) (oX o) (ByVector dx dy dz)) = Ok f.
Proof.
  intros nodes o v dx dy dz f E Ev U Ed. unfold built_axes, built_vector, make_orientation in *. cbn [oO oX oV]. rewrite Ed, normalized_of_unit by exact U.
  destruct (nodes (oO o)) as [a| | |]; try discriminate E. cbn [bind] in *. destruct (nodes (oX o)) as [b| | |]; try discriminate E. cbn [bind] in *. rewrite Ev in E. cbn [bind] in *. exact E.
Qed.

(** ** Where C95 fails *)
(** An element with a vector after one with a third node on the same two nodes:
    the comparison reads a vector that was never set. *)
Definition by_node : segment := mkSegment 1 7 11 (Some 12) (Towards (ByNode 13)).
Definition by_vector (id : Z) : segment := mkSegment id 7 11 (Some 12) (Towards (ByVector (1, 0) (0, 0) (0, 0))).
Theorem C95_uninitialised_refuted : exists a b, sid a <> sid b /\ forall tol,
  read_deck tol [] 1 [Element a; Element b] = UB /\ exists m, read_deck tol [] 1 [Element b; Element a] = Ok m.
Proof. exists by_node, (by_vector 2). split; [discriminate|]. intros tol. split; [reflexivity|]. eexists. reflexivity. Qed.

(** The components of the vector and the property may be left blank in Nastran
    (0, the number of the element): the card is refused. *)
Definition fields (l : list string) : list str := map txt l.
Theorem C95_blank_component_refuted : forall x2 x3, x2 = ""%string \/ x3 = ""%string ->
  parseCBAR (at_field (fields ["CBAR"; "1"; "7"; "11"; "12"; "1."; x2; x3]%string) 1) = Throw.
Proof. intros x2 x3 [-> | ->]; [reflexivity|]. destruct x2; reflexivity. Qed.
Theorem C95_blank_property_refuted :
  parseCBAR (at_field (fields ["CBAR"; "1"; ""; "11"; "12"; "13"]%string) 1) = Throw /\
  parseCBEAM (at_field (fields ["CBEAM"; "1"; ""; "11"; "12"; "13"]%string) 1) = Throw /\
  parseCBUSH (at_field (fields ["CBUSH"; "1"; ""; "11"; "12"; "13"]%string) 1) = Throw.
Proof. repeat split; reflexivity. Qed.
(** A bar with a third node, in free format with blanks between the commas, is
    refused; the same in columns is read. *)
Theorem C95_free_format_refuted : exists free short v w s t,
  nextLine [free] = Ok (Some (v, [])) /\ nextLine [short] = Ok (Some (w, [])) /\ map trim v = w /\
  parseCBAR (at_field w 1) = Ok (s, [], t) /\ saxes s = Towards (ByNode 13) /\ parseCBAR (at_field v 1) = Throw.
Proof.
  exists (txt "CBAR, 1, 7, 11, 12, 13, , , GGG"), (txt "CBAR    1       7       11      12      13                      GGG").
  eexists. eexists. eexists. eexists. split; [vm_compute; reflexivity|]. split; [vm_compute; reflexivity|]. split; [vm_compute; reflexivity|]. split; [vm_compute; reflexivity|]. split; vm_compute; reflexivity.
Qed.
(** The place of a bush along its line is optional and so is its orientation; the
    first without the second is refused. *)
Theorem C95_bush_location_refuted :
  parseCBUSH (at_field (fields ["CBUSH"; "1"; "7"; "11"; "12"; ""; ""; ""; ""; "0.3"]%string) 1) = Throw.
Proof. reflexivity. Qed.

(** The axes of a bush named by a system are not written: no orientation. *)
Definition turned : frame := Frame Cartesian (V3 0 0 0) (V3 0 1 0) (V3 (-1) 0 0) (V3 0 0 1) 0 None.
Definition in_system (cid : Z) : segment := mkSegment 5 7 11 (Some 12) (InSystem cid).
Definition two_nodes : Z -> outcome vec := fun i =>
  if i =? 11 then Ok (V3 0 0 0) else if i =? 12 then Ok (V3 1 0 0) else if i =? 13 then Ok (V3 3 0 4) else Throw.
Theorem C95_bush_system_refuted : exists l m, Forall (known two_nodes l) (elements l) /\ In (in_system 4) (elements l) /\ defined 4 l = Some turned /\
  forall tol, read_deck tol [] 1 l = Ok m /\ aster_orientations false m two_nodes = Ok [].
Proof.
  exists [Element (in_system 4); SystemCard 4 turned]. eexists. split.
  { repeat constructor; cbn; try (eexists; reflexivity).
    - intros gb E. injection E as <-. eexists; reflexivity.
    - intros g E. discriminate.
    - intros cid E _. injection E as <-. cbn. discriminate. }
  split; [now left|]. split; [reflexivity|]. intros tol. split; reflexivity.
Qed.
(** A system that is never defined is not noticed before the writer, which
    follows a null pointer. *)
Theorem C95_undefined_system_refuted : exists l m, forall tol, read_deck tol [] 1 l = Ok m /\ aster_orientations false m two_nodes = UB.
Proof. exists [Element (in_system 4)]. eexists. intros tol. split; reflexivity. Qed.
(** The vector of a bar is given in the displacement axes of its first node; it is
    written as if these were the global ones. *)
Definition in_axes (f : frame) (w : vec) : vec := along (ex f) (ey f) (ez f) w.
Theorem C95_displacement_axes_refuted : exists s m v name, forall tol,
  read_deck tol [] 1 [Element s] = Ok m /\ aster_orientations false m two_nodes = Ok [(v, name, [sid s])] /\
  saxes s = Towards (ByVector (1, 0) (0, 0) (0, 0)) /\ v <> normalized (in_axes turned (dir_vec (1, 0) (0, 0) (0, 0))).
Proof.
  exists (by_vector 2). eexists. eexists. eexists. intros tol. split; [reflexivity|]. split; [reflexivity|]. split; [reflexivity|].
  assert (E1 : dec_R (1, 0) = 1%R) by (unfold dec_R, Q2R; cbn; lra). assert (E0 : dec_R (0, 0) = 0%R) by (unfold dec_R, Q2R; cbn; lra).
  unfold in_axes, along, dir_vec, turned. rewrite E1, E0. cbn [ex ey ez vx vy vz].
  rewrite normalized_of_unit by (unfold dot; cbn; ring). rewrite normalized_of_unit by (unfold dot; cbn; ring). intros E. apply (f_equal vx) in E. cbn in E. lra.
Qed.
(** An oriented bush goes through the Nastran writer without its orientation. *)
Theorem C95_bush_rewritten_refuted : forall id pid ga gb, Forall (fun n => 0 <= n < 10 ^ 8) [id; pid; ga; gb] ->
  exists t, parseCBUSH (at_field (written_bush id pid ga gb) 1) = Ok (mkSegment id pid ga (Some gb) NoAxes, [], t).
Proof.
  intros id pid ga gb B. inversion B as [|? ? B1 B']; subst. inversion B' as [|? ? B2 B'']; subst. inversion B'' as [|? ? B3 B3']; subst. inversion B3' as [|? ? B4 _]; subst.
  eexists. apply C95_bush_bare; try (apply int_text_at; [assumption|reflexivity]).
  intros j Hj. apply blank_field. exact Hj.
Qed.

(** ** Examples *)
Definition bar_text : list str := fields ["CBAR"; "1"; "7"; "11"; "12"; "3."; "0."; "4."; "GGG"; "6"]%string.
Definition nil_text : list str := fields ["CBEAM"; "2"; "7"; "11"; "12"; "0."; "0."; "0."]%string.
Definition bush_text : list str := fields ["CBUSH"; "5"; "7"; "11"; ""; ""; ""; ""; "4"]%string.
Example C95_read_example :
  (exists t, parseCBAR (at_field bar_text 1) = Ok (mkSegment 1 7 11 (Some 12) (Towards (ByVector (3, 0) (0, 0) (4, 0))), [WPins], t)) /\
  (exists t, parseCBEAM (at_field nil_text 1) = Ok (mkSegment 2 7 11 (Some 12) (Towards (ByVector (0, 0) (1, 0) (0, 0))), [], t)) /\
  (exists t, parseCBUSH (at_field bush_text 1) = Ok (mkSegment 5 7 11 None (InSystem 4), [], t)) /\
  plane_at bar_text (ByVector (3, 0) (0, 0) (4, 0)) /\ bush_axes_at bush_text None (InSystem 4).
Proof.
  split; [eexists; vm_compute; reflexivity|]. split; [eexists; vm_compute; reflexivity|]. split; [eexists; vm_compute; reflexivity|]. split.
  - exists (0, 0). split; [vm_compute; reflexivity|]. split; [vm_compute; reflexivity|]. split; [vm_compute; reflexivity|]. right. split; [reflexivity|]. intros (X & _). vm_compute in X. discriminate.
  - cbn [bush_axes_at]. apply int_text_at; [lia|reflexivity].
Qed.
(** Two bars towards a node share one orientation, a third along a vector has
    another one, the bush that names a system none. *)
Definition sample : list ocard :=
  [Element (by_vector 3); Element by_node; Element (in_system 4); Element (mkSegment 2 7 11 (Some 12) (Towards (ByNode 13))); SystemCard 4 turned].
Example C95_example : forall tol, (0 <= tol)%R -> exists m, read_deck tol [] 1 sample = Ok m /\ sound_order sample /\ NoDup (map sid (elements sample)) /\
  Forall (known two_nodes sample) (elements sample) /\
  exists v, aster_orientations false m two_nodes = Ok [(v, txt "C1", [3]); (normalized (V3 3 0 4), txt "C2", [1; 2])] /\
  cross (vsub (V3 1 0 0) (V3 0 0 0)) (normalized (V3 3 0 4)) <> vzero.
Proof.
  intros tol T. eexists. split; [reflexivity|]. split.
  { intros l1 s1 l2 s2 l3 gb g x1 x2 x3 E _ _ _ A1 A2. unfold sample in E.
    destruct l1 as [|? l1]; [injection E as <- E; discriminate A1|]. injection E as _ E.
    assert (I : In (Element s2) [Element by_node; Element (in_system 4); Element (mkSegment 2 7 11 (Some 12) (Towards (ByNode 13))); SystemCard 4 turned]).
    { rewrite E. apply in_or_app. right. right. apply in_or_app. right. now left. }
    cbn [In] in I. decompose [or] I; try (match goal with H : Element _ = Element s2 |- _ => injection H as <-; discriminate A2 end); try discriminate; contradiction. }
  split; [repeat constructor; cbn; lia|]. split.
  { repeat constructor; cbn; try (eexists; reflexivity); try (intros gb E; injection E as <-; eexists; reflexivity);
      try (intros g E; injection E as <-; eexists; reflexivity); try (intros g E; discriminate E); intros cid E _; injection E as <-; cbn; discriminate. }
  eexists. split; [cbn; do 3 f_equal|].
  - f_equal. f_equal. f_equal. f_equal. unfold vsub. cbn [vx vy vz]. f_equal; ring.
  - assert (N : norm (V3 3 0 4) = 5%R). { unfold norm, dot. cbn [vx vy vz]. replace (3 * 3 + 0 * 0 + 4 * 4)%R with (5 * 5)%R by ring. apply sqrt_square. lra. }
    intros E. apply (f_equal vy) in E. unfold normalized in E. rewrite N in E. unfold cross, vsub, vzero in E. cbn [vx vy vz] in E. lra.
Qed.

Print Assumptions C95_bar_read_partial.
Print Assumptions C95_beam_read_partial.
Print Assumptions C95_bush_read_partial.
Print Assumptions C95_bush_bare.
Print Assumptions C95_deck_partial.
Print Assumptions C95_groups.
Print Assumptions C95_accepted.
Print Assumptions C95_aster_partial.
Print Assumptions C95_axes.
Print Assumptions C95_length.
Print Assumptions C95_rewritten_partial.
Print Assumptions C95_rewritten_axes.
Print Assumptions C95_uninitialised_refuted.
Print Assumptions C95_blank_component_refuted.
Print Assumptions C95_blank_property_refuted.
Print Assumptions C95_free_format_refuted.
Print Assumptions C95_bush_location_refuted.
Print Assumptions C95_bush_system_refuted.
Print Assumptions C95_undefined_system_refuted.
Print Assumptions C95_displacement_axes_refuted.
Print Assumptions C95_bush_rewritten_refuted.
