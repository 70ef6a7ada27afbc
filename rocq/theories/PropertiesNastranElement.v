(** Property C100: the elements of the Nastran files, read from their cards, and
    written and read back.

    Spec: the places of the fields on the cards of solids and shells; what comes
    back from a written file, cell by cell. *)
From Coq Require Import Ascii String QArith Qabs ZArith List Bool Arith Lia.
From Verif Require Import Base TextModel TextProofs TokenizerModel TokenizerProofs NextIntsProofs RealModel WriterLineModel WriterLineProofs WriterRealProofs PropertiesTokenizer PropertiesWriterLine
  CardModel CardProofs LoadCardModel FieldProofs PropCardModel PropertiesReal PropertiesGrid PropertiesLoadCards PropertiesPropCards MeshNodeModel MeshCellModel ConnectModel ConnectProofs PropertiesConnect
  OrientModel PropertiesOrient NastranElementModel NastranElementProofs.
Import ListNotations.
Open Scope Z_scope.
Open Scope list_scope.

(** ** Spec *)
(** The fields from number [i] on are the nodes of the list. *)
Definition nodes_at (vec : list str) (i : nat) (l : list Z) : Prop := forall j, (j < length l)%nat -> int_at vec (i + j) (nth j l 0).
(** The keywords of the solids, and the cells they may stand for. *)
Definition solid_keyword (kw : string) (ty : ctype) : Prop :=
  In (kw, ty) [("CHEXA", HEXA8); ("CHEXA", HEXA20); ("CIHEX1", HEXA8); ("CIHEX1", HEXA20); ("CIHEX2", HEXA8); ("CIHEX2", HEXA20);
    ("CPENTA", PENTA6); ("CPENTA", PENTA15); ("CPYRA", PYRA5); ("CPYRA", PYRA13); ("CPYRAM", PYRA5); ("CPYRAM", PYRA13); ("CTETRA", TETRA4); ("CTETRA", TETRA10)]%string.
(** The keywords of the shells. *)
Definition shell_keyword (kw : string) (ty : ctype) : Prop :=
  In (kw, ty) [("CTRIA3", TRI3); ("CTRIAR", TRI3); ("CQUAD4", QUAD4); ("CQUADR", QUAD4); ("CTRIA6", TRI6); ("CQUAD8", QUAD8)]%string.
(** The places of a shell card: material angle, offset, flag, first thickness, number
    of thicknesses. *)
Record places := mkPlaces { p_angle : nat; p_offset : nat; p_flag : nat; p_first : nat; p_count : nat }.
Definition shell_places (ty : ctype) : places :=
  match ty with
  | TRI3 => mkPlaces 6 7 10 11 3
  | QUAD4 => mkPlaces 7 8 10 11 4
  | TRI6 => mkPlaces 9 10 14 11 3
  | _ => mkPlaces 15 16 17 11 4
  end.

(** ** Reading *)
(** A solid: number, property (its own number when blank), the type that has the
    nodes of the card; the nodes of the card are found again when it is written. *)
Theorem C100_solid_read : forall kw ty vec id pid card, solid_keyword kw ty -> field vec 0 = txt kw -> int_at vec 1 id -> int_or id vec 2 pid ->
  length card = numNodes ty -> nodes_at vec 3 card -> blank_at vec (3 + numNodes ty) ->
  exists med, read_card vec = Ok [Cell (mkElement id pid ty med (0, 0))] /\ parseElem (card_types ty) card = Ok (ty, med) /\ write_connect ty med = Ok card.
Proof.
  intros kw ty vec id pid card K W H1 H2 L N B.
  assert (S : solid_card ty). { unfold solid_keyword in K. cbn [In] in K. unfold solid_card. cbn [In]. decompose [or] K; try contradiction; match goal with H : _ = _ |- _ => injection H as <- <- end; auto 10. }
  destruct (C25_read_then_write ty card S L) as (med & E & _ & Ew). exists med. split; [|auto].
  destruct vec as [|k vec]; [exfalso; pose proof (int_present _ _ _ H1) as P; cbn in P; lia|]. cbn in W. subst k.
  set (V := txt kw :: vec) in *. unfold read_card at 1. unfold V at 1. cbv zeta.
  assert (HH : handler_of handlers (txt kw) = Some (HSolid (card_types ty))).
  { unfold solid_keyword in K. cbn [In] in K. decompose [or] K; try contradiction; match goal with H : _ = _ |- _ => injection H as <- <- end; reflexivity. }
  rewrite HH. fold V. rewrite card_cursor by discriminate. unfold read_solid. rewrite (f_int _ _ _ H1). cbn [bind]. rewrite (f_intdef _ _ _ _ H2). cbn [bind].
  rewrite (f_nextInts V 3 card N) by (rewrite L; exact B). cbn [bind]. rewrite E. reflexivity.
Qed.

(** A shell: the same, with the nodes as on the card and the offset at its place;
    angle, flag and thicknesses are not kept. *)
Theorem C100_shell_read : forall kw ty vec id pid card angle zoffs flag, shell_keyword kw ty -> field vec 0 = txt kw -> int_at vec 1 id -> int_or id vec 2 pid ->
  length card = numNodes ty -> nodes_at vec 3 card ->
  let p := shell_places ty in
  real_or (0, 0) vec (p_angle p) angle -> real_or (0, 0) vec (p_offset p) zoffs -> int_or 0 vec (p_flag p) flag ->
  (forall j, (j < p_count p)%nat -> exists v, real_opt vec (p_first p + j) v) ->
  read_card vec = Ok [Cell (mkElement id pid ty card zoffs)].
Proof.
  intros kw ty vec id pid card angle zoffs flag K W H1 H2 L N p A Z0 F T.
  destruct vec as [|k vec]; [exfalso; pose proof (int_present _ _ _ H1) as P; cbn in P; lia|]. cbn in W. subst k.
  set (V := txt kw :: vec) in *. unfold read_card at 1. unfold V at 1. cbv zeta.
  assert (HH : handler_of handlers (txt kw) = Some (HShell ty)).
  { unfold shell_keyword in K. cbn [In] in K. decompose [or] K; try contradiction; match goal with H : _ = _ |- _ => injection H as <- <- end; reflexivity. }
  rewrite HH. fold V. rewrite card_cursor by discriminate. unfold read_shell. rewrite (f_int _ _ _ H1). cbn [bind]. rewrite (f_intdef _ _ _ _ H2). cbn [bind].
  rewrite (f_ints (numNodes ty) V 3 card L) by (intros j Hj; apply N; lia). cbn [bind].
  assert (Q : In ty [TRI3; QUAD4; TRI6; QUAD8]).
  { unfold shell_keyword in K. cbn [In] in K. cbn [In]. decompose [or] K; try contradiction; match goal with H : _ = _ |- _ => injection H as <- <- end; auto 10. }
  clear K HH. clearbody V. subst p. cbn [In] in Q. destruct Q as [<- | [<- | [<- | [<- | []]]]]; cbn [shell_places p_angle p_offset p_flag p_first p_count numNodes] in *.
  - change (3 + 3)%nat with 6%nat. rewrite (f_doubledef _ _ _ _ A). cbn [bind]. rewrite (f_doubledef _ _ _ _ Z0). cbn [bind]. rewrite (f_skipn V 8 2). cbn [bind]. change (8 + 2)%nat with 10%nat. rewrite (f_intdef 0 V 10 _ F). cbn [bind].
    rewrite (f_thicknesses 3 V 11 T). reflexivity.
  - change (3 + 4)%nat with 7%nat. rewrite (f_doubledef _ _ _ _ A). cbn [bind]. rewrite (f_doubledef _ _ _ _ Z0). cbn [bind]. rewrite (f_skipn V 9 1). cbn [bind]. change (9 + 1)%nat with 10%nat. rewrite (f_intdef 0 V 10 _ F). cbn [bind].
    rewrite (f_thicknesses 4 V 11 T). reflexivity.
  - change (3 + 6)%nat with 9%nat. rewrite (f_doubledef _ _ _ _ A). cbn [bind]. rewrite (f_doubledef _ _ _ _ Z0). cbn [bind].
    rewrite (f_thicknesses 3 V 11 T). cbn [bind]. change (11 + 3)%nat with 14%nat. rewrite (f_intdef 0 V 14 _ F). reflexivity.
  - change (3 + 8)%nat with 11%nat. rewrite (f_thicknesses 4 V 11 T). cbn [bind]. change (11 + 4)%nat with 15%nat.
    rewrite (f_doubledef _ V 15 _ A). cbn [bind]. rewrite (f_doubledef _ V 16 _ Z0). cbn [bind]. rewrite (f_intdef 0 V 17 _ F). reflexivity.
Qed.

(** ** Written and read back *)
Definition number (n : Z) : Prop := 0 <= n < 10 ^ 8.
(** A number that is at least 1e-9: it is not printed as zero. *)
Definition sizeable (v : wreal) : Prop := 10 ^ snd v <= Z.abs (fst v) * 10 ^ 9.
(** The cells that come back: solids (no tetrahedron in the COSMIC dialect), shells
    other than CQUAD8, plane elements (but not in the COSMIC dialect), beams with a
    vector. *)
Definition sound_cell (cosmic : bool) (k : skind) (c : wcell) : Prop :=
  number (wc_id c) /\ Forall number (wc_nodes c) /\ length (wc_nodes c) = numNodes (wc_type c) /\
  match k with
  | SContinuum => (solid_card (wc_type c) /\ (cosmic = true -> wc_type c <> TETRA4 /\ wc_type c <> TETRA10)) \/ (cosmic = false /\ shell_card (wc_type c))
  | SShell => In (wc_type c) [TRI3; QUAD4; TRI6] /\ wok (wc_offset c)
  | SBeam => wc_type c = SEG2 /\ exists x y z, wc_vector c = Some (x, y, z) /\ wok x /\ wok y /\ wok z /\ (sizeable x \/ sizeable y \/ sizeable z)
  | _ => False
  end.
Definition sound_set (cosmic : bool) (s : wset) : Prop :=
  ws_kind s = SMatrix \/ (number (ws_id s) /\ Forall (sound_cell cosmic (ws_kind s)) (ws_cells s)).
(** The cells of the file: those of all the sets but the direct matrices. *)
Definition file_cells (sets : list wset) : list (wset * wcell) :=
  flat_map (fun s => match ws_kind s with SMatrix => [] | _ => map (pair s) (ws_cells s) end) sets.
(** The nodes of a plane element as they come back: same first node, other sense;
    those of a solid as they were. *)
Definition turned (ty : ctype) (nodes : list Z) : list Z :=
  match ty, nodes with
  | TRI3, [a; b; c] => [a; c; b]
  | QUAD4, [a; b; c; d] => [a; d; c; b]
  | TRI6, [a; b; c; ab; bc; ca] => [a; c; b; ca; bc; ab]
  | QUAD8, [a; b; c; d; ab; bc; cd; da] => [a; d; c; b; da; cd; bc; ab]
  | _, _ => nodes
  end.
(** What comes back of a cell: its number, the number of its set, its type, its
    nodes, its offset or vector as printed. *)
Definition comes_back (sc : wset * wcell) (m : made) : Prop :=
  let '(s, c) := sc in
  match ws_kind s with
  | SBeam => exists ga gb x y z dx dy dz, wc_nodes c = [ga; gb] /\ wc_vector c = Some (x, y, z) /\ printed x dx /\ printed y dy /\ printed z dz /\
      m = Bar (mkSegment (wc_id c) (ws_id s) ga (Some gb) (Towards (ByVector dx dy dz)))
  | SShell => exists zoffs, printed (wc_offset c) zoffs /\ m = Cell (mkElement (wc_id c) (ws_id s) (wc_type c) (turned (wc_type c) (wc_nodes c)) zoffs)
  | SContinuum => m = Cell (mkElement (wc_id c) (ws_id s) (wc_type c) (turned (wc_type c) (wc_nodes c)) (0, 0))
  | _ => False
  end.

Ltac spread n l H :=
  match n with
  | O => destruct l; [clear H|discriminate H]
  | S ?m => let a := fresh "g" in destruct l as [|a l]; [discriminate H|]; cbn [length] in H; spread m l H
  end.
Lemma sizeable_not_zero v m : 0 <= snd v -> sizeable v -> printed v m -> dec_is_zero m = false.
Proof.
  intros K S P. pose proof (written_far v m K S P) as F. unfold dec_is_zero. destruct (Qle_bool _ _) eqn:E; [|reflexivity].
  apply Qle_bool_iff in E. apply Qabs_Qle_condition in E. change (dec_q m) with (value m) in E. destruct E as [E1 E2].
  assert (D : (5 # 4503599627370496 < 1 # 2000000000)%Q) by reflexivity. exfalso. destruct F as [F|F].
  - apply (Qle_not_lt _ _ F). eapply Qle_lt_trans; [exact E2|exact D].
  - apply Qopp_le_compat in F. apply Qopp_le_compat in E1. rewrite Qopp_involutive in F, E1.
    apply (Qle_not_lt _ _ F). eapply Qle_lt_trans; [exact E1|exact D].
Qed.
Lemma wire_twice t : wire t -> trim (trim t) = trim t.
Proof. intros [(_ & T & _) _]. now apply trimmed_trim. Qed.
Lemma wire_real_at tie v : wok v -> exists m, real_of_field (trim (real_field tie v)) = Ok m /\ printed v m.
Proof.
  intros [W K]. destruct (printed_real tie v W K) as (m & E & P). exists m. split; [|exact P]. unfold real_of_field in *. rewrite wire_twice by now apply wire_real. exact E.
Qed.
Lemma wire_ints l : Forall number l -> Forall wire (map int_text l) /\ map trim (map int_text l) = map int_text l.
Proof. induction 1 as [|n l H _ [IH1 IH2]]; [split; [constructor|reflexivity]|]. destruct (wire_int n H) as [A B]. cbn. rewrite B, IH2. split; [constructor; assumption|reflexivity]. Qed.
Lemma nodes_written kw id pid nodes tail : Forall number nodes -> nodes_at (kw :: int_text id :: int_text pid :: map int_text nodes ++ tail) 3 nodes.
Proof.
  intros F j Hj. apply int_text_at; [rewrite Forall_forall in F; apply F, nth_In, Hj|]. unfold field. cbn [nth Nat.add].
  rewrite app_nth1 by (rewrite map_length; exact Hj). rewrite (nth_indep _ [] (int_text 0)) by (rewrite map_length; exact Hj). apply map_nth.
Qed.
Lemma scatter_in n : forall p inp out, scatter n p inp = Ok out -> forall P : Z -> Prop, P 0 -> Forall P inp -> Forall P out.
Proof.
  intros p inp out E P P0 F. unfold scatter in E. revert E. assert (F0 : Forall P (repeat 0 n)) by (apply Forall_forall; intros x I; apply repeat_spec in I; now subst).
  revert F0. generalize (repeat 0 n) as v. induction (seq 0 n) as [|i l IH]; cbn [foldM]; intros v Fv E; [injection E as <-; exact Fv|].
  destruct (nth_error p i) as [k|]; try discriminate E. cbn [of_option bind] in E. destruct (nth_error inp i) as [x|] eqn:X; try discriminate E. cbn [of_option bind] in E.
  unfold store in E. destruct (k <? length v)%nat eqn:B; try discriminate E. cbn [bind] in E. eapply IH; [|exact E].
  apply nth_error_In in X. rewrite Forall_forall in F. apply F in X. clear - Fv X. revert k. induction Fv as [|a v Ha Fv IH]; intros k; [destruct k; constructor|]. destruct k; cbn; constructor; auto.
Qed.
Lemma connect_numbers ty med out : write_connect ty med = Ok out -> Forall number med -> Forall number out.
Proof.
  unfold write_connect. destruct (med2nastran ty) as [q|]; intros E F; [|now injection E as <-]. eapply scatter_in; [exact E| |exact F]. unfold number. lia.
Qed.

(** One cell. *)
Lemma plane_written ty nodes : In ty [TRI3; QUAD4; TRI6; QUAD8] -> length nodes = numNodes ty ->
  write_connect ty nodes = Ok (turned ty nodes) /\ length (turned ty nodes) = numNodes ty.
Proof.
  intros [<- | [<- | [<- | [<- | []]]]] L; cbn [numNodes] in L.
  - spread 3%nat nodes L. split; reflexivity.
  - spread 4%nat nodes L. split; reflexivity.
  - spread 6%nat nodes L. split; reflexivity.
  - spread 8%nat nodes L. split; reflexivity.
Qed.
Lemma solid_turned ty nodes : solid_card ty -> turned ty nodes = nodes.
Proof. intros H. each_solid H; reflexivity. Qed.
Lemma keyword_txt s : In s ["CBAR"; "CBEAM"; "CHEXA"; "CIHEX1"; "CIHEX2"; "CPENTA"; "CPYRA"; "CTETRA"; "CTRIA3"; "CTRIA6"; "CQUAD4"; "CQUAD8"]%string -> keyword (txt s).
Proof.
  cbn [In]. intros H. decompose [or] H; try contradiction; subst s; (split; [discriminate|]); (split; [split; [cbn; lia|]; split; [intros c [E|E]; cbn in E; injection E as <-; reflexivity|split; cbn; intros X; decompose [or] X; try contradiction; discriminate]|]);
    (split; [cbn; intros X; decompose [or] X; try contradiction; discriminate|]); (split; [cbn; intros X; decompose [or] X; try contradiction; discriminate|discriminate]).
Qed.
Lemma cell_back tie cosmic strict s c : ws_kind s <> SMatrix -> number (ws_id s) -> sound_cell cosmic (ws_kind s) c ->
  exists kw vs, write_cell tie cosmic strict s c = Ok (kw, vs) /\ keyword kw /\ Forall wire vs /\ (length vs <= 22)%nat /\
    exists m, read_card (kw :: map trim vs) = Ok [m] /\ comes_back (s, c) m.
Proof.
  intros NM Ns (Ni & Nn & L & H). destruct (wire_int _ Ni) as [W1 T1]. destruct (wire_int _ Ns) as [W2 T2].
  unfold write_cell, comes_back. destruct (ws_kind s) eqn:Ek; cbn [keyword_of is_beam is_shell] in *; try contradiction; try congruence.
  - (* beams *)
    destruct H as (Ety & x & y & z & Ev & [Wx Kx] & [Wy Ky] & [Wz Kz] & Sz). rewrite Ety in *. cbn [numNodes] in L. remember (wc_nodes c) as nodes eqn:En. spread 2%nat nodes L.
    change (write_connect SEG2 [g; g0]) with (Ok [g; g0]). rewrite Ev. cbn [is_tetra vec_fields bind]. rewrite andb_false_r. cbn [map app].
    inversion Nn as [|? ? N1 Nn']; subst. inversion Nn' as [|? ? N2 _]; subst. destruct (wire_int _ N1) as [W3 T3]. destruct (wire_int _ N2) as [W4 T4].
    pose proof (wire_real tie x Wx Kx) as Rx. pose proof (wire_real tie y Wy Ky) as Ry. pose proof (wire_real tie z Wz Kz) as Rz.
    eexists _, _. split; [reflexivity|]. split; [apply keyword_txt; destruct cosmic; cbn; auto|].
    split; [repeat (constructor; [assumption|]); constructor; [destruct cosmic; [exact wire_one|exact wire_blank]|constructor]|]. split; [cbn; lia|].
    destruct (wire_real_at tie x (conj Wx Kx)) as (dx & Ex & Px). destruct (wire_real_at tie y (conj Wy Ky)) as (dy & Ey & Py). destruct (wire_real_at tie z (conj Wz Kz)) as (dz & Ez & Pz).
    eexists. split; [|exists g, g0, x, y, z, dx, dy, dz; repeat (split; [first [reflexivity|assumption]|]); reflexivity].
    cbn [map]. rewrite T1, T2, T3, T4.
    assert (Etl : trim (if cosmic then txt "1" else []) = if cosmic then txt "1" else []) by (destruct cosmic; reflexivity). rewrite Etl.
    destruct (C95_rewritten_partial cosmic (wc_id c) (ws_id s) g g0 (trim (real_field tie x)) (trim (real_field tie y)) (trim (real_field tie z)) dx dy dz) as (t & R & _); [repeat (constructor; [assumption|]); constructor|exact Ex|exact Ey|exact Ez| |].
    { intros (Z1 & Z2 & Z3). destruct Sz as [Sz|[Sz|Sz]]; [rewrite (sizeable_not_zero _ _ Kx Sz Px) in Z1|rewrite (sizeable_not_zero _ _ Ky Sz Py) in Z2|rewrite (sizeable_not_zero _ _ Kz Sz Pz) in Z3]; discriminate. }
    unfold written_beam in R. cbn [map app] in R. unfold read_card. destruct cosmic.
    + change (handler_of handlers (txt "CBAR")) with (Some HBar). cbv iota. rewrite card_cursor by discriminate. rewrite R. reflexivity.
    + change (handler_of handlers (txt "CBEAM")) with (Some HBeam). cbv iota. rewrite card_cursor by discriminate. rewrite R. reflexivity.
  - (* shells *)
    destruct H as [Hty [Wo Ko]]. assert (Q : In (wc_type c) [TRI3; QUAD4; TRI6; QUAD8]) by (cbn in *; tauto).
    destruct (plane_written _ _ Q L) as [Ew Lw]. rewrite Ew. pose proof (connect_numbers _ _ _ Ew Nn) as Nt. destruct (wire_ints _ Nt) as [Wn Tn].
    pose proof (wire_real tie _ Wo Ko) as Ro. destruct (wire_real_at tie _ (conj Wo Ko)) as (zoffs & Eo & Po).
    assert (Tt : cosmic && is_tetra (wc_type c) = false) by (cbn in Hty; destruct Hty as [<- | [<- | [<- | []]]]; apply andb_false_r).
    assert (Kw : exists kw, match wc_type c with TRI3 => Some (txt "CTRIA3") | TRI6 => Some (txt "CTRIA6") | QUAD4 => Some (txt "CQUAD4") | QUAD8 => Some (txt "CQUAD8") | _ => None end = Some (txt kw) /\
              keyword (txt kw) /\ shell_keyword kw (wc_type c)).
    { cbn in Hty. destruct Hty as [<- | [<- | [<- | []]]]; eexists; (split; [reflexivity|]); (split; [apply keyword_txt; cbn; auto 20|unfold shell_keyword; cbn; auto 20]). }
    destruct Kw as (kw & -> & Hk & Sk). cbn [bind]. rewrite Tt. cbn [bind].
    eexists _, _. split; [reflexivity|]. split; [exact Hk|].
    split; [constructor; [assumption|]; constructor; [assumption|]; apply Forall_app; split; [assumption|]; constructor; [exact wire_blank|]; constructor; [assumption|constructor]|].
    split; [rewrite app_length; cbn [length]; rewrite map_length, Lw; cbn in Hty; destruct Hty as [<- | [<- | [<- | []]]]; cbn; lia|].
    eexists. split; [|exists zoffs; split; [exact Po|reflexivity]].
    cbn [map app]. rewrite map_app, T1, T2, Tn. cbn [map]. change (trim []) with ([] : str).
    set (V := txt kw :: _). assert (LV : length V = (5 + numNodes (wc_type c))%nat) by (unfold V; cbn [length]; rewrite app_length, map_length, Lw; cbn; lia).
    assert (FO : field V (4 + numNodes (wc_type c)) = trim (real_field tie (wc_offset c))).
    { unfold V, field. cbn [nth Nat.add]. rewrite app_nth2; rewrite map_length, Lw; [|lia]. replace (S (numNodes (wc_type c)) - numNodes (wc_type c))%nat with 1%nat by lia. reflexivity. }
    assert (FB : field V (3 + numNodes (wc_type c)) = []).
    { unfold V, field. cbn [nth Nat.add]. rewrite app_nth2; rewrite map_length, Lw; [|lia]. now rewrite Nat.sub_diag. }
    eapply C100_shell_read with (angle := (0, 0)) (flag := 0); [exact Sk|reflexivity|apply int_text_at; [exact Ni|reflexivity]|left; apply int_text_at; [exact Ns|reflexivity]|exact Lw|apply nodes_written, Nt| | | |];
      cbn in Hty; destruct Hty as [E | [E | [E | []]]]; rewrite <- E in *; cbn [shell_places p_angle p_offset p_flag p_first p_count numNodes] in *; clearbody V;
      try (right; split; [unfold blank_at; cbn [Nat.add] in FB; rewrite FB; reflexivity|reflexivity]);
      try (left; unfold real_at; cbn [Nat.add] in FO; rewrite FO; exact Eo);
      try (right; split; [apply blank_field; lia|reflexivity]); intros j Hj; exists None; apply blank_field; lia.
  - (* volumes and plane elements *)
    destruct H as [[Hs Hc]|[-> Hs]].
    + destruct (C25_write_then_read (wc_type c) (wc_nodes c) Hs L) as (card & Ew & Er). rewrite Ew.
      pose proof (connect_numbers _ _ _ Ew Nn) as Nt. destruct (wire_ints _ Nt) as [Wn Tn].
      assert (Lw : length card = numNodes (wc_type c)).
      { unfold parseElem in Er. destruct (choose_type (card_types (wc_type c)) (length card)) as [t| | |] eqn:E; try discriminate. cbn [bind] in Er.
        destruct (parse_connect t card); try discriminate Er. cbn [bind] in Er. injection Er as -> _. clear - E. induction (card_types (wc_type c)) as [|t ts IH]; [discriminate|]. cbn in E.
        destruct (Nat.eqb_spec (numNodes t) (length card)); [injection E as ->; congruence|auto]. }
      assert (Tt : cosmic && is_tetra (wc_type c) = false).
      { destruct cosmic; [|reflexivity]. destruct (Hc eq_refl) as [H1 H2]. destruct (wc_type c); try reflexivity; contradiction. }
      assert (Kw : exists kw, keyword_of cosmic SContinuum (wc_type c) = Some (txt kw) /\ keyword (txt kw) /\ solid_keyword kw (wc_type c)).
      { destruct cosmic; each_solid Hs; eexists; (split; [reflexivity|]); (split; [apply keyword_txt; cbn; auto 20|unfold solid_keyword; cbn; auto 20]). }
      destruct Kw as (kw & Ekw & Hk & Sk). cbn [keyword_of] in Ekw. rewrite Ekw. cbn [bind]. rewrite Tt. rewrite app_nil_r.
      eexists _, _. split; [reflexivity|]. split; [exact Hk|]. split; [constructor; [assumption|]; constructor; [assumption|]; assumption|].
      split; [cbn [length]; rewrite map_length, Lw; clear - Hs; each_solid Hs; cbn; lia|].
      eexists. split; [|reflexivity]. rewrite solid_turned by exact Hs. cbn [map]. rewrite T1, T2, Tn.
      set (V := txt kw :: _). assert (LV : length V = (3 + numNodes (wc_type c))%nat) by (unfold V; cbn [length]; rewrite map_length, Lw; lia).
      destruct (C100_solid_read kw (wc_type c) V (wc_id c) (ws_id s) card Sk) as (med & R & Ep & _);
        [reflexivity|apply int_text_at; [exact Ni|reflexivity]|left; apply int_text_at; [exact Ns|reflexivity]|exact Lw| |apply blank_field; lia|].
      { unfold V. rewrite <- (app_nil_r (map int_text card)). now apply nodes_written. }
      rewrite R. congruence.
    + assert (Q : In (wc_type c) [TRI3; QUAD4; TRI6; QUAD8]) by (unfold shell_card in Hs; cbn in *; tauto).
      destruct (plane_written _ _ Q L) as [Ew Lw]. rewrite Ew. pose proof (connect_numbers _ _ _ Ew Nn) as Nt. destruct (wire_ints _ Nt) as [Wn Tn].
      assert (Kw : exists kw, keyword_of false SContinuum (wc_type c) = Some (txt kw) /\ keyword (txt kw) /\ shell_keyword kw (wc_type c)).
      { destruct Q as [E | [E | [E | [E | []]]]]; rewrite <- E; eexists; (split; [reflexivity|]); (split; [apply keyword_txt; cbn; auto 20|unfold shell_keyword; cbn; auto 20]). }
      destruct Kw as (kw & Ekw & Hk & Sk). cbn [keyword_of] in Ekw. rewrite Ekw. cbn [bind andb]. rewrite app_nil_r.
      eexists _, _. split; [reflexivity|]. split; [exact Hk|]. split; [constructor; [assumption|]; constructor; [assumption|]; assumption|].
      split; [cbn [length]; rewrite map_length, Lw; clear - Q; destruct Q as [<- | [<- | [<- | [<- | []]]]]; cbn; lia|].
      eexists. split; [|reflexivity]. cbn [map]. rewrite T1, T2, Tn.
      set (V := txt kw :: _). assert (LV : length V = (3 + numNodes (wc_type c))%nat) by (unfold V; cbn [length]; rewrite map_length, Lw; lia).
      assert (NV : nodes_at V 3 (turned (wc_type c) (wc_nodes c))) by (unfold V; rewrite <- (app_nil_r (map int_text _)); now apply nodes_written).
      eapply C100_shell_read with (angle := (0, 0)) (flag := 0); [exact Sk|reflexivity|apply int_text_at; [exact Ni|reflexivity]|left; apply int_text_at; [exact Ns|reflexivity]|exact Lw|exact NV| | | |];
        destruct Q as [E | [E | [E | [E | []]]]]; rewrite <- E in *; cbn [shell_places p_angle p_offset p_flag p_first p_count numNodes] in *; clearbody V;
        try (right; split; [apply blank_field; lia|reflexivity]); intros j Hj; exists None; apply blank_field; lia.
Qed.

(** The whole file: every cell comes back, in order. *)
Lemma cells_back tie cosmic strict sets : Forall (sound_set cosmic) sets ->
  exists cards, write_cells tie cosmic strict sets = Ok cards /\
    Forall2 (fun sc card => keyword (fst card) /\ Forall wire (snd card) /\ (length (snd card) <= 22)%nat /\
      exists m, read_card (fst card :: map trim (snd card)) = Ok [m] /\ comes_back sc m) (file_cells sets) cards.
Proof.
  intros F. unfold write_cells. induction F as [|s sets H F IH]; [exists []; split; [reflexivity|constructor]|].
  destruct IH as (cards & E & R). cbn [mapM file_cells flat_map].
  assert (G : exists cs, match ws_kind s with SMatrix => Ok [] | _ => mapM (write_cell tie cosmic strict s) (ws_cells s) end = Ok cs /\
    Forall2 (fun sc card => keyword (fst card) /\ Forall wire (snd card) /\ (length (snd card) <= 22)%nat /\
      exists m, read_card (fst card :: map trim (snd card)) = Ok [m] /\ comes_back sc m) (match ws_kind s with SMatrix => [] | _ => map (pair s) (ws_cells s) end) cs).
  { destruct H as [H|[N H]]; [rewrite H; exists []; split; [reflexivity|constructor]|].
    destruct (match ws_kind s with SMatrix => true | _ => false end) eqn:EM; [destruct (ws_kind s); try discriminate EM; exists []; split; [reflexivity|constructor]|].
    assert (NM : ws_kind s <> SMatrix) by (intros X; rewrite X in EM; discriminate).
    replace (match ws_kind s with SMatrix => Ok [] | _ => mapM (write_cell tie cosmic strict s) (ws_cells s) end) with (mapM (write_cell tie cosmic strict s) (ws_cells s)) by (destruct (ws_kind s); try reflexivity; congruence).
    replace (match ws_kind s with SMatrix => [] | _ => map (pair s) (ws_cells s) end) with (map (pair s) (ws_cells s)) by (destruct (ws_kind s); try reflexivity; congruence).
    induction H as [|c l Hc Hl IHl]; [exists []; split; [reflexivity|constructor]|]. destruct IHl as (cs & E2 & R2).
    destruct (cell_back tie cosmic strict s c NM N Hc) as (kw & vs & Ec & Q). cbn [mapM map]. rewrite Ec, E2. cbn [bind]. eexists. split; [reflexivity|]. constructor; [exact Q|exact R2]. }
  destruct G as (cs & E2 & R2). rewrite E2. cbn [bind].
  destruct (mapM (fun s0 : wset => match ws_kind s0 with SMatrix => Ok [] | _ => mapM (write_cell tie cosmic strict s0) (ws_cells s0) end) sets) as [l| | |]; try discriminate E.
  cbn [bind] in *. injection E as <-. eexists. split; [reflexivity|]. cbn [concat]. apply Forall2_app; assumption.
Qed.
Theorem C100_written_partial : forall tie cosmic strict sets counter, Forall (sound_set cosmic) sets ->
  0 <= counter -> counter + 22 * Z.of_nat (length (file_cells sets)) < 10 ^ 7 ->
  exists cards file ms, write_cells tie cosmic strict sets = Ok cards /\
    read_cards (S (length cards)) (fst (write_cards cards counter)) = Ok file /\ read_elements file = Ok ms /\ Forall2 comes_back (file_cells sets) ms.
Proof.
  intros tie cosmic strict sets counter F C B. destruct (cells_back tie cosmic strict sets F) as (cards & E & R). exists cards.
  assert (K : Forall (fun c => keyword (fst c) /\ Forall wire (snd c)) cards) by (clear - R; induction R as [|sc c l cs (A1 & A2 & _) R IH]; constructor; auto).
  assert (S : Z.of_nat (list_sum (map (fun c => length (snd c)) cards)) <= 22 * Z.of_nat (length (file_cells sets))).
  { clear - R. induction R as [|sc c l cs (_ & _ & A & _) R IH]; [cbn; lia|]. unfold list_sum in *. cbn [map fold_right length]. lia. }
  pose proof (lines_read cards counter K C ltac:(lia)) as L. eexists _. unfold read_elements.
  assert (M : exists ms, mapM (fun c => match read_card c with Throw => Ok [] | x => x end) (map (fun c => fst c :: map trim (snd c)) cards) = Ok (map (fun m => [m]) ms) /\ Forall2 comes_back (file_cells sets) ms).
  { clear - R. induction R as [|sc c l cs (_ & _ & _ & m & A & Q) R (ms & IH1 & IH2)]; [exists []; split; [reflexivity|constructor]|].
    exists (m :: ms). split; [|constructor; assumption]. cbn [map mapM]. rewrite A. cbn [bind]. rewrite IH1. reflexivity. }
  destruct M as (ms & M & Q). exists ms. split; [exact E|]. split; [exact L|]. split; [|exact Q]. rewrite M. cbn [bind]. f_equal. clear. induction ms; cbn; congruence.
Qed.

(** The keywords: those of the dialect, by the number of nodes (a linear hexahedron
    is CIHEX1 for COSMIC, a quadratic one CIHEX2). *)
Definition dialect (cosmic : bool) : list (ctype * string) :=
  (if cosmic then [(HEXA8, "CIHEX1"); (HEXA20, "CIHEX2")] else [(HEXA8, "CHEXA"); (HEXA20, "CHEXA"); (TRI3, "CTRIA3"); (TRI6, "CTRIA6"); (QUAD4, "CQUAD4"); (QUAD8, "CQUAD8")])%string ++
  [(TETRA4, "CTETRA"); (TETRA10, "CTETRA"); (PENTA6, "CPENTA"); (PENTA15, "CPENTA"); (PYRA5, "CPYRA"); (PYRA13, "CPYRA")]%string.
Theorem C100_keyword : forall tie cosmic strict s c card, ws_kind s = SContinuum -> write_cell tie cosmic strict s c = Ok card -> fst card <> [] ->
  exists kw, fst card = txt kw /\ In (wc_type c, kw) (dialect cosmic).
Proof.
  intros tie cosmic strict s c [kw vs] K W N. unfold write_cell in W. rewrite K in W. cbn [fst] in *.
  assert (E : match keyword_of cosmic SContinuum (wc_type c) with Some k => kw = k | None => kw = [] end).
  { destruct (keyword_of cosmic SContinuum (wc_type c)) as [k|]; [|destruct strict; [discriminate W|]]; cbn [bind] in W; destruct (write_connect _ _); try discriminate W; cbn [bind] in W; now injection W as <- _. }
  clear W. destruct cosmic, (wc_type c); cbn [keyword_of] in E; subst kw; try congruence; eexists; (split; [reflexivity|]); cbn; auto 20.
Qed.

(** ** Where C100 fails *)
(** A CQUAD8 is written with its offset in the place of a thickness: it comes back
    without offset. *)
Theorem C100_offset8_refuted : forall tie cosmic strict s c, ws_kind s = SShell -> wc_type c = QUAD8 -> number (ws_id s) -> number (wc_id c) ->
  Forall number (wc_nodes c) -> length (wc_nodes c) = 8%nat -> wok (wc_offset c) ->
  exists vs, write_cell tie cosmic strict s c = Ok (txt "CQUAD8", vs) /\
    read_card (txt "CQUAD8" :: map trim vs) = Ok [Cell (mkElement (wc_id c) (ws_id s) QUAD8 (turned QUAD8 (wc_nodes c)) (0, 0))].
Proof.
  intros tie cosmic strict s c Ek Et Ns Ni Nn L Wo. unfold write_cell. rewrite Ek, Et. cbn [keyword_of is_beam is_shell is_tetra bind]. rewrite andb_false_r.
  destruct (plane_written QUAD8 (wc_nodes c)) as [Ew Lw]; [cbn; auto|exact L|]. rewrite Ew. pose proof (connect_numbers _ _ _ Ew Nn) as Nt. destruct (wire_ints _ Nt) as [Wn Tn]. cbn [bind].
  eexists. split; [reflexivity|]. destruct (wire_int _ Ni) as [W1 T1]. destruct (wire_int _ Ns) as [W2 T2]. destruct (wire_real_at tie _ Wo) as (zoffs & Eo & Po).
  cbn [map app]. rewrite map_app, T1, T2, Tn. cbn [map]. change (trim []) with ([] : str).
  remember (turned QUAD8 (wc_nodes c)) as nodes eqn:En. cbn [numNodes] in Lw. set (V := txt "CQUAD8" :: _).
  assert (LV : length V = 13%nat) by (unfold V; cbn [length]; rewrite app_length, map_length, Lw; cbn; lia).
  eapply C100_shell_read with (kw := "CQUAD8"%string) (angle := (0, 0)) (flag := 0);
    [unfold shell_keyword; cbn; auto 20|reflexivity|apply int_text_at; [exact Ni|reflexivity]|left; apply int_text_at; [exact Ns|reflexivity]|exact Lw|apply nodes_written, Nt| | | |];
    cbn [shell_places p_angle p_offset p_flag p_first p_count]; try (right; split; [apply blank_field; lia|reflexivity]).
  assert (F1 : field V 11 = [] /\ field V 12 = trim (real_field tie (wc_offset c))) by (unfold V; clear - Lw; spread 8%nat nodes Lw; split; reflexivity).
  intros j Hj. destruct j as [|[|j]]; [exists None; unfold real_opt, blank_at; change (11 + 0)%nat with 11%nat; rewrite (proj1 F1); reflexivity|exists (Some zoffs); unfold real_opt, real_at; change (11 + 1)%nat with 12%nat; rewrite (proj2 F1); exact Eo|].
  exists None. apply blank_field. lia.
Qed.
(** In the COSMIC dialect a tetrahedron is written with the number of its material
    in the place of its property: it comes back in another set. *)
Theorem C100_cosmic_tetra_refuted : forall tie strict s c, ws_kind s = SContinuum -> In (wc_type c) [TETRA4; TETRA10] -> number (ws_material s) -> number (wc_id c) ->
  Forall number (wc_nodes c) -> length (wc_nodes c) = numNodes (wc_type c) ->
  exists vs, write_cell tie true strict s c = Ok (txt "CTETRA", vs) /\
    read_card (txt "CTETRA" :: map trim vs) = Ok [Cell (mkElement (wc_id c) (ws_material s) (wc_type c) (wc_nodes c) (0, 0))].
Proof.
  intros tie strict s c Ek Et Ns Ni Nn L. unfold write_cell. rewrite Ek. cbn [is_beam is_shell].
  assert (Q : keyword_of true SContinuum (wc_type c) = Some (txt "CTETRA") /\ is_tetra (wc_type c) = true /\ solid_card (wc_type c) /\ solid_keyword "CTETRA" (wc_type c)).
  { unfold solid_keyword, solid_card. destruct Et as [<- | [<- | []]]; (split; [reflexivity|]); (split; [reflexivity|]); split; cbn; auto 20. }
  destruct Q as (-> & -> & Sc & Sk). cbn [bind andb].
  destruct (C25_write_then_read (wc_type c) (wc_nodes c) Sc L) as (card & Ew & Er). rewrite Ew. pose proof (connect_numbers _ _ _ Ew Nn) as Nt. destruct (wire_ints _ Nt) as [Wn Tn]. cbn [bind].
  assert (Lw : length card = numNodes (wc_type c)).
  { unfold parseElem in Er. destruct (choose_type (card_types (wc_type c)) (length card)) as [t| | |] eqn:E; try discriminate. cbn [bind] in Er.
    destruct (parse_connect t card); try discriminate Er. cbn [bind] in Er. injection Er as -> _. clear - E. induction (card_types (wc_type c)) as [|t ts IH]; [discriminate|]. cbn in E.
    destruct (Nat.eqb_spec (numNodes t) (length card)); [injection E as ->; congruence|auto]. }
  eexists. split; [reflexivity|]. destruct (wire_int _ Ni) as [W1 T1]. destruct (wire_int _ Ns) as [W2 T2]. rewrite app_nil_r.
  cbn [map]. rewrite T1, T2, Tn. set (V := txt "CTETRA" :: _). assert (LV : length V = (3 + numNodes (wc_type c))%nat) by (unfold V; cbn [length]; rewrite map_length, Lw; lia).
  destruct (C100_solid_read "CTETRA" (wc_type c) V (wc_id c) (ws_material s) card Sk) as (med & R & Ep & _);
    [reflexivity|apply int_text_at; [exact Ni|reflexivity]|left; apply int_text_at; [exact Ns|reflexivity]|exact Lw| |apply blank_field; lia|].
  { unfold V. rewrite <- (app_nil_r (map int_text card)). now apply nodes_written. }
  rewrite R. congruence.
Qed.
(** Beams without orientation are written without vector; such a card is refused,
    so the element is not read back. *)
Theorem C100_bare_beam_refuted : forall tie (cosmic : bool) strict s c ga gb, ws_kind s = SBeam -> wc_type c = SEG2 -> wc_vector c = None -> wc_nodes c = [ga; gb] ->
  Forall number [ws_id s; wc_id c; ga; gb] ->
  exists kw vs, write_cell tie cosmic strict s c = Ok (kw, vs) /\ read_card (kw :: map trim vs) = Throw /\ read_elements [kw :: map trim vs] = Ok [].
Proof.
  intros tie cosmic strict s c ga gb Ek Et Ev En F. unfold write_cell. rewrite Ek, Et, Ev, En. cbn [keyword_of is_beam is_shell is_tetra bind]. rewrite andb_false_r.
  change (write_connect SEG2 [ga; gb]) with (Ok [ga; gb]). cbn [bind map app]. eexists _, _. split; [reflexivity|].
  inversion F as [|? ? F1 F']; subst. inversion F' as [|? ? F2 F'']; subst. inversion F'' as [|? ? F3 F3']; subst. inversion F3' as [|? ? F4 _]; subst. clear F F' F'' F3'.
  destruct (wire_int _ F1) as [_ T1]. destruct (wire_int _ F2) as [_ T2]. destruct (wire_int _ F3) as [_ T3]. destruct (wire_int _ F4) as [_ T4].
  cbn [map]. rewrite T1, T2, T3, T4.
  assert (R : read_card (txt (if cosmic then "CBAR" else "CBEAM") :: [int_text (wc_id c); int_text (ws_id s); int_text ga; int_text gb]) = Throw).
  { unfold read_card.
    destruct cosmic; [change (handler_of handlers (txt "CBAR")) with (Some HBar)|change (handler_of handlers (txt "CBEAM")) with (Some HBeam)]; cbv iota; rewrite card_cursor by discriminate;
      match goal with |- context [at_field ?v 1] => set (V := v) end; unfold parseCBEAM, parseCBAR;
      (rewrite (f_int V 1 (wc_id c)) by (apply int_text_at; [assumption|reflexivity])); cbn [bind];
      (rewrite (f_int V 2 (ws_id s)) by (apply int_text_at; [assumption|reflexivity])); cbn [bind];
      (rewrite (f_int V 3 ga) by (apply int_text_at; [assumption|reflexivity])); cbn [bind];
      (rewrite (f_int V 4 gb) by (apply int_text_at; [assumption|reflexivity])); cbn [bind]; reflexivity. }
  split; [exact R|]. unfold read_elements. cbn [mapM]. rewrite R. reflexivity.
Qed.
(** A mid-side node may be left blank on the cards of the second-order shells: such
    a card is refused. *)
Theorem C100_blank_node_refuted : forall kw ty vec id pid k nodes, shell_keyword kw ty -> field vec 0 = txt kw -> int_at vec 1 id -> int_or id vec 2 pid ->
  length nodes = k -> (k < numNodes ty)%nat -> nodes_at vec 3 nodes -> blank_at vec (3 + k) -> read_card vec = Throw /\ read_elements [vec] = Ok [].
Proof.
  intros kw ty vec id pid k nodes K W H1 H2 L Lk N B.
  assert (R : read_card vec = Throw).
  { destruct vec as [|k0 vec]; [exfalso; pose proof (int_present _ _ _ H1) as P; cbn in P; lia|]. cbn in W. subst k0.
    set (V := txt kw :: vec) in *. unfold read_card at 1. unfold V at 1. cbv zeta.
    assert (HH : handler_of handlers (txt kw) = Some (HShell ty)).
    { unfold shell_keyword in K. cbn [In] in K. decompose [or] K; try contradiction; match goal with H : _ = _ |- _ => injection H as <- <- end; reflexivity. }
    rewrite HH. fold V. rewrite card_cursor by discriminate. unfold read_shell. rewrite (f_int _ _ _ H1). cbn [bind]. rewrite (f_intdef _ _ _ _ H2). cbn [bind].
    assert (I : forall n i nodes, (length nodes < n)%nat -> nodes_at V i nodes -> blank_at V (i + length nodes) -> ints n (at_field V i) = Throw).
    { clear. induction n as [|n IH]; intros i nodes Ln Hn Hb; [lia|]. cbn [ints]. destruct nodes as [|a nodes].
      - cbn [length] in Hb. rewrite Nat.add_0_r in Hb. unfold nextInt. rewrite next_field, trim_trim_right. unfold blank_at in Hb. rewrite Hb. reflexivity.
      - assert (H0 : int_at V i a). { specialize (Hn 0%nat ltac:(cbn; lia)). rewrite Nat.add_0_r in Hn. exact Hn. }
        rewrite (f_int _ _ _ H0). cbn [bind]. rewrite (IH (S i) nodes); [reflexivity|cbn in Ln; lia| |].
        + intros j Hj. specialize (Hn (S j) ltac:(cbn; lia)). rewrite Nat.add_succ_r in Hn. exact Hn.
        + cbn [length] in Hb. rewrite Nat.add_succ_r in Hb. exact Hb. }
    rewrite (I _ _ nodes); [reflexivity|lia|exact N|rewrite L; exact B]. }
  split; [exact R|]. unfold read_elements. cbn [mapM]. rewrite R. reflexivity.
Qed.
(** The mid-side nodes of a solid may be left blank too: when the first one is, the
    element is read as one of the first order. *)
Theorem C100_lost_nodes_refuted : exists vec, nodes_at vec 3 [1; 2; 3; 4; 5; 6; 7; 8] /\ blank_at vec 11 /\ nodes_at vec 12 [10; 11; 12; 13; 14; 15; 16; 17; 18; 19; 20] /\
  read_elements [vec] = Ok [Cell (mkElement 100 200 HEXA8 [1; 4; 3; 2; 5; 8; 7; 6] (0, 0))].
Proof.
  exists (txt "CHEXA" :: map int_text [100; 200; 1; 2; 3; 4; 5; 6; 7; 8] ++ [] :: map int_text [10; 11; 12; 13; 14; 15; 16; 17; 18; 19; 20]).
  split; [intros j Hj; do 8 (destruct j as [|j]; [apply int_text_at; [cbn; lia|reflexivity]|]); cbn in Hj; lia|]. split; [reflexivity|].
  split; [intros j Hj; do 11 (destruct j as [|j]; [apply int_text_at; [cbn; lia|reflexivity]|]); cbn in Hj; lia|]. vm_compute. reflexivity.
Qed.
(** Rods, masses and the types not foreseen are written without keyword. *)
Theorem C100_anonymous_refuted : forall tie cosmic s c nodes, In (ws_kind s) [STruss; SOther] \/ (ws_kind s = SShell /\ wc_type c = QUAD9) -> write_connect (wc_type c) (wc_nodes c) = Ok nodes ->
  exists vs, write_cell tie cosmic false s c = Ok ([], vs).
Proof.
  intros tie cosmic s c nodes H E. unfold write_cell. rewrite E. cbn [In] in H. destruct H as [[<- | [<- | []]]|[-> ->]]; cbn [keyword_of bind is_beam is_shell]; eexists; reflexivity.
Qed.
(** Such lines continue the card in front of them: a pentahedron followed by a rod,
    and neither is read back, though the pentahedron alone is. *)
Definition penta : wset := mkWset SContinuum 7 1 [mkWcell 31 PENTA6 [11; 12; 13; 14; 15; 16] (0, 0) None].
Definition rods : wset := mkWset STruss 8 1 [mkWcell 32 SEG2 [11; 14] (0, 0) None].
Definition file_of (tie cosmic strict : bool) (sets : list wset) : outcome (list made) :=
  do cards <- write_cells tie cosmic strict sets;
  do file <- read_cards (S (length cards)) (fst (write_cards cards 1)); read_elements file.
Theorem C100_swallowed_refuted : file_of true false false [penta] = Ok [Cell (mkElement 31 7 PENTA6 [11; 12; 13; 14; 15; 16] (0, 0))] /\
  file_of true false false [penta; rods] = Ok [].
Proof. split; vm_compute; reflexivity. Qed.

(** ** Case *)
Definition plates : wset := mkWset SShell 5 1 [mkWcell 21 QUAD4 [1; 2; 3; 4] (-25 * 10 ^ 11, 12) None; mkWcell 22 TRI3 [2; 5; 3] (0, 0) None].
Definition girder : wset := mkWset SBeam 9 1 [mkWcell 41 SEG2 [1; 2] (0, 0) (Some ((0, 0), (6 * 10 ^ 11, 12), (-8 * 10 ^ 11, 12)))].
Definition stiffness : wset := mkWset SMatrix 10 1 [].
Lemma plain_number (v : wreal) d : printable d v -> 0 <= snd v -> wok v.
Proof. intros H K. split; [left; exists d; exact H|exact K]. Qed.
Example C100_case : Forall (sound_set false) [plates; penta; stiffness; girder] /\
  file_of true false true [plates; penta; stiffness; girder] =
    Ok [Cell (mkElement 21 5 QUAD4 [1; 4; 3; 2] (-25, -1)); Cell (mkElement 22 5 TRI3 [2; 3; 5] (0, 0));
        Cell (mkElement 31 7 PENTA6 [11; 12; 13; 14; 15; 16] (0, 0)); Bar (mkSegment 41 9 1 (Some 2) (Towards (ByVector (0, 0) (6, -1) (-8, -1))))].
Proof.
  assert (Pz : wok (0, 0)) by (split; [right; reflexivity|cbn; lia]).
  assert (P1 : wok (-25 * 10 ^ 11, 12)) by (apply (plain_number _ 12); [unfold printable; cbn; lia|cbn; lia]).
  assert (P2 : wok (6 * 10 ^ 11, 12)) by (apply (plain_number _ 11); [unfold printable; cbn; lia|cbn; lia]).
  assert (P3 : wok (-8 * 10 ^ 11, 12)) by (apply (plain_number _ 11); [unfold printable; cbn; lia|cbn; lia]).
  assert (N : forall n, 0 <= n <= 99 -> number n) by (intros; unfold number; lia).
  split; [|vm_compute; reflexivity].
  constructor; [right; split; [apply N; cbn; lia|]|constructor; [right; split; [apply N; cbn; lia|]|constructor; [left; reflexivity|constructor; [right; split; [apply N; cbn; lia|]|constructor]]]].
  - constructor; [|constructor; [|constructor]]; (split; [apply N; cbn; lia|]); (split; [repeat (constructor; [apply N; lia|]); constructor|]); (split; [reflexivity|]); (split; [cbn; auto|assumption]).
  - constructor; [|constructor]. split; [apply N; cbn; lia|]. split; [repeat (constructor; [apply N; lia|]); constructor|]. split; [reflexivity|]. left. split; [unfold solid_card; cbn; auto 10|discriminate].
  - constructor; [|constructor]. split; [apply N; cbn; lia|]. split; [repeat (constructor; [apply N; lia|]); constructor|]. split; [reflexivity|]. split; [reflexivity|].
    eexists _, _, _. split; [reflexivity|]. split; [assumption|]. split; [assumption|]. split; [assumption|]. right. left. unfold sizeable. cbn. lia.
Qed.

Print Assumptions C100_solid_read.
Print Assumptions C100_shell_read.
Print Assumptions C100_written_partial.
Print Assumptions C100_keyword.
Print Assumptions C100_offset8_refuted.
Print Assumptions C100_cosmic_tetra_refuted.
Print Assumptions C100_bare_beam_refuted.
Print Assumptions C100_blank_node_refuted.
Print Assumptions C100_lost_nodes_refuted.
Print Assumptions C100_anonymous_refuted.
Print Assumptions C100_swallowed_refuted.
