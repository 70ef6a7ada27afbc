(** Property C91: rigid bars. *)
From Coq Require Import Ascii String Reals ZArith List Bool Arith Lia Lra.
From Verif Require Import Base DofModel DofProofs TextModel TextProofs TokenizerModel NextIntsProofs RealModel WriterLineModel WriterLineProofs PropertiesTokenizer PropertiesWriterLine PropertiesDof CardModel CardProofs PropertiesCards PropertiesCards2 FieldProofs PropCardModel PropertiesGrid PropertiesLoadCards PropertiesPropCards ReferenceModel GeomModel GeomProofs PropertiesGeom RigidModel PropertiesRigid RbarModel.
Import ListNotations.
Open Scope Z_scope.
Open Scope list_scope.

(** ** What the cards mean *)
(** Component [d] of the point [b] at [xb] is that of the rigid body attached to
    the point [a] at [xa]. *)
Definition follows (u : PropertiesRigid.field) (xa xb : vec) (a b : Z) (d : dof) : Prop :=
  u b d = rigid xa xb (translation u a) (rotation u a) d.
(** An RBAR whose six independent components are at A: the dependent ones at B
    follow.  When they are at B, those at A follow. *)
Definition bar_from (u : PropertiesRigid.field) (xa xb : vec) (a b : Z) (dependent : dofs) : Prop :=
  forall d, member d dependent -> follows u xa xb a b d.

(** ** Reading *)
Lemma nth_after {A} (d : A) : forall n (l : list A) j, nth j (skipn n l) d = nth (n + j) l d.
Proof. induction n as [|n IH]; intros [|x l] j; cbn [skipn plus nth]; try reflexivity; [destruct j; reflexivity|apply IH]. Qed.
Lemma dof_all : nastranCodeToDOFS 123456 = Ok ALL_DOFS.
Proof. reflexivity. Qed.

(** A bar with its independent components given at one end, or nowhere: the first
    node is the master, the second the slave, the linked components those
    given, or all six. *)
Theorem C91_rbar_read : forall vec id ga gb cna cnb cma cmb alpha ds,
  int_at vec 1 id -> int_at vec 2 ga -> int_at vec 3 gb ->
  int_or 0 vec 4 cna -> int_or 0 vec 5 cnb -> int_or 0 vec 6 cma -> int_or 0 vec 7 cmb -> real_opt vec 8 alpha ->
  (cna = 0 /\ cnb = 0 /\ ds = ALL_DOFS) \/ (cna <> 0 /\ cnb = 0 /\ nastranCodeToDOFS cna = Ok ds) \/ (cna = 0 /\ cnb <> 0 /\ nastranCodeToDOFS cnb = Ok ds) ->
  parseRBAR (at_field vec 1) = Ok (mkBar id ds (Some ga) [gb] false false, at_field vec 9).
Proof.
  intros vec id ga gb cna cnb cma cmb alpha ds H1 H2 H3 H4 H5 H6 H7 H8 H. unfold parseRBAR.
  rewrite (f_int _ _ _ H1). cbn [bind]. rewrite (f_int _ _ _ H2). cbn [bind]. rewrite (f_int _ _ _ H3). cbn [bind].
  rewrite (f_intdef _ _ _ _ H4). cbn [bind]. rewrite (f_intdef _ _ _ _ H5). cbn [bind]. rewrite (f_intdef _ _ _ _ H6). cbn [bind]. rewrite (f_intdef _ _ _ _ H7). cbn [bind].
  destruct H as [(-> & -> & ->)|[(Ha & -> & D)|(-> & Hb & D)]].
  - change (if negb (0 =? 0) && negb (0 =? 0) then _ else ?x) with x. cbv iota beta zeta. change (if (0 =? 0) && (0 =? 0) then 123456 else 0) with 123456.
    change (if negb (123456 =? 0) then 123456 else 0) with 123456. rewrite dof_all. cbn [bind]. rewrite (f_optdouble _ _ _ H8). reflexivity.
  - apply Z.eqb_neq in Ha. rewrite Ha. cbn [negb andb]. change (0 =? 0) with true. cbn [negb andb]. rewrite Ha. cbn [negb]. rewrite D. cbn [bind]. rewrite (f_optdouble _ _ _ H8). reflexivity.
  - apply Z.eqb_neq in Hb. rewrite Hb. change (0 =? 0) with true. cbn [negb andb]. change (0 =? 0) with true. cbn [negb]. rewrite D. cbn [bind]. rewrite (f_optdouble _ _ _ H8). reflexivity.
Qed.
(** Independent components at both ends: refused, whatever the mode. *)
Theorem C91_rbar_both : forall vec id ga gb cna cnb cma cmb,
  int_at vec 1 id -> int_at vec 2 ga -> int_at vec 3 gb -> int_at vec 4 cna -> int_at vec 5 cnb -> int_or 0 vec 6 cma -> int_or 0 vec 7 cmb ->
  cna <> 0 -> cnb <> 0 -> parseRBAR (at_field vec 1) = Throw.
Proof.
  intros vec id ga gb cna cnb cma cmb H1 H2 H3 H4 H5 H6 H7 Ha Hb. unfold parseRBAR.
  rewrite (f_int _ _ _ H1). cbn [bind]. rewrite (f_int _ _ _ H2). cbn [bind]. rewrite (f_int _ _ _ H3). cbn [bind].
  rewrite (f_intdef _ _ _ _ (or_introl H4)). cbn [bind]. rewrite (f_intdef _ _ _ _ (or_introl H5)). cbn [bind]. rewrite (f_intdef _ _ _ _ H6). cbn [bind]. rewrite (f_intdef _ _ _ _ H7). cbn [bind].
  apply Z.eqb_neq in Ha, Hb. rewrite Ha, Hb. reflexivity.
Qed.

(** ** Meaning *)
Lemma rigid_back (u : PropertiesRigid.field) xa xb a b :
  (forall d, follows u xa xb a b d) -> forall d, follows u xb xa b a d.
Proof.
  intros H. unfold follows in *.
  pose proof (H DX) as X. pose proof (H DY) as Y. pose proof (H DZ) as Z. pose proof (H RX) as P. pose proof (H RY) as Q. pose proof (H RZ) as T.
  unfold rigid, vadd, vsub, cross, translation, rotation in *. cbn [vx vy vz] in *.
  intros []; cbn [vx vy vz]; rewrite ?X, ?Y, ?Z, ?P, ?Q, ?T; ring.
Qed.

(** A bar with its six independent components at either end (or unsaid), whose
    first node has all six components: the relations put in its place say exactly that the two
    ends move as one rigid body, whichever end was the independent one. *)
Theorem C91_rbar_meaning_partial : forall vec id ga gb cna cnb tol nodes convert na nb,
  int_at vec 1 id -> int_at vec 2 ga -> int_at vec 3 gb ->
  int_or 0 vec 4 cna -> int_or 0 vec 5 cnb -> (forall i, (6 <= i)%nat -> blank_at vec i) ->
  (cna = 0 /\ cnb = 0) \/ (cna = 123456 /\ cnb = 0) \/ (cna = 0 /\ cnb = 123456) ->
  ga <> gb -> valid_nodes nodes -> nodes ga = Ok na -> nodes gb = Ok nb -> node_dofs na = ALL_DOFS ->
  exists b t ms, parseRBAR (at_field vec 1) = Ok (b, t) /\ left_over t = false /\ finish_bar tol nodes convert b = Ok (Relations ms) /\
  forall u, (Forall (holds u) ms <-> bar_from u (at_ na) (at_ nb) ga gb ALL_DOFS) /\
            (Forall (holds u) ms <-> bar_from u (at_ nb) (at_ na) gb ga ALL_DOFS).
Proof.
  intros vec id ga gb cna cnb tol nodes convert na nb H1 H2 H3 H4 H5 HB HC Hne V Na Nb Da.
  exists (mkBar id ALL_DOFS (Some ga) [gb] false false), (at_field vec 9).
  destruct (C34_link_accepted tol nodes (Link ALL_DOFS false ga [ga; gb])) as [ms Em].
  { intros p [<-|[<-|[<-|[]]]]; eauto. }
  exists ms. split.
  { apply C91_rbar_read with (cna := cna) (cnb := cnb) (cma := 0) (cmb := 0) (alpha := None); try assumption.
    - right. split; [apply HB; lia|reflexivity].
    - right. split; [apply HB; lia|reflexivity].
    - apply HB; lia.
    - destruct HC as [[-> ->]|[[-> ->]|[-> ->]]]; [left; auto|right; left|right; right]; repeat split; discriminate. }
  split.
  { unfold left_over. rewrite f_until. apply negb_false_iff, forallb_forall. intros f Hf. apply (In_nth _ _ []) in Hf. destruct Hf as (k & Hk & <-).
    assert (E : nth k (skipn 9 vec) [] = FieldProofs.field vec (9 + k)).
    { unfold FieldProofs.field. rewrite <- (firstn_skipn 9 vec) at 2. rewrite skipn_length in Hk.
      rewrite app_nth2; rewrite firstn_length_le by lia; [|lia]. f_equal; lia. }
    specialize (HB (9 + k)%nat ltac:(lia)). unfold blank_at in HB. exact (eq_trans (f_equal (fun x => null (trim x)) E) (f_equal null HB)). }
  split.
  { unfold finish_bar, completely_rigid. cbn [bfull bdofs brot bmaster bslaves]. rewrite andb_false_r, orb_true_r. rewrite Em. reflexivity. }
  destruct (C34_link_relations tol nodes _ ms V Em) as (m & E & K). cbn [master link_nodes linked] in E, K. rewrite Na in E. injection E as <-.
  assert (Q : forall u, Forall (holds u) ms <-> bar_from u (at_ na) (at_ nb) ga gb ALL_DOFS).
  { intros u. assert (C : forall d, carries tol nodes (Link ALL_DOFS false ga [ga; gb]) na d) by (intros d; left; rewrite Da; apply member_all).
    rewrite K by (intros d _ N; elim (N (C d))). split.
    - intros H d Hd. destruct (H gb) as (n & En & F); [right; left; reflexivity|congruence|]. rewrite Nb in En. injection En as <-. apply F; auto.
    - intros H s Hs Hm. destruct Hs as [<-|[<-|[]]]; [congruence|]. exists nb. split; [exact Nb|]. intros d Hd _. apply H, Hd. }
  intros u. split; [apply Q|]. rewrite Q. unfold bar_from. split; intros H d _.
  - apply rigid_back. intros e. apply H, member_all.
  - apply rigid_back. intros e. apply H, member_all.
Qed.

(** C91 fails when the first node is one of a solid, which carries translations
    only: the bar is then taken as equal translations, and the rotation of the
    bar about its first node is forbidden. *)
Definition bar_card (l : list string) : list str := map txt ("RBAR" :: l)%string.
Definition solid_nodes : Z -> outcome rnode := fun p =>
  if Z.eqb p 1 then Ok (RNode (V3 0 0 0) TRANSLATIONS) else if Z.eqb p 2 then Ok (RNode (V3 1 0 0) TRANSLATIONS) else UB.
Definition turning : PropertiesRigid.field := fun p d => match d with RZ => 1%R | DY => if Z.eqb p 2 then 1%R else 0%R | _ => 0%R end.
Theorem C91_solid_refuted : exists b t ms,
  parseRBAR (at_field (bar_card ["7"; "1"; "2"; "123456"]%string) 1) = Ok (b, t) /\ left_over t = false /\
  finish_bar 0 solid_nodes false b = Ok (Relations ms) /\
  bar_from turning (V3 0 0 0) (V3 1 0 0) 1 2 ALL_DOFS /\ ~ Forall (holds turning) ms.
Proof.
  exists (mkBar 7 ALL_DOFS (Some 1) [2] false false). eexists.
  destruct (C34_link_accepted 0 solid_nodes (Link ALL_DOFS false 1 [1; 2])) as [ms Em].
  { intros p [<-|[<-|[<-|[]]]]; cbn; eauto. }
  exists ms. split; [vm_compute; reflexivity|]. split; [vm_compute; reflexivity|]. split.
  { unfold finish_bar, completely_rigid. cbn [bfull bdofs brot bmaster bslaves]. rewrite andb_false_r, orb_true_r. rewrite Em. reflexivity. }
  split.
  { intros [] _; unfold follows, rigid, turning, vadd, vsub, cross, translation, rotation; cbn; ring. }
  intros F. unfold emulate_link in Em.
  assert (E : ms = slave_mpcs (Link ALL_DOFS false 1 [1; 2]) TRANSLATIONS (RNode (V3 0 0 0) TRANSLATIONS) 2 (RNode (V3 1 0 0) TRANSLATIONS) ++ []).
  { unfold solid_nodes, calc_master_dofs, slaves in Em. cbn in Em. injection Em as <-. reflexivity. }
  rewrite E in F. unfold slave_mpcs in F. cbn in F.
  inversion F as [|? ? _ F2]; subst. inversion F2 as [|? ? F3 _]; subst. unfold holds, total, work, coef6, turning in F3. cbn in F3. lra.
Qed.

(** C91 fails when the card names its dependent components: a bar that takes only
    the translations of its second end (CMB = 123) is read as one that takes all
    six, and the hinge is lost. *)
Definition beam_nodes : Z -> outcome rnode := fun p =>
  if Z.eqb p 1 then Ok (RNode (V3 0 0 0) ALL_DOFS) else if Z.eqb p 2 then Ok (RNode (V3 1 0 0) ALL_DOFS) else UB.
Definition hinged : PropertiesRigid.field := fun p d => match d with RZ => if Z.eqb p 2 then 1%R else 0%R | _ => 0%R end.
Theorem C91_dependent_refuted : exists b t ms,
  parseRBAR (at_field (bar_card ["7"; "1"; "2"; "123456"; ""; ""; "123"]%string) 1) = Ok (b, t) /\ left_over t = false /\
  finish_bar 0 beam_nodes false b = Ok (Relations ms) /\
  bar_from hinged (V3 0 0 0) (V3 1 0 0) 1 2 TRANSLATIONS /\ ~ Forall (holds hinged) ms.
Proof.
  exists (mkBar 7 ALL_DOFS (Some 1) [2] false false). eexists.
  destruct (C34_link_accepted 0 beam_nodes (Link ALL_DOFS false 1 [1; 2])) as [ms Em].
  { intros p [<-|[<-|[<-|[]]]]; cbn; eauto. }
  exists ms. split; [vm_compute; reflexivity|]. split; [vm_compute; reflexivity|]. split.
  { unfold finish_bar, completely_rigid. cbn [bfull bdofs brot bmaster bslaves]. rewrite andb_false_r, orb_true_r. rewrite Em. reflexivity. }
  split.
  { intros d Hd. assert (isRotation d = false) by (destruct d; [reflexivity..| | |]; vm_compute in Hd; discriminate).
    destruct d; try discriminate; unfold follows, rigid, hinged, vadd, vsub, cross, translation, rotation; cbn; ring. }
  intros F.
  assert (V : valid_nodes beam_nodes).
  { intros p n. unfold beam_nodes. destruct (Z.eqb p 1); [intros E; injection E as <-; vm_compute; split; congruence|].
    destruct (Z.eqb p 2); [intros E; injection E as <-; vm_compute; split; congruence|discriminate]. }
  destruct (C34_link_relations _ _ _ _ V Em) as (m & E & K). cbn in E. injection E as <-.
  assert (C : forall d, carries 0 beam_nodes (Link ALL_DOFS false 1 [1; 2]) (RNode (V3 0 0 0) ALL_DOFS) d) by (intros d; left; apply member_all).
  destruct (proj1 (K hinged ltac:(intros d _ N; elim (N (C d)))) F 2) as (n & En & G); [right; left; reflexivity|discriminate|].
  cbn in En. injection En as <-. specialize (G RZ (member_all _) (fun _ => C RZ)). unfold hinged, rigid, rotation in G. cbn in G. lra.
Qed.

(** ** RBAR1 *)
(** C91 fails for RBAR1: the model is given up, for every card, in every mode,
    whatever the nodes. *)
Theorem C91_rbar1_refuted : forall vec id ga gb code ds alpha,
  int_at vec 1 id -> int_at vec 2 ga -> int_at vec 3 gb -> int_or 0 vec 4 code -> nastranCodeToDOFS code = Ok ds -> real_opt vec 5 alpha ->
  exists b error t, parseRBAR1 (at_field vec 1) = Ok (b, error, t) /\ (error = true <-> alpha <> None) /\
  forall tol nodes convert, finish_bar tol nodes convert b = Throw.
Proof.
  intros vec id ga gb code ds alpha H1 H2 H3 H4 D H5. unfold parseRBAR1.
  rewrite (f_int _ _ _ H1). cbn [bind]. rewrite (f_int _ _ _ H2). cbn [bind]. rewrite (f_int _ _ _ H3). cbn [bind].
  rewrite (f_intdef _ _ _ _ H4). cbn [bind]. rewrite D. cbn [bind]. rewrite (f_optdouble _ _ _ H5). cbn [bind].
  eexists _, _, _. split; [reflexivity|]. split; [destruct alpha; split; congruence|].
  intros tol nodes convert. unfold finish_bar, completely_rigid. cbn [bfull bdofs brot bmaster bslaves]. rewrite andb_false_r, orb_true_r. reflexivity.
Qed.
(** ... and a card without components means the first one only, where the
    manual means all six. *)
Theorem C91_rbar1_default_refuted : exists b t,
  parseRBAR1 (at_field (bar_card ["7"; "1"; "2"]%string) 1) = Ok (b, false, t) /\ bdofs b = dof_code DX /\ bdofs b <> ALL_DOFS.
Proof. eexists _, _. split; [vm_compute; reflexivity|]. split; [reflexivity|discriminate]. Qed.

(** ** CRIGD1 *)
(** Master and slaves, for any number of slaves, with the blank field of the
    manual or without it. *)
Theorem C91_crigd1_read : forall vec id master slaves start,
  int_at vec 1 id -> (start = 2%nat \/ (start = 3%nat /\ blank_at vec 2)) ->
  int_at vec start master -> (forall j, (j < length slaves)%nat -> int_at vec (S start + j) (nth j slaves 0)) ->
  (forall i, (S start + length slaves <= i)%nat -> blank_at vec i) ->
  exists b t, parseCRIGD1 (at_field vec 1) = Ok (b, t) /\ left_over t = false /\
    bid b = id /\ bmaster b = Some master /\ bslaves b = slaves /\ bdofs b = ALL_DOFS /\
    forall tol nodes convert, finish_bar tol nodes convert b = Ok Kept.
Proof.
  intros vec id master slaves start H1 HS H2 H3 H4. unfold parseCRIGD1.
  rewrite (f_int _ _ _ H1). cbn [bind].
  assert (L : (2 < length vec)%nat) by (apply int_present in H2; destruct HS as [->|[-> _]]; lia).
  rewrite (f_empty vec 2 L). cbn [bind].
  assert (E : (if null (trim (FieldProofs.field vec 2)) then skip 1 (at_field vec 2) else Ok (at_field vec 2)) = Ok (at_field vec start)).
  { destruct HS as [->|[-> B]].
    - pose proof (int_not_blank _ _ _ H2) as N. unfold blank_at in N. destruct (trim (FieldProofs.field vec 2)); [congruence|reflexivity].
    - unfold blank_at in B. rewrite B. cbn [null]. now rewrite f_skip. }
  rewrite E. cbn [bind]. rewrite (f_int _ _ _ H2). cbn [bind].
  assert (P : (S start + length slaves <= length vec)%nat).
  { destruct slaves as [|x r]; [apply int_present in H2; cbn; lia|]. specialize (H3 (length r)). cbn [length] in *. specialize (H3 ltac:(lia)). apply int_present in H3. lia. }
  set (post := skipn (S start + length slaves) vec).
  destruct (int_loop_spec vec slaves (firstn (length slaves) (skipn (S start) vec)) (S start) (S (length vec)) post) as [E1 E2].
  - unfold post. rewrite <- (firstn_skipn (length slaves) (skipn (S start) vec)) at 1. f_equal. rewrite skipn_skipn'. f_equal; lia.
  - assert (G : forall (l : list Z) v, (length l <= length v)%nat -> (forall j, (j < length l)%nat -> int_field (nth j v []) (nth j l 0)) -> Forall2 int_field (firstn (length l) v) l).
    { induction l as [|x l IH]; intros v Hv Hj; [constructor|]. destruct v as [|f v]; [cbn in Hv; lia|]. cbn [length firstn]. constructor.
      - apply (Hj O). cbn; lia.
      - apply IH; [cbn in Hv; lia|]. intros j Hl. apply (Hj (S j)). cbn; lia. }
    apply G; [rewrite skipn_length; lia|]. intros j Hj. specialize (H3 j Hj). unfold int_at, FieldProofs.field in H3.
    rewrite nth_after. exact H3.
  - rewrite firstn_length. rewrite skipn_length. lia.
  - intros f r Er. right. specialize (H4 (S start + length slaves)%nat ltac:(lia)). unfold blank_at, FieldProofs.field in H4.
    assert (X : nth 0 post [] = f) by (rewrite Er; reflexivity). unfold post in X. rewrite nth_after, Nat.add_0_r in X. rewrite <- X. exact H4.
  - rewrite firstn_length_le in E1 by (rewrite skipn_length; lia).
    rewrite (at_field_pos vec (S start)) by (apply int_present in H2; lia).
    change (cvec (at_pos vec (S start))) with vec. rewrite E1. cbn [bind]. eexists _, _. split; [reflexivity|]. split; [|repeat split].
    unfold left_over. rewrite <- at_field_pos by lia. rewrite f_until. fold post. apply negb_false_iff, forallb_forall. intros f Hf. apply (In_nth _ _ []) in Hf. destruct Hf as (k & Hk & <-).
    specialize (H4 (S start + length slaves + k)%nat ltac:(lia)). unfold blank_at, FieldProofs.field in H4.
    exact (eq_trans (f_equal (fun x => null (trim x)) (nth_after [] (S start + length slaves) vec k)) (f_equal null H4)).
Qed.
(** C91 fails for the form with THRU: the link keeps the first node of the range
    only; the rest of the card raises an error once the link is in the model. *)
Theorem C91_thru_refuted : exists b t,
  parseCRIGD1 (at_field (map txt ["CRIGD1"; "7"; ""; "1"; "4"; "THRU"; "9"]%string) 1) = Ok (b, t) /\
  left_over t = true /\ bslaves b = [4].
Proof. eexists _, _. split; [vm_compute; reflexivity|]. split; reflexivity. Qed.

(** ** Writing *)
(** A completely rigid link is kept and written; the reader gets its master, its
    components and its slaves back, and its number when it was a CRIGD1. *)
Theorem C91_written_partial : forall set b m tol nodes,
  bmaster b = Some m -> (bfull b = true -> bdofs b = ALL_DOFS) -> bfull b = true \/ completely_rigid b = true ->
  short_number set -> short_number (bid b) -> short_number m -> Forall short_number (bslaves b) ->
  finish_bar tol nodes false b = Ok Kept /\
  exists vs, write_bar set b = Ok vs /\
  forall counter rest, room counter vs -> next_card rest ->
  exists fields, written_and_split "RBE2" vs counter rest fields /\
    parseRBE2 (after_keyword fields) = Ok (if bfull b then bid b else set, m, bdofs b, bslaves b).
Proof.
  intros set b m tol nodes Hm Hf Hr H1 H2 H3 H4.
  assert (D : bdofs b = ALL_DOFS).
  { destruct Hr as [R|R]; [auto|]. unfold completely_rigid in R. apply andb_true_iff in R. apply Z.eqb_eq. tauto. }
  split.
  { unfold finish_bar. destruct (bfull b); [reflexivity|]. destruct Hr as [R|R]; [discriminate|]. rewrite R. reflexivity. }
  unfold write_bar. rewrite Hm, D.
  assert (X : is_set ALL_DOFS) by (vm_compute; split; congruence). assert (Y : ALL_DOFS <> NO_DOFS) by discriminate.
  destruct (bfull b); [apply (C56_rbe2_roundtrip_partial _ _ _ _ H2 H3 X Y H4)|apply (C56_rbe2_roundtrip_partial _ _ _ _ H1 H3 X Y H4)].
Qed.
(** C91 fails for two completely rigid RBE2 elements: they are written with one
    number, that of their constraint set, and the second of the two cards written
    is refused when the file is read. *)
Definition b10 := bar_of_rbe2 (10, 1, ALL_DOFS, [2; 3]).
Definition b11 := bar_of_rbe2 (11, 4, ALL_DOFS, [5]).
Theorem C91_numbers_refuted : exists set v10 v11 r10 r11 c,
  bid b10 <> bid b11 /\ finish_bar 0 beam_nodes false b10 = Ok Kept /\ finish_bar 0 beam_nodes false b11 = Ok Kept /\
  write_bar set b10 = Ok v10 /\ write_bar set b11 = Ok v11 /\
  parseRBE2 (after_keyword (txt "RBE2" :: v10)) = Ok r10 /\ parseRBE2 (after_keyword (txt "RBE2" :: v11)) = Ok r11 /\
  add_bar 2 1 empty_container (bar_of_rbe2 r10) = Ok c /\ add_bar 2 2 c (bar_of_rbe2 r11) = Throw.
Proof.
  exists 3. eexists _, _, _, _, _. split; [discriminate|]. split; [reflexivity|]. split; [reflexivity|].
  split; [vm_compute; reflexivity|]. split; [vm_compute; reflexivity|]. split; [vm_compute; reflexivity|]. split; [vm_compute; reflexivity|].
  split; vm_compute; reflexivity.
Qed.
(** Whereas the numbers of the deck itself are accepted. *)
Example C91_numbers_case : exists c d, add_bar 2 1 empty_container b10 = Ok c /\ add_bar 2 2 c b11 = Ok d.
Proof. eexists _, _. split; vm_compute; reflexivity. Qed.

(** A bar given by its second end. *)
Example C91_bar_case : exists b t ms,
  parseRBAR (at_field (bar_card ["7"; "1"; "2"; ""; "123456"]%string) 1) = Ok (b, t) /\ finish_bar 0 beam_nodes false b = Ok (Relations ms) /\
  (forall u, Forall (holds u) ms <-> bar_from u (V3 1 0 0) (V3 0 0 0) 2 1 ALL_DOFS).
Proof.
  destruct (C91_rbar_meaning_partial (bar_card ["7"; "1"; "2"; ""; "123456"]%string) 7 1 2 0 123456 0 beam_nodes false (RNode (V3 0 0 0) ALL_DOFS) (RNode (V3 1 0 0) ALL_DOFS)) as (b & t & ms & A & _ & B & C).
  - an_int.
  - an_int.
  - an_int.
  - right. split; reflexivity.
  - left. an_int.
  - intros i Hi. unfold blank_at, FieldProofs.field, bar_card. rewrite nth_overflow; [reflexivity|]. cbn; lia.
  - right; right. split; reflexivity.
  - discriminate.
  - intros p n. unfold beam_nodes. destruct (Z.eqb p 1); [intros E; injection E as <-; vm_compute; split; congruence|].
    destruct (Z.eqb p 2); [intros E; injection E as <-; vm_compute; split; congruence|discriminate].
  - reflexivity.
  - reflexivity.
  - reflexivity.
  - exists b, t, ms. split; [exact A|]. split; [exact B|]. intros u. apply C.
Qed.
Example C91_crigd1_case : exists b t,
  parseCRIGD1 (at_field (map txt ["CRIGD1"; "7"; ""; "1"; "4"; "6"; "9"]%string) 1) = Ok (b, t) /\ left_over t = false /\ bslaves b = [4; 6; 9].
Proof. eexists _, _. split; [vm_compute; reflexivity|]. split; reflexivity. Qed.
Print Assumptions C91_rbar_read.
Print Assumptions C91_rbar_both.
Print Assumptions C91_rbar_meaning_partial.
Print Assumptions C91_solid_refuted.
Print Assumptions C91_dependent_refuted.
Print Assumptions C91_rbar1_refuted.
Print Assumptions C91_rbar1_default_refuted.
Print Assumptions C91_crigd1_read.
Print Assumptions C91_thru_refuted.
Print Assumptions C91_written_partial.
Print Assumptions C91_numbers_refuted.
