(** Lemmas about groups of segments added to a mesh. *)
From Coq Require Import Ascii String ZArith List Bool Arith Lia.
From Verif Require Import Base ZMap TextModel DofModel MeshNodeModel MeshNodeProofs MeshCellModel MeshCellProofs MeshGroupModel MeshGroupProofs AsterScriptNames SegmentModel.
Import ListNotations.
Open Scope Z_scope.

Section P.
Context {D V : Type} (R z : D).
Notation addCell := (addCell R z).
Notation add_segments := (add_segments R z).

(** What later steps keep of the groups and of the mesh. *)
Definition kept_groups (g g' : groups) : Prop := forall n h x, findGroup g n = Some h -> nth_error (heap g) h = Some x ->
  findGroup g' n = Some h /\ nth_error (heap g') h = Some x.
Definition kept (s s' : state D) : Prop :=
  cinv (fst s') /\ mext (fst s) (fst s') /\ trace (fst s') = trace (fst s) /\ ginv (snd s') /\ kept_groups (snd s) (snd s').
Lemma kept_refl s : cinv (fst s) -> ginv (snd s) -> kept s s.
Proof. intros I G. split; [exact I|]. split; [now apply mext_refl|]. split; [reflexivity|]. split; [exact G|]. intros n h x A B. now split. Qed.
Lemma kept_trans a b c : kept a b -> kept b c -> kept a c.
Proof.
  intros (A1 & A2 & A3 & A4 & A5) (B1 & B2 & B3 & B4 & B5). split; [exact B1|]. split; [eapply mext_trans; eauto|]. split; [congruence|]. split; [exact B4|].
  intros n h x X Y. destruct (A5 n h x X Y). now apply B5.
Qed.

Lemma addCell_segment m a b : cinv m -> trace m = false \/ a <> b -> a <> AUTO_ID -> b <> AUTO_ID ->
  exists m' c, addCell m AUTO_ID SEG2 [a; b] true 0 NO_CELL z = Ok (m', length (cdatas m)) /\ cinv m' /\ mext m m' /\ trace m' = trace m /\
    length (cdatas m') = S (length (cdatas m)) /\ findCell m' (length (cdatas m)) = Ok c /\ c_type c = SEG2 /\ c_nodeIds c = [a; b].
Proof.
  intros I T A B.
  assert (H4 : trace m = false \/ (AUTO_ID = AUTO_ID \/ findCellPosition m AUTO_ID = None) /\ NoDup [a; b]).
  { destruct T as [T|T]; [now left|right]. split; [now left|]. constructor; [intros [X|[]]; congruence|]. constructor; [intros []|constructor]. }
  assert (H3 : forall i, In i [a; b] -> i <> AUTO_ID) by (intros i [<- |[<- |[]]]; assumption).
  destruct (addCell_spec R z m AUTO_ID SEG2 [a; b] true 0 NO_CELL z I eq_refl ltac:(discriminate) H3 H4) as
    (m2 & cid & ps & E2 & I2 & C1 & C2 & C3 & C4 & Cd & L & Cc & Cb & Ca & Co & Cm & Cl & Cp & Ct).
  set (pos := length (cdatas m)) in *.
  set (d := mkCD cid SEG2 true 0 NO_CELL (length (byType m SEG2))).
  assert (Hd : nth_error (cdatas m2) pos = Some d) by (rewrite Cd, nth_error_snoc; unfold pos; now rewrite Nat.eqb_refl).
  destruct (findCell_ok m2 pos d I2 Hd) as (c2 & ps2 & F1 & F2 & F3 & F4 & F5 & F6 & F7 & F8 & F9 & F10 & F11).
  assert (Hps : ps2 = ps).
  { cbn [cd_type cd_tpos d] in F8. rewrite Cc in F8. destruct (ctype_eq_dec SEG2 SEG2); [|congruence].
    assert (Hs : (length (byType m SEG2) * numNodes SEG2)%nat = length (conn m SEG2)) by (rewrite (ci_conn _ I); lia).
    rewrite Hs, <- Cl, slice_last in F8. congruence. }
  subst ps2. exists m2, c2. split; [exact E2|]. split; [exact I2|]. split.
  - split; [exact L|]. split; [|split; [eauto|split; [exact Ca|exact Cp]]].
    intros p x Hp. exists x. rewrite Cd, nth_error_app1; [auto|]. apply nth_error_Some. congruence.
  - split; [exact Ct|]. split; [rewrite Cd, app_length; cbn; unfold pos; lia|]. split; [exact F1|]. split; [exact F3|]. congruence.
Qed.

(** A position is a segment between two nodes. *)
Definition joins (m : mesh D) (p : nat) (ab : Z * Z) : Prop :=
  exists c, findCell m p = Ok c /\ c_type c = SEG2 /\ c_nodeIds c = [fst ab; snd ab].
Lemma joins_ext m m' p ab : cinv m -> cinv m' -> mext m m' -> joins m p ab -> joins m' p ab.
Proof.
  intros I I' X (c & F & T & N). destruct (mext_findCell m m' p c I I' X F) as (c' & F' & _ & T' & N' & _). exists c'. split; [exact F'|]. split; congruence.
Qed.
Definition fine (tr : bool) (ab : Z * Z) : Prop := (tr = false \/ fst ab <> snd ab) /\ fst ab <> AUTO_ID /\ snd ab <> AUTO_ID.

Lemma add_segments_spec h : forall l s, cinv (fst s) -> ginv (snd s) -> Forall (fine (trace (fst s))) l -> (h < length (heap (snd s)))%nat ->
  exists s', add_segments h l s = Ok s' /\ cinv (fst s') /\ mext (fst s) (fst s') /\ trace (fst s') = trace (fst s) /\ ginv (snd s') /\
    (forall n, findGroup (snd s') n = findGroup (snd s) n) /\ length (heap (snd s')) = length (heap (snd s)) /\
    (forall k g, nth_error (heap (snd s)) k = Some g -> exists g', nth_error (heap (snd s')) k = Some g' /\ g_name g' = g_name g /\ g_kind g' = g_kind g /\
       (forall q, In q (g_pos g') <-> In q (g_pos g) \/ k = h /\ In q (seq (length (cdatas (fst s))) (length l))) /\ (k <> h -> g' = g)) /\
    Forall2 (joins (fst s')) (seq (length (cdatas (fst s))) (length l)) l.
Proof.
  induction l as [|[a b] l IH]; intros [m gs] I G F Hh; cbn [fst snd] in *.
  - exists (m, gs). cbn [SegmentModel.add_segments fst snd length seq]. split; [reflexivity|]. split; [exact I|]. split; [now apply mext_refl|]. split; [reflexivity|]. split; [exact G|].
    split; [reflexivity|]. split; [reflexivity|]. split; [|constructor]. intros k g Hg. exists g. split; [exact Hg|]. split; [reflexivity|]. split; [reflexivity|]. split; [|reflexivity].
    intros q. cbn. tauto.
  - inversion F as [|x y (F1 & F2 & F3) F4]; subst. cbn [fst snd] in F1, F2, F3.
    destruct (addCell_segment m a b I F1 F2 F3) as (m1 & c & E & I1 & X1 & T1 & L1 & Fc & Ft & Fn).
    destruct (groupAdd_spec gs h (length (cdatas m)) G) as [G1 H1].
    destruct (IH (m1, groupAdd gs h (length (cdatas m))) I1 G1) as (s' & E' & I' & X' & T' & G' & N' & L' & H' & J').
    { cbn [fst]. rewrite T1. exact F4. } { cbn [snd groupAdd heap]. rewrite upd_length. exact Hh. }
    cbn [fst snd] in *. cbn [SegmentModel.add_segments fst snd]. rewrite E. cbn [bind fst snd].
    exists s'. split; [exact E'|]. split; [exact I'|]. split; [eapply mext_trans; eauto|]. split; [congruence|]. split; [exact G'|].
    split; [intros n; rewrite N'; reflexivity|]. split; [rewrite L'; cbn; apply upd_length|]. split.
    + intros k g Hg. destruct (H1 k g Hg) as (g1 & Hg1 & A1 & A2 & _ & A3). destruct (H' k g1 Hg1) as (g2 & Hg2 & B1 & B2 & B3 & B4).
      exists g2. split; [exact Hg2|]. split; [congruence|]. split; [congruence|]. split.
      * intros q. rewrite B3, A3, L1. cbn [length seq In]. intuition congruence.
      * intros N. rewrite (B4 N). cbn [groupAdd heap] in Hg1. rewrite upd_nth, Hg in Hg1. destruct (Nat.eqb_spec h k); [congruence|]. cbn in Hg1. congruence.
    + cbn [length seq]. constructor; [|rewrite L1 in J'; exact J']. eapply joins_ext; [exact I1|exact I'|exact X'|]. exists c. now repeat split.
Qed.

Lemma forall2_weaken {A B} (P Q : A -> B -> Prop) : (forall a b, P a b -> Q a b) ->
  forall l m, Forall2 P l m -> Forall2 Q l m.
Proof. intros H l m F. induction F; constructor; auto. Qed.
(** A cell group that holds exactly one segment for each pair. *)
Definition chain (s : state D) (name : string) (l : list (Z * Z)) : Prop :=
  exists h g ps, findGroup (snd s) name = Some h /\ nth_error (heap (snd s)) h = Some g /\ g_kind g = CellG /\
    NoDup ps /\ (forall q, In q (g_pos g) <-> In q ps) /\ Forall2 (joins (fst s)) ps l.
Lemma chain_kept s s' name l : cinv (fst s) -> kept s s' -> chain s name l -> chain s' name l.
Proof.
  intros I (A1 & A2 & _ & _ & A5) (h & g & ps & F & H & K & N & P & J). destruct (A5 name h g F H) as [F' H'].
  exists h, g, ps. split; [exact F'|]. split; [exact H'|]. split; [exact K|]. split; [exact N|]. split; [exact P|].
  eapply forall2_weaken; [|exact J]. intros p ab. now apply joins_ext.
Qed.

Lemma numbered_inj pre i j : 0 <= i -> 0 <= j -> numbered pre i = numbered pre j -> i = j.
Proof.
  intros Hi Hj E. unfold numbered in E.
  assert (X : string_of_list_ascii (int_text i) = string_of_list_ascii (int_text j)).
  { revert E. induction pre as [|c pre IH]; cbn [append]; [auto|]. intros [= E]. auto. }
  apply (f_equal list_ascii_of_string) in X. rewrite !list_ascii_of_string_of_list_ascii in X.
  rewrite <- (proj2 (int_digits i Hi)), <- (proj2 (int_digits j Hj)). now rewrite X.
Qed.

(** A new group. *)
Lemma create_kept (gs : groups) name : ginv gs -> name <> ""%string -> findGroup gs name = None ->
  exists gs' h, createGroup gs CellG name NO_ORIGINAL = Ok (gs', h) /\ ginv gs' /\ h = length (heap gs) /\ kept_groups gs gs' /\
    (forall n, findGroup gs' n = if String.eqb name n then Some h else findGroup gs n) /\
    exists g, nth_error (heap gs') h = Some g /\ g_kind g = CellG /\ g_pos g = [] /\ (length (heap gs') = S (length (heap gs))).
Proof.
  intros G Ne F. destruct (createGroup_spec gs CellG name NO_ORIGINAL G Ne F) as (gs' & h & E & G' & Hh & Hp & N & _); [congruence|].
  exists gs', h. split; [exact E|]. split; [exact G'|]. split; [exact Hh|]. split.
  - intros n k x A B. rewrite N, Hp. destruct (String.eqb_spec name n); [congruence|]. split; [exact A|]. rewrite nth_error_app1; [exact B|]. apply nth_error_Some. congruence.
  - split; [exact N|]. eexists. rewrite Hp, Hh, nth_error_app2, Nat.sub_diag by lia. cbn [nth_error]. split; [reflexivity|]. split; [reflexivity|]. split; [reflexivity|].
    rewrite app_length. cbn. lia.
Qed.

(** Adding segments to a group that is still empty. *)
Lemma fill_group s name h g l : cinv (fst s) -> ginv (snd s) -> Forall (fine (trace (fst s))) l ->
  findGroup (snd s) name = Some h -> nth_error (heap (snd s)) h = Some g -> g_kind g = CellG -> g_pos g = [] ->
  exists s', add_segments h l s = Ok s' /\ chain s' name l /\ cinv (fst s') /\ mext (fst s) (fst s') /\ trace (fst s') = trace (fst s) /\ ginv (snd s') /\
    (forall n, findGroup (snd s') n = findGroup (snd s) n) /\
    (forall k x, k <> h -> nth_error (heap (snd s)) k = Some x -> nth_error (heap (snd s')) k = Some x).
Proof.
  intros I G F N H K P.
  destruct (add_segments_spec h l s I G F) as (s' & E & I' & X & T & G' & N' & _ & H' & J); [apply nth_error_Some; congruence|].
  exists s'. split; [exact E|]. destruct (H' h g H) as (g' & Hg' & _ & Kg & Pg & _). split.
  - exists h, g', (seq (length (cdatas (fst s))) (length l)). split; [now rewrite N'|]. split; [exact Hg'|]. split; [congruence|]. split; [apply seq_NoDup|]. split; [|exact J].
    intros q. rewrite Pg, P. cbn. tauto.
  - split; [exact I'|]. split; [exact X|]. split; [exact T|]. split; [exact G'|]. split; [exact N'|].
    intros k x Hk Hx. destruct (H' k x Hx) as (x' & Hx' & _ & _ & _ & S). now rewrite <- (S Hk).
Qed.
End P.
