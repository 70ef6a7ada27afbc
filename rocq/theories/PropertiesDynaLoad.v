(** Dynamic excitations (C88). *)
From Coq Require Import Ascii String ZArith QArith Qabs Qreals Reals Lra List Bool Arith Lia.
From Verif Require Import Base DofModel DofProofs PropertiesDof TextModel TextProofs TokenizerModel NextIntsProofs RealModel CardModel CardProofs WriterLineModel
  GridModel LoadCardModel FieldProofs PropertiesGrid PropertiesLoadCards PropCardModel PropertiesPropCards DynaLoadModel.
Import ListNotations.
Open Scope Z_scope.
Open Scope list_scope.

(** ** The fields of the cards *)
(** The force a row of DAREA stands for: the amplitude on the components named by
    the digits of the code, nothing on the others. *)
Definition spread (code : Z) (a : decimal) (l : list decimal) : Prop :=
  length l = 6%nat /\ forall k, (k < 6)%nat ->
    (has_digit code (Z.of_nat k + 1) -> nth k l dzero = a) /\ (~ has_digit code (Z.of_nat k + 1) -> nth k l dzero = dzero).
Definition good_code (c : Z) : Prop := 0 < c /\ forall d, has_digit c d -> 1 <= d <= 6.

Lemma spread_ok c a : good_code c -> exists s, nastranCodeToDOFS c = Ok s /\ spread c a (map (fun d => component s d a) [DX; DY; DZ; RX; RY; RZ]).
Proof.
  intros [P G]. destruct (C02_decode_digits c P G) as (s & E & _ & M). exists s. split; [exact E|]. split; [reflexivity|].
  assert (K : forall d, (has_digit c (dof_rank d + 1) -> component s d a = a) /\ (~ has_digit c (dof_rank d + 1) -> component s d a = dzero)).
  { intros d. unfold component. rewrite <- M, <- contains_iff. destruct (DofModel.contains s d); split; try reflexivity; intros H; [now contradiction H|discriminate]. }
  intros k Hk. destruct k as [|[|[|[|[|[|]]]]]]; try lia; cbn [map nth]; [apply (K DX)|apply (K DY)|apply (K DZ)|apply (K RX)|apply (K RY)|apply (K RZ)].
Qed.

(** DAREA, for any number of rows: each gives the force of its amplitude on its
    components (all six by default), at its node. *)
Theorem C88_area_read : forall vec set rows,
  int_at vec 1 set ->
  (forall j node c a, nth_error rows j = Some (node, c, a) ->
     int_at vec (2 + 3 * j) node /\ int_or 123456 vec (3 + 3 * j) c /\ real_at vec (4 + 3 * j) a /\ good_code c) ->
  blank_at vec (2 + 3 * length rows) ->
  exists l, parseDAREA (at_field vec 1) = Ok (set, l) /\
    Forall2 (fun row f => fst f = fst (fst row) /\ spread (snd (fst row)) (snd row) (snd f)) rows l.
Proof.
  intros vec set rows H1 H2 H3. unfold parseDAREA. rewrite (f_int _ _ _ H1). cbn [bind cvec at_field at_pos].
  assert (G : forall rows i fuel, (length rows < fuel)%nat ->
            (forall j node c a, nth_error rows j = Some (node, c, a) ->
              int_at vec (i + 3 * j) node /\ int_or 123456 vec (S i + 3 * j) c /\ real_at vec (S (S i) + 3 * j) a /\ good_code c) ->
            blank_at vec (i + 3 * length rows) ->
            exists l, darea_loop fuel (at_field vec i) = Ok l /\
              Forall2 (fun row f => fst f = fst (fst row) /\ spread (snd (fst row)) (snd row) (snd f)) rows l).
  { clear. induction rows as [|[[node c] a] rows IH]; intros i fuel Hf H E; destruct fuel as [|fuel]; try (cbn in Hf; lia); cbn [darea_loop].
    - cbn [length] in E. rewrite Nat.mul_0_r, Nat.add_0_r in E. rewrite (f_isint_blank _ _ E). cbn [bind]. exists []. split; [reflexivity|constructor].
    - destruct (H 0%nat node c a eq_refl) as (A & B & C & D). rewrite !Nat.mul_0_r, !Nat.add_0_r in A, B, C.
      rewrite (f_isint _ _ _ A). cbn [bind]. rewrite (f_int _ _ _ A). cbn [bind]. rewrite (f_intdef _ _ _ _ B). cbn [bind].
      rewrite (f_double _ _ _ C). cbn [bind]. destruct (spread_ok c a D) as (s & -> & Hs). cbn [bind].
      destruct (IH (S (S (S i))) fuel) as (l & -> & F).
      + cbn in Hf. lia.
      + intros j node' c' a' Hj. specialize (H (S j) node' c' a' Hj).
        replace (i + 3 * S j)%nat with (S (S (S i)) + 3 * j)%nat in H by lia.
        replace (S i + 3 * S j)%nat with (S (S (S (S i))) + 3 * j)%nat in H by lia.
        replace (S (S i) + 3 * S j)%nat with (S (S (S (S (S i)))) + 3 * j)%nat in H by lia. exact H.
      + cbn [length] in E. replace (i + 3 * S (length rows))%nat with (S (S (S i)) + 3 * length rows)%nat in E by lia. exact E.
      + cbn [bind]. eexists. split; [reflexivity|]. constructor; [|exact F]. split; [reflexivity|exact Hs]. }
  destruct (G rows 2%nat (S (length vec))) as (l & E & F).
  - destruct rows as [|x rows]; [cbn; lia|]. destruct (nth_error (x :: rows) (length rows)) as [[[node c] a]|] eqn:E; [|apply nth_error_None in E; cbn in E; lia].
    destruct (H2 _ _ _ _ E) as [Hi _]. apply int_present in Hi. cbn [length]. lia.
  - exact H2.
  - exact H3.
  - rewrite E. cbn [bind]. eexists. split; [reflexivity|exact F].
Qed.

(** DLOAD: each set with the product of the two factors. *)
Theorem C88_combination_read : forall vec set s l,
  int_at vec 1 set -> real_or (1, 0) vec 2 s ->
  (forall j sc id, nth_error l j = Some (id, sc) -> double_field (field vec (3 + 2 * j)) sc /\ int_at vec (4 + 2 * j) id) ->
  not_double (field vec (3 + 2 * length l)) ->
  exists r, parseDLOAD (at_field vec 1) = Ok (set, r) /\
    Forall2 (fun a b => fst a = fst b /\ (value (snd b) == value s * value (snd a))%Q) l r.
Proof. exact C74_combination_read. Qed.

(** The word of the type. *)
Definition meant (w : str) (t : excit_type) : Prop :=
  match t with
  | FORCE_ => In w [txt "LOAD"; txt "LOA"; txt "LO"; txt "L"; txt "0"]
  | DISPLACEMENT => In w [txt "DISP"; txt "DIS"; txt "DI"; txt "D"; txt "1"]
  | VELOCITY => In w [txt "VELO"; txt "VEL"; txt "VE"; txt "V"; txt "2"]
  | ACCELERATION => In w [txt "ACCE"; txt "ACC"; txt "AC"; txt "A"; txt "3"]
  end.
Lemma meant_ok w t : meant w t -> excit_of w = Ok t.
Proof. destruct t; cbn [meant In]; intros H; repeat destruct H as [<-|H]; try reflexivity; destruct H. Qed.

(** A field of RLOADi for the delay or the phase: a number with a point, or the id of
    a card, or nothing. *)
Inductive said := Number (v : decimal) | Card (id : Z) | Nothing.
Definition said_at (vec : list str) (i : nat) (s : said) : Prop :=
  match s with
  | Number v => real_at vec i v /\ In "."%char (trim (field vec i))
  | Card n => int_at vec i n /\ n <> 0
  | Nothing => blank_at vec i \/ int_at vec i 0
  end.
Definition refers (make : decimal -> dyna) (s : said) (r : dyna_ref) : Prop :=
  match s with
  | Number v => r = Made (make v)
  | Card n => r = ById n
  | Nothing => r = Made (make dzero)
  end.
Lemma point_isint vec i : In "."%char (trim (field vec i)) -> isNextInt (at_field vec i) = Ok false.
Proof.
  intros H. unfold isNextInt. rewrite peek_field_at by reflexivity. f_equal. apply andb_false_iff. right.
  destruct (forallb _ _) eqn:F; [|reflexivity]. rewrite forallb_forall in F. apply F in H. discriminate H.
Qed.
Lemma said_read make vec i s : said_at vec i s ->
  exists r, id_or_value make (at_field vec i) = Ok (r, at_field vec (S i)) /\ refers make s (ref_of r).
Proof.
  intros H. unfold id_or_value. destruct s as [v|n|]; cbn [said_at] in H.
  - destruct H as [A B]. rewrite (point_isint _ _ B). cbn [bind]. rewrite (f_doubledef dzero _ _ v (or_introl A)). cbn [bind]. eexists. split; reflexivity.
  - destruct H as [A B]. rewrite (f_isint _ _ _ A). cbn [bind]. rewrite (f_intdef 0 _ _ n (or_introl A)). cbn [bind]. eexists. split; [reflexivity|].
    unfold ref_of. cbn [fst refers]. destruct (Z.eqb_spec n 0); [contradiction|reflexivity].
  - destruct H as [H|H].
    + rewrite (f_isint_blank _ _ H). cbn [bind]. rewrite (f_doubledef dzero _ _ dzero) by (right; split; [exact H|reflexivity]). cbn [bind]. eexists. split; reflexivity.
    + rewrite (f_isint _ _ _ H). cbn [bind]. rewrite (f_intdef 0 _ _ 0 (or_introl H)). cbn [bind]. eexists. split; reflexivity.
Qed.
(** The fields of RLOADi. *)
Definition response_at (vec : list str) (set area : Z) (delay phase : said) (tb tp : Z) (t : excit_type) : Prop :=
  int_at vec 1 set /\ int_at vec 2 area /\ said_at vec 3 delay /\ said_at vec 4 phase /\ int_at vec 5 tb /\ int_or 0 vec 6 tp /\
  exists w, word_or (txt "LOAD") vec 7 w /\ meant w t.
Definition response_is (r : rload) (set area : Z) (delay phase : said) (tb tp : Z) (t : excit_type) : Prop :=
  rl_set r = set /\ rl_area r = area /\ refers Delay delay (rl_delay r) /\ refers Angle phase (rl_phase r) /\
  rl_table r = tb /\ rl_table2 r = tp /\ rl_type r = t.
Lemma response_read second vec set area delay phase tb tp t : response_at vec set area delay phase tb tp t ->
  second = true \/ tp = 0 ->
  exists r, parse_rload second (at_field vec 1) = Ok r /\ response_is r set area delay phase tb tp t.
Proof.
  intros (A & B & C & D & E & F & w & G & M) K. unfold parse_rload.
  rewrite (f_int _ _ _ A). cbn [bind]. rewrite (f_int _ _ _ B). cbn [bind].
  destruct (said_read Delay vec 3 delay C) as (rd & -> & Rd). cbn [bind].
  destruct (said_read Angle vec 4 phase D) as (rp & -> & Rp). cbn [bind].
  rewrite (f_int _ _ _ E). cbn [bind]. rewrite (f_intdef _ _ _ _ F). cbn [bind].
  assert (negb second && negb (tp =? 0) = false) as ->.
  { destruct K as [-> | ->]; [reflexivity|]. apply andb_false_r. }
  rewrite (f_worddef _ _ _ _ G). cbn [bind fst]. rewrite (meant_ok _ _ M). cbn [bind].
  eexists. split; [reflexivity|]. repeat split; assumption.
Qed.
Theorem C88_response_read : forall vec set area delay phase tb tp t,
  response_at vec set area delay phase tb tp t ->
  (exists r, parseRLOAD2 (at_field vec 1) = Ok r /\ response_is r set area delay phase tb tp t) /\
  (tp = 0 -> exists r, parseRLOAD1 (at_field vec 1) = Ok r /\ response_is r set area delay phase tb 0 t) /\
  (tp <> 0 -> parseRLOAD1 (at_field vec 1) = Throw).
Proof.
  intros vec set area delay phase tb tp t H. split; [|split].
  - apply response_read; [exact H|now left].
  - intros ->. apply response_read; [exact H|now right].
  - destruct H as (A & B & C & D & E & F & _). intros K. unfold parseRLOAD1, parse_rload.
    rewrite (f_int _ _ _ A). cbn [bind]. rewrite (f_int _ _ _ B). cbn [bind].
    destruct (said_read Delay vec 3 delay C) as (rd & -> & _). cbn [bind].
    destruct (said_read Angle vec 4 phase D) as (rp & -> & _). cbn [bind].
    rewrite (f_int _ _ _ E). cbn [bind]. rewrite (f_intdef _ _ _ _ F). cbn [bind].
    destruct (Z.eqb_spec tp 0); [contradiction|reflexivity].
Qed.
(** A word that is none of these is refused. *)
Theorem C88_type_refused : forall vec set area delay phase tb tp w c rest,
  int_at vec 1 set -> int_at vec 2 area -> said_at vec 3 delay -> said_at vec 4 phase -> int_at vec 5 tb -> int_or 0 vec 6 tp ->
  word_at vec 7 w -> w = c :: rest -> ~ In c (txt "LDVA0123") ->
  parseRLOAD2 (at_field vec 1) = Throw /\ parseRLOAD1 (at_field vec 1) = Throw.
Proof.
  intros vec set area delay phase tb tp w c rest A B C D E F G -> N.
  assert (X : excit_of (c :: rest) = Throw).
  { unfold excit_of. cbn [firstn].
    destruct (ascii_dec c "L"); [subst c; exfalso; apply N; cbn; tauto|]. destruct (ascii_dec c "0"); [subst c; exfalso; apply N; cbn; tauto|].
    destruct (ascii_dec c "D"); [subst c; exfalso; apply N; cbn; tauto|]. destruct (ascii_dec c "1"); [subst c; exfalso; apply N; cbn; tauto|].
    destruct (ascii_dec c "V"); [subst c; exfalso; apply N; cbn; tauto|]. destruct (ascii_dec c "2"); [subst c; exfalso; apply N; cbn; tauto|].
    destruct (ascii_dec c "A"); [subst c; exfalso; apply N; cbn; tauto|]. destruct (ascii_dec c "3"); [subst c; exfalso; apply N; cbn; tauto|].
    destruct c as [[] [] [] [] [] [] [] []]; try reflexivity; congruence. }
  split; unfold parseRLOAD1, parseRLOAD2, parse_rload;
  (rewrite (f_int _ _ _ A); cbn [bind]; rewrite (f_int _ _ _ B); cbn [bind];
   destruct (said_read Delay vec 3 delay C) as (rd & -> & _); cbn [bind];
   destruct (said_read Angle vec 4 phase D) as (rp & -> & _); cbn [bind];
   rewrite (f_int _ _ _ E); cbn [bind]; rewrite (f_intdef _ _ _ _ F); cbn [bind negb andb];
   try (destruct (negb (tp =? 0)); [reflexivity|]);
   rewrite (f_worddef (txt "LOAD") vec 7 (c :: rest)) by (left; split; [exact G|discriminate]); cbn [bind fst]; rewrite X; reflexivity).
Qed.

(** DELAY and DPHASE: the value (of the first point). *)
Theorem C88_point_read_partial : forall vec id p c v,
  int_at vec 1 id -> int_or INT_MIN32 vec 2 p -> int_or INT_MIN32 vec 3 c -> real_at vec 4 v ->
  parseDELAY (at_field vec 1) = Ok (id, Delay v) /\ parseDPHASE (at_field vec 1) = Ok (id, Angle v).
Proof.
  intros vec id p c v A B C D. split; unfold parseDELAY, parseDPHASE, parse_point;
  rewrite (f_int _ _ _ A); cbn [bind]; rewrite (f_intdef _ _ _ _ B); cbn [bind]; rewrite (f_intdef _ _ _ _ C); cbn [bind];
  rewrite (f_double _ _ _ D); reflexivity.
Qed.
(** C88 fails: the delay is that of a point, which is not read. *)
Theorem C88_point_refuted : exists v1 v2, int_at v1 2 11 /\ int_at v2 2 12 /\ (forall i, i <> 2%nat -> field v1 i = field v2 i) /\
  parseDELAY (at_field v1 1) = parseDELAY (at_field v2 1) /\ parseDELAY (at_field v1 1) = Ok (5, Delay (25, -2)).
Proof.
  exists (map txt ["DELAY"; "5"; "11"; "3"; ".25"]%string), (map txt ["DELAY"; "5"; "12"; "3"; ".25"]%string).
  split; [an_int|]. split; [an_int|]. split; [|split; vm_compute; reflexivity].
  intros i Hi. do 5 (destruct i as [|i]; [now try reflexivity; contradiction Hi|]). unfold field. now rewrite !nth_overflow by (cbn; lia).
Qed.

(** ** What a deck makes *)
(** The forces a card adds, the value it defines, whether it is an excitation. *)
Definition area_of (c : dcard) : list (Z * area_force) :=
  match c with CDarea t => match parseDAREA t with Ok r => map (fun f => (fst r, f)) (snd r) | _ => [] end | _ => [] end.
Definition value_of (c : dcard) : list (Z * dyna) :=
  match c with
  | CDelay t => match parseDELAY t with Ok v => [v] | _ => [] end
  | CDphase t => match parseDPHASE t with Ok v => [v] | _ => [] end
  | _ => []
  end.
Definition is_response (c : dcard) : bool := match c with CRload1 _ | CRload2 _ => true | _ => false end.
Definition responses (l : list dcard) : nat := length (filter is_response l).
Definition no_sequence (l : list dcard) : Prop := forall c, In c l -> match c with CLseq _ | CLoadset _ => False | _ => True end.

Lemma have_in l n : have l n = true <-> In n l.
Proof. unfold have. rewrite existsb_exists. split; [intros (x & I & E); apply Z.eqb_eq in E; now subst x|intros I; exists n; split; [exact I|apply Z.eqb_refl]]. Qed.
Lemma have_key_in {A} (l : list (Z * A)) n : have_key l n = true <-> In n (map fst l).
Proof.
  unfold have_key. rewrite existsb_exists, in_map_iff. split.
  - intros (x & I & E). apply Z.eqb_eq in E. exists x. now split.
  - intros (x & E & I). exists x. split; [exact I|]. now apply Z.eqb_eq.
Qed.
Lemma with_id_in l n m : In m (with_id l n) <-> In m l \/ m = n.
Proof.
  unfold with_id. destruct (have l n) eqn:E; [|rewrite in_app_iff; cbn; intuition].
  apply have_in in E. split; [tauto|]. intros [H | ->]; assumption.
Qed.
Ltac steps := repeat match goal with
  | H : (do r <- ?m; _) = Ok _ |- _ => let E := fresh "E" in destruct m eqn:E; cbn [bind] in H; try discriminate H
  | H : Ok _ = Ok _ |- _ => injection H; clear H; intros H; try subst
  end.
Lemma step_forces s c s' : dstep s c = Ok s' -> ds_forces s' = ds_forces s ++ area_of c.
Proof.
  destruct c; cbn [dstep area_of]; intros H; rewrite ?app_nil_r; steps; try reflexivity;
  unfold add_value in H; destruct (have_key _ _); [discriminate| |discriminate|]; steps; reflexivity.
Qed.
Lemma step_values s c s' : dstep s c = Ok s' -> ds_values s' = ds_values s ++ value_of c /\ (NoDup (map fst (ds_values s)) -> NoDup (map fst (ds_values s'))).
Proof.
  assert (G : forall v s', add_value s v = Ok s' -> ds_values s' = ds_values s ++ [v] /\ (NoDup (map fst (ds_values s)) -> NoDup (map fst (ds_values s')))).
  { intros v s0 H. unfold add_value in H. destruct (have_key (ds_values s) (fst v)) eqn:K; [discriminate|]. steps. cbn [ds_values]. split; [reflexivity|].
    intros N. rewrite map_app. cbn [map]. apply NoDup_app_snoc; [exact N|]. intros I. apply have_key_in in I. congruence. }
  destruct c; cbn [dstep value_of]; intros H; rewrite ?app_nil_r; steps; try (split; [reflexivity|auto]); now apply G.
Qed.
Lemma step_excit s c s' : dstep s c = Ok s' ->
  (is_response c = false /\ ds_excit s' = ds_excit s) \/ (is_response c = true /\ exists e, ds_excit s' = ds_excit s ++ [e]).
Proof.
  destruct c; cbn [dstep is_response]; intros H; steps; try (left; split; reflexivity); try (right; split; [reflexivity|eexists; reflexivity]);
  unfold add_value in H; destruct (have_key _ _); try discriminate; steps; left; split; reflexivity.
Qed.

Lemma read_app l1 l2 s : foldM dstep (l1 ++ l2) dstate0 = Ok s -> exists m, foldM dstep l1 dstate0 = Ok m /\ foldM dstep l2 m = Ok s.
Proof.
  revert s. generalize dstate0 as b. induction l1 as [|c l1 IH]; cbn [app foldM]; intros b s H; [exists b; split; [reflexivity|exact H]|].
  destruct (dstep b c); cbn [bind] in *; try discriminate. now apply IH.
Qed.
Lemma run_forces l : forall s s', foldM dstep l s = Ok s' -> ds_forces s' = ds_forces s ++ flat_map area_of l.
Proof.
  induction l as [|c l IH]; cbn [foldM flat_map]; intros s s' H; [injection H as <-; now rewrite app_nil_r|].
  destruct (dstep s c) eqn:E; cbn [bind] in H; try discriminate. rewrite (IH _ _ H), (step_forces _ _ _ E), app_assoc. reflexivity.
Qed.
Lemma run_values l : forall s s', foldM dstep l s = Ok s' -> ds_values s' = ds_values s ++ flat_map value_of l /\ (NoDup (map fst (ds_values s)) -> NoDup (map fst (ds_values s'))).
Proof.
  induction l as [|c l IH]; cbn [foldM flat_map]; intros s s' H; [injection H as <-; rewrite app_nil_r; split; [reflexivity|auto]|].
  destruct (dstep s c) eqn:E; cbn [bind] in H; try discriminate. destruct (IH _ _ H) as [A B]. destruct (step_values _ _ _ E) as [C D].
  split; [rewrite A, C, app_assoc; reflexivity|auto].
Qed.
Lemma run_excit l : forall s s', foldM dstep l s = Ok s' -> exists more, ds_excit s' = ds_excit s ++ more /\ length more = responses l.
Proof.
  induction l as [|c l IH]; cbn [foldM]; intros s s' H; [injection H as <-; exists []; now rewrite app_nil_r|].
  destruct (dstep s c) eqn:E; cbn [bind] in H; try discriminate. destruct (IH _ _ H) as (more & A & B). unfold responses in *. cbn [filter].
  destruct (step_excit _ _ _ E) as [[-> C]|[-> [e C]]].
  - exists more. rewrite A, C. now split.
  - exists (e :: more). rewrite A, C, <- app_assoc. split; [reflexivity|]. cbn [length]. now rewrite B.
Qed.
(** The sets of each type the cards make. *)
Definition makes_load (c : dcard) (n : Z) : Prop := c = CStatic n.
Definition names_dload (c : dcard) (n : Z) : Prop :=
  match c with
  | CDload t => exists l, parseDLOAD t = Ok (n, l)
  | CRload1 t => exists r, parseRLOAD1 t = Ok r /\ rl_set r = n
  | CRload2 t => exists r, parseRLOAD2 t = Ok r /\ rl_set r = n
  | _ => False
  end.
Definition names_area (c : dcard) (n : Z) : Prop :=
  match c with
  | CDarea t => exists l, parseDAREA t = Ok (n, l)
  | CRload1 t => exists r, parseRLOAD1 t = Ok r /\ rl_area r = n
  | _ => False
  end.
Lemma with_key_keys {A} (l : list (Z * list A)) n m : In m (map fst (with_key l n)) <-> In m (map fst l) \/ m = n.
Proof.
  unfold with_key. destruct (have_key l n) eqn:E; [|rewrite map_app, in_app_iff; cbn; intuition].
  apply have_key_in in E. split; [tauto|]. intros [H | ->]; assumption.
Qed.
Lemma add_to_keys {A} n (more : list A) l m : In m (map fst (add_to n more l)) <-> In m (map fst l) \/ m = n.
Proof.
  rewrite <- with_key_keys. unfold add_to. rewrite map_map.
  assert (map (fun x => fst (if n =? fst x then (fst x, snd x ++ more) else x)) (with_key l n) = map fst (with_key l n)) as ->; [|reflexivity].
  apply map_ext. intros x. destruct (n =? fst x); reflexivity.
Qed.
Lemma step_sets s c s' : dstep s c = Ok s' ->
  (forall n, In n (ds_loads s') <-> In n (ds_loads s) \/ makes_load c n) /\
  (forall n, In n (ds_areas s') <-> In n (ds_areas s) \/ names_area c n) /\
  (forall n, In n (map fst (ds_dloads s')) <-> In n (map fst (ds_dloads s)) \/ names_dload c n) /\
  (no_sequence [c] -> ds_sequences s' = ds_sequences s).
Proof.
  unfold makes_load. intros H. destruct c; cbn [dstep names_area names_dload] in *; steps;
  try (unfold add_value in H; destruct (have_key _ _); try discriminate; steps);
  cbn [ds_loads ds_areas ds_dloads ds_sequences add_excitation]; (split; [|split; [|split]]); intros;
  rewrite ?with_id_in, ?with_key_keys, ?add_to_keys; try reflexivity;
  try (match goal with |- _ \/ ?a <-> _ \/ ?b => assert (a <-> b) as ->; [|reflexivity] end; split;
       [intros ->; repeat (eexists; try reflexivity; try eassumption)|
        try (intros (x & Hx); congruence); try congruence]);
  try (split; [tauto|intros [X|X]; [exact X|try discriminate X; try contradiction X]]).
  all: try (match goal with N : no_sequence [_] |- _ => specialize (N _ (or_introl eq_refl)); contradiction N end).
  all: try (apply f_equal; apply surjective_pairing).
  all: intros [l X]; match type of X with _ /\ _ => destruct X as [X Y] | _ => idtac end; injection X as X; subst; reflexivity.
Qed.

Lemma run_sets l : forall s s', foldM dstep l s = Ok s' ->
  (forall n, In n (ds_loads s') <-> In n (ds_loads s) \/ exists c, In c l /\ makes_load c n) /\
  (forall n, In n (ds_areas s') <-> In n (ds_areas s) \/ exists c, In c l /\ names_area c n) /\
  (forall n, In n (map fst (ds_dloads s')) <-> In n (map fst (ds_dloads s)) \/ exists c, In c l /\ names_dload c n) /\
  (no_sequence l -> ds_sequences s' = ds_sequences s).
Proof.
  induction l as [|c l IH]; cbn [foldM]; intros s s' H.
  - injection H as <-. repeat split; auto; intros [X|(c & [] & _)]; exact X.
  - destruct (dstep s c) as [m| | |] eqn:E; cbn [bind] in H; try discriminate. destruct (IH _ _ H) as (A & B & C & D). destruct (step_sets _ _ _ E) as (A' & B' & C' & D').
    assert (K : forall (P : dcard -> Prop), (exists x, In x (c :: l) /\ P x) <-> P c \/ exists x, In x l /\ P x).
    { intros P. split.
      - intros (x & [<-|I] & Px); [now left|right; exists x; now split].
      - intros [Px|(x & I & Px)]; [exists c; split; [now left|exact Px]|exists x; split; [now right|exact Px]]. }
    split; [|split; [|split]].
    + intros n. rewrite A, A', (K (fun x => makes_load x n)). tauto.
    + intros n. rewrite B, B', (K (fun x => names_area x n)). tauto.
    + intros n. rewrite C, C', (K (fun x => names_dload x n)). tauto.
    + intros N. rewrite D, D'; [reflexivity| |]; intros x I; apply N; [destruct I as [<-|[]]; now left|now right].
Qed.

(** The forces are those of the DAREA cards, in their order, whatever the other cards
    and their places; the sets are those they name. *)
Theorem C88_forces : forall l s, read_cards l = Ok s ->
  ds_forces s = flat_map area_of l /\ (forall n, In n (ds_areas s) <-> exists c, In c l /\ names_area c n).
Proof.
  intros l s H. split; [now rewrite (run_forces _ _ _ H)|]. intros n. destruct (run_sets _ _ _ H) as (_ & A & _). rewrite A. cbn [ds_areas dstate0 In]. tauto.
Qed.
(** The id of a DELAY or DPHASE card gives the value of that card. *)
Lemma find_key {A} (l : list (Z * A)) n v : NoDup (map fst l) -> In (n, v) l -> find (fun p => n =? fst p) l = Some (n, v).
Proof.
  induction l as [|[m w] l IH]; cbn [map fst find]; intros N I; [contradiction|]. apply NoDup_cons_iff in N. destruct N as [N1 N2].
  destruct I as [I|I].
  - injection I as -> ->. now rewrite Z.eqb_refl.
  - destruct (Z.eqb_spec n m) as [->|]; [|now apply IH]. contradiction N1. apply in_map_iff. exists (m, v). now split.
Qed.
Theorem C88_values : forall l s, read_cards l = Ok s -> forall c t id v, In c l ->
  (c = CDelay t /\ parseDELAY t = Ok (id, v)) \/ (c = CDphase t /\ parseDPHASE t = Ok (id, v)) ->
  get_value s (ById id) = Some v.
Proof.
  intros l s H c t id v I K. destruct (run_values _ _ _ H) as [A B]. cbn [ds_values dstate0 app map] in A, B. specialize (B (NoDup_nil _)).
  unfold get_value. rewrite (find_key _ id v B); [reflexivity|]. rewrite A. apply in_flat_map. exists c. split; [exact I|].
  destruct K as [[-> K]|[-> K]]; cbn [value_of]; rewrite K; now left.
Qed.
(** C88 fails: a DELAY and a DPHASE of the same number, or two points of the same
    DELAY set, stop the reading. *)
Definition card (l : list string) : cursor := at_field (map txt l) 1.
Theorem C88_same_number_refuted : exists t1 t2, parseDELAY t1 = Ok (3, Delay (25, -2)) /\ parseDPHASE t2 = Ok (3, Angle (900, -1)) /\
  read_cards [CDelay t1; CDphase t2] = Throw.
Proof. exists (card ["DELAY"; "3"; "11"; "1"; ".25"]%string), (card ["DPHASE"; "3"; "11"; "1"; "90.0"]%string). repeat split; vm_compute; reflexivity. Qed.
Theorem C88_two_points_refuted : exists t1 t2 a b, parseDELAY t1 = Ok (3, a) /\ parseDELAY t2 = Ok (3, b) /\ read_cards [CDelay t1; CDelay t2] = Throw.
Proof. exists (card ["DELAY"; "3"; "11"; "1"; ".25"]%string), (card ["DELAY"; "3"; "12"; "1"; ".5"]%string), (Delay (25, -2)), (Delay (5, -1)). repeat split; vm_compute; reflexivity. Qed.

(** Each RLOADi card is an excitation, at its place among them. *)
Definition same_fields (e : excitation) (r : rload) : Prop :=
  ex_set e = rl_set r /\ ex_delay e = rl_delay r /\ ex_phase e = rl_phase r /\ ex_table e = rl_table r /\ ex_table2 e = rl_table2 r /\ ex_type e = rl_type r.
Lemma after l1 c l2 s : read_cards (l1 ++ c :: l2) = Ok s -> is_response c = true ->
  exists m m' e, read_cards l1 = Ok m /\ dstep m c = Ok m' /\ ds_excit m' = ds_excit m ++ [e] /\ length (ds_excit m) = responses l1 /\
    nth_error (ds_excit s) (responses l1) = Some e.
Proof.
  intros H R. apply read_app in H. destruct H as (m & A & B). cbn [foldM] in B. destruct (dstep m c) as [m'| | |] eqn:E; cbn [bind] in B; try discriminate.
  destruct (step_excit _ _ _ E) as [[C _]|[_ [e C]]]; [congruence|]. destruct (run_excit _ _ _ A) as (more & D & L). cbn [ds_excit dstate0 app] in D.
  destruct (run_excit _ _ _ B) as (rest & F & _). exists m, m', e. repeat split; try assumption.
  - now rewrite D.
  - rewrite F, C, <- app_assoc. rewrite nth_error_app2 by (rewrite D, L; lia). rewrite D, L, Nat.sub_diag. reflexivity.
Qed.
Theorem C88_excitations : forall l1 t l2 s r,
  (read_cards (l1 ++ CRload1 t :: l2) = Ok s /\ parseRLOAD1 t = Ok r) \/ (read_cards (l1 ++ CRload2 t :: l2) = Ok s /\ parseRLOAD2 t = Ok r) ->
  exists e, nth_error (ds_excit s) (responses l1) = Some e /\ same_fields e r /\
    (ex_original e = Some (rl_set r) \/ ex_original e = None) /\
    (ex_original e = Some (rl_set r) <-> ~ exists c, In c l1 /\ names_dload c (rl_set r)) /\
    In (rl_set r) (map fst (ds_dloads s)).
Proof.
  intros l1 t l2 s r H.
  assert (G : exists c, read_cards (l1 ++ c :: l2) = Ok s /\ is_response c = true /\ (forall m m', dstep m c = Ok m' -> exists l a, m' = add_excitation
            (mkD a (ds_forces m) (ds_loads m) (ds_sequences m) (ds_dloads m) (ds_values m) (ds_excit m)) r l)).
  { destruct H as [[H P]|[H P]]; eexists; (split; [exact H|]); (split; [reflexivity|]); intros m m' S; cbn [dstep] in S; rewrite P in S; cbn [bind] in S; steps.
    - eexists _, _. reflexivity.
    - exists a, (ds_areas m). destruct m; reflexivity. }
  destruct G as (c & R & I & S). destruct (after _ _ _ _ R I) as (m & m' & e & A & B & C & L & N). exists e. split; [exact N|].
  destruct (S _ _ B) as (ld & ar & ->). cbn [add_excitation ds_excit ds_dloads] in C. apply app_inj_tail in C. destruct C as [_ <-].
  split; [repeat split|]. cbn [ex_original ex_set]. destruct (run_sets _ _ _ A) as (_ & _ & D & _). specialize (D (rl_set r)). cbn [ds_dloads dstate0 map In] in D.
  split; [destruct (have_key _ _); auto|]. split.
  - destruct (have_key (ds_dloads m) (rl_set r)) eqn:K.
    + apply have_key_in in K. split; [discriminate|]. intros X. contradiction X. apply D in K. tauto.
    + split; [|reflexivity]. intros _ X. assert (In (rl_set r) (map fst (ds_dloads m))) as Y by (apply D; now right). apply have_key_in in Y. congruence.
  - apply read_app in R. destruct R as (m2 & A2 & B2). unfold read_cards in A. rewrite A in A2. injection A2 as <-. cbn [foldM] in B2. rewrite B in B2. cbn [bind] in B2.
    destruct (run_sets _ _ _ B2) as (_ & _ & X & _). apply X. left. cbn [add_excitation ds_dloads]. apply with_key_keys. now right.
Qed.

(** ** The load of an excitation *)
(** RLOAD1, and RLOAD2 without sequences of loads: the set of the DAREA cards of the
    number of the card; for RLOAD2 the static loads of that number when cards of them
    come before. *)
Theorem C88_load_partial : forall l1 t l2 s r,
  ((read_cards (l1 ++ CRload1 t :: l2) = Ok s /\ parseRLOAD1 t = Ok r) ->
     exists e, nth_error (ds_excit s) (responses l1) = Some e /\ ex_load e = ExciteSet (rl_area r) /\ get_set s (ex_load e) = true) /\
  ((read_cards (l1 ++ CRload2 t :: l2) = Ok s /\ parseRLOAD2 t = Ok r) -> no_sequence l1 ->
     exists e, nth_error (ds_excit s) (responses l1) = Some e /\
       (In (CStatic (rl_area r)) l1 -> ex_load e = LoadSetRef (rl_area r) /\ get_set s (ex_load e) = true) /\
       (~ In (CStatic (rl_area r)) l1 -> ex_load e = ExciteSet (rl_area r))).
Proof.
  intros l1 t l2 s r. split.
  - intros [H P]. destruct (after _ _ _ _ H eq_refl) as (m & m' & e & A & B & C & L & N). exists e. split; [exact N|].
    assert (B0 := B). cbn [dstep] in B. rewrite P in B. cbn [bind] in B. steps. cbn [add_excitation ds_excit] in C. apply app_inj_tail in C. destruct C as [_ <-]. cbn [ex_load].
    split; [reflexivity|]. cbn [get_set]. apply have_in. apply (proj2 (C88_forces _ _ H)). exists (CRload1 t). split; [apply in_or_app; right; now left|].
    cbn [names_area]. exists r. now split.
  - intros [H P] Q. destruct (after _ _ _ _ H eq_refl) as (m & m' & e & A & B & C & L & N). exists e. split; [exact N|].
    destruct (run_sets _ _ _ A) as (LD & _ & _ & SQ). specialize (SQ Q). cbn [ds_sequences dstate0] in SQ.
    assert (B0 := B). cbn [dstep] in B. rewrite P in B. cbn [bind] in B. unfold resolve in B. rewrite SQ in B. cbn [negb andb] in B.
    assert (K : have (ds_loads m) (rl_area r) = true <-> In (CStatic (rl_area r)) l1).
    { rewrite have_in, LD. unfold makes_load. split.
      - intros [[]|(c & I & ->)]. exact I.
      - intros I. right. now exists (CStatic (rl_area r)). }
    destruct (have (ds_loads m) (rl_area r)) eqn:V; cbn [bind] in B; steps; cbn [add_excitation ds_excit] in C; apply app_inj_tail in C; destruct C as [_ <-]; cbn [ex_load]; split.
    + intros _. split; [reflexivity|]. cbn [get_set]. apply have_in. apply (proj1 (run_sets _ _ _ H)). right.
      exists (CStatic (rl_area r)). split; [apply in_or_app; left; now apply K|reflexivity].
    + intros X. contradiction X. now apply K.
    + intros X. apply K in X. discriminate.
    + reflexivity.
Qed.
Definition rload2 (set area : string) : cursor := card ["RLOAD2"; set; area; ""; ""; "7"]%string.
(** C88 fails: the same cards in another order do not make the same excitation, *)
Theorem C88_order_refuted : exists t s1 s2, read_cards [CStatic 5; CRload2 t] = Ok s1 /\ read_cards [CRload2 t; CStatic 5] = Ok s2 /\
  map ex_load (ds_excit s1) = [LoadSetRef 5] /\ map ex_load (ds_excit s2) = [ExciteSet 5] /\
  map (fun e => get_set s2 (ex_load e)) (ds_excit s2) = [false].
Proof.
  exists (rload2 "1" "5").
  match goal with |- exists s1 s2, ?a = _ /\ ?b = _ /\ _ => let v := eval vm_compute in a in let w := eval vm_compute in b in
    match v with Ok ?x => match w with Ok ?y => exists x, y end end end.
  repeat split; vm_compute; reflexivity.
Qed.
(** ... the static loads RLOAD1 names are not found, *)
Theorem C88_static_refuted : exists t s, read_cards [CStatic 5; CRload1 t] = Ok s /\ map ex_load (ds_excit s) = [ExciteSet 5] /\ ds_forces s = [].
Proof.
  exists (rload2 "1" "5"). match goal with |- exists s, ?a = _ /\ _ => let v := eval vm_compute in a in match v with Ok ?x => exists x end end.
  repeat split; vm_compute; reflexivity.
Qed.
(** ... the DAREA forces of a number that is also one of static loads are lost, *)
Theorem C88_both_refuted : exists a t s n f, parseDAREA a = Ok (5, [(n, f)]) /\ read_cards [CDarea a; CStatic 5; CRload2 t] = Ok s /\
  map ex_load (ds_excit s) = [LoadSetRef 5] /\ ds_forces s = [(5, (n, f))].
Proof.
  exists (card ["DAREA"; "5"; "11"; "3"; "2.5"]%string), (rload2 "1" "5"). match goal with |- exists s _ _, _ /\ ?a = _ /\ _ => let v := eval vm_compute in a in match v with Ok ?x => exists x end end.
  exists 11, [dzero; dzero; (25, -1); dzero; dzero; dzero]. repeat split; vm_compute; reflexivity.
Qed.
(** ... every RLOAD2 takes the first sequence whatever its number, *)
Theorem C88_sequences_refuted : exists q1 q2 t1 t2 s, parseLSEQ q1 = Ok (1, 100) /\ int_at (cvec q1) 2 10 /\ parseLSEQ q2 = Ok (1, 200) /\ int_at (cvec q2) 2 20 /\
  read_cards [CStatic 100; CStatic 200; CLseq q1; CLseq q2; CRload2 t1; CRload2 t2] = Ok s /\
  (exists r1 r2, parseRLOAD2 t1 = Ok r1 /\ rl_area r1 = 10 /\ parseRLOAD2 t2 = Ok r2 /\ rl_area r2 = 20) /\
  map ex_load (ds_excit s) = [LoadSetRef 100; LoadSetRef 100].
Proof.
  exists (card ["LSEQ"; "1"; "10"; "100"]%string), (card ["LSEQ"; "1"; "20"; "200"]%string), (rload2 "1" "10"), (rload2 "2" "20").
  match goal with |- exists s, _ /\ _ /\ _ /\ _ /\ ?a = _ /\ _ => let v := eval vm_compute in a in match v with Ok ?x => exists x end end.
  split; [vm_compute; reflexivity|]. split; [an_int|]. split; [vm_compute; reflexivity|]. split; [an_int|]. split; [vm_compute; reflexivity|]. split.
  - match goal with |- exists r1 r2, ?a = _ /\ _ /\ ?b = _ /\ _ => let v := eval vm_compute in a in let w := eval vm_compute in b in
      match v with Ok ?x => match w with Ok ?y => exists x, y end end end. repeat split; vm_compute; reflexivity.
  - vm_compute; reflexivity.
Qed.
(** ... and a sequence the case control asks for whose card comes later makes the
    program read an empty list. *)
Theorem C88_request_refuted : exists q t, parseLSEQ q = Ok (1, 100) /\ read_cards [CLoadset 1; CStatic 100; CRload2 t; CLseq q] = UB /\
  exists s, read_cards [CLoadset 1; CStatic 100; CLseq q; CRload2 t] = Ok s /\ map ex_load (ds_excit s) = [LoadSetRef 100].
Proof.
  exists (card ["LSEQ"; "1"; "10"; "100"]%string), (rload2 "1" "10"). split; [vm_compute; reflexivity|]. split; [vm_compute; reflexivity|].
  match goal with |- exists s, ?a = _ /\ _ => let v := eval vm_compute in a in match v with Ok ?x => exists x end end. split; vm_compute; reflexivity.
Qed.

(** Which excitations are kept: those whose load set, table, phase and delay all
    exist, the last two by themselves when the card gives numbers. *)
Definition value_there (s : dstate) (r : dyna_ref) : Prop :=
  match r with Made _ => True | ById n => exists v, In (n, v) (ds_values s) end.
Definition set_there (s : dstate) (r : set_ref) : Prop :=
  match r with ExciteSet n => In n (ds_areas s) | LoadSetRef n => In n (ds_loads s) end.
Theorem C88_valid : forall T s e, valid_excitation T s e = true <->
  set_there s (ex_load e) /\ (exists l, T (ex_table e) = Some l) /\ value_there s (ex_phase e) /\ value_there s (ex_delay e).
Proof.
  intros T s e.
  assert (V : forall r, match get_value s r with Some _ => true | None => false end = true <-> value_there s r).
  { intros [n|v]; cbn [get_value value_there]; [|split; auto]. destruct (find _ _) as [[m v]|] eqn:F; cbn [option_map].
    - apply find_some in F. destruct F as [I E]. apply Z.eqb_eq in E. cbn [fst] in E. subst m. split; [intros _; exists v; exact I|auto].
    - split; [discriminate|]. intros [v I]. apply (find_none _ _ F) in I. cbn [fst] in I. rewrite Z.eqb_refl in I. discriminate. }
  assert (S' : get_set s (ex_load e) = true <-> set_there s (ex_load e)).
  { destruct (ex_load e); cbn [get_set set_there]; apply have_in. }
  unfold valid_excitation. rewrite !andb_true_iff, S', !V. destruct (T (ex_table e)) as [l|].
  - split; [intros [[[A _] B] C]; eauto 6|intros (A & _ & B & C); auto].
  - split; [intros [[[_ X] _] _]; discriminate|intros (_ & (l & X) & _); discriminate].
Qed.
(** ** What the writers print *)
(** An excitation is, at the frequency [f], the load times the table times the cosine
    of an angle, in degrees: the phase of the card, plus the table of phases, minus a
    full turn per period of delay. *)
Definition angle (theta tau : R) (P : R -> R) (f : R) : R := (theta + P f - 360 * f * tau)%R.
(** Code_Aster: the load, the table and the phase are those of the excitation; the
    angle is right without delay and without table of phases; the nature is said in a
    response on modes. *)
Theorem C88_aster_partial : forall modal s e theta tau,
  get_value s (ex_phase e) = Some (Angle theta) -> get_value s (ex_delay e) = Some (Delay tau) ->
  exists a, aster_excitation modal s e = Ok a /\ ae_load a = ex_load e /\ ae_table a = ex_table e /\
    (Q2R (dec_q tau) = 0%R -> ex_table2 e = 0 -> forall f, ae_degrees a = angle (Q2R (dec_q theta)) (Q2R (dec_q tau)) (fun _ => 0%R) f) /\
    (modal = true -> ae_nature a = Some (ex_type e)).
Proof.
  intros modal s e theta tau A B. unfold aster_excitation. rewrite A. cbn [of_option bind]. eexists. split; [reflexivity|]. cbn [ae_load ae_table ae_degrees ae_nature dyna_get].
  split; [reflexivity|]. split; [reflexivity|]. split.
  - intros Z _ f. unfold angle. rewrite Z. lra.
  - now intros ->.
Qed.
(** C88 fails: the delay and the table of phases change nothing of what is written, *)
Theorem C88_delay_refuted : exists s e1 e2 a, get_value s (ex_phase e1) = Some (Angle (90, 0)) /\ get_value s (ex_phase e2) = Some (Angle (90, 0)) /\
  get_value s (ex_delay e1) = Some (Delay (25, -2)) /\ get_value s (ex_delay e2) = Some (Delay dzero) /\
  (forall modal, aster_excitation modal s e1 = Ok (a modal) /\ aster_excitation modal s e2 = Ok (a modal)) /\
  angle (Q2R (dec_q (90, 0))) (Q2R (dec_q (25, -2))) (fun _ => 0%R) 1 <> angle (Q2R (dec_q (90, 0))) (Q2R (dec_q dzero)) (fun _ => 0%R) 1.
Proof.
  exists dstate0, (mkExcit 1 (Some 1) (Made (Delay (25, -2))) (Made (Angle (90, 0))) 7 0 (ExciteSet 5) FORCE_), (mkExcit 1 (Some 1) (Made (Delay dzero)) (Made (Angle (90, 0))) 7 8 (ExciteSet 5) FORCE_).
  exists (fun modal : bool => mkAster (ExciteSet 5) 7 (dyna_get (Angle (90, 0))) (if modal then Some FORCE_ else None)).
  repeat (split; [reflexivity|]). split; [intros modal; split; reflexivity|]. unfold angle.
  assert (Q2R (dec_q (25, -2)) = (1 / 4)%R) as ->. { replace (1 / 4)%R with (Q2R (1 # 4)) by (unfold Q2R; cbn; lra). apply Qeq_eqR. vm_compute. reflexivity. }
  assert (Q2R (dec_q dzero) = (0)%R) as ->. { replace 0%R with (Q2R 0) by (unfold Q2R; cbn; lra). apply Qeq_eqR. vm_compute. reflexivity. }
  lra.
Qed.
(** ... a response without modes does not say the nature of the excitation, *)
Theorem C88_nature_refuted : exists s e1 e2 a, ex_type e1 = FORCE_ /\ ex_type e2 = ACCELERATION /\
  aster_excitation false s e1 = Ok a /\ aster_excitation false s e2 = Ok a.
Proof.
  exists dstate0, (mkExcit 1 (Some 1) (Made (Delay dzero)) (Made (Angle (90, 0))) 7 0 (ExciteSet 5) FORCE_), (mkExcit 1 (Some 1) (Made (Delay dzero)) (Made (Angle (90, 0))) 7 0 (ExciteSet 5) ACCELERATION).
  exists (mkAster (ExciteSet 5) 7 (dyna_get (Angle (90, 0))) None). repeat split; reflexivity.
Qed.
(** ... and the number of a DELAY card given as a phase is taken: the angle is minus
    two pi times the delay, in degrees. *)
Theorem C88_kind_refuted : exists d t s e a, parseDELAY d = Ok (3, Delay (5, -1)) /\ read_cards [CDelay d; CStatic 5; CRload2 t] = Ok s /\ ds_excit s = [e] /\
  ex_phase e = ById 3 /\ aster_excitation false s e = Ok a /\ ae_degrees a = (- PI)%R.
Proof.
  exists (card ["DELAY"; "3"; ""; ""; ".5"]%string), (card ["RLOAD2"; "1"; "5"; ""; "3"; "7"]%string).
  match goal with |- exists s _ _, _ /\ ?a = _ /\ _ => let v := eval vm_compute in a in match v with Ok ?x => exists x end end.
  eexists. exists (mkAster (LoadSetRef 5) 7 (dyna_get (Delay (5, -1))) None).
  split; [vm_compute; reflexivity|]. split; [vm_compute; reflexivity|]. split; [reflexivity|]. split; [reflexivity|]. split; [reflexivity|].
  cbn [ae_degrees dyna_get]. assert (Q2R (dec_q (5, -1)) = (1 / 2)%R) as ->. { replace (1 / 2)%R with (Q2R (1 # 2)) by (unfold Q2R; cbn; lra). apply Qeq_eqR. vm_compute. reflexivity. }
  lra.
Qed.

(** Systus: the amplitude is the table (the constant one in a direct response), on the
    set of the DAREA cards. *)
Theorem C88_systus_partial : forall direct T e n l,
  ex_load e = ExciteSet n -> T (ex_table e) = Some l ->
  (direct = false -> systus_excitation direct T e = Ok (Some (n, Points l))) /\
  (direct = true -> forall a, l <> [] -> Forall (fun p => snd p = a) l -> systus_excitation direct T e = Ok (Some (n, Constant a))).
Proof.
  intros direct T e n l A B. unfold systus_excitation. rewrite A, B. cbn [of_option bind]. split; [now intros ->|].
  intros -> a N F. destruct l as [|p l]; [congruence|]. apply Forall_inv in F. now rewrite F.
Qed.
(** C88 fails: an excitation by static loads is dropped, *)
Theorem C88_systus_static_refuted : exists t s e, read_cards [CStatic 5; CRload2 t] = Ok s /\ ds_excit s = [e] /\
  forall direct T, valid_excitation T s e = (match T 7 with Some _ => true | None => false end) /\ systus_excitation direct T e = Ok None.
Proof.
  exists (rload2 "1" "5"). match goal with |- exists s e, ?a = _ /\ _ => let v := eval vm_compute in a in match v with Ok ?x => exists x end end.
  eexists. split; [vm_compute; reflexivity|]. split; [reflexivity|]. intros direct T. split; [|reflexivity]. unfold valid_excitation. cbn [ex_load ex_table ex_phase ex_delay get_set get_value].
  destruct (T 7); reflexivity.
Qed.
(** ... two that differ by the phase, the delay or the nature are written alike, *)
Theorem C88_systus_phase_refuted : exists e1 e2, ex_phase e1 = Made (Angle dzero) /\ ex_phase e2 = Made (Angle (90, 0)) /\ ex_type e1 = FORCE_ /\ ex_type e2 = ACCELERATION /\
  ex_load e1 = ExciteSet 5 /\ forall direct T, systus_excitation direct T e1 = systus_excitation direct T e2.
Proof.
  exists (mkExcit 1 (Some 1) (Made (Delay dzero)) (Made (Angle dzero)) 7 0 (ExciteSet 5) FORCE_), (mkExcit 1 (Some 1) (Made (Delay dzero)) (Made (Angle (90, 0))) 7 0 (ExciteSet 5) ACCELERATION).
  repeat split; reflexivity.
Qed.
(** ... and a table that is not constant is its first value in a direct response. *)
Theorem C88_systus_direct_refuted : exists T e a, T (ex_table e) = Some [(0, 1); (10, 5)]%R /\ systus_excitation true T e = Ok (Some (5, Constant a)) /\ a = 1%R.
Proof.
  exists (fun _ => Some [(0, 1); (10, 5)]%R), (mkExcit 1 (Some 1) (Made (Delay dzero)) (Made (Angle dzero)) 7 0 (ExciteSet 5) FORCE_), 1%R. repeat split; reflexivity.
Qed.

(** Cards the hypotheses hold of. *)
Definition area_card : list str := map txt ["DAREA"; "5"; "11"; "13"; "2.5"; "12"; ""; "-1."]%string.
Example C88_area_case :
  int_at area_card 1 5 /\ int_at area_card 2 11 /\ int_at area_card 3 13 /\ real_at area_card 4 (25, -1) /\ int_at area_card 5 12 /\ blank_at area_card 6 /\
  real_at area_card 7 (-1, 0) /\ blank_at area_card 8 /\ good_code 13 /\
  parseDAREA (at_field area_card 1) = Ok (5, [(11, [(25, -1); dzero; (25, -1); dzero; dzero; dzero]); (12, repeat (-1, 0) 6)]).
Proof.
  split; [an_int|]. split; [an_int|]. split; [an_int|]. split; [vm_compute; reflexivity|]. split; [an_int|]. split; [vm_compute; reflexivity|].
  split; [vm_compute; reflexivity|]. split; [vm_compute; reflexivity|]. split; [|vm_compute; reflexivity].
  split; [lia|]. intros d (k & K & L & M).
  assert (k = 0 \/ k = 1) as [-> | ->].
  { destruct (Z_lt_ge_dec k 2) as [|G]; [lia|]. exfalso. assert (10 ^ 2 <= 10 ^ k) by (apply Z.pow_le_mono_r; lia). lia. }
  all: vm_compute in M; lia.
Qed.
Definition response_card : list str := map txt ["RLOAD2"; "1"; "5"; "0.25"; "3"; "7"; ""; "ACCE"]%string.
Example C88_response_case :
  response_at response_card 1 5 (Number (25, -2)) (Card 3) 7 0 ACCELERATION /\
  (exists r, parseRLOAD2 (at_field response_card 1) = Ok r /\ rl_phase r = ById 3 /\ rl_delay r = Made (Delay (25, -2))) /\
  response_at (cvec (rload2 "1" "5")) 1 5 Nothing Nothing 7 0 FORCE_ /\
  parseRLOAD1 (card ["RLOAD1"; "1"; "5"; ""; ""; "7"; "8"]%string) = Throw.
Proof.
  split; [|split; [|split]].
  - split; [an_int|]. split; [an_int|]. split; [split; [vm_compute; reflexivity|right; left; reflexivity]|]. split; [split; [an_int|discriminate]|]. split; [an_int|].
    split; [right; split; reflexivity|]. exists (txt "ACCE"). split; [left; split; [vm_compute; reflexivity|discriminate]|now left].
  - eexists. split; [vm_compute; reflexivity|]. split; reflexivity.
  - split; [an_int|]. split; [an_int|]. split; [left; reflexivity|]. split; [left; reflexivity|]. split; [an_int|]. split; [right; split; reflexivity|].
    exists (txt "LOAD"). split; [right; split; reflexivity|now left].
  - vm_compute. reflexivity.
Qed.
Example C88_type_case : exists vec, int_at vec 1 1 /\ int_at vec 2 5 /\ said_at vec 3 Nothing /\ said_at vec 4 (Card 2) /\ int_at vec 5 7 /\ int_or 0 vec 6 8 /\
  word_at vec 7 (txt "FORCE") /\ ~ In "F"%char (txt "LDVA0123") /\ parseRLOAD2 (at_field vec 1) = Throw.
Proof.
  exists (map txt ["RLOAD2"; "1"; "5"; "0"; "2"; "7"; "8"; "force"]%string). split; [an_int|]. split; [an_int|]. split; [right; an_int|]. split; [split; [an_int|discriminate]|].
  split; [an_int|]. split; [left; an_int|]. split; [vm_compute; reflexivity|]. split; [|vm_compute; reflexivity]. cbn. intuition discriminate.
Qed.
Definition dynamic_deck : list dcard :=
  [CDelay (card ["DELAY"; "3"; "11"; "1"; ".25"]%string); CDload (card ["DLOAD"; "2"; "1."; "2."; "1"]%string); CStatic 6;
   CRload1 (card ["RLOAD1"; "2"; "5"; "3"; "45."; "7"]%string); CDarea (at_field area_card 1); CRload2 (rload2 "1" "6"); CDphase (card ["DPHASE"; "4"; ""; ""; "90."]%string)].
Example C88_deck_case : exists s, read_cards dynamic_deck = Ok s /\ length (ds_forces s) = 2%nat /\ map ex_load (ds_excit s) = [ExciteSet 5; LoadSetRef 6] /\
  map ex_original (ds_excit s) = [None; Some 1] /\ get_value s (ById 3) = Some (Delay (25, -2)) /\ get_value s (ById 4) = Some (Angle (90, 0)) /\ no_sequence dynamic_deck /\
  exists e, nth_error (ds_excit s) 0 = Some e /\ get_value s (ex_phase e) = Some (Angle (45, 0)) /\ get_value s (ex_delay e) = Some (Delay (25, -2)).
Proof.
  match goal with |- exists s, ?a = _ /\ _ => let v := eval vm_compute in a in match v with Ok ?x => exists x end end.
  repeat (split; [vm_compute; reflexivity|]). split.
  - intros c I. cbn [dynamic_deck In] in I. repeat destruct I as [<-|I]; exact Logic.I || contradiction.
  - eexists. split; [reflexivity|]. split; reflexivity.
Qed.

Print Assumptions C88_area_read.
Print Assumptions C88_combination_read.
Print Assumptions C88_response_read.
Print Assumptions C88_type_refused.
Print Assumptions C88_point_read_partial.
Print Assumptions C88_point_refuted.
Print Assumptions C88_forces.
Print Assumptions C88_values.
Print Assumptions C88_same_number_refuted.
Print Assumptions C88_two_points_refuted.
Print Assumptions C88_excitations.
Print Assumptions C88_load_partial.
Print Assumptions C88_order_refuted.
Print Assumptions C88_static_refuted.
Print Assumptions C88_both_refuted.
Print Assumptions C88_sequences_refuted.
Print Assumptions C88_request_refuted.
Print Assumptions C88_aster_partial.
Print Assumptions C88_delay_refuted.
Print Assumptions C88_nature_refuted.
Print Assumptions C88_kind_refuted.
Print Assumptions C88_systus_partial.
Print Assumptions C88_systus_static_refuted.
Print Assumptions C88_systus_phase_refuted.
Print Assumptions C88_systus_direct_refuted.
Print Assumptions C88_valid.
