(** Proofs about the options of the command line. *)
From Coq Require Import Ascii String ZArith List Bool Lia.
From Verif Require Import Base TextModel TextProofs TokenizerModel RealModel CaseControlModel CaseControlProofs OptionsModel.
Import ListNotations.
Open Scope nat_scope.
Open Scope list_scope.

(** ** Spec of the lists of analyses *)

(** A text of decimal digits and the number it writes, which an int can hold. *)
Definition numeral (f : str) (n : Z) : Prop :=
  f <> [] /\ Forall (fun c => In c (txt "0123456789")) f /\
  fold_left (fun a c => (10 * a + (Z.of_nat (nat_of_ascii c) - 48))%Z) f 0%Z = n /\ (n < 2 ^ 31)%Z.
(** Numbers separated by commas. *)
Definition denotes (s : str) (ns : list Z) : Prop :=
  exists fs, fs <> [] /\ s = join "," fs /\ Forall2 numeral fs ns.

Lemma digit_in c : is_digit c = true <-> In c (txt "0123456789").
Proof.
  split.
  - destruct c as [[] [] [] [] [] [] [] []]; vm_compute; intros H; try discriminate H; tauto.
  - cbn. intros H. repeat (destruct H as [<-|H]; [reflexivity|]). destruct H.
Qed.
Lemma digits_in f : forallb is_digit f = true <-> Forall (fun c => In c (txt "0123456789")) f.
Proof. rewrite forallb_forall, Forall_forall. split; intros H c I; apply digit_in, H, I. Qed.

Lemma stoi_numeral f n : forallb is_digit f = true -> stoi f = Ok n <-> numeral f n.
Proof.
  intros D. unfold numeral. fold (digit_val). change (fold_left _ f 0%Z) with (digits_val f). split.
  - intros H. destruct f as [|c f]; [discriminate H|].
    destruct (Z_le_gt_dec (digits_val (c :: f)) INT_MAX32) as [L|G].
    + rewrite stoi_digits in H by (try discriminate; assumption). injection H as <-.
      repeat split; [discriminate|now apply digits_in|unfold INT_MAX32 in L; lia].
    + exfalso. unfold stoi in H. pose proof D as D0. cbn in D0. apply andb_true_iff in D0 as [Dc _].
      rewrite (dropWhile_head _ _ _ (digit_not_space _ Dc)) in H. cbn [take_sign] in H.
      destruct (digit_not_sign _ Dc) as [E1 E2]. rewrite E1, E2 in H.
      pose proof (take_digits_all (c :: f) [] D I) as E. rewrite app_nil_r in E. rewrite E in H. cbn [null] in H.
      replace ((INT_MIN32 <=? digits_val (c :: f)) && (digits_val (c :: f) <=? INT_MAX32))%Z with false in H; [discriminate H|].
      symmetry. apply andb_false_iff. right. apply Z.leb_gt. lia.
  - intros (N & _ & <- & L). apply stoi_digits; [assumption..|]. unfold INT_MAX32. lia.
Qed.

Lemma mapM_Forall2 {A B} (f : A -> outcome B) l r : mapM f l = Ok r <-> Forall2 (fun a b => f a = Ok b) l r.
Proof.
  revert r. induction l as [|a l IH]; intros r; cbn.
  - split; [intros [= <-]; constructor|]. intros H. inversion H. reflexivity.
  - split.
    + intros H. destruct (f a) as [b| | |] eqn:E; try discriminate H. cbn in H.
      destruct (mapM f l) as [bs| | |]; try discriminate H. cbn in H. injection H as <-.
      constructor; [assumption|]. now apply IH.
    + intros H. inversion H as [|? b ? bs Ea Es]; subst. rewrite Ea. cbn.
      apply IH in Es. rewrite Es. reflexivity.
Qed.

Lemma numbers_split l : forall tok f fs, split_on "," l = f :: fs ->
  numbers_of tok l = mapM stoi ((rev tok ++ f) :: fs).
Proof.
  induction l as [|c l IH]; intros tok f fs H; cbn [split_on numbers_of] in *.
  - injection H as <- <-. rewrite app_nil_r. cbn. destruct (stoi (rev tok)); reflexivity.
  - destruct (Ascii.eqb c ",").
    + injection H as <- <-. rewrite app_nil_r. cbn [mapM].
      destruct (split_on "," l) as [|g gs] eqn:E; [now apply split_on_nonempty in E|].
      rewrite (IH [] g gs eq_refl). reflexivity.
    + destruct (split_on "," l) as [|g gs] eqn:E; [now apply split_on_nonempty in E|]. injection H as <- <-.
      rewrite (IH (c :: tok) g gs eq_refl). cbn [rev]. rewrite <- app_assoc. reflexivity.
Qed.
Lemma numbers_fields l : numbers_of [] l = mapM stoi (split_on "," l).
Proof.
  destruct (split_on "," l) as [|g gs] eqn:E; [now apply split_on_nonempty in E|]. exact (numbers_split l [] g gs E).
Qed.

Lemma join_split l : join "," (split_on "," l) = l.
Proof.
  induction l as [|c l IH]; cbn [split_on]; [reflexivity|].
  destruct (split_on "," l) as [|g gs] eqn:E; [now apply split_on_nonempty in E|].
  destruct (Ascii.eqb_spec c ",") as [->|N].
  - change (join "," ([] :: g :: gs)) with (","%char :: join "," (g :: gs)). now rewrite IH.
  - rewrite <- IH. destruct gs; reflexivity.
Qed.
Definition list_char (c : ascii) : bool := is_digit c || Ascii.eqb c ",".
Lemma split_digits l : forallb list_char l = true -> forallb (forallb is_digit) (split_on "," l) = true.
Proof.
  induction l as [|c l IH]; cbn [split_on forallb]; [reflexivity|]. intros H. apply andb_true_iff in H as [Hc H].
  specialize (IH H). unfold list_char in Hc. destruct (Ascii.eqb c ","); [cbn; exact IH|]. rewrite orb_false_r in Hc.
  destruct (split_on "," l); cbn in *; rewrite Hc; [reflexivity|exact IH].
Qed.
Lemma join_chars fs : Forall (fun f => forallb is_digit f = true) fs -> forallb list_char (join "," fs) = true.
Proof.
  induction 1 as [|f fs D _ IH]; [reflexivity|].
  assert (forallb list_char f = true) as Df.
  { rewrite forallb_forall in D |- *. intros c I. unfold list_char. now rewrite (D c I). }
  destruct fs as [|g gs]; [exact Df|]. change (join "," (f :: g :: gs)) with (f ++ ","%char :: join "," (g :: gs)).
  rewrite forallb_app, Df. exact IH.
Qed.
Lemma digits_nocomma f : forallb is_digit f = true -> contains "," f = false.
Proof.
  intros D. unfold contains. apply not_true_is_false. intros E. apply existsb_exists in E as (c & I & E).
  apply Ascii.eqb_eq in E. subst c. rewrite forallb_forall in D. specialize (D _ I). discriminate D.
Qed.

Lemma numbers_denotes s ns : forallb list_char s = true -> numbers_of [] s = Ok ns <-> denotes s ns.
Proof.
  intros C. rewrite numbers_fields, mapM_Forall2. pose proof (split_digits s C) as D. rewrite forallb_forall in D. split.
  - intros H. exists (split_on "," s). split; [apply split_on_nonempty|]. split; [now rewrite join_split|].
    clear C. revert D. induction H as [|f n fs ms E H IH]; intros D; constructor.
    + apply stoi_numeral; [apply D; now left|assumption].
    + apply IH. intros x I. apply D. now right.
  - intros (fs & N & -> & H).
    assert (Forall (fun f => forallb is_digit f = true) fs) as Df.
    { clear - H. induction H as [|f n fs ms E H IH]; constructor; [|assumption]. apply digits_in, E. }
    rewrite split_join; [|assumption|].
    + clear - H Df. induction H as [|f n fs ms E H IH]; constructor; inversion Df; subst; auto. now apply stoi_numeral.
    + apply forallb_forall. intros f I. rewrite Forall_forall in Df. now rewrite (digits_nocomma f (Df f I)).
Qed.
Lemma denotes_chars s ns : denotes s ns -> forallb list_char s = true.
Proof.
  intros (fs & N & -> & H). apply join_chars. clear N. induction H as [|f n fs ms E H IH]; constructor; [|assumption]. apply digits_in, E.
Qed.
Lemma denotes_word s ns : denotes s ns -> str_eqb s (txt "single") = false /\ str_eqb s (txt "auto") = false.
Proof.
  intros H. apply denotes_chars in H. split.
  - destruct (str_eqb_spec s (txt "single")) as [->|]; [discriminate H|reflexivity].
  - destruct (str_eqb_spec s (txt "auto")) as [->|]; [discriminate H|reflexivity].
Qed.

(** What a list of texts asks for. *)
Definition asks (l : list str) (v : list (list Z)) : Prop :=
  Forall2 denotes l v \/
  exists pre vs w rest, l = pre ++ w :: rest /\ Forall2 denotes pre vs /\
    (w = txt "single" /\ v = [[(-1)%Z]] \/ w = txt "auto" /\ v = []).

Lemma read_subcases_spec l : forall acc v, read_subcases acc l = Ok v <->
  (exists vs, Forall2 denotes l vs /\ v = acc ++ vs) \/
  exists pre vs w rest, l = pre ++ w :: rest /\ Forall2 denotes pre vs /\
    (w = txt "single" /\ v = [[(-1)%Z]] \/ w = txt "auto" /\ v = []).
Proof.
  induction l as [|s l IH]; intros acc v; cbn [read_subcases].
  - split.
    + intros [= <-]. left. exists []. split; [constructor|]. now rewrite app_nil_r.
    + intros [(vs & H & ->)|(pre & vs & w & rest & E & _)].
      * inversion H. now rewrite app_nil_r.
      * now destruct pre.
  - assert (Hd : forall pre vs w rest v0, s :: l = pre ++ w :: rest -> Forall2 denotes pre vs ->
      (w = txt "single" /\ v0 = [[(-1)%Z]] \/ w = txt "auto" /\ v0 = []) ->
      (s = w /\ pre = []) \/ exists ns pre' vs', denotes s ns /\ pre = s :: pre' /\ vs = ns :: vs' /\ l = pre' ++ w :: rest /\ Forall2 denotes pre' vs').
    { intros pre vs w rest v0 E H _. destruct pre as [|p pre]; cbn in E; injection E as E1 E2; [now left|].
      subst p. inversion H; subst. right. do 3 eexists. repeat split; try eassumption; reflexivity. }
    destruct (str_eqb_spec s (txt "single")) as [->|N1].
    { split.
      - intros [= <-]. right. exists [], [], (txt "single"), l. repeat split; [constructor|now left].
      - intros [(vs & H & ->)|(pre & vs & w & rest & E & H & W)].
        + inversion H as [|? ? ? ? D]; subst. apply denotes_word in D as [D _]. discriminate D.
        + destruct (Hd _ _ _ _ v E H W) as [[<- _]|(ns & pre' & vs' & D & _)].
          * destruct W as [[_ ->]|[W _]]; [reflexivity|discriminate W].
          * apply denotes_word in D as [D _]. discriminate D. }
    destruct (str_eqb_spec s (txt "auto")) as [->|N2].
    { split.
      - intros [= <-]. right. exists [], [], (txt "auto"), l. repeat split; [constructor|now right].
      - intros [(vs & H & ->)|(pre & vs & w & rest & E & H & W)].
        + inversion H as [|? ? ? ? D]; subst. apply denotes_word in D as [_ D]. discriminate D.
        + destruct (Hd _ _ _ _ v E H W) as [[<- _]|(ns & pre' & vs' & D & _)].
          * destruct W as [[W _]|[_ ->]]; [discriminate W|reflexivity].
          * apply denotes_word in D as [_ D]. discriminate D. }
    change (forallb (fun c => is_digit c || Ascii.eqb c ",") s) with (forallb list_char s).
    destruct (forallb list_char s) eqn:C.
    + destruct (numbers_of [] s) as [ns| | |] eqn:E; cbn [bind].
      * pose proof (proj1 (numbers_denotes s ns C) E) as D. rewrite IH. split.
        -- intros [(vs & H & ->)|(pre & vs & w & rest & -> & H & W)].
           ++ left. exists (ns :: vs). split; [now constructor|]. now rewrite <- app_assoc.
           ++ right. exists (s :: pre), (ns :: vs), w, rest. repeat split; [now constructor|assumption].
        -- intros [(vs & H & ->)|(pre & vs & w & rest & Es & H & W)].
           ++ inversion H as [|? ms ? vs' D' H']; subst. apply numbers_denotes in D'; [|assumption].
              rewrite E in D'. injection D' as <-. left. exists vs'. split; [assumption|]. now rewrite <- app_assoc.
           ++ destruct (Hd _ _ _ _ v Es H W) as [[<- _]|(ms & pre' & vs' & D' & -> & -> & El & H')].
              ** destruct W as [[W _]|[W _]]; contradiction.
              ** right. exists pre', vs', w, rest. auto.
      * split; [discriminate|]. intros [(vs & H & ->)|(pre & vs & w & rest & Es & H & W)].
        -- inversion H as [|? ms ? vs' D' H']; subst. apply numbers_denotes in D'; [congruence|assumption].
        -- destruct (Hd _ _ _ _ v Es H W) as [[<- _]|(ms & pre' & vs' & D' & _)].
           ++ destruct W as [[W _]|[W _]]; contradiction.
           ++ apply numbers_denotes in D'; [congruence|assumption].
      * split; [discriminate|]. intros [(vs & H & ->)|(pre & vs & w & rest & Es & H & W)].
        -- inversion H as [|? ms ? vs' D' H']; subst. apply numbers_denotes in D'; [congruence|assumption].
        -- destruct (Hd _ _ _ _ v Es H W) as [[<- _]|(ms & pre' & vs' & D' & _)].
           ++ destruct W as [[W _]|[W _]]; contradiction.
           ++ apply numbers_denotes in D'; [congruence|assumption].
      * split; [discriminate|]. intros [(vs & H & ->)|(pre & vs & w & rest & Es & H & W)].
        -- inversion H as [|? ms ? vs' D' H']; subst. apply numbers_denotes in D'; [congruence|assumption].
        -- destruct (Hd _ _ _ _ v Es H W) as [[<- _]|(ms & pre' & vs' & D' & _)].
           ++ destruct W as [[W _]|[W _]]; contradiction.
           ++ apply numbers_denotes in D'; [congruence|assumption].
    + split; [discriminate|]. intros [(vs & H & ->)|(pre & vs & w & rest & Es & H & W)].
      * inversion H as [|? ms ? vs' D' H']; subst. apply denotes_chars in D'. congruence.
      * destruct (Hd _ _ _ _ v Es H W) as [[<- _]|(ms & pre' & vs' & D' & _)].
        -- destruct W as [[W _]|[W _]]; contradiction.
        -- apply denotes_chars in D'. congruence.
Qed.
Lemma read_subcases_asks l v : read_subcases [] l = Ok v <-> asks l v.
Proof.
  rewrite read_subcases_spec. unfold asks. split; (intros [H|H]; [left|now right]).
  - destruct H as (vs & H & ->). exact H.
  - now exists v.
Qed.
Lemma denotes_nonneg s ns n : denotes s ns -> In n ns -> (0 <= n < 2 ^ 31)%Z.
Proof.
  intros (fs & _ & _ & H) I. induction H as [|f m fs ms E H IH]; [destruct I|].
  destruct I as [->|I]; [|auto]. destruct E as (_ & D & V & L). split; [|exact L].
  apply digits_in in D. pose proof (proj1 (digits_val_bounds f D)) as B. unfold digits_val, digit_val in B. lia.
Qed.

(** ** Words *)
Lemma choice_spec d allowed given v : read_choice d allowed given = Ok v <->
  (given = None /\ v = d) \/ (given = Some v /\ In v allowed).
Proof.
  unfold read_choice. destruct given as [w|].
  - destruct (existsb (str_eqb w) allowed) eqn:E.
    + apply existsb_exists in E as (x & I & E). destruct (str_eqb_spec w x) as [<-|]; [|discriminate E].
      split; [intros [= <-]; auto|]. intros [[H _]|[[= ->] _]]; [discriminate H|reflexivity].
    + split; [discriminate|]. intros [[H _]|[[= ->] I]]; [discriminate H|].
      assert (existsb (str_eqb v) allowed = true) as X; [|congruence].
      apply existsb_exists. exists v. split; [assumption|]. now destruct (str_eqb_spec v v).
  - split; [intros [= <-]; auto|]. intros [[_ ->]|[H _]]; [reflexivity|discriminate H].
Qed.
Lemma choice_ok d allowed given : (exists v, read_choice d allowed given = Ok v) \/ read_choice d allowed given = Throw.
Proof. unfold read_choice. destruct given; [|left; eauto]. destruct existsb; [left; eauto|now right]. Qed.

(** ** The whole command line, inverted *)
Lemma read_parameters_inv o s : read_parameters o = Ok s ->
  s_level s = read_level (o_verbosity o) (o_debug o) /\
  read_mode (o_best o) (o_mesh o) (o_strict o) = Ok (s_mode s) /\
  s_graph s = read_graph (o_graph o) (s_level s) /\
  read_choice (txt "cosmic95") [txt "cosmic95"; txt "modern"] (o_dialect o) = Ok (s_dialect s) /\
  read_choice (txt "penalty") [txt "lagrangian"; txt "penalty"] (o_rbe2 o) = Ok (s_rbe2 s) /\
  read_rigid (s_rbe2 s) (o_lagrangian o) (o_rigidity o) (o_stiffness o) (o_coefficient o) = (s_stiffness s, s_coefficient s) /\
  read_choice (txt "auto") [txt "auto"; txt "3D"; txt "shell"; txt "shell-multi"] (o_analysis o) = Ok (s_analysis s) /\
  read_choice (txt "systus") [txt "systus"; txt "topaze"] (o_product o) = Ok (s_product s) /\
  read_choice (txt "auto") [txt "direct"; txt "modal"; txt "auto"] (o_method o) = Ok (s_method s) /\
  read_choice (txt "table") [txt "table"; txt "file"] (o_matrix o) = Ok (s_matrix s) /\
  read_size (s_matrix s) (o_size o) = Ok (s_size s) /\
  match o_subcases o with None => Ok [] | Some l => read_subcases [] l end = Ok (s_subcases s).
Proof.
  unfold read_parameters. intros H.
  repeat (match type of H with bind ?m _ = _ => destruct m as [?x| | |] eqn:?E; cbn [bind] in H; try discriminate H
    | context [let '(_, _) := ?m in _] => destruct m as [?k ?c] eqn:?E; cbn [bind] in H end).
  injection H as <-. cbn. repeat split; assumption.
Qed.
