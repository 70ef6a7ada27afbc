(** Property C101: the material cards of a Nastran deck.

    Spec: the places of the numbers on the cards MAT1, MAT8, MATHP and MATS1, the
    relation between the constants of an isotropic material, and which material has
    which natures after the whole deck. *)
From Coq Require Import Ascii String QArith ZArith Reals Qreals List Bool Arith Lia Lra.
From Verif Require Import Base TextModel TextProofs TokenizerModel TokenizerProofs NextIntsProofs RealModel WriterLineModel WriterLineProofs WriterRealProofs PropertiesTokenizer PropertiesWriterLine
  CardModel CardProofs LoadCardModel FieldProofs PropCardModel PropertiesReal PropertiesGrid PropertiesLoadCards PropertiesPropCards SectionModel PropertiesSections GeomModel OrientModel PropertiesOrient
  NastranElementModel NastranElementProofs MaterialModel.
Import ListNotations.
Open Scope Z_scope.
Open Scope list_scope.

(** ** Spec *)
(** The constants E, G, nu of an isotropic material from those given: two of them
    give the third one; with one of E and G alone the others are zero. *)
Inductive isotropic : option R -> option R -> option R -> R -> R -> R -> Prop :=
| iso_all e g nu : isotropic (Some e) (Some g) (Some nu) e g nu
| iso_nu e g nu : g <> 0%R -> e = (2 * (1 + nu) * g)%R -> isotropic (Some e) (Some g) None e g nu
| iso_g e g nu : nu <> (-1)%R -> e = (2 * (1 + nu) * g)%R -> isotropic (Some e) None (Some nu) e g nu
| iso_e e g nu : e = (2 * (1 + nu) * g)%R -> isotropic None (Some g) (Some nu) e g nu
| iso_e_only e : isotropic (Some e) None None e 0 0
| iso_g_only g : isotropic None (Some g) None 0 g 0
| iso_none : isotropic None None None 0 0 0.
Definition number_or (d : R) (x : option decimal) : R := match x with Some v => dec_R v | None => d end.
Notation num := (option_map dec_R).
(** The reals of a list are in the fields from number [i] on; a field may be blank. *)
Definition reals_at (card : list str) (i : nat) (l : list (option decimal)) : Prop := forall j, (j < length l)%nat -> real_opt card (i + j) (nth j l None).
(** What one card says: nothing about materials, or one nature of one material. *)
Inductive says : list str -> option (Z * nature) -> Prop :=
| says_mat1 card id e g nu rho a tref ge st sc ss cs e' g' nu' :
    hd [] card = txt "MAT1" -> int_at card 1 id -> reals_at card 2 [e; g; nu; rho; a; tref; ge; st; sc; ss] -> int_or 0 card 12 cs ->
    isotropic (num e) (num g) (num nu) e' g' nu' ->
    says card (Some (id, Elastic (mkElastic (Some e') (Some nu') (Some g') (num rho) (num a) (num tref) (num ge))))
| says_mat8 card id e1 e2 nu12 g12 g1z g2z rho a1 a2 tref xt xc yt yc s :
    hd [] card = txt "MAT8" -> int_at card 1 id -> reals_at card 2 [Some e1; Some e2; Some nu12; Some g12; g1z; g2z; rho; a1; a2; tref; xt; xc; yt; yc; s] ->
    says card (Some (id, Ortho {| o_el := dec_R e1; o_et := dec_R e2; o_nu := dec_R nu12; o_glt := dec_R g12; o_gtn := num g2z; o_gln := num g1z; o_rho := num rho;
      o_al := num a1; o_at := num a2; o_an := None; o_temp := num tref; o_xt := num xt; o_xc := num xc; o_yt := num yt; o_yc := num yc; o_slt := num s |}))
| says_mathp card id a10 a01 d1 rho av tref ge na nd a20 :
    hd [] card = txt "MATHP" -> int_at card 1 id -> reals_at card 2 [a10; a01; d1; rho; av; tref; ge] -> int_or 1 card 10 na -> na <= 3 -> int_or 1 card 11 nd -> nd <= 1 -> reals_at card 17 [a20] ->
    says card (Some (id, Hyper {| h_c10 := number_or 0 a10; h_c01 := number_or 0 a01; h_c20 := number_or 0 a20;
      h_k := number_or (1000 * (number_or 0 a10 + number_or 0 a01)) d1; h_rho := number_or 0 rho |}))
| says_plastic card id h l1 :
    hd [] card = txt "MATS1" -> int_at card 1 id -> int_or 0 card 2 0 -> word_at card 3 (txt "PLASTIC") -> reals_at card 4 [h] -> int_or 1 card 5 1 -> int_or 1 card 6 1 -> reals_at card 7 [l1; None] ->
    says card (Some (id, Bilinear {| b_limit := num l1; b_slope := num h |}))
| says_nonlinear card id tid h yf hr l1 l2 :
    hd [] card = txt "MATS1" -> int_at card 1 id -> int_or 0 card 2 tid -> word_at card 3 (txt "NLELAST") -> reals_at card 4 [h] -> int_or 1 card 5 yf -> int_or 1 card 6 hr -> reals_at card 7 [l1; l2] ->
    says card (Some (id, Nonlinear tid))
| says_nothing card : ~ In (hd [] card) [txt "MAT1"; txt "MAT8"; txt "MATHP"; txt "MATS1"] -> says card None.
Definition kind (n : nature) : nat := match n with Elastic _ => 0 | Ortho _ => 1 | Hyper _ => 2 | Bilinear _ => 3 | Nonlinear _ => 4 end.
(** What is said, and that nothing is said twice. *)
Definition said (l : list (option (Z * nature))) : list (Z * nature) := flat_map (fun x => match x with Some p => [p] | None => [] end) l.
Definition once (l : list (Z * nature)) : Prop := NoDup (map (fun p => (fst p, kind (snd p))) l).
Definition holds (ms : materials) (id : Z) (n : nature) : Prop := exists ns, In (id, ns) ms /\ In n ns.

(** ** One card *)
Lemma reals_read card l : forall i, reals_at card i l -> opt_reals (length l) (at_field card i) = Ok (map num l, at_field card (i + length l)).
Proof.
  induction l as [|v l IH]; intros i H; cbn [length opt_reals map]; [now rewrite Nat.add_0_r|].
  assert (H0 := H 0%nat ltac:(cbn; lia)). rewrite Nat.add_0_r in H0. cbn [nth] in H0. rewrite (f_optdouble _ _ _ H0). cbn [bind].
  rewrite (IH (S i)); [cbn [bind]; unfold real; now rewrite Nat.add_succ_comm|]. intros j Hj. rewrite Nat.add_succ_comm. apply (H (S j)). cbn. lia.
Qed.
Lemma reals_app card l r : forall i, reals_at card i (l ++ r) -> reals_at card i l /\ reals_at card (i + length l) r.
Proof.
  intros i H. split; intros j Hj.
  - specialize (H j ltac:(rewrite app_length; lia)). rewrite app_nth1 in H by exact Hj. exact H.
  - specialize (H (length l + j)%nat ltac:(rewrite app_length; lia)). rewrite app_nth2_plus in H. now rewrite Nat.add_assoc in H.
Qed.
Lemma reals_required card l : forall i, reals_at card i (map Some l) -> reals (length l) (at_field card i) = Ok (map dec_R l, at_field card (i + length l)).
Proof.
  induction l as [|v l IH]; intros i H; cbn [length reals map]; [now rewrite Nat.add_0_r|].
  assert (H0 := H 0%nat ltac:(cbn; lia)). rewrite Nat.add_0_r in H0. cbn [nth map real_opt] in H0. rewrite (f_double _ _ _ H0). cbn [bind].
  rewrite (IH (S i)); [cbn [bind]; now rewrite Nat.add_succ_comm|]. intros j Hj. rewrite Nat.add_succ_comm. apply (H (S j)). cbn in *. lia.
Qed.
Lemma same_kind a b : same_type a b = (kind a =? kind b)%nat.
Proof. destruct a, b; reflexivity. Qed.
Lemma elastic_read e g nu rho a tref ge e' g' nu' : isotropic (num e) (num g) (num nu) e' g' nu' ->
  elastic_of (map num [e; g; nu; rho; a; tref; ge]) = Ok (mkElastic (Some e') (Some nu') (Some g') (num rho) (num a) (num tref) (num ge)).
Proof.
  intros H. unfold elastic_of, at_. cbn [map nth].
  assert (C : mat1 (num e) (num g) (num nu) = Ok (Some e', Some g', Some nu')).
  { destruct H as [e0 g0 nu0|e0 g0 nu0 G E|e0 g0 nu0 N E|e0 g0 nu0 E|e0|g0|]; unfold mat1; cbn [bind]; try reflexivity.
    - unfold divide. destruct (Req_EM_T (2 * g0) 0) as [X|X]; [exfalso; apply G; lra|]. cbn [bind]. repeat f_equal. subst e0. field. exact G.
    - unfold divide. destruct (Req_EM_T (2 * (1 + nu0)) 0) as [X|X]; [exfalso; apply N; lra|]. cbn [bind]. repeat f_equal. subst e0. field. intros X'. apply X. lra.
    - subst. reflexivity.
    - repeat f_equal. lra. }
  rewrite C. reflexivity.
Qed.
Lemma headed card k : hd [] card = txt k -> txt k <> [] -> exists fs, card = txt k :: fs.
Proof. destruct card as [|w fs]; cbn [hd]; [congruence|]. intros -> _. now exists fs. Qed.
Lemma one_card card x : says card x -> forall ms, run_card ms card = match x with Some (id, n) => add_nature (create ms id) id n | None => Ok ms end.
Proof.
  intros H ms. destruct H.
  - destruct (headed _ _ H) as [fs E]; [discriminate|]. unfold run_card. rewrite E at 1. change (str_eqb (txt "MAT1") (txt "MAT1")) with true. cbv iota.
    rewrite card_cursor by (rewrite E; discriminate). unfold read_mat1. rewrite (f_int _ _ _ H0). cbn [bind].
    destruct (reals_app card [e; g; nu; rho; a; tref; ge] [st; sc; ss] 2 H1) as [A B].
    rewrite (reals_read card _ 2 A : opt_reals 7 _ = _). cbn [bind]. rewrite (reals_read card _ _ B : opt_reals 3 _ = _). cbn [bind length]. change (2 + 7 + 3)%nat with 12%nat.
    rewrite (f_intdef _ _ _ _ H2). cbn [bind dismiss]. now rewrite (elastic_read _ _ _ _ _ _ _ _ _ _ H3).
  - destruct (headed _ _ H) as [fs E]; [discriminate|]. unfold run_card. rewrite E at 1. change (str_eqb (txt "MAT8") (txt "MAT1")) with false. change (str_eqb (txt "MAT8") (txt "MAT8")) with true. cbv iota.
    rewrite card_cursor by (rewrite E; discriminate). unfold read_mat8. rewrite (f_int _ _ _ H0). cbn [bind].
    destruct (reals_app card (map Some [e1; e2; nu12; g12]) [g1z; g2z; rho; a1; a2; tref; xt; xc; yt; yc; s] 2 H1) as [A B].
    rewrite (reals_required card _ 2 A : reals 4 _ = _). cbn [bind length]. change (2 + 4)%nat with 6%nat. rewrite (reals_read card _ 6 B : opt_reals 11 _ = _). reflexivity.
  - destruct (headed _ _ H) as [fs E]; [discriminate|]. unfold run_card. rewrite E at 1. change (str_eqb (txt "MATHP") (txt "MAT1")) with false. change (str_eqb (txt "MATHP") (txt "MAT8")) with false. change (str_eqb (txt "MATHP") (txt "MATHP")) with true. cbv iota.
    rewrite card_cursor by (rewrite E; discriminate). rewrite (f_int _ _ _ H0). cbn [bind dismiss]. unfold read_mathp.
    rewrite (reals_read card _ 2 H1 : opt_reals 7 _ = _). cbn [bind length]. rewrite f_skipn. cbn [bind]. change (2 + 7 + 1)%nat with 10%nat.
    rewrite (f_intdef _ _ _ _ H2). cbn [bind]. destruct (Z.ltb_spec 3 na); [lia|]. rewrite (f_intdef _ _ _ _ H4). cbn [bind]. destruct (Z.ltb_spec 1 nd); [lia|].
    rewrite f_skipn. cbn [bind]. change (12 + 5)%nat with 17%nat. rewrite (reals_read card _ 17 H6 : opt_reals 1 _ = _). cbn [bind dismiss fst map]. unfold at_. cbn [nth map].
    destruct a10, a01, d1, rho, a20; reflexivity.
  - destruct (headed _ _ H) as [fs E]; [discriminate|]. unfold run_card. rewrite E at 1. change (str_eqb (txt "MATS1") (txt "MAT1")) with false. change (str_eqb (txt "MATS1") (txt "MAT8")) with false. change (str_eqb (txt "MATS1") (txt "MATHP")) with false. change (str_eqb (txt "MATS1") (txt "MATS1")) with true. cbv iota.
    rewrite card_cursor by (rewrite E; discriminate). rewrite (f_int _ _ _ H0). cbn [bind dismiss]. unfold read_mats1.
    rewrite (f_intdef _ _ _ _ H1). cbn [bind]. rewrite (f_string _ _ _ H2) by discriminate. cbn [bind]. rewrite (reals_read card _ 4 H3 : opt_reals 1 _ = _). cbn [bind length]. change (4 + 1)%nat with 5%nat.
    rewrite (f_intdef _ _ _ _ H4). cbn [bind]. rewrite (f_intdef _ _ _ _ H5). cbn [bind]. rewrite (reals_read card _ 7 H6 : opt_reals 2 _ = _). reflexivity.
  - destruct (headed _ _ H) as [fs E]; [discriminate|]. unfold run_card. rewrite E at 1. change (str_eqb (txt "MATS1") (txt "MAT1")) with false. change (str_eqb (txt "MATS1") (txt "MAT8")) with false. change (str_eqb (txt "MATS1") (txt "MATHP")) with false. change (str_eqb (txt "MATS1") (txt "MATS1")) with true. cbv iota.
    rewrite card_cursor by (rewrite E; discriminate). rewrite (f_int _ _ _ H0). cbn [bind dismiss]. unfold read_mats1.
    rewrite (f_intdef _ _ _ _ H1). cbn [bind]. rewrite (f_string _ _ _ H2) by discriminate. cbn [bind]. rewrite (reals_read card _ 4 H3 : opt_reals 1 _ = _). cbn [bind length]. change (4 + 1)%nat with 5%nat.
    rewrite (f_intdef _ _ _ _ H4). cbn [bind]. rewrite (f_intdef _ _ _ _ H5). cbn [bind]. rewrite (reals_read card _ 7 H6 : opt_reals 2 _ = _). reflexivity.
  - destruct card as [|w fs]; [reflexivity|]. cbn [hd In] in H. unfold run_card.
    assert (N : forall k, In (txt k) [txt "MAT1"; txt "MAT8"; txt "MATHP"; txt "MATS1"] -> str_eqb w (txt k) = false).
    { intros k K. destruct (str_eqb_spec w (txt k)) as [X|X]; [|reflexivity]. subst w. contradiction. }
    rewrite !N by (cbn [In]; tauto). reflexivity.
Qed.

(** ** The deck *)
Definition sane (ms : materials) : Prop := NoDup (map fst ms) /\ Forall (fun m => NoDup (map kind (snd m)) /\ snd m <> []) ms.
Lemma create_spec ms id : NoDup (map fst ms) -> In id (map fst (create ms id)) /\ NoDup (map fst (create ms id)) /\
  (In id (map fst ms) /\ create ms id = ms \/ ~ In id (map fst ms) /\ create ms id = ms ++ [(id, [])]).
Proof.
  intros N. unfold create. destruct (existsb _ ms) eqn:X.
  - apply existsb_exists in X as (m & I & E). apply Z.eqb_eq in E. assert (In id (map fst ms)) by (rewrite <- E; now apply in_map). tauto.
  - assert (A : ~ In id (map fst ms)). { intros I. apply in_map_iff in I as (m & E & I). rewrite <- not_true_iff_false in X. apply X, existsb_exists. exists m. split; [exact I|]. now apply Z.eqb_eq. }
    rewrite map_app. cbn [map fst]. split; [apply in_or_app; right; now left|]. split; [|now right].
    apply NoDup_app_snoc; assumption.
Qed.
Lemma add_spec id n : forall ms, NoDup (map fst ms) -> In id (map fst ms) -> exists a ns b, ms = a ++ (id, ns) :: b /\
  (In (kind n) (map kind ns) /\ add_nature ms id n = Throw \/ ~ In (kind n) (map kind ns) /\ add_nature ms id n = Ok (a ++ (id, ns ++ [n]) :: b)).
Proof.
  induction ms as [|[i ns] ms IH]; intros N I; [destruct I|]. cbn [map fst add_nature] in *. inversion N; subst. destruct (Z.eqb_spec i id) as [->|D].
  - exists [], ns, ms. split; [reflexivity|]. destruct (existsb (same_type n) ns) eqn:X.
    + left. split; [|reflexivity]. apply existsb_exists in X as (m & J & E). rewrite same_kind in E. apply Nat.eqb_eq in E. rewrite E. now apply in_map.
    + right. split; [|reflexivity]. intros J. apply in_map_iff in J as (m & E & J). rewrite <- not_true_iff_false in X. apply X, existsb_exists. exists m. split; [exact J|]. rewrite same_kind. apply Nat.eqb_eq. congruence.
  - destruct I as [I|I]; [congruence|]. destruct (IH H2 I) as (a & ns' & b & -> & [[J E]|[J E]]); exists ((i, ns) :: a), ns', b; rewrite E; (split; [reflexivity|]); [left|right]; now split.
Qed.
Lemma holds_app a b id n : holds (a ++ b) id n <-> holds a id n \/ holds b id n.
Proof. unfold holds. split; [intros (ns & I & J); apply in_app_or in I; destruct I; [left|right]; eauto|intros [(ns & I & J)|(ns & I & J)]; exists ns; split; auto; apply in_or_app; auto]. Qed.
Lemma holds_cons i ns b id n : holds ((i, ns) :: b) id n <-> (i = id /\ In n ns) \/ holds b id n.
Proof.
  unfold holds. split.
  - intros (l & [I|I] & J); [injection I as -> ->; left; now split|right; eauto].
  - intros [[-> J]|(l & I & J)]; [exists ns; split; [now left|exact J]|exists l; split; [now right|exact J]].
Qed.
Lemma one_nature ms id n : sane ms ->
  (exists m, holds ms id m /\ kind m = kind n) /\ add_nature (create ms id) id n = Throw \/
  (forall m, holds ms id m -> kind m <> kind n) /\ exists ms', add_nature (create ms id) id n = Ok ms' /\ sane ms' /\ forall i m, holds ms' i m <-> holds ms i m \/ (i = id /\ m = n).
Proof.
  intros [N F]. destruct (create_spec ms id N) as (I & N' & C). set (c := create ms id) in *.
  assert (HC : forall i m, holds c i m <-> holds ms i m).
  { intros i m. destruct C as [[_ ->]|[_ ->]]; [tauto|]. rewrite holds_app, holds_cons. cbn [In]. unfold holds at 2. cbn [In]. firstorder. }
  assert (FC : Forall (fun m => NoDup (map kind (snd m)) /\ (snd m <> [] \/ fst m = id)) c).
  { destruct C as [[_ ->]|[_ ->]]; [|apply Forall_app; split; [|constructor; [split; [constructor|now right]|constructor]]];
      (eapply Forall_impl; [|exact F]); cbv beta; tauto. }
  clearbody c. destruct (add_spec id n c N' I) as (a & ns & b & -> & [[J E]|[J E]]).
  - left. split; [|exact E]. apply in_map_iff in J as (m & K & J). exists m. split; [|exact K]. apply HC, holds_app. right. apply holds_cons. now left.
  - right. assert (U : forall m, holds ms id m -> In m ns).
    { intros m M. apply HC in M. rewrite map_app in N'. cbn [map fst] in N'. apply NoDup_remove_2 in N'. rewrite <- map_app in N'. apply holds_app in M. rewrite holds_cons in M.
      destruct M as [(l & P & Q)|[[_ P]|(l & P & Q)]]; [|exact P|]; exfalso; apply N'; [rewrite map_app|rewrite map_app]; apply in_or_app; [left|right]; apply (in_map fst) in P; exact P. }
    split; [intros m M K; apply J; rewrite <- K; apply in_map, U, M|]. eexists. split; [exact E|]. split.
    + split; [rewrite map_app in *; exact N'|]. apply Forall_app in FC as [Fa Fb]. inversion Fb as [|? ? [Fn _] Fb']; subst. cbn [snd] in Fn.
      rewrite map_app in N'. cbn [map fst] in N'. apply NoDup_remove_2 in N'. rewrite Forall_forall in Fa, Fb'.
      apply Forall_app. split; [|constructor].
      * rewrite Forall_forall. intros [i l] M. destruct (Fa _ M) as [X Y]. split; [exact X|]. destruct Y as [Y|Y]; [exact Y|]. exfalso. apply N', in_or_app. left. rewrite <- Y. now apply (in_map fst) in M.
      * cbn [snd]. split; [rewrite map_app; apply NoDup_app_snoc; assumption|]. destruct ns; discriminate.
      * rewrite Forall_forall. intros [i l] M. destruct (Fb' _ M) as [X Y]. split; [exact X|]. destruct Y as [Y|Y]; [exact Y|]. exfalso. apply N', in_or_app. right. rewrite <- Y. now apply (in_map fst) in M.
    + intros i m. rewrite <- HC, !holds_app, !holds_cons, in_app_iff. cbn [In]. firstorder congruence.
Qed.
Lemma deck_spec cards xs : Forall2 says cards xs -> forall ms, sane ms ->
  let free := NoDup (map (fun p => (fst p, kind (snd p))) (said xs)) /\ forall id n m, In (id, n) (said xs) -> holds ms id m -> kind m <> kind n in
  free /\ (exists ms', foldM run_card cards ms = Ok ms' /\ sane ms' /\ forall i m, holds ms' i m <-> holds ms i m \/ In (i, m) (said xs)) \/ ~ free /\ foldM run_card cards ms = Throw.
Proof.
  induction 1 as [|card x cards xs H _ IH]; intros ms S; cbv zeta; cbn [said flat_map foldM].
  - left. split; [split; [constructor|intros ? ? ? []]|]. exists ms. split; [reflexivity|]. split; [exact S|]. intros i m. cbn [map In]. tauto.
  - rewrite (one_card _ _ H). destruct x as [[id n]|]; [|exact (IH ms S)]. destruct (one_nature ms id n S) as [[(m & M & K) E]|[U (ms' & E & S' & Q)]]; rewrite E; cbn [bind].
    + right. split; [|reflexivity]. intros [_ G]. exact (G id n m (or_introl eq_refl) M K).
    + cbn [app map]. fold (said xs). destruct (IH ms' S') as [[[G1 G2] (ms2 & E2 & S2 & Q2)]|[G E2]].
      * left. split; [split|].
        { constructor; [|exact G1]. cbn [fst snd]. intros I. apply in_map_iff in I as ([i n'] & K & I). cbn [fst snd] in K. injection K as -> K.
          apply (G2 id n' n I); [|congruence]. apply Q. now right. }
        { intros i n' m [I|I] M; [injection I as <- <-; now apply U|]. apply (G2 i n' m I). apply Q. now left. }
        exists ms2. split; [exact E2|]. split; [exact S2|]. intros i m. rewrite Q2, Q. cbn [In]. split; [intros [[A|[-> ->]]|A]; auto|intros [A|[A|A]]; auto]. injection A as <- <-. auto.
      * right. split; [|exact E2]. intros [G1 G2]. apply G. inversion G1 as [|? ? G3 G4]; subst. split; [exact G4|]. intros i n' m I M K. apply Q in M as [M|[-> ->]]; [exact (G2 i n' m (or_intror I) M K)|].
        apply G3. apply in_map_iff. exists (id, n'). cbn [fst snd]. split; [congruence|exact I].
Qed.
(** After a deck in which no material is given two natures of one kind, the
    materials have the natures the cards say, each kind once, and no others. *)
Theorem C101_deck cards xs : Forall2 says cards xs -> once (said xs) -> exists ms, run_cards cards = Ok ms /\
  (forall id n, holds ms id n <-> In (id, n) (said xs)) /\ NoDup (map fst ms) /\ (forall id ns, In (id, ns) ms -> NoDup (map kind ns) /\ ns <> []).
Proof.
  intros H O. destruct (deck_spec cards xs H [] (conj (NoDup_nil _) (Forall_nil _))) as [[_ (ms & E & [S1 S2] & Q)]|[G _]].
  - exists ms. split; [exact E|]. split; [intros id n; rewrite Q; split; [intros [(ns & [] & _)|I]; exact I|now right]|]. split; [exact S1|]. intros id ns I. rewrite Forall_forall in S2. exact (S2 _ I).
  - exfalso. apply G. split; [exact O|]. intros ? ? ? _ (ns & [] & _).
Qed.
(** Any other deck of such cards stops the translation. *)
Theorem C101_twice cards xs : Forall2 says cards xs -> ~ once (said xs) -> run_cards cards = Throw.
Proof.
  intros H O. destruct (deck_spec cards xs H [] (conj (NoDup_nil _) (Forall_nil _))) as [[[G _] _]|[_ G]]; [contradiction|exact G].
Qed.

(** ** Where C101 fails *)
(** A MAT1 card with the ratio nu alone stops the translation. *)
Theorem C101_ratio_refuted : forall card id nu rho a tref ge st sc ss cs, hd [] card = txt "MAT1" -> int_at card 1 id ->
  reals_at card 2 [None; None; Some nu; rho; a; tref; ge; st; sc; ss] -> int_or 0 card 12 cs -> forall ms, run_card ms card = Throw.
Proof.
  intros card id nu rho a tref ge st sc ss cs H H0 H1 H2 ms. destruct (headed _ _ H) as [fs E]; [discriminate|]. unfold run_card. rewrite E at 1. change (str_eqb (txt "MAT1") (txt "MAT1")) with true. cbv iota.
  rewrite card_cursor by (rewrite E; discriminate). unfold read_mat1. rewrite (f_int _ _ _ H0). cbn [bind].
  destruct (reals_app card [None; None; Some nu; rho; a; tref; ge] [st; sc; ss] 2 H1) as [A B].
  rewrite (reals_read card _ 2 A : opt_reals 7 _ = _). cbn [bind]. rewrite (reals_read card _ _ B : opt_reals 3 _ = _). cbn [bind length]. change (2 + 7 + 3)%nat with 12%nat.
  rewrite (f_intdef _ _ _ _ H2). reflexivity.
Qed.
(** A MAT8 card without the shear modulus in the plane is dismissed whole. *)
Theorem C101_shear_refuted : forall card id e1 e2 nu12, hd [] card = txt "MAT8" -> int_at card 1 id -> reals_at card 2 [Some e1; Some e2; Some nu12; None] ->
  forall ms, run_card ms card = Ok ms.
Proof.
  intros card id e1 e2 nu12 H H0 H1 ms. destruct (headed _ _ H) as [fs E]; [discriminate|]. unfold run_card. rewrite E at 1. change (str_eqb (txt "MAT8") (txt "MAT1")) with false. change (str_eqb (txt "MAT8") (txt "MAT8")) with true. cbv iota.
  rewrite card_cursor by (rewrite E; discriminate). unfold read_mat8. rewrite (f_int _ _ _ H0). cbn [bind reals].
  assert (A0 := H1 0%nat ltac:(cbn; lia)). assert (A1 := H1 1%nat ltac:(cbn; lia)). assert (A2 := H1 2%nat ltac:(cbn; lia)). cbn [nth real_opt Nat.add] in A0, A1, A2.
  rewrite (f_double _ _ _ A0). cbn [bind]. rewrite (f_double _ _ _ A1). cbn [bind]. rewrite (f_double _ _ _ A2). cbn [bind].
  assert (B := H1 3%nat ltac:(cbn; lia)). cbn [nth real_opt Nat.add] in B. unfold nextDouble. rewrite next_field, real_trim. unfold real_of_field. unfold blank_at in B. rewrite B. reflexivity.
Qed.
(** A MATS1 card of another type is dismissed, but leaves a material without any
    nature when there was none of that number. *)
Theorem C101_empty_refuted : forall card id tid w h yf hr l1 l2, hd [] card = txt "MATS1" -> int_at card 1 id -> int_or 0 card 2 tid ->
  word_at card 3 w -> w <> [] -> w <> txt "PLASTIC" -> w <> txt "NLELAST" -> reals_at card 4 [h] -> int_or 1 card 5 yf -> int_or 1 card 6 hr -> reals_at card 7 [l1; l2] ->
  run_cards [card] = Ok [(id, [])].
Proof.
  intros card id tid w h yf hr l1 l2 H H0 H1 H2 N1 N2 N3 H3 H4 H5 H6. destruct (headed _ _ H) as [fs E]; [discriminate|]. unfold run_cards. cbn [foldM]. unfold run_card. rewrite E at 1.
  change (str_eqb (txt "MATS1") (txt "MAT1")) with false. change (str_eqb (txt "MATS1") (txt "MAT8")) with false. change (str_eqb (txt "MATS1") (txt "MATHP")) with false. change (str_eqb (txt "MATS1") (txt "MATS1")) with true. cbv iota.
  rewrite card_cursor by (rewrite E; discriminate). rewrite (f_int _ _ _ H0). cbn [bind dismiss]. unfold read_mats1.
  rewrite (f_intdef _ _ _ _ H1). cbn [bind]. rewrite (f_string _ _ _ H2) by exact N1. cbn [bind]. rewrite (reals_read card _ 4 H3 : opt_reals 1 _ = _). cbn [bind length]. change (4 + 1)%nat with 5%nat.
  rewrite (f_intdef _ _ _ _ H4). cbn [bind]. rewrite (f_intdef _ _ _ _ H5). cbn [bind]. rewrite (reals_read card _ 7 H6 : opt_reals 2 _ = _). cbn [bind].
  destruct (str_eqb_spec w (txt "NLELAST")); [contradiction|]. destruct (str_eqb_spec w (txt "PLASTIC")); [contradiction|]. reflexivity.
Qed.
(** The polynomial of a MATHP card in x = I1 - 3, y = I2 - 3 up to the second order. *)
Definition polynomial (a10 a01 a20 a11 a02 x y : R) : R := (a10 * x + a01 * y + a20 * x * x + a11 * x * y + a02 * y * y)%R.
(** Two cards that differ by the term A11 make the same material: the energies
    differ. *)
Theorem C101_terms_refuted : exists card1 card2 a10 a01 a20 a11 ms, hd [] card1 = txt "MATHP" /\ hd [] card2 = txt "MATHP" /\
  (forall i, i <> 18%nat -> field card1 i = field card2 i) /\ reals_at card1 2 [Some a10; Some a01] /\ reals_at card1 17 [Some a20; Some a11] /\ blank_at card2 18 /\
  run_cards [card1] = Ok ms /\ run_cards [card2] = Ok ms /\
  exists x y, polynomial (dec_R a10) (dec_R a01) (dec_R a20) (dec_R a11) 0 x y <> polynomial (dec_R a10) (dec_R a01) (dec_R a20) 0 0 x y.
Proof.
  pose (front := map txt ["MATHP"; "7"; "1.5"; "0.5"; "200."; ""; ""; ""; ""; ""; "2"; "1"; ""; ""; ""; ""; ""; "0.25"]%string).
  exists (front ++ [txt "3."]), front, (15, -1), (5, -1), (25, -2), (3, 0). eexists.
  split; [reflexivity|]. split; [reflexivity|]. split.
  { intros i H. unfold field. destruct (Nat.lt_ge_cases i 18) as [L|L]; [apply app_nth1; exact L|]. rewrite app_nth2 by exact L. rewrite (nth_overflow front) by exact L. destruct (i - length front)%nat eqn:D; [change (length front) with 18%nat in D; lia|]. destruct n; reflexivity. }
  assert (R1 : reals_at (front ++ [txt "3."]) 2 [Some (15, -1); Some (5, -1)]) by (intros [|[|j]] Hj; [vm_compute; reflexivity|vm_compute; reflexivity|cbn in Hj; lia]).
  assert (R2 : reals_at (front ++ [txt "3."]) 17 [Some (25, -2); Some (3, 0)]) by (intros [|[|j]] Hj; [vm_compute; reflexivity|vm_compute; reflexivity|cbn in Hj; lia]).
  split; [exact R1|]. split; [exact R2|]. split; [reflexivity|].
  assert (G : forall card, (forall i, (i < 18)%nat -> field card i = field front i) -> card <> [] -> says card (Some (7, Hyper {| h_c10 := dec_R (15, -1); h_c01 := dec_R (5, -1); h_c20 := dec_R (25, -2); h_k := dec_R (200, 0); h_rho := 0 |}))).
  { intros card F N. apply (says_mathp card 7 (Some (15, -1)) (Some (5, -1)) (Some (200, 0)) None None None None 2 1 (Some (25, -2))).
    - destruct card as [|w c]; [congruence|]. exact (F 0%nat ltac:(lia)).
    - apply int_text_at; [lia|]. rewrite F by lia. reflexivity.
    - intros j Hj. cbn [length] in Hj. do 7 (destruct j as [|j]; [cbn [nth real_opt Nat.add]; unfold real_at, blank_at; rewrite F by lia; vm_compute; reflexivity|]). lia.
    - left. apply int_text_at; [lia|]. rewrite F by lia. reflexivity.
    - lia.
    - left. apply int_text_at; [lia|]. rewrite F by lia. reflexivity.
    - lia.
    - intros j Hj. cbn [length] in Hj. destruct j as [|j]; [|lia]. cbn [nth real_opt Nat.add]. unfold real_at. rewrite F by lia. vm_compute. reflexivity. }
  split; [unfold run_cards; cbn [foldM]; rewrite (one_card _ _ (G (front ++ [txt "3."]) ltac:(intros i Hi; apply app_nth1; exact Hi) ltac:(discriminate))); reflexivity|].
  split; [unfold run_cards; cbn [foldM]; rewrite (one_card _ _ (G front ltac:(reflexivity) ltac:(discriminate))); reflexivity|].
  exists 1%R, 1%R. unfold polynomial. assert (dec_R (3, 0) <> 0%R); [|lra]. unfold dec_R, dec_q. cbn. unfold Q2R. cbn. lra.
Qed.

(** ** Example *)
(** Steel with hardening, a ply, a rubber, another card between them. *)
Definition deck : list (list str) :=
  map (map txt) [["MAT1"; "1"; "2.1+11"; ""; ".3"; "7850."];
                 ["GRID"; "12"; ""; "1."];
                 ["MAT8"; "2"; "1.+11"; "1.+10"; ".25"; "5.+9"; ""; "3.+9"];
                 ["MATS1"; "1"; ""; "PLASTIC"; "1.+9"; "1"; "1"; "2.5+8"];
                 ["MATHP"; "3"; ".5"; ""; ""; "1100."]]%string.
Definition e_steel : R := dec_R (21, 10).
Definition nu_steel : R := dec_R (3, -1).
Definition c_rubber : R := dec_R (5, -1).
Definition sayings : list (option (Z * nature)) :=
  [Some (1, Elastic (mkElastic (Some (dec_R (21, 10))) (Some (dec_R (3, -1))) (Some (e_steel / (2 * (1 + nu_steel)))%R) (Some (dec_R (7850, 0))) None None None));
   None;
   Some (2, Ortho {| o_el := dec_R (1, 11); o_et := dec_R (1, 10); o_nu := dec_R (25, -2); o_glt := dec_R (5, 9); o_gtn := Some (dec_R (3, 9)); o_gln := None; o_rho := None;
     o_al := None; o_at := None; o_an := None; o_temp := None; o_xt := None; o_xc := None; o_yt := None; o_yc := None; o_slt := None |});
   Some (1, Bilinear {| b_limit := Some (dec_R (25, 7)); b_slope := Some (dec_R (1, 9)) |});
   Some (3, Hyper {| h_c10 := dec_R (5, -1); h_c01 := 0; h_c20 := 0; h_k := (1000 * (c_rubber + 0))%R; h_rho := dec_R (1100, 0) |})].
Ltac fields := intros j Hj; cbn [length] in Hj; repeat first [exfalso; lia | destruct j as [|j]; [vm_compute; reflexivity|]].
Example C101_case : Forall2 says deck sayings /\ once (said sayings) /\
  exists ms, run_cards deck = Ok ms /\ holds ms 1 (Bilinear {| b_limit := Some (dec_R (25, 7)); b_slope := Some (dec_R (1, 9)) |}).
Proof.
  assert (S : Forall2 says deck sayings).
  { constructor; [|constructor; [|constructor; [|constructor; [|constructor; [|constructor]]]]].
    - apply (says_mat1 _ 1 (Some (21, 10)) None (Some (3, -1)) (Some (7850, 0)) None None None None None None 0); [reflexivity|apply int_text_at; [lia|reflexivity]|fields|right; split; [apply blank_field; cbn; lia|reflexivity]|].
      cbn [option_map]. apply iso_g; unfold e_steel, nu_steel, dec_R, dec_q, Q2R; cbn; [lra|field].
    - apply says_nothing. cbn. intros H. repeat destruct H as [H|H]; try discriminate H. exact H.
    - apply (says_mat8 _ 2 (1, 11) (1, 10) (25, -2) (5, 9) None (Some (3, 9)) None None None None None None None None None); [reflexivity|apply int_text_at; [lia|reflexivity]|fields].
    - apply (says_plastic _ 1 (Some (1, 9)) (Some (25, 7))); [reflexivity|apply int_text_at; [lia|reflexivity]|right; split; reflexivity|reflexivity|fields| | |fields]; left; (apply int_text_at; [lia|reflexivity]).
    - apply (says_mathp _ 3 (Some (5, -1)) None None (Some (1100, 0)) None None None 1 1 None); [reflexivity|apply int_text_at; [lia|reflexivity]|fields| |lia| |lia|fields]; right; (split; [apply blank_field; cbn; lia|reflexivity]). }
  assert (O : once (said sayings)) by (unfold once; cbn; repeat (constructor; [cbn; intros H; repeat destruct H as [H|H]; try discriminate H; exact H|]); constructor).
  split; [exact S|]. split; [exact O|]. destruct (C101_deck _ _ S O) as (ms & E & Q & _). exists ms. split; [exact E|]. apply Q. cbn. tauto.
Qed.

Print Assumptions C101_deck.
Print Assumptions C101_twice.
Print Assumptions C101_ratio_refuted.
Print Assumptions C101_shear_refuted.
Print Assumptions C101_empty_refuted.
Print Assumptions C101_terms_refuted.
