(** Searches of modes (C82), excitation frequencies (C83) and tables (C84). *)
From Coq Require Import Ascii String ZArith QArith Qabs Lqa List Bool Arith Lia.
From Verif Require Import Base DofModel TextModel TextProofs TokenizerModel NextIntsProofs RealModel CardModel CardProofs WriterLineModel
  GridModel LoadCardModel FieldProofs PropertiesGrid PropertiesLoadCards PropCardModel PropertiesPropCards FreqModel.
Import ListNotations.
Open Scope Z_scope.
Open Scope list_scope.

(** ** C82: searches of modes *)
(** How many modes a card asks for: those it says; without a number, one if the
    search has no upper bound and all of them otherwise. *)
Definition count_wanted (nd : option Z) (upper : option decimal) (c : option Z) : Prop :=
  match nd with
  | Some n => c = Some n
  | None => match upper with None => c = Some 1 | Some _ => c = None end
  end.
Lemma desired_wanted nd u : count_wanted nd u (desired nd u).
Proof. destruct nd, u; reflexivity. Qed.
(** The norm a word of the card asks for. *)
Definition norm_wanted (w : str) (n : norm) : Prop :=
  (w = txt "MASS" /\ n = MASS) \/ (w = txt "MAX" /\ n = MAX).
Lemma norm_wanted_of w n : norm_wanted w n -> norm_of w = n.
Proof. intros [[-> ->]|[-> ->]]; reflexivity. Qed.

Theorem C82_eigrl_read : forall vec sid lower upper nd msg maxset shf w n,
  int_at vec 1 sid -> real_opt vec 2 lower -> real_opt vec 3 upper -> int_opt vec 4 nd -> int_opt vec 5 msg -> int_opt vec 6 maxset ->
  real_opt vec 7 shf -> word_or (txt "MASS") vec 8 w -> norm_wanted w n ->
  exists c, parseEIGRL (at_field vec 1) = Ok (mkSearch sid lower c upper n) /\ count_wanted nd upper c.
Proof.
  intros vec sid lower upper nd msg maxset shf w n H1 H2 H3 H4 H5 H6 H7 H8 HN. exists (desired nd upper). split; [|apply desired_wanted].
  unfold parseEIGRL. rewrite (f_int _ _ _ H1). cbn [bind]. rewrite (f_optdouble _ _ _ H2). cbn [bind]. rewrite (f_optdouble _ _ _ H3). cbn [bind].
  rewrite (f_optional _ _ _ H4). cbn [bind]. rewrite (f_optional _ _ _ H5). cbn [bind]. rewrite (f_optional _ _ _ H6). cbn [bind].
  rewrite (f_optdouble _ _ _ H7). cbn [bind]. rewrite (f_worddef _ _ _ _ H8). cbn [bind]. now rewrite (norm_wanted_of _ _ HN).
Qed.
Theorem C82_eigr_read : forall vec sid lower upper ne nd w n g c,
  int_at vec 1 sid -> word_at vec 2 (txt "LAN") -> real_opt vec 3 lower -> real_opt vec 4 upper -> int_opt vec 5 ne -> int_opt vec 6 nd ->
  word_or (txt "MASS") vec 9 w -> norm_wanted w n -> int_opt vec 10 g -> int_opt vec 11 c ->
  exists k, parseEIGR (at_field vec 1) = Ok (mkSearch sid lower k upper n) /\ count_wanted nd upper k.
Proof.
  intros vec sid lower upper ne nd w n g c H1 H2 H3 H4 H5 H6 H9 HN H10 H11. exists (desired nd upper). split; [|apply desired_wanted].
  unfold parseEIGR. rewrite (f_int _ _ _ H1). cbn [bind]. rewrite (f_worddef _ _ _ (txt "LAN")) by (left; split; [exact H2|discriminate]). cbn [bind].
  change (negb (str_eqb (txt "LAN") (txt "LAN"))) with false. cbv iota.
  rewrite (f_optdouble _ _ _ H3). cbn [bind]. rewrite (f_optdouble _ _ _ H4). cbn [bind].
  rewrite (f_optional _ _ _ H5). cbn [bind]. rewrite (f_optional _ _ _ H6). cbn [bind]. rewrite f_skipn. cbn [bind Nat.add].
  rewrite (f_worddef _ _ _ _ H9). cbn [bind]. rewrite (f_optional _ _ _ H10). cbn [bind]. rewrite (f_optional _ _ _ H11). cbn [bind].
  now rewrite (norm_wanted_of _ _ HN).
Qed.
(** Another method than Lanczos is refused. *)
Theorem C82_method_refused : forall vec sid m, int_at vec 1 sid -> word_or [] vec 2 m -> m <> txt "LAN" -> parseEIGR (at_field vec 1) = Throw.
Proof.
  intros vec sid m H1 H2 N. unfold parseEIGR. rewrite (f_int _ _ _ H1). cbn [bind]. rewrite (f_worddef _ _ _ _ H2). cbn [bind].
  destruct (str_eqb_spec m (txt "LAN")); [contradiction|reflexivity].
Qed.
(** Bounds and number of modes of a buckling search. *)
Theorem C82_eigb_read : forall vec sid m lower upper ne ndp ndn w g c,
  int_at vec 1 sid -> word_or [] vec 2 m -> real_opt vec 3 lower -> real_opt vec 4 upper -> int_opt vec 5 ne -> int_opt vec 6 ndp -> int_opt vec 7 ndn ->
  word_or (txt "MASS") vec 10 w -> int_opt vec 11 g -> int_opt vec 12 c ->
  exists k n, parseEIGB (at_field vec 1) = Ok (mkSearch sid lower k upper n) /\ count_wanted ndp upper k.
Proof.
  intros vec sid m lower upper ne ndp ndn w g c H1 H2 H3 H4 H5 H6 H7 H9 H10 H11. exists (desired ndp upper). eexists. split; [|apply desired_wanted].
  unfold parseEIGB. rewrite (f_int _ _ _ H1). cbn [bind]. rewrite (f_worddef _ _ _ _ H2). cbn [bind].
  rewrite (f_optdouble _ _ _ H3). cbn [bind]. rewrite (f_optdouble _ _ _ H4). cbn [bind].
  rewrite (f_optional _ _ _ H5). cbn [bind]. rewrite (f_optional _ _ _ H6). cbn [bind]. rewrite (f_optional _ _ _ H7). cbn [bind].
  rewrite f_skipn. cbn [bind Nat.add].
  rewrite (f_worddef _ _ _ _ H9). cbn [bind]. rewrite (f_optional _ _ _ H10). cbn [bind]. rewrite (f_optional _ _ _ H11). cbn [bind]. reflexivity.
Qed.
(** NORM is the ninth field of EIGB; it is not the one that is read. *)
Theorem C82_eigb_norm_refuted : exists vec s, int_at vec 1 7 /\ word_at vec 2 (txt "SINV") /\ blank_at vec 8 /\ word_at vec 9 (txt "MAX") /\
  blank_at vec 10 /\ blank_at vec 11 /\ parseEIGB (at_field vec 1) = Ok s /\ sr_norm s = MASS.
Proof.
  exists (map txt ["EIGB"; "7"; "SINV"; "0.1"; "2.5"; "2"; "1"; ""; ""; "MAX"]%string). eexists. split; [an_int|]. repeat (split; [vm_compute; reflexivity|]).
  vm_compute. reflexivity.
Qed.
(** A word that is neither MASS nor MAX: the default, MASS, is announced and MAX taken. *)
Theorem C82_unknown_norm_refuted : exists vec s, int_at vec 1 7 /\ word_at vec 8 (txt "POINT") /\ parseEIGRL (at_field vec 1) = Ok s /\ sr_norm s <> MASS.
Proof.
  exists (map txt ["EIGRL"; "7"; ""; ""; "5"; ""; ""; ""; "POINT"]%string). eexists. split; [an_int|]. repeat (split; [vm_compute; reflexivity|]).
  vm_compute. discriminate.
Qed.
Theorem C82_eigc_read : forall vec sid m s g c ctol nd,
  int_at vec 1 sid -> word_or (txt "ARNO") vec 2 m -> In (m, s) [(txt "ARNO", ARNO); (txt "HESS", HESS); (txt "CLAN", CLAN)] ->
  word_or (txt "MAX") vec 3 (txt "MAX") -> int_opt vec 4 g -> int_opt vec 5 c -> real_opt vec 6 ctol -> int_at vec 7 nd ->
  parseEIGC (at_field vec 1) = Ok (sid, s, nd).
Proof.
  intros vec sid m s g c ctol nd H1 H2 I H3 H4 H5 H6 H7. unfold parseEIGC. rewrite (f_int _ _ _ H1). cbn [bind]. rewrite (f_worddef _ _ _ _ H2). cbn [bind].
  rewrite (f_worddef _ _ _ _ H3). cbn [bind]. change (negb (str_eqb (txt "MAX") (txt "MAX"))) with false. cbv iota.
  rewrite (f_optional _ _ _ H4). cbn [bind]. rewrite (f_optional _ _ _ H5). cbn [bind]. rewrite (f_optdouble _ _ _ H6). cbn [bind].
  rewrite (f_int _ _ _ H7). cbn [bind]. destruct I as [I|[I|[I|[]]]]; injection I as <- <-; reflexivity.
Qed.
(** Another norm is refused, and so is a search that does not say how many modes. *)
Theorem C82_eigc_refused : forall vec sid m w, int_at vec 1 sid -> word_or (txt "ARNO") vec 2 m -> word_or (txt "MAX") vec 3 w -> w <> txt "MAX" ->
  parseEIGC (at_field vec 1) = Throw.
Proof.
  intros vec sid m w H1 H2 H3 N. unfold parseEIGC. rewrite (f_int _ _ _ H1). cbn [bind]. rewrite (f_worddef _ _ _ _ H2). cbn [bind].
  rewrite (f_worddef _ _ _ _ H3). cbn [bind]. destruct (str_eqb_spec w (txt "MAX")); [contradiction|reflexivity].
Qed.

(** Whatever the card, a search that is read is bounded: by a number of modes or from
    above.  Hence -DBL_MAX is never written as a frequency. *)
Lemma desired_bounded nd u : desired nd u <> None \/ u <> None.
Proof. destruct nd, u; cbn; (left; discriminate) || (right; discriminate). Qed.
Ltac reads := repeat match goal with
  | H : (do r <- ?m; _) = Ok _ |- _ => let E := fresh "E" in destruct m as [[? ?]| | |] eqn:E; cbn [bind] in H; try discriminate H; clear E
  | H : (do r <- skip ?n ?t; _) = Ok _ |- _ => destruct (skip n t); cbn [bind] in H; try discriminate H
  end.
Theorem C82_bounded : forall (parse : cursor -> outcome search) t s,
  In parse [parseEIGRL; parseEIGR; parseEIGB] -> parse t = Ok s -> sr_count s <> None \/ sr_upper s <> None.
Proof.
  intros parse t s I H. cbn in I. destruct I as [<-|[<-|[<-|[]]]]; unfold parseEIGRL, parseEIGR, parseEIGB in H.
  - reads. injection H as <-. apply desired_bounded.
  - do 2 (match type of H with (do r <- ?m; _) = Ok _ => destruct m as [[? ?]| | |]; cbn [bind] in H; try discriminate H end).
    destruct (negb _); [discriminate|]. reads. injection H as <-. apply desired_bounded.
  - reads. injection H as <-. apply desired_bounded.
Qed.
Theorem C82_no_sentinel : forall (parse : cursor -> outcome search) t s buckling power cutoff a b,
  In parse [parseEIGRL; parseEIGR; parseEIGB] -> parse t = Ok s ->
  cf_band (writeCalcFreq buckling power cutoff s) = Some (a, b) -> sr_upper s = Some b /\ cf_option (writeCalcFreq buckling power cutoff s) <> CENTRE.
Proof.
  intros parse t s buckling power cutoff a b I H W. pose proof (C82_bounded _ _ _ I H) as B. unfold writeCalcFreq in *. cbn [cf_band cf_option] in *.
  destruct (sr_count s); [discriminate W|]. destruct buckling; [discriminate W|]. destruct (sr_upper s) as [u|].
  - injection W as _ <-. split; [reflexivity|]. destruct power; discriminate.
  - destruct B as [B|B]; now destruct B.
Qed.

(** The modes a search designates, among the natural frequencies in ascending order:
    those within the bounds, and of these the first ones. *)
Definition above (l : option decimal) (f : Q) : bool := match l with None => true | Some l => Qle_bool (value l) f end.
Definition below (u : option decimal) (f : Q) : bool := match u with None => true | Some u => Qle_bool f (value u) end.
Definition wanted (lower upper : option decimal) (nd : option Z) (fs : list Q) : list Q :=
  let range := filter (fun f => above lower f && below upper f) fs in
  match nd with
  | Some n => firstn (Z.to_nat n) range
  | None => match upper with None => firstn 1 range | Some _ => range end
  end.
(** The modes Code_Aster computes: PLUS_PETITE takes the first ones, BANDE those of
    the band. *)
Definition computed (c : calc_freq) (fs : list Q) : option (list Q) :=
  match cf_option c, cf_nmax c, cf_band c with
  | PLUS_PETITE, Some n, _ => Some (firstn (Z.to_nat n) fs)
  | BANDE, _, Some (a, b) => Some (filter (fun f => Qle_bool (value a) f && Qle_bool f (value b)) fs)
  | _, _, _ => None
  end.
(** A number of modes without bounds, or bounds without a number of modes, are
    respected.  What is missing of the full statement (any search) is false: see below. *)
Theorem C82_modes_partial : forall vec sid s lower upper nd fs,
  int_at vec 1 sid -> parseEIGRL (at_field vec 1) = Ok s -> real_opt vec 2 lower -> real_opt vec 3 upper -> int_opt vec 4 nd ->
  (forall f, In f fs -> (0 <= f)%Q) ->
  match nd with Some _ => lower = None /\ upper = None | None => lower = None \/ upper <> None end ->
  computed (writeCalcFreq false false None s) fs = Some (wanted lower upper nd fs).
Proof.
  intros vec sid s lower upper nd fs H1 H H2 H3 H4 P C. unfold parseEIGRL in H.
  rewrite (f_int _ _ _ H1) in H. cbn [bind] in H.
  rewrite (f_optdouble _ _ _ H2) in H. cbn [bind] in H. rewrite (f_optdouble _ _ _ H3) in H. cbn [bind] in H. rewrite (f_optional _ _ _ H4) in H. cbn [bind] in H.
  reads. injection H as <-. unfold writeCalcFreq, computed, wanted. cbn [sr_count sr_upper sr_lower cf_option cf_nmax cf_band orb].
  assert (A : forall l : list Q, filter (fun f => above None f && below None f) l = l).
  { intros l. induction l as [|x l IH]; [reflexivity|]. cbn. f_equal. exact IH. }
  destruct nd as [n|].
  - destruct C as [-> ->]. cbn [desired]. now rewrite A.
  - destruct upper as [u|]; cbn [desired].
    + f_equal. apply filter_ext_in. intros f Hf. destruct lower as [l|]; cbn [above below calc_start]; [reflexivity|].
      replace (Qle_bool (value dzero) f) with true; [reflexivity|]. symmetry. apply Qle_bool_iff. exact (P f Hf).
    + destruct C as [->|C]; [|congruence]. cbn [Z.to_nat Pos.to_nat Pos.iter_op]. now rewrite A.
Qed.
(** The cut-off parameter bounds a search that has no lower bound of its own, and no
    other. *)
Theorem C82_cutoff : forall vec sid s cutoff lower u fs,
  int_at vec 1 sid -> parseEIGRL (at_field vec 1) = Ok s -> real_opt vec 2 lower -> real_opt vec 3 (Some u) -> int_opt vec 4 None ->
  computed (writeCalcFreq false false (Some cutoff) s) fs = Some (wanted match lower with Some l => Some l | None => Some cutoff end (Some u) None fs).
Proof.
  intros vec sid s cutoff lower u fs H1 H H2 H3 H4. unfold parseEIGRL in H.
  rewrite (f_int _ _ _ H1) in H. cbn [bind] in H.
  rewrite (f_optdouble _ _ _ H2) in H. cbn [bind] in H. rewrite (f_optdouble _ _ _ H3) in H. cbn [bind] in H. rewrite (f_optional _ _ _ H4) in H. cbn [bind] in H.
  reads. injection H as <-. unfold writeCalcFreq, computed, wanted. cbn [sr_count sr_upper sr_lower cf_option cf_nmax cf_band orb desired].
  f_equal. apply filter_ext_in. intros f Hf. destruct lower as [l|]; reflexivity.
Qed.
Example C82_cutoff_case :
  let vec := map txt ["EIGRL"; "7"; ""; "20."]%string in
  int_at vec 1 7 /\ real_opt vec 2 None /\ real_opt vec 3 (Some (20, 0)) /\ int_opt vec 4 None /\
  exists s, parseEIGRL (at_field vec 1) = Ok s /\ computed (writeCalcFreq false false (Some (5, 0)) s) [3%Q; 10%Q; 30%Q] = Some [10%Q].
Proof. cbv zeta. split; [an_int|]. repeat (split; [vm_compute; reflexivity|]). eexists. split; vm_compute; reflexivity. Qed.
(** A number of modes with a lower bound, with an upper bound, and a lower bound
    alone: the bound is not written. *)
Definition lost (vec : list str) (lower upper : option decimal) (nd : option Z) (fs : list Q) : Prop :=
  exists s l, parseEIGRL (at_field vec 1) = Ok s /\ real_opt vec 2 lower /\ real_opt vec 3 upper /\ int_opt vec 4 nd /\
    computed (writeCalcFreq false false None s) fs = Some l /\ l <> wanted lower upper nd fs.
Theorem C82_modes_refuted :
  (exists vec, lost vec (Some (20, 0)) None (Some 1) [10%Q; 30%Q]) /\
  (exists vec, lost vec None (Some (20, 0)) (Some 2) [10%Q; 30%Q]) /\
  (exists vec, lost vec (Some (20, 0)) None None [10%Q; 30%Q]).
Proof.
  split; [|split].
  - exists (map txt ["EIGRL"; "7"; "20."; ""; "1"]%string). unfold lost. do 2 eexists. split; [vm_compute; reflexivity|]. split; [vm_compute; reflexivity|].
    split; [vm_compute; reflexivity|]. split; [an_int|]. split; [vm_compute; reflexivity|]. vm_compute. discriminate.
  - exists (map txt ["EIGRL"; "7"; ""; "20."; "2"]%string). unfold lost. do 2 eexists. split; [vm_compute; reflexivity|]. split; [vm_compute; reflexivity|].
    split; [vm_compute; reflexivity|]. split; [an_int|]. split; [vm_compute; reflexivity|]. vm_compute. discriminate.
  - exists (map txt ["EIGRL"; "7"; "20."]%string). unfold lost. do 2 eexists. split; [vm_compute; reflexivity|]. split; [vm_compute; reflexivity|].
    split; [vm_compute; reflexivity|]. split; [vm_compute; reflexivity|]. split; [vm_compute; reflexivity|]. vm_compute. discriminate.
Qed.
(** The words Code_Aster has for the norms. *)
Theorem C82_norm_written : forall n, writeNorm n = txt match n with MASS => "MASS_GENE" | MAX => "TRAN_ROTA" end.
Proof. intros []; reflexivity. Qed.
(** Systus is given a window around its centre, which is the band of the search (from 0 if
    it has no lower bound), and enough iterations. *)
Theorem C82_systus_window : forall version s u, 2017 <= version -> sr_upper s = Some u ->
  exists c w a b, md_window (writeLinearModal version None s) = Some (c, w, a, b) /\
    (c - w == a)%Q /\ (c + w == b)%Q /\ b = value u /\ match sr_lower s with Some l => a = value l | None => (a == 0)%Q end.
Proof.
  intros version s u V U. unfold writeLinearModal. cbn [md_window]. rewrite U. destruct (Z.ltb_spec version 2017); [lia|].
  do 4 eexists. split; [reflexivity|]. change dec_q with value. destruct (sr_lower s) as [l|]; (repeat split; [ring|ring]).
Qed.
Theorem C82_systus_count : forall version cutoff s, let m := writeLinearModal version cutoff s in
  match sr_count s with Some n => md_modes m = n | None => md_modes m = 100 end /\ (0 <= md_modes m -> 2 * md_modes m < md_iter m) /\
  (sr_upper s = None -> md_window m = None) /\ (md_mass m = true <-> sr_norm s = MASS).
Proof.
  intros version cutoff s m. subst m. unfold writeLinearModal. cbn [md_modes md_iter md_window md_mass]. repeat split.
  - destruct (sr_count s); reflexivity.
  - intros H. lia.
  - intros ->. reflexivity.
  - destruct (sr_norm s); [reflexivity|discriminate].
  - now intros ->.
Qed.
Example C82_case :
  let vec := map txt ["EIGRL"; "7"; "0.1"; "200."; ""; ""; ""; ""; "MAX"]%string in
  int_at vec 1 7 /\ real_opt vec 2 (Some (1, -1)) /\ real_opt vec 3 (Some (200, 0)) /\ int_opt vec 4 None /\ word_or (txt "MASS") vec 8 (txt "MAX") /\
  parseEIGRL (at_field vec 1) = Ok (mkSearch 7 (Some (1, -1)) None (Some (200, 0)) MAX) /\
  wanted (Some (1, -1)) (Some (200, 0)) None [0%Q; 5%Q; 300%Q] = [5%Q].
Proof.
  cbv zeta. split; [an_int|]. split; [vm_compute; reflexivity|]. split; [vm_compute; reflexivity|]. split; [vm_compute; reflexivity|].
  split; [left; split; [vm_compute; reflexivity|discriminate]|]. split; vm_compute; reflexivity.
Qed.
Example C82_eigc_case : parseEIGC (at_field (map txt ["EIGC"; "7"; "HESS"; "MAX"; ""; ""; ""; "12"]%string) 1) = Ok (7, HESS, 12).
Proof. vm_compute. reflexivity. Qed.

(** ** C83: excitation frequencies *)
Lemma doubles_read vec : forall l i fuel, (forall k, (k < length l)%nat -> real_at vec (i + k) (nth k l dzero)) ->
  isNextDouble (at_field vec (i + length l)) = Ok false -> (length l < fuel)%nat -> doubles_loop fuel (at_field vec i) = Ok (l, at_field vec (i + length l)).
Proof.
  induction l as [|x l IH]; intros i fuel H E F; (destruct fuel as [|fuel]; [lia|]); cbn [doubles_loop length] in *.
  - rewrite Nat.add_0_r in *. rewrite E. reflexivity.
  - pose proof (H 0%nat (Nat.lt_0_succ _)) as H0. rewrite Nat.add_0_r in H0. cbn [nth] in H0. rewrite (f_isdouble _ _ _ H0). cbn [bind].
    rewrite (f_double _ _ _ H0). cbn [bind]. rewrite (IH (S i) fuel); [|intros k Hk; specialize (H (S k)); rewrite Nat.add_succ_r in H; apply H; lia| |lia].
    + cbn [bind]. now rewrite Nat.add_succ_r.
    + now rewrite Nat.add_succ_r in E.
Qed.
Theorem C83_freq_read : forall vec sid l, int_at vec 1 sid -> (forall k, (k < length l)%nat -> real_at vec (2 + k) (nth k l dzero)) ->
  blank_at vec (2 + length l) -> parseFREQ (at_field vec 1) = Ok (EList sid l) /\ (l <> [] -> writeListReel (EList sid l) = Some (Vale l)).
Proof.
  intros vec sid l H1 H B. split; [|destruct l; [congruence|reflexivity]]. unfold parseFREQ. rewrite (f_int _ _ _ H1). cbn [bind]. unfold nextDoubles.
  rewrite (doubles_read vec l); [reflexivity|exact H|now apply f_isdouble_blank|]. unfold at_field, at_pos. cbn [cvec].
  destruct l as [|x l]; [cbn; lia|]. assert (L : (2 + length l < length vec)%nat).
  { assert (R := H (length l)). cbn [length] in R. specialize (R ltac:(lia)). destruct (Nat.lt_ge_cases (2 + length l) (length vec)) as [L|L]; [exact L|].
    destruct (real_not_blank _ _ _ R). unfold blank_at. now rewrite (field_beyond _ _ L). }
  cbn [length]. lia.
Qed.
(** The frequencies F1, F1 + DF, … of a card FREQ1: NDF steps, one by default. *)
Theorem C83_freq1_read : forall vec sid f1 df n, int_at vec 1 sid -> real_at vec 2 f1 -> real_at vec 3 df -> int_or 1 vec 4 n ->
  exists r, parseFREQ1 (at_field vec 1) = Ok (EStep sid r) /\ sg_start r = value f1 /\ sg_step r = value df /\ sg_count r = n /\
    (sg_end r == value f1 + inject_Z n * value df)%Q.
Proof.
  intros vec sid f1 df n H1 H2 H3 H4. unfold parseFREQ1. rewrite (f_int _ _ _ H1). cbn [bind]. rewrite (f_double _ _ _ H2). cbn [bind].
  rewrite (f_double _ _ _ H3). cbn [bind]. rewrite (f_intdef _ _ _ _ H4). cbn [bind]. eexists. split; [reflexivity|].
  unfold step_of_count. cbn [sg_start sg_step sg_count sg_end]. change dec_q with value. repeat (split; [reflexivity|]). ring.
Qed.
(** The numbers Code_Aster makes of DEFI_LIST_REEL: those given, or [nombre] equal
    intervals. *)
Definition list_reel (d : defi_list) : list Q :=
  match d with
  | Vale l => map value l
  | Intervalle a b n => map (fun i => a + (b - a) * inject_Z (Z.of_nat i) / inject_Z n)%Q (seq 0 (S (Z.to_nat n)))
  end.
Lemma qmax_bounds x y : (x <= qmax x y)%Q /\ (y <= qmax x y)%Q /\ (qmax x y == x \/ qmax x y == y)%Q.
Proof.
  unfold qmax. destruct (Qle_bool x y) eqn:E.
  - apply Qle_bool_iff in E. repeat split; [exact E|lra|right; reflexivity].
  - assert (~ (x <= y)%Q) by (rewrite <- Qle_bool_iff, E; discriminate). repeat split; [lra|lra|left; reflexivity].
Qed.
(** Two numbers that differ by more than 2e-15 of their size are told apart. *)
Lemma near_apart x y : ((1 # 500000000000000) * (1 + Qabs x + Qabs y) < Qabs (x - y))%Q -> near x y = false.
Proof.
  intros H. destruct (near x y) eqn:E; [|reflexivity]. exfalso. unfold near in E. rewrite Qle_bool_iff in E.
  assert (A := Qabs_nonneg x). assert (B := Qabs_nonneg y).
  assert (qmax 1 (qmax (Qabs x) (Qabs y)) <= 1 + Qabs x + Qabs y)%Q as M.
  { destruct (qmax_bounds 1 (qmax (Qabs x) (Qabs y))) as (_ & _ & [M|M]); rewrite M; [lra|].
    destruct (qmax_bounds (Qabs x) (Qabs y)) as (_ & _ & [N|N]); rewrite N; lra. }
  lra.
Qed.
Theorem C83_freq1_written : forall vec sid f1 df n, int_at vec 1 sid -> real_at vec 2 f1 -> real_at vec 3 df -> int_or 1 vec 4 n -> 0 < n ->
  far (value df) ->
  ((1 # 500000000000000) * (1 + 2 * Qabs (value f1) + inject_Z n * Qabs (value df)) < inject_Z n * Qabs (value df))%Q ->
  exists r d, parseFREQ1 (at_field vec 1) = Ok (EStep sid r) /\ writeListReel (EStep sid r) = Some d /\
    Forall2 Qeq (list_reel d) (map (fun i => value f1 + inject_Z (Z.of_nat i) * value df)%Q (seq 0 (S (Z.to_nat n)))).
Proof.
  intros vec sid f1 df n H1 H2 H3 H4 N F A. destruct (C83_freq1_read _ _ _ _ _ H1 H2 H3 H4) as (r & E & S1 & S2 & S3 & S4).
  exists r, (Intervalle (sg_start r) (sg_end r) (sg_count r)). split; [exact E|].
  assert (NQ : (0 < inject_Z n)%Q) by (change 0%Q with (inject_Z 0); now rewrite <- Zlt_Qlt).
  assert (D : (Qabs (inject_Z n * value df) == inject_Z n * Qabs (value df))%Q) by (rewrite Qabs_Qmult, (Qabs_pos (inject_Z n)) by lra; reflexivity).
  split.
  - cbn [writeListReel]. replace (step_is_zero r) with false; [reflexivity|]. symmetry. unfold step_is_zero. rewrite S1, S2, S3.
    rewrite near_apart, near_apart.
    + destruct (Z.eqb_spec n 0); [lia|reflexivity].
    + destruct F as [F|F].
      * rewrite (Qabs_pos (value df)) in * by lra. assert (Qabs (value df - 0) == value df)%Q as -> by (rewrite Qabs_pos; lra).
        change (Qabs 0) with 0%Q. lra.
      * rewrite (Qabs_neg (value df)) in * by lra. assert (Qabs (value df - 0) == - value df)%Q as -> by (rewrite Qabs_neg; lra).
        change (Qabs 0) with 0%Q. lra.
    + assert (Qabs (sg_end r) <= Qabs (value f1) + inject_Z n * Qabs (value df))%Q by (rewrite S4, <- D; apply Qabs_triangle).
      assert (Qabs (value f1 - sg_end r) == inject_Z n * Qabs (value df))%Q as ->.
      { rewrite <- D, S4. rewrite <- (Qabs_opp (inject_Z n * value df)). apply Qabs_wd. ring. }
      lra.
  - cbn [list_reel]. rewrite S1, S3. clear - S4 NQ. induction (seq 0 (S (Z.to_nat n))) as [|i l IH]; cbn [map]; [constructor|]. constructor; [|exact IH].
    rewrite S4. field. intros Z0. rewrite Z0 in NQ. lra.
Qed.
(** Systus goes from INITIAL (which it leaves out) by steps up to the end. *)
Definition systus_range (initial fin step x : Q) : Prop := exists i, 1 <= i /\ (x == initial + inject_Z i * step)%Q /\ (x <= fin)%Q.
Theorem C83_freq1_systus : forall vec sid f1 df n, int_at vec 1 sid -> real_at vec 2 f1 -> real_at vec 3 df -> int_or 1 vec 4 n -> (0 < value df)%Q ->
  exists r a b c, parseFREQ1 (at_field vec 1) = Ok (EStep sid r) /\ writeFrequencyExcit (EStep sid r) = Some (a, b, c) /\
    forall x, systus_range a b c x <-> exists j, 0 <= j <= n /\ (x == value f1 + inject_Z j * value df)%Q.
Proof.
  intros vec sid f1 df n H1 H2 H3 H4 P. destruct (C83_freq1_read _ _ _ _ _ H1 H2 H3 H4) as (r & E & S1 & S2 & S3 & S4).
  exists r. do 3 eexists. split; [exact E|]. split; [reflexivity|]. rewrite S1, S2. intros x. unfold systus_range. split.
  - intros (i & I & X & L). exists (i - 1). rewrite S4 in L. assert ((inject_Z (i - 1) == inject_Z i - 1)%Q) as J by (unfold Z.sub; rewrite inject_Z_plus; change (inject_Z (- (1))) with (- 1)%Q; ring).
    assert (inject_Z (i - 1) * value df <= inject_Z n * value df)%Q as M by (rewrite J; rewrite X in L; lra).
    apply Qmult_lt_0_le_reg_r in M; [|exact P]. rewrite <- Zle_Qle in M. split; [lia|]. rewrite X, J. ring.
  - intros (j & J & X). exists (j + 1). split; [lia|]. rewrite inject_Z_plus. split; [rewrite X; change (inject_Z 1) with 1%Q; ring|].
    rewrite X, S4. assert (inject_Z j * value df <= inject_Z n * value df)%Q; [|lra]. apply Qmult_le_compat_r; [|lra]. rewrite <- Zle_Qle. lia.
Qed.
(** A range given by its ends and its number of steps reaches its end. *)
Theorem C83_range_reaches_end : forall start n fin, 0 < n -> let r := step_of_end start n fin in (sg_start r + inject_Z (sg_count r) * sg_step r == sg_end r)%Q.
Proof.
  intros start n fin N r. subst r. unfold step_of_end. cbn [sg_start sg_count sg_step sg_end]. field. intros E.
  assert (0 < inject_Z n)%Q as H by (change 0%Q with (inject_Z 0); now rewrite <- Zlt_Qlt). rewrite E in H. lra.
Qed.
Theorem C83_freq3_read : forall vec sid f1 f2 n, int_at vec 1 sid -> real_at vec 2 f1 -> real_at vec 3 f2 -> word_or (txt "LINEAR") vec 4 (txt "LINEAR") ->
  int_or 10 vec 5 n -> (blank_at vec 6 \/ exists c, real_at vec 6 c /\ (value c == 1)%Q) -> parseFREQ3 (at_field vec 1) = Ok (EInterpolate sid f1 n f2).
Proof.
  intros vec sid f1 f2 n H1 H2 H3 H4 H5 H6. unfold parseFREQ3. rewrite (f_int _ _ _ H1). cbn [bind]. rewrite (f_double _ _ _ H2). cbn [bind].
  rewrite (f_double _ _ _ H3). cbn [bind]. rewrite (f_worddef _ _ _ _ H4). cbn [bind]. change (negb (str_eqb (txt "LINEAR") (txt "LINEAR"))) with false. cbv iota.
  rewrite (f_intdef _ _ _ _ H5). cbn [bind]. assert (exists c, real_or (1, 0) vec 6 c /\ (value c == 1)%Q) as (c & C & V).
  { destruct H6 as [B|(c & C & V)]; [exists (1, 0); split; [right; auto|reflexivity]|exists c; split; [now left|exact V]]. }
  rewrite (f_doubledef _ _ _ _ C). cbn [bind]. replace (near (dec_q c) 1%Q) with true; [reflexivity|]. symmetry. unfold near. rewrite Qle_bool_iff.
  change (dec_q c) with (value c). assert (Qabs (value c - 1) == 0)%Q as -> by (rewrite V; reflexivity).
  destruct (qmax_bounds 1 (qmax (Qabs (value c)) (Qabs 1))) as (M & _). lra.
Qed.
(** Logarithmic subdivisions and clusters are refused. *)
Theorem C83_freq3_refused : forall vec sid f1 f2, int_at vec 1 sid -> real_at vec 2 f1 -> real_at vec 3 f2 ->
  (exists w, word_or (txt "LINEAR") vec 4 w /\ w <> txt "LINEAR") \/
  (word_or (txt "LINEAR") vec 4 (txt "LINEAR") /\ (exists n, int_or 10 vec 5 n) /\
   exists c, real_at vec 6 c /\ ((1 # 500000000000000) * (2 + Qabs (value c)) < Qabs (value c - 1))%Q) ->
  parseFREQ3 (at_field vec 1) = Throw.
Proof.
  intros vec sid f1 f2 H1 H2 H3 H. unfold parseFREQ3. rewrite (f_int _ _ _ H1). cbn [bind]. rewrite (f_double _ _ _ H2). cbn [bind].
  rewrite (f_double _ _ _ H3). cbn [bind]. destruct H as [(w & W & N)|(W & (n & Hn) & c & C & V)]; rewrite (f_worddef _ _ _ _ W); cbn [bind].
  - destruct (str_eqb_spec w (txt "LINEAR")); [contradiction|reflexivity].
  - change (negb (str_eqb (txt "LINEAR") (txt "LINEAR"))) with false. cbv iota. rewrite (f_intdef _ _ _ _ Hn). cbn [bind].
    rewrite (f_doubledef _ _ _ c) by now left. cbn [bind]. change (dec_q c) with (value c). rewrite near_apart; [reflexivity|]. change (Qabs 1) with 1%Q. lra.
Qed.
Theorem C83_freq4_read : forall vec sid f1 f2 sp n, int_at vec 1 sid -> real_at vec 2 f1 -> real_at vec 3 f2 -> real_at vec 4 sp -> int_or 1 vec 5 n ->
  parseFREQ4 (at_field vec 1) = Ok (ESpread sid f1 n f2 sp).
Proof.
  intros vec sid f1 f2 sp n H1 H2 H3 H4 H5. unfold parseFREQ4. rewrite (f_int _ _ _ H1). cbn [bind]. rewrite (f_double _ _ _ H2). cbn [bind].
  rewrite (f_double _ _ _ H3). cbn [bind]. rewrite (f_double _ _ _ H4). cbn [bind]. rewrite (f_intdef _ _ _ _ H5). reflexivity.
Qed.
(** A card FREQ3 asks for [n] frequencies between two consecutive modes, both
    included; those that are written all lie within 1 Hz above a mode. *)
Definition between_modes (n : nat) (a b : Q) : list Q := map (fun i => a + (b - a) * inject_Z (Z.of_nat i) / inject_Z (Z.of_nat n - 1))%Q (seq 0 n).
Theorem C83_interpolated_refuted : exists n a b x, (2 <= n)%nat /\ (a < b)%Q /\ In x (between_modes n a b) /\
  ~ exists y, In y (writeInterpolate n [a; b]) /\ (x == y)%Q.
Proof.
  exists 3%nat, 10%Q, 20%Q. eexists. split; [lia|]. split; [reflexivity|]. split; [right; left; reflexivity|].
  intros (y & I & E). vm_compute in I. repeat (destruct I as [I|I]; [rewrite <- I in E; vm_compute in E; discriminate E|]). destruct I.
Qed.
Theorem C83_interpolated_near : forall n modes y, (1 < n)%nat -> In y (writeInterpolate n modes) -> exists x, In x modes /\ (x <= y)%Q /\ (y < x + 1)%Q.
Proof.
  intros n modes y N H. unfold writeInterpolate in H. apply in_flat_map in H. destruct H as (x & X & H). exists x. split; [exact X|].
  unfold linspace in H. apply in_map_iff in H. destruct H as (i & <- & I). apply in_seq in I.
  assert (NQ : (0 < inject_Z (Z.of_nat n))%Q) by (change 0%Q with (inject_Z 0); rewrite <- Zlt_Qlt; lia).
  assert (KQ : (0 < inject_Z (Z.of_nat n - 1))%Q) by (change 0%Q with (inject_Z 0); rewrite <- Zlt_Qlt; lia).
  assert (IQ : (0 <= inject_Z (Z.of_nat i))%Q) by (change 0%Q with (inject_Z 0); rewrite <- Zle_Qle; lia).
  assert (IK : (inject_Z (Z.of_nat i) <= inject_Z (Z.of_nat n - 1))%Q) by (rewrite <- Zle_Qle; lia).
  assert (KN : (inject_Z (Z.of_nat n - 1) == inject_Z (Z.of_nat n) - 1)%Q) by (unfold Z.sub; rewrite inject_Z_plus; change (inject_Z (- (1))) with (- 1)%Q; ring).
  set (q := (inject_Z (Z.of_nat i) / inject_Z (Z.of_nat n))%Q).
  assert ((x + (x + 1 - 1 / inject_Z (Z.of_nat n) - x) * inject_Z (Z.of_nat i) / inject_Z (Z.of_nat n - 1) == x + q)%Q) as ->.
  { subst q. rewrite KN. field. split; intros Z0; lra. }
  assert (0 <= q)%Q by (subst q; apply Qle_shift_div_l; [exact NQ|lra]).
  assert (q < 1)%Q by (subst q; apply Qlt_shift_div_r; [exact NQ|lra]).
  lra.
Qed.
Example C83_case :
  let vec := map txt ["FREQ1"; "6"; "2.9"; "0.5"; "13"]%string in
  int_at vec 1 6 /\ real_at vec 2 (29, -1) /\ real_at vec 3 (5, -1) /\ int_or 1 vec 4 13 /\
  parseFREQ1 (at_field vec 1) = Ok (EStep 6 (step_of_count (29 # 10) (5 # 10) 13)) /\
  parseFREQ (at_field (map txt ["FREQ"; "3"; "2.98"; "3.05"; "17.9"; ""]%string) 1) = Ok (EList 3 [(298, -2); (305, -2); (179, -1)]) /\
  parseFREQ3 (at_field (map txt ["FREQ3"; "6"; "20."; "2000."; "LINEAR"; "10"; "1."]%string) 1) = Ok (EInterpolate 6 (20, 0) 10 (2000, 0)) /\
  parseFREQ4 (at_field (map txt ["FREQ4"; "6"; "20."; "2000."; "0.30"; "21"]%string) 1) = Ok (ESpread 6 (20, 0) 21 (2000, 0) (30, -2)).
Proof.
  cbv zeta. split; [an_int|]. split; [vm_compute; reflexivity|]. split; [vm_compute; reflexivity|]. split; [left; an_int|].
  repeat (split; [vm_compute; reflexivity|]). vm_compute. reflexivity.
Qed.

(** ** C84: tables *)
(** The rows of a table: a point, or a pair one member of which is SKIP. *)
Inductive row := Point (x y : decimal) | SkipX | SkipY (x : decimal).
Definition row_at (vec : list str) (i : nat) (r : row) : Prop :=
  match r with
  | Point x y => real_at vec i x /\ real_at vec (S i) y
  | SkipX => word_at vec i (txt "SKIP")
  | SkipY x => real_at vec i x /\ word_at vec (S i) (txt "SKIP")
  end.
Fixpoint rows_at (vec : list str) (i : nat) (l : list row) : Prop :=
  match l with [] => True | r :: l => row_at vec i r /\ rows_at vec (2 + i) l end.
Fixpoint points (l : list row) : list (decimal * decimal) :=
  match l with [] => [] | Point x y :: l => (x, y) :: points l | _ :: l => points l end.

Lemma upper_double c : contains (upper c) double_chars = false -> contains c double_chars = false.
Proof. destruct c as [[] [] [] [] [] [] [] []]; vm_compute; congruence. Qed.
Lemma upper_space c : upper c <> " "%char -> c <> " "%char.
Proof. intros H ->. now apply H. Qed.
(** A word with a letter that is in no number is not a number. *)
Lemma word_not_double vec i w c : word_at vec i w -> In c w -> contains c double_chars = false -> c <> " "%char -> isNextDouble (at_field vec i) = Ok false.
Proof.
  intros W I N S. unfold isNextDouble. rewrite peek_field_at by reflexivity. f_equal. apply andb_false_iff. right.
  unfold word_at in W. rewrite <- W in I. apply in_map_iff in I. destruct I as (x & <- & I). apply upper_double in N. apply upper_space in S.
  destruct (forallb _ _) eqn:F; [|reflexivity]. rewrite forallb_forall in F. rewrite (F x) in N; [discriminate|].
  unfold erase_char. apply filter_In. split; [exact I|]. destruct (Ascii.eqb_spec x " "); [contradiction|reflexivity].
Qed.
Lemma skip_not_double vec i : word_at vec i (txt "SKIP") -> isNextDouble (at_field vec i) = Ok false.
Proof. intros W. apply (word_not_double _ _ _ "K"%char W); [cbn; tauto|reflexivity|discriminate]. Qed.
(** What ends a table: ENDT, or a word that is not SKIP (warned about). *)
Definition ends (vec : list str) (i : nat) : Prop :=
  exists w, word_at vec i w /\ w <> [] /\ w <> txt "SKIP" /\ isNextDouble (at_field vec i) = Ok false.
Lemma endt_ends vec i : word_at vec i (txt "ENDT") -> ends vec i.
Proof.
  intros W. exists (txt "ENDT"). split; [exact W|]. split; [discriminate|]. split; [discriminate|].
  apply (word_not_double _ _ _ "N"%char W); [cbn; tauto|reflexivity|discriminate].
Qed.
Lemma word_present vec i w : word_at vec i w -> w <> [] -> (i < length vec)%nat.
Proof.
  intros W N. destruct (Nat.lt_ge_cases i (length vec)) as [L|L]; [exact L|]. unfold word_at in W. rewrite (field_beyond _ _ L) in W. now subst w.
Qed.
Lemma loop_row vec i r fuel l t : row_at vec i r -> table_loop fuel (at_field vec (2 + i)) = Ok l -> t = at_field vec i ->
  table_loop (S fuel) t = Ok (points [r] ++ l).
Proof.
  intros R H ->. change (2 + i)%nat with (S (S i)) in H. cbn [table_loop]. destruct r as [x y| |x]; cbn [row_at] in R.
  - destruct R as [X Y]. rewrite (f_isdouble _ _ _ X). cbn [bind]. rewrite (f_double _ _ _ X). cbn [bind]. rewrite (f_isdouble _ _ _ Y). cbn [bind].
    rewrite (f_double _ _ _ Y). cbn [bind]. rewrite H. reflexivity.
  - rewrite (skip_not_double _ _ R). cbn [bind]. rewrite (f_string _ _ _ R) by discriminate. cbn [bind].
    change (str_eqb (txt "SKIP") (txt "SKIP")) with true. cbv iota. rewrite f_skipn. cbn [bind]. rewrite Nat.add_1_r. exact H.
  - destruct R as [X Y]. rewrite (f_isdouble _ _ _ X). cbn [bind]. rewrite (f_double _ _ _ X). cbn [bind]. rewrite (skip_not_double _ _ Y). cbn [bind].
    rewrite (f_string _ _ _ Y) by discriminate. cbn [bind]. change (str_eqb (txt "SKIP") (txt "SKIP")) with true. exact H.
Qed.
Lemma loop_rows vec : forall rows i fuel, rows_at vec i rows -> ends vec (i + 2 * length rows) -> (length rows < fuel)%nat ->
  table_loop fuel (at_field vec i) = Ok (points rows).
Proof.
  induction rows as [|r rows IH]; intros i fuel R E F; (destruct fuel as [|fuel]; [lia|]).
  - destruct E as (w & W & N & S & D). cbn [length Nat.mul] in *. rewrite Nat.add_0_r in *. cbn [table_loop]. rewrite D. cbn [bind].
    rewrite (f_string _ _ _ W N). cbn [bind]. destruct (str_eqb_spec w (txt "SKIP")); [contradiction|reflexivity].
  - destruct R as [R Rs]. rewrite (loop_row vec i r fuel (points rows) _ R); [destruct r; reflexivity| |reflexivity]. apply IH; [exact Rs| |cbn [length] in F; lia].
    cbn [length] in E. now replace (2 + i + 2 * length rows)%nat with (i + 2 * S (length rows))%nat by lia.
Qed.
Lemma points_read vec i rows : rows_at vec i rows -> ends vec (i + 2 * length rows) -> table_points (at_field vec i) = Ok (points rows).
Proof.
  intros R E. unfold table_points. apply loop_rows; [exact R|exact E|]. unfold at_field, at_pos. cbn [cvec]. destruct E as (w & W & N & _).
  pose proof (word_present _ _ _ W N). lia.
Qed.
(** A table that is not ended is refused. *)
Lemma loop_open vec : forall rows i fuel, rows_at vec i rows -> blank_at vec (i + 2 * length rows) -> (length rows < fuel)%nat ->
  table_loop fuel (at_field vec i) = Throw.
Proof.
  induction rows as [|r rows IH]; intros i fuel R B F; (destruct fuel as [|fuel]; [lia|]); cbn [table_loop].
  - cbn [length Nat.mul] in *. rewrite Nat.add_0_r in *. rewrite (f_isdouble_blank _ _ B). cbn [bind]. unfold nextString. rewrite next_field, trim_trim_right.
    unfold blank_at in B. rewrite B. reflexivity.
  - assert (T : table_loop fuel (at_field vec (2 + i)) = Throw).
    { apply IH; [apply R| |cbn [length] in F; lia]. cbn [length] in B. now replace (2 + i + 2 * length rows)%nat with (i + 2 * S (length rows))%nat by lia. }
    destruct R as [R _]. destruct r as [x y| |x]; cbn [row_at] in R.
    + destruct R as [X Y]. rewrite (f_isdouble _ _ _ X). cbn [bind]. rewrite (f_double _ _ _ X). cbn [bind]. rewrite (f_isdouble _ _ _ Y). cbn [bind].
      rewrite (f_double _ _ _ Y). cbn [bind]. change (2 + i)%nat with (S (S i)) in T. rewrite T. reflexivity.
    + rewrite (skip_not_double _ _ R). cbn [bind]. rewrite (f_string _ _ _ R) by discriminate. cbn [bind].
      change (str_eqb (txt "SKIP") (txt "SKIP")) with true. cbv iota. rewrite f_skipn. cbn [bind]. rewrite Nat.add_1_r. exact T.
    + destruct R as [X Y]. rewrite (f_isdouble _ _ _ X). cbn [bind]. rewrite (f_double _ _ _ X). cbn [bind]. rewrite (skip_not_double _ _ Y). cbn [bind].
      rewrite (f_string _ _ _ Y) by discriminate. cbn [bind]. change (str_eqb (txt "SKIP") (txt "SKIP")) with true. exact T.
Qed.

(** The gap between the first fields and the points: blank fields, then a field that
    is not. *)
Definition gap (vec : list str) (i j : nat) : Prop := (i <= j)%nat /\ (forall k, (i <= k < j)%nat -> blank_at vec k) /\ ~ blank_at vec j.
Lemma gap_skip vec : forall n i fuel, gap vec i (i + n) -> (n < fuel)%nat -> skipToNotEmpty fuel (at_field vec i) = Ok (at_field vec (i + n)).
Proof.
  induction n as [|n IH]; intros i fuel (_ & B & N) F; (destruct fuel as [|fuel]; [lia|]); cbn [skipToNotEmpty].
  - rewrite Nat.add_0_r in *. assert (L : (i < length vec)%nat).
    { destruct (Nat.lt_ge_cases i (length vec)) as [L|L]; [exact L|]. destruct N. unfold blank_at. now rewrite (field_beyond _ _ L). }
    rewrite (f_empty vec i L). cbn [bind]. unfold blank_at in N. destruct (trim (field vec i)); [congruence|reflexivity].
  - assert (L : (i + S n < length vec)%nat).
    { destruct (Nat.lt_ge_cases (i + S n) (length vec)) as [L|L]; [exact L|]. destruct N. unfold blank_at. now rewrite (field_beyond _ _ L). }
    rewrite (f_empty vec i) by lia. assert (B0 := B i ltac:(lia)). unfold blank_at in B0. rewrite B0. cbn [bind null]. rewrite f_skipn. cbn [bind].
    rewrite Nat.add_1_r. replace (i + S n)%nat with (S i + n)%nat in * by lia. apply IH; [|lia]. split; [lia|]. split; [|exact N]. intros k Hk. apply B. lia.
Qed.
Lemma gap_skips vec i j : gap vec i j -> skipToNotEmpty (S (length vec)) (at_field vec i) = Ok (at_field vec j).
Proof.
  intros G. pose proof G as (L & _ & N). replace j with (i + (j - i))%nat in * by lia. apply gap_skip; [exact G|].
  destruct (Nat.lt_ge_cases (i + (j - i)) (length vec)) as [H|H]; [lia|]. destruct N. unfold blank_at. now rewrite (field_beyond _ _ H).
Qed.
Lemma skipto vec i j k : gap vec i j -> skipToNotEmpty (S (length (cvec (at_field vec k)))) (at_field vec i) = Ok (at_field vec j).
Proof. intros G. unfold at_field at 1, at_pos at 1. cbn [cvec]. now apply gap_skips. Qed.
Definition axis (w : str) (i : interpolation) : Prop := (w = txt "LINEAR" /\ i = ILINEAR) \/ (w = txt "LOG" /\ i = ILOG).
Lemma axis_is w i : axis w i -> axis_of w = i.
Proof. intros [[-> ->]|[-> ->]]; reflexivity. Qed.
(** Beyond the last point: on a straight line, or as the flag of OptiStruct says. *)
Definition beyond (vec : list str) (i : nat) (r : interpolation) : Prop :=
  (blank_at vec i /\ r = ILINEAR) \/ (int_at vec i 0 /\ r = INONE) \/ (exists n, int_at vec i n /\ 0 < n /\ r = ICONSTANT).
Theorem C84_tabled1_read : forall vec id wx wy ix iy r j rows,
  int_at vec 1 id -> word_or (txt "LINEAR") vec 2 wx -> axis wx ix -> word_or (txt "LINEAR") vec 3 wy -> axis wy iy -> beyond vec 4 r ->
  gap vec 5 j -> rows_at vec j rows -> ends vec (j + 2 * length rows) ->
  parseTABLED1 (at_field vec 1) = Ok (mkTable (Some id) ix iy ILINEAR r (points rows)).
Proof.
  intros vec id wx wy ix iy r j rows H1 H2 X H3 Y B G R E. unfold parseTABLED1. rewrite (f_int _ _ _ H1). cbn [bind]. rewrite (f_worddef _ _ _ _ H2). cbn [bind].
  rewrite (f_worddef _ _ _ _ H3). cbn [bind]. rewrite (axis_is _ _ X), (axis_is _ _ Y). destruct B as [[B ->]|[[B ->]|(n & B & N & ->)]].
  - rewrite (f_isint_blank _ _ B). cbn [bind]. assert (G' : gap vec 4 j).
    { destruct G as (L & G & NB). split; [lia|]. split; [|exact NB]. intros k Hk. destruct (Nat.eq_dec k 4) as [->|]; [exact B|apply G; lia]. }
    rewrite (skipto _ _ _ _ G'). cbn [bind]. rewrite (points_read _ _ _ R E). reflexivity.
  - rewrite (f_isint _ _ _ B). cbn [bind]. rewrite (f_int _ _ _ B). cbn [bind]. rewrite (skipto _ _ _ _ G). cbn [bind]. rewrite (points_read _ _ _ R E). reflexivity.
  - rewrite (f_isint _ _ _ B). cbn [bind]. rewrite (f_int _ _ _ B). cbn [bind]. rewrite (skipto _ _ _ _ G). cbn [bind]. rewrite (points_read _ _ _ R E). cbn [bind].
    destruct (Z.eqb_spec n (-1)); [lia|]. destruct (Z.eqb_spec n 0); [lia|reflexivity].
Qed.
Theorem C84_tables1_read : forall vec id rows, int_at vec 1 id -> rows_at vec 9 rows -> ends vec (9 + 2 * length rows) ->
  parseTABLES1 (at_field vec 1) = Ok (mkTable (Some id) ILINEAR ILINEAR ILINEAR ILINEAR (points rows)).
Proof.
  intros vec id rows H1 R E. unfold parseTABLES1. rewrite (f_int _ _ _ H1). cbn [bind]. rewrite f_skipn. cbn [bind Nat.add]. now rewrite (points_read _ _ _ R E).
Qed.
Theorem C84_tabdmp1_read : forall vec sid w d j rows,
  int_at vec 1 sid -> word_or (txt "G") vec 2 w -> In (w, d) [(txt "CRIT", DCRIT); (txt "G", DG); (txt "Q", DQ)] ->
  blank_at vec 3 -> blank_at vec 4 -> gap vec 5 j -> rows_at vec j rows -> ends vec (j + 2 * length rows) ->
  exists t, parseTABDMP1 (at_field vec 1) = Ok (sid, d, t) /\ tb_points t = points rows /\ tb_x t = ILINEAR /\ tb_y t = ILINEAR.
Proof.
  intros vec sid w d j rows H1 H2 D B3 B4 G R E. exists (mkTable None ILINEAR ILINEAR INONE ICONSTANT (points rows)). split; [|repeat split].
  unfold parseTABDMP1. rewrite (f_int _ _ _ H1). cbn [bind]. rewrite (f_worddef _ _ _ _ H2). cbn [bind].
  assert (L : (4 < length vec)%nat).
  { destruct E as (e & W & N & _). pose proof (word_present _ _ _ W N). destruct G as (G & _). lia. }
  rewrite (f_empty vec 3) by lia. unfold blank_at in B3. rewrite B3. cbn [bind null]. rewrite f_skipn. cbn [bind Nat.add].
  rewrite (f_isint_blank _ _ B4). cbn [bind]. assert (G' : gap vec 4 j).
  { destruct G as (Lj & G & NB). split; [lia|]. split; [|exact NB]. intros k Hk. destruct (Nat.eq_dec k 4) as [->|]; [exact B4|apply G; lia]. }
  rewrite (skipto _ _ _ _ G'). cbn [bind]. rewrite (points_read _ _ _ R E). cbn [bind].
  destruct D as [D|[D|[D|[]]]]; injection D as <- <-; reflexivity.
Qed.
(** A table that is not ended is refused. *)
Lemma rows_fit vec : forall rows i, rows_at vec i rows -> rows <> [] -> (i + 2 * length rows < 2 + length vec)%nat.
Proof.
  induction rows as [|r rows IH]; intros i R N; [congruence|]. destruct R as [R Rs]. destruct rows as [|r' rows].
  - cbn [length]. destruct r as [x y| |x]; cbn [row_at] in R.
    + destruct R as [R _]. apply real_present in R. lia.
    + apply word_present in R; [lia|discriminate].
    + destruct R as [R _]. apply real_present in R. lia.
  - specialize (IH (2 + i)%nat Rs ltac:(discriminate)). cbn [length] in *. lia.
Qed.
Lemma points_open vec i rows : rows_at vec i rows -> blank_at vec (i + 2 * length rows) -> table_points (at_field vec i) = Throw.
Proof.
  intros R B. unfold table_points. apply (loop_open vec rows); [exact R|exact B|]. unfold at_field, at_pos. cbn [cvec].
  destruct rows as [|r rows]; [cbn; lia|]. pose proof (rows_fit _ _ _ R ltac:(discriminate)). cbn [length] in *. lia.
Qed.
Theorem C84_open_refused : forall vec id rows, int_at vec 1 id -> rows_at vec 9 rows -> blank_at vec (9 + 2 * length rows) ->
  parseTABLES1 (at_field vec 1) = Throw /\
  (rows <> [] -> (exists wx wy, word_or (txt "LINEAR") vec 2 wx /\ word_or (txt "LINEAR") vec 3 wy) -> (forall k, (4 <= k < 9)%nat -> blank_at vec k) ->
   parseTABLED1 (at_field vec 1) = Throw).
Proof.
  intros vec id rows H1 R B. split.
  - unfold parseTABLES1. rewrite (f_int _ _ _ H1). cbn [bind]. rewrite f_skipn. cbn [bind Nat.add]. now rewrite (points_open _ _ _ R B).
  - intros N (wx & wy & H2 & H3) G. unfold parseTABLED1. rewrite (f_int _ _ _ H1). cbn [bind]. rewrite (f_worddef _ _ _ _ H2). cbn [bind].
    rewrite (f_worddef _ _ _ _ H3). cbn [bind]. rewrite (f_isint_blank _ 4) by (apply G; lia). cbn [bind].
    assert (NB : ~ blank_at vec 9).
    { destruct rows as [|r rows]; [congruence|]. destruct R as [R _]. destruct r as [x y| |x]; cbn [row_at] in R.
      - exact (real_not_blank _ _ _ (proj1 R)).
      - intros X. unfold blank_at in X. unfold word_at in R. rewrite X in R. discriminate R.
      - exact (real_not_blank _ _ _ (proj1 R)). }
    assert (gap vec 4 9) as GG by (split; [lia|split; [exact G|exact NB]]). rewrite (skipto _ _ _ _ GG). cbn [bind]. now rewrite (points_open _ _ _ R B).
Qed.
(** ENDT ends a table in any case of letters. *)
Theorem C84_endt : forall vec i, word_at vec i (txt "ENDT") -> ends vec i.
Proof. exact endt_ends. Qed.

(** The straight lines through the points, continued on both sides. *)
Fixpoint line (l : list (Q * Q)) (x : Q) : Q :=
  match l with
  | [] => 0
  | (x0, y0) :: tl =>
    match tl with
    | [] => y0
    | (x1, y1) :: r => if Qle_bool x x1 || match r with [] => true | _ => false end then y0 + (y1 - y0) * (x - x0) / (x1 - x0) else line tl x
    end
  end%Q.
Definition table_line (t : table) (x : Q) : Q := line (map (fun p : decimal * decimal => (value (fst p), value (snd p))) (tb_points t)) x.
Lemma line_scale c l x : (line (map (fun p : decimal * decimal => (value (fst p), value (snd p))) (map (fun p : decimal * decimal => (fst p, dmul (snd p) c)) l)) x
  == value c * line (map (fun p : decimal * decimal => (value (fst p), value (snd p))) l) x)%Q.
Proof.
  induction l as [|[x0 y0] l IH]; [cbn; ring|]. destruct l as [|[x1 y1] l]; [cbn; rewrite value_mul; ring|].
  cbn [map fst snd] in *. cbn [line] in *. destruct l as [|[x2 y2] l]; cbn [map] in *.
  - rewrite !orb_true_r. rewrite !value_mul. unfold Qdiv. ring.
  - rewrite !orb_false_r. destruct (Qle_bool x (value x1)); [rewrite !value_mul; unfold Qdiv; ring|exact IH].
Qed.
(** Scaling a table scales the function it stands for. *)
Theorem C84_scaled : forall c t x, (table_line (table_scale c t) x == value c * table_line t x)%Q.
Proof. intros c t x. unfold table_line, table_scale. cbn [tb_points]. apply line_scale. Qed.
(** A table that is said to be zero is zero up to the tolerance at its points. *)
Theorem C84_zero : forall t, (table_is_zero t = true <-> forall x y, In (x, y) (tb_points t) -> (Qabs (value y) <= 5 # 4503599627370496)%Q).
Proof.
  intros t. unfold table_is_zero. rewrite forallb_forall. split.
  - intros H x y I. specialize (H _ I). cbn [snd] in H. unfold dec_is_zero in H. now rewrite Qle_bool_iff in H.
  - intros H [x y] I. cbn [snd]. unfold dec_is_zero. rewrite Qle_bool_iff. exact (H x y I).
Qed.

(** What DEFI_FONCTION stands for: the points two by two. *)
Fixpoint pairs (l : list decimal) : list (decimal * decimal) := match l with x :: y :: l => (x, y) :: pairs l | _ => [] end.
Theorem C84_written : forall t, pairs (ff_vale (writeFunction t)) = tb_points t /\ length (ff_vale (writeFunction t)) = (2 * length (tb_points t))%nat.
Proof.
  intros t. unfold writeFunction. cbn [ff_vale]. induction (tb_points t) as [|[x y] l [IH1 IH2]]; [split; reflexivity|]. cbn [flat_map fst snd app pairs length]. split.
  - now rewrite IH1.
  - rewrite IH2. lia.
Qed.
(** The keywords are words Code_Aster has, for the tables that are read. *)
Theorem C84_keywords : forall (parse : cursor -> outcome table) c t, In parse [parseTABLED1; parseTABLES1] -> parse c = Ok t ->
  let f := writeFunction t in
  In (fst (ff_interpol f)) (map txt ["LIN"; "LOG"]%string) /\ In (snd (ff_interpol f)) (map txt ["LIN"; "LOG"]%string) /\
  In (ff_gauche f) (map txt ["CONSTANT"; "LINEAIRE"; "EXCLU"]%string) /\ In (ff_droite f) (map txt ["CONSTANT"; "LINEAIRE"; "EXCLU"]%string).
Proof.
  intros parse c t I H. cbn in I. destruct I as [<-|[<-|[]]]; unfold parseTABLED1, parseTABLES1 in H.
  - do 3 (match type of H with (do r <- ?m; _) = Ok _ => destruct m as [[? ?]| | |]; cbn [bind] in H; try discriminate H end).
    destruct (isNextInt _) as [b| | |]; cbn [bind] in H; try discriminate H.
    match type of H with (do r <- ?m; _) = Ok _ => destruct m as [[fl ?]| | |]; cbn [bind] in H; try discriminate H end.
    destruct (skipToNotEmpty _ _); cbn [bind] in H; try discriminate H. destruct (table_points _); cbn [bind] in H; try discriminate H. injection H as <-.
    unfold writeFunction. cbn [ff_interpol fst snd ff_gauche ff_droite tb_x tb_y tb_left tb_right]. unfold axis_of.
    repeat split; repeat match goal with |- context [if ?b then _ else _] => destruct b end; cbn [interpol_name prolongement_name map In]; tauto.
  - match type of H with (do r <- ?m; _) = Ok _ => destruct m as [[? ?]| | |]; cbn [bind] in H; try discriminate H end.
    destruct (skip _ _); cbn [bind] in H; try discriminate H. destruct (table_points _); cbn [bind] in H; try discriminate H. injection H as <-.
    cbn. tauto.
Qed.

(** Read as Code_Aster reads it, the keyword says what the table does beyond its
    points: the line goes on, the last value holds, or the value is refused. *)
Definition prolongation (w : str) : option interpolation :=
  if str_eqb w (txt "LINEAIRE") then Some ILINEAR else if str_eqb w (txt "CONSTANT") then Some ICONSTANT
  else if str_eqb w (txt "EXCLU") then Some INONE else None.
Theorem C84_beyond_written : forall (t : table), tb_left t <> ILOG -> tb_right t <> ILOG ->
  prolongation (ff_gauche (writeFunction t)) = Some (tb_left t) /\ prolongation (ff_droite (writeFunction t)) = Some (tb_right t).
Proof. intros t L R. unfold writeFunction. cbn [ff_gauche ff_droite]. destruct (tb_left t), (tb_right t); congruence || (split; reflexivity). Qed.
Example C84_beyond_case : exists t, parseTABLED1 (at_field (map txt ["TABLED1"; "5"; ""; ""; "1"; ""; ""; ""; ""; "0."; "1.5"; "10."; "2."; "ENDT"]%string) 1) = Ok t /\
  tb_left t <> ILOG /\ tb_right t = ICONSTANT /\ ff_droite (writeFunction t) = txt "CONSTANT".
Proof. eexists. split; [vm_compute; reflexivity|]. repeat split; try discriminate. Qed.

(** *** Damping *)
(** The critical damping ratio a number stands for: itself; half of the structural
    damping G; half the inverse of the amplification Q. *)
Definition critical (d : damping) (x : Q) : Q := match d with DCRIT => x | DG => x / 2 | DQ => 1 / (2 * x) end%Q.
Theorem C84_critical_written : forall t y, tb_points t <> [] -> (forall x z, In (x, z) (tb_points t) -> z = y) ->
  exists g, writeModalDamping DCRIT t = Ok (g, false) /\ g = critical DCRIT (value y).
Proof.
  intros t y N H. unfold writeModalDamping. destruct (tb_points t) as [|[x0 y0] l] eqn:E; [congruence|]. cbn [gamma].
  assert (y0 = y) as -> by (apply (H x0); now left). eexists. split; [|reflexivity]. f_equal. f_equal. rewrite <- not_true_iff_false. intros X. apply existsb_exists in X.
  destruct X as ([x z] & I & X). apply H in I. subst z. cbn [snd] in X. change dec_q with value in X. apply negb_true_iff in X.
  rewrite <- not_true_iff_false in X. apply X. unfold near. rewrite Qle_bool_iff. assert (Qabs (value y - value y) == 0)%Q as -> by (setoid_replace (value y - value y)%Q with 0%Q by ring; reflexivity).
  destruct (qmax_bounds 1 (qmax (Qabs (value y)) (Qabs (value y)))) as (M & _). lra.
Qed.
(** A constant damping given as G or as Q: another damping is written, and it is
    announced as not constant. *)
Definition constant_table (y : decimal) : table := mkTable None ILINEAR ILINEAR INONE ICONSTANT [((0, 0), y); ((100, 0), y)].
Theorem C84_structural_refuted : exists y g warned, writeModalDamping DG (constant_table y) = Ok (g, warned) /\ ~ (g == critical DG (value y))%Q /\ warned = true.
Proof. exists (4, -2). do 2 eexists. split; [vm_compute; reflexivity|]. split; [vm_compute; discriminate|reflexivity]. Qed.
Theorem C84_amplification_refuted : exists y g warned, writeModalDamping DQ (constant_table y) = Ok (g, warned) /\ ~ (g == critical DQ (value y))%Q /\ warned = true.
Proof. exists (25, 0). do 2 eexists. split; [vm_compute; reflexivity|]. split; [vm_compute; discriminate|reflexivity]. Qed.
(** For Code_Aster a damping G is doubled instead of halved, and the function to
    combine has a name that no function has. *)
Theorem C84_aster_structural_refuted : forall analysis, exists c name, writeDampingCoef DG analysis = Ok (c, name) /\
  name <> function_name analysis /\ (forall y, c * value y == 4 * critical DG (value y))%Q /\
  forall y, ~ (value y == 0)%Q -> ~ (c * value y == critical DG (value y))%Q.
Proof.
  intros analysis. do 2 eexists. split; [reflexivity|]. split; [|split].
  - intros E. apply (f_equal (@length ascii)) in E. unfold function_name in E. rewrite app_length in E. cbn in E. lia.
  - intros y. cbn [critical]. field.
  - intros y N. cbn [critical]. intros H. apply N. assert (value y / 2 == (1 # 2) * value y)%Q as K by (field). rewrite K in H. lra.
Qed.
Theorem C84_aster_critical : forall analysis, exists name, writeDampingCoef DCRIT analysis = Ok (1%Q, name) /\ name = function_name analysis.
Proof. intros analysis. eexists. split; reflexivity. Qed.
Example C84_case :
  let vec := map txt ["TABLED1"; "5"; ""; "LOG"; ""; ""; ""; ""; ""; "0."; "1.5"; "SKIP"; "7."; "10."; "2."; "ENDT"]%string in
  int_at vec 1 5 /\ word_or (txt "LINEAR") vec 2 (txt "LINEAR") /\ word_or (txt "LINEAR") vec 3 (txt "LOG") /\ beyond vec 4 ILINEAR /\ gap vec 5 9 /\
  rows_at vec 9 [Point (0, -0) (15, -1); SkipX; Point (10, 0) (2, 0)] /\ ends vec 15 /\
  parseTABLED1 (at_field vec 1) = Ok (mkTable (Some 5) ILINEAR ILOG ILINEAR ILINEAR [((0, 0), (15, -1)); ((10, 0), (2, 0))]) /\
  parseTABDMP1 (at_field (map txt ["TABDMP1"; "7"; "CRIT"; ""; ""; ""; ""; ""; ""; "0."; "0.03"; "1000."; "0.03"; "ENDT"]%string) 1) =
    Ok (7, DCRIT, mkTable None ILINEAR ILINEAR INONE ICONSTANT [((0, 0), (3, -2)); ((1000, 0), (3, -2))]) /\
  parseTABLES1 (at_field (map txt ["TABLES1"; "7"; ""; ""; ""; ""; ""; ""; ""; "0."; "0."; "1.-3"; "210."; ""]%string) 1) = Throw.
Proof.
  cbv zeta. split; [an_int|]. split; [right; split; [vm_compute; reflexivity|reflexivity]|]. split; [left; split; [vm_compute; reflexivity|discriminate]|].
  split; [left; split; vm_compute; reflexivity|]. split.
  { split; [lia|]. split; [|vm_compute; discriminate]. intros k Hk. assert (k = 5 \/ k = 6 \/ k = 7 \/ k = 8)%nat as K by lia.
    destruct K as [-> | [-> | [-> | ->]]]; vm_compute; reflexivity. }
  split; [repeat split|]. split; [apply endt_ends; vm_compute; reflexivity|]. repeat (split; [vm_compute; reflexivity|]). vm_compute. reflexivity.
Qed.

Print Assumptions C82_eigrl_read.
Print Assumptions C82_eigr_read.
Print Assumptions C82_method_refused.
Print Assumptions C82_eigb_read.
Print Assumptions C82_eigb_norm_refuted.
Print Assumptions C82_unknown_norm_refuted.
Print Assumptions C82_eigc_read.
Print Assumptions C82_eigc_refused.
Print Assumptions C82_bounded.
Print Assumptions C82_no_sentinel.
Print Assumptions C82_modes_partial.
Print Assumptions C82_modes_refuted.
Print Assumptions C82_norm_written.
Print Assumptions C82_systus_window.
Print Assumptions C82_systus_count.
Print Assumptions C83_freq_read.
Print Assumptions C83_freq1_read.
Print Assumptions C83_freq1_written.
Print Assumptions C83_freq1_systus.
Print Assumptions C83_range_reaches_end.
Print Assumptions C83_freq3_read.
Print Assumptions C83_freq3_refused.
Print Assumptions C83_freq4_read.
Print Assumptions C83_interpolated_refuted.
Print Assumptions C83_interpolated_near.
Print Assumptions C84_tabled1_read.
Print Assumptions C84_tables1_read.
Print Assumptions C84_tabdmp1_read.
Print Assumptions C84_open_refused.
Print Assumptions C84_endt.
Print Assumptions C84_scaled.
Print Assumptions C84_zero.
Print Assumptions C84_written.
Print Assumptions C84_keywords.
Print Assumptions C84_critical_written.
Print Assumptions C84_structural_refuted.
Print Assumptions C84_amplification_refuted.
Print Assumptions C84_aster_structural_refuted.
Print Assumptions C84_aster_critical.
Print Assumptions C82_cutoff.
Print Assumptions C84_beyond_written.
