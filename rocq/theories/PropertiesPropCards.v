(** Cards of properties: beams and rods (C77), shells, solids and composites
    (C78), bushes and concentrated masses (C79). *)
From Coq Require Import Ascii String ZArith QArith Qpower Qabs Qminmax Lqa List Bool Arith Lia.
From Verif Require Import Base DofModel TextModel TextProofs TokenizerModel NextIntsProofs RealModel CardModel CardProofs WriterLineModel WriterRealProofs
  GridModel LoadCardModel FieldProofs PropertiesGrid PropertiesLoadCards PropCardModel.
From Verif Require SectionModel.
Import ListNotations.
Open Scope Z_scope.
Open Scope list_scope.

(** A real that may be missing. *)
Definition real_opt (vec : list str) (i : nat) (v : option decimal) : Prop :=
  match v with Some v => real_at vec i v | None => blank_at vec i end.
Lemma f_optdouble vec i v : real_opt vec i v -> optional_double (at_field vec i) = Ok (v, at_field vec (S i)).
Proof.
  intros H. unfold optional_double. rewrite next_field, trim_trim_right. destruct v as [v|]; cbn [real_opt] in H.
  - assert (N := real_not_blank _ _ _ H). unfold blank_at in N. destruct (trim (field vec i)) eqn:E; [congruence|]. cbn [null].
    rewrite real_trim. unfold real_at in H. now rewrite H.
  - unfold blank_at in H. now rewrite H.
Qed.
Lemma f_zeros vec n : forall i, (forall j, (i <= j)%nat -> blank_at vec j) -> reals n (at_field vec i) = Ok (repeat dzero n, at_field vec (i + n)).
Proof.
  induction n as [|n IH]; intros i H; cbn [reals repeat]; [now rewrite Nat.add_0_r|].
  rewrite (f_doubledef (0, 0) vec i dzero) by (right; split; [apply H; lia|reflexivity]). cbn [bind].
  rewrite IH by (intros j Hj; apply H; lia). cbn [bind]. now replace (S i + n)%nat with (i + S n)%nat by lia.
Qed.
Definition far (x : Q) : Prop := ((1 # 100000000000000) < x \/ x < - (1 # 100000000000000))%Q.
Lemma far_not_zero d : far (value d) -> dec_is_zero d = false.
Proof.
  intros H. destruct (dec_is_zero d) eqn:E; [|reflexivity]. exfalso. unfold dec_is_zero in E. rewrite Qle_bool_iff in E.
  change (dec_q d) with (value d) in E. destruct H as [H|H].
  - rewrite Qabs_pos in E by lra. lra.
  - rewrite Qabs_neg in E by lra. lra.
Qed.
Lemma zero_is_zero d : (value d == 0)%Q -> dec_is_zero d = true.
Proof. intros H. unfold dec_is_zero. change (dec_q d) with (value d). rewrite Qle_bool_iff, H. cbn. lra. Qed.

(** ** C77: beams and rods *)
(** The stiffness factor of shear along one axis: none given, no shear flexibility
    (0); otherwise the inverse of the area factor of the card. *)
Definition shear_is (k : option decimal) (f : option Q) : Prop :=
  match k with
  | None => exists q, f = Some q /\ (q == 0)%Q
  | Some k => far (value k) -> exists q, f = Some q /\ (q * value k == 1)%Q
  end.
Lemma inv_is k : shear_is k (inv_factor k).
Proof.
  destruct k as [k|]; cbn [shear_is inv_factor].
  - intros F. rewrite (far_not_zero k F). eexists. split; [reflexivity|]. change (dec_q k) with (value k).
    rewrite Qmult_comm. apply Qmult_inv_r. intros E. destruct F as [F|F]; rewrite E in F; lra.
  - exists 0%Q. split; reflexivity.
Qed.
(** The stress points: both ends of each of the four points of the card that is
    not the centre. *)
Lemma recovery_in l e y z : In (e, y, z) (recovery l) <->
  exists n, nth_error l (2 * n) = Some y /\ nth_error l (2 * n + 1) = Some z /\ dec_is_zero y && dec_is_zero z = false.
Proof.
  revert e y z. assert (G : forall m l, (length l <= m)%nat -> forall e y z, In (e, y, z) (recovery l) <->
    exists n, nth_error l (2 * n) = Some y /\ nth_error l (2 * n + 1) = Some z /\ dec_is_zero y && dec_is_zero z = false); [|intros; eapply G; reflexivity].
  induction m as [|m IH]; intros k L e y z.
  - destruct k; [|cbn in L; lia]. split; [intros []|]. intros (n & H & _). apply nth_error_In in H. destruct H.
  - destruct k as [|y0 [|z0 r]].
    + split; [intros []|]. intros (n & H & _). apply nth_error_In in H. destruct H.
    + cbn [recovery]. split; [intros []|]. intros (n & _ & H & _). assert (2 * n + 1 < length [y0])%nat as G by (apply nth_error_Some; congruence). cbn [length] in G. lia.
    + cbn [recovery]. rewrite in_app_iff, (IH r) by (cbn in L; lia). split.
      * intros [H|(n & H1 & H2 & H3)].
        -- exists 0%nat. cbn [Nat.mul nth_error Nat.add]. destruct (dec_is_zero y0 && dec_is_zero z0) eqn:E; [destruct H|].
           destruct H as [H|[H|[]]]; inversion H; subst; auto.
        -- exists (S n). replace (2 * S n)%nat with (S (S (2 * n))) by lia. cbn [nth_error Nat.add]. auto.
      * intros (n & H1 & H2 & H3). destruct n as [|n].
        -- cbn in H1, H2. inversion H1; inversion H2; subst. rewrite H3. left. destruct e; cbn; auto.
        -- right. exists n. replace (2 * S n)%nat with (S (S (2 * n))) in H1, H2 by lia. cbn [nth_error Nat.add] in H1, H2. auto.
Qed.

(** PBAR.  Partial: the shear factors only when the two area factors are equal
    (see C77_bar_shear_refuted), and the product of inertia is ignored. *)
Theorem C77_bar_read_partial : forall vec pid mid a i1 i2 j nsm l k1 k2 i12,
  int_at vec 1 pid -> int_at vec 2 mid -> real_at vec 3 a -> real_or dzero vec 4 i1 -> real_or dzero vec 5 i2 -> real_or dzero vec 6 j ->
  real_or dzero vec 7 nsm -> length l = 8%nat -> (forall n, (n < 8)%nat -> real_or dzero vec (9 + n) (nth n l dzero)) ->
  real_opt vec 17 k1 -> real_opt vec 18 k2 -> real_or dzero vec 19 i12 ->
  exists b, parsePBAR (at_field vec 1) = Ok b /\ bm_id b = Some pid /\ bm_mat b = mid /\ bm_area b = a /\ bm_iz b = Moment i1 /\ bm_iy b = Moment i2 /\
    bm_j b = j /\ bm_nsm b = nsm /\ bm_model b = TIMOSHENKO /\
    (k1 = k2 -> shear_is k1 (bm_shear_y b) /\ shear_is k2 (bm_shear_z b)) /\
    (forall e y z, (far (value y) \/ far (value z)) ->
       (In (e, y, z) (bm_recovery b) <-> exists n, (n < 4)%nat /\ nth (2 * n) l dzero = y /\ nth (2 * n + 1) l dzero = z)) /\
    (forall e y z, In (e, y, z) (bm_recovery b) -> ~ ((value y == 0)%Q /\ (value z == 0)%Q)).
Proof.
  intros vec pid mid a i1 i2 j nsm l k1 k2 i12 H1 H2 H3 H4 H5 H6 H7 L H9 K1 K2 K3.
  assert (R : parsePBAR (at_field vec 1) = Ok (mkBeam (Some pid) mid a (Moment i2) (Moment i1) j (inv_factor k2) (inv_factor k1) TIMOSHENKO nsm (recovery l))).
  { unfold parsePBAR. rewrite (f_int _ _ _ H1). cbn [bind]. rewrite (f_int _ _ _ H2). cbn [bind]. rewrite (f_double _ _ _ H3). cbn [bind].
    rewrite (f_doubledef _ _ _ _ H4). cbn [bind]. rewrite (f_doubledef _ _ _ _ H5). cbn [bind]. rewrite (f_doubledef _ _ _ _ H6). cbn [bind].
    rewrite (f_doubledef _ _ _ _ H7). cbn [bind].
    destruct (isEmptyUntilNextKeyword (at_field vec 8)) eqn:E; cbn [negb].
    - assert (B := until_true _ _ E). cbn [bind]. rewrite (f_zeros vec 8 8 B). cbn [bind]. change (8 + 8)%nat with 16%nat.
      rewrite (f_optdouble vec 16 None) by (cbn; apply B; lia). cbn [bind]. rewrite (f_optdouble vec 17 None) by (cbn; apply B; lia). cbn [bind].
      rewrite (f_doubledef dzero vec 18 dzero) by (right; split; [apply B; lia|reflexivity]). cbn [bind].
      assert (k1 = None) as ->. { destruct k1; [|reflexivity]. cbn in K1. destruct (real_not_blank _ _ _ K1). apply B. lia. }
      assert (k2 = None) as ->. { destruct k2; [|reflexivity]. cbn in K2. destruct (real_not_blank _ _ _ K2). apply B. lia. }
      assert (l = repeat dzero 8) as ->; [|reflexivity].
      apply nth_ext with dzero dzero; [now rewrite repeat_length|]. intros n Hn. rewrite nth_repeat. rewrite L in Hn.
      apply (real_or_blank _ _ _ _ (H9 n Hn)). apply B. lia.
    - rewrite f_skipn. cbn [bind]. change (8 + 1)%nat with 9%nat. pose proof (f_reals vec l 9) as FR. assert (L' : @List.length (Z * Z) l = 8%nat) by exact L. rewrite L' in FR. rewrite FR by exact H9. cbn [bind].
      change (9 + 8)%nat with 17%nat. rewrite (f_optdouble _ _ _ K1). cbn [bind]. rewrite (f_optdouble _ _ _ K2). cbn [bind].
      rewrite (f_doubledef _ _ _ _ K3). reflexivity. }
  eexists. split; [exact R|]. cbn [bm_id bm_mat bm_area bm_iz bm_iy bm_j bm_nsm bm_model bm_shear_y bm_shear_z bm_recovery].
  do 8 (split; [reflexivity|]). split; [intros ->; split; apply inv_is|]. split.
  - intros e y z F. rewrite recovery_in. split.
    + intros (n & Y & Z & _). exists n. assert ((2 * n + 1 < length l)%nat) by (apply nth_error_Some; congruence).
      split; [lia|]. split; now apply nth_error_nth.
    + intros (n & N & Y & Z). exists n. split; [rewrite <- Y; apply nth_error_nth'; lia|]. split; [rewrite <- Z; apply nth_error_nth'; lia|].
      destruct F as [F|F]; rewrite (far_not_zero _ F); [reflexivity|apply andb_false_r].
  - intros e y z In' [Y Z]. rewrite recovery_in in In'. destruct In' as (n & _ & _ & G). rewrite (zero_is_zero _ Y), (zero_is_zero _ Z) in G. discriminate.
Qed.
(** Plane 1 of a beam is its xy plane: the area factor K1 is that of the shear
    along y.  The reader gives it to the shear along z. *)
Definition pbar_card : list str :=
  map txt ["PBAR"; "7"; "3"; "2."; "5."; "6."; "9."; ".5"; ""; "1."; "2."; ""; ""; ""; ""; ""; ""; ".5"; ".25"]%string.
Theorem C77_bar_shear_refuted : exists vec b k1 k2, real_at vec 17 k1 /\ real_at vec 18 k2 /\ far (value k1) /\ far (value k2) /\
  parsePBAR (at_field vec 1) = Ok b /\ ~ shear_is (Some k1) (bm_shear_y b) /\ ~ shear_is (Some k2) (bm_shear_z b).
Proof.
  exists pbar_card. let v := eval vm_compute in (parsePBAR (at_field pbar_card 1)) in match v with Ok ?r => exists r end.
  exists (5, -1), (25, -2). split; [reflexivity|]. split; [reflexivity|]. split; [left; reflexivity|]. split; [left; reflexivity|].
  split; [vm_compute; reflexivity|]. cbn [bm_shear_y bm_shear_z shear_is]. split.
  - intros H. destruct H as (q & E & F); [left; reflexivity|]. inversion E; subst q. vm_compute in F. discriminate.
  - intros H. destruct H as (q & E & F); [left; reflexivity|]. inversion E; subst q. vm_compute in F. discriminate.
Qed.
(** The product of inertia I12 changes nothing. *)
Theorem C77_bar_product_refuted : exists v1 v2 b, real_at v1 19 (0, 0) /\ real_at v2 19 (3, 0) /\
  parsePBAR (at_field v1 1) = Ok b /\ parsePBAR (at_field v2 1) = Ok b.
Proof.
  exists (pbar_card ++ [txt "0."]), (pbar_card ++ [txt "3."]).
  let v := eval vm_compute in (parsePBAR (at_field pbar_card 1)) in match v with Ok ?r => exists r end.
  split; [reflexivity|]. split; [reflexivity|]. split; vm_compute; reflexivity.
Qed.

(** PBARL and PBEAML. *)
Definition shape_word (k : SectionModel.shape) : string * nat :=
  match k with SectionModel.BAR => ("BAR"%string, 2%nat) | SectionModel.ROD => ("ROD"%string, 1%nat) | SectionModel.TUBE => ("TUBE"%string, 2%nat) | SectionModel.I => ("I"%string, 6%nat) end.
Lemma f_required vec : forall l i, (forall n, (n < length l)%nat -> real_at vec (i + n) (nth n l dzero)) ->
  required_reals (length l) (at_field vec i) = Ok (l, at_field vec (i + length l)).
Proof.
  induction l as [|x l IH]; intros i H; cbn [length required_reals]; [now rewrite Nat.add_0_r|].
  rewrite (f_double vec i x). 2:{ specialize (H 0%nat). rewrite Nat.add_0_r in H. apply H. cbn. lia. }
  cbn [bind]. rewrite IH. 2:{ intros j Hj. specialize (H (S j)). replace (S i + j)%nat with (i + S j)%nat by lia. apply H. cbn. lia. }
  cbn [bind]. now replace (S i + length l)%nat with (i + S (length l))%nat by lia.
Qed.
Theorem C77_shape_read : forall vec pid mid k dims nsm,
  int_at vec 1 pid -> int_at vec 2 mid -> (blank_at vec 3 \/ word_at vec 3 (txt "MSCBML0")) -> word_at vec 4 (txt (fst (shape_word k))) ->
  length dims = snd (shape_word k) -> (forall n, (n < length dims)%nat -> real_at vec (9 + n) (nth n dims dzero)) ->
  real_or dzero vec (9 + length dims) nsm ->
  parsePBARL (at_field vec 1) = Ok (pid, mid, k, dims, nsm) /\ parsePBEAML (at_field vec 1) = Ok (pid, mid, k, dims, nsm).
Proof.
  intros vec pid mid k dims nsm H1 H2 H3 H4 L H9 N.
  assert (R : parsePBARL (at_field vec 1) = Ok (pid, mid, k, dims, nsm)); [|split; exact R].
  unfold parsePBARL. rewrite (f_int _ _ _ H1). cbn [bind]. rewrite (f_int _ _ _ H2). cbn [bind].
  rewrite (f_worddef (txt "MSCBML0") vec 3 (txt "MSCBML0")) by (destruct H3 as [H3|H3]; [right; auto|left; split; [exact H3|discriminate]]).
  cbn [bind]. change (str_eqb (txt "MSCBML0") (txt "MSCBML0")) with true. cbn [negb].
  rewrite (f_string vec 4 _ H4) by (destruct k; discriminate). cbn [bind].
  replace (shape_of (txt (fst (shape_word k)))) with (Some (k, length dims)) by (rewrite L; destruct k; reflexivity).
  rewrite f_skipn. cbn [bind]. change (5 + 4)%nat with 9%nat. rewrite (f_required vec dims 9 H9). cbn [bind]. rewrite (f_doubledef _ _ _ _ N). reflexivity.
Qed.
(** Other groups and other kinds of section are refused. *)
Theorem C77_shape_refused : forall vec pid mid,
  int_at vec 1 pid -> int_at vec 2 mid ->
  (~ blank_at vec 3 /\ ~ word_at vec 3 (txt "MSCBML0")) \/ (forall k, ~ word_at vec 4 (txt (fst (shape_word k)))) ->
  parsePBARL (at_field vec 1) = Throw /\ parsePBEAML (at_field vec 1) = Throw.
Proof.
  intros vec pid mid H1 H2 H. assert (R : parsePBARL (at_field vec 1) = Throw); [|split; exact R].
  unfold parsePBARL. rewrite (f_int _ _ _ H1). cbn [bind]. rewrite (f_int _ _ _ H2). cbn [bind].
  unfold nextStringDefault. rewrite next_field, trim_trim_right. cbn [bind].
  destruct (str_eqb (if null (to_upper (trim (field vec 3))) then txt "MSCBML0" else to_upper (trim (field vec 3))) (txt "MSCBML0")) eqn:E; cbn [negb]; [|reflexivity].
  destruct H as [[B W]|H].
  - exfalso. unfold blank_at in B. unfold word_at in W. destruct (trim (field vec 3)) as [|c s]; [congruence|]. cbn [to_upper map null] in E.
    apply W. match type of E with str_eqb ?a ?b = true => destruct (str_eqb_spec a b) as [Q|Q]; [exact Q|discriminate E] end.
  - unfold nextString. rewrite next_field, trim_trim_right. destruct (null (to_upper (trim (field vec 4)))); [reflexivity|]. cbn [bind].
    assert (G : shape_of (to_upper (trim (field vec 4))) = None); [|now rewrite G].
    unfold shape_of.
    repeat match goal with |- (if str_eqb ?a ?b then _ else _) = _ => destruct (str_eqb a b) eqn:?S end; try reflexivity; exfalso.
    + apply (H SectionModel.BAR). unfold word_at. match goal with G : str_eqb ?a ?b = true |- _ => destruct (str_eqb_spec a b) as [Q|Q]; [exact Q|discriminate G] end.
    + apply (H SectionModel.ROD). unfold word_at. match goal with G : str_eqb ?a ?b = true |- _ => destruct (str_eqb_spec a b) as [Q|Q]; [exact Q|discriminate G] end.
    + apply (H SectionModel.TUBE). unfold word_at. match goal with G : str_eqb ?a ?b = true |- _ => destruct (str_eqb_spec a b) as [Q|Q]; [exact Q|discriminate G] end.
    + apply (H SectionModel.I). unfold word_at. match goal with G : str_eqb ?a ?b = true |- _ => destruct (str_eqb_spec a b) as [Q|Q]; [exact Q|discriminate G] end.
Qed.

(** PBEAM.  Partial: only the section of the first end is kept, without product of
    inertia and without shear flexibility. *)
Theorem C77_beam_read_partial : forall vec pid mid a i1 i2 i12 j nsm l,
  int_at vec 1 pid -> int_at vec 2 mid -> real_or dzero vec 3 a -> real_or dzero vec 4 i1 -> real_or dzero vec 5 i2 -> real_or dzero vec 6 i12 ->
  real_or dzero vec 7 j -> real_or dzero vec 8 nsm -> length l = 8%nat -> (forall n, (n < 8)%nat -> real_or dzero vec (9 + n) (nth n l dzero)) ->
  exists b, parsePBEAM (at_field vec 1) = Ok b /\ bm_id b = Some pid /\ bm_mat b = mid /\ bm_area b = a /\ bm_iz b = Moment i1 /\ bm_iy b = Moment i2 /\
    bm_j b = j /\ bm_nsm b = nsm /\ bm_model b = EULER /\ shear_is None (bm_shear_y b) /\ shear_is None (bm_shear_z b).
Proof.
  intros vec pid mid a i1 i2 i12 j nsm l H1 H2 H3 H4 H5 H6 H7 H8 L H9. eexists. split.
  - unfold parsePBEAM. rewrite (f_int _ _ _ H1). cbn [bind]. rewrite (f_int _ _ _ H2). cbn [bind]. rewrite (f_doubledef _ _ _ _ H3). cbn [bind].
    rewrite (f_doubledef _ _ _ _ H4). cbn [bind]. rewrite (f_doubledef _ _ _ _ H5). cbn [bind]. rewrite (f_doubledef _ _ _ _ H6). cbn [bind].
    rewrite (f_doubledef _ _ _ _ H7). cbn [bind]. rewrite (f_doubledef _ _ _ _ H8). cbn [bind].
    pose proof (f_reals vec l 9) as FR. assert (L' : @List.length (Z * Z) l = 8%nat) by exact L. rewrite L' in FR. rewrite FR by exact H9. reflexivity.
  - cbn [bm_id bm_mat bm_area bm_iz bm_iy bm_j bm_nsm bm_model bm_shear_y bm_shear_z shear_is]. do 8 (split; [reflexivity|]).
    split; exists 0%Q; split; reflexivity.
Qed.
(** The area factors of PBEAM (fields 25 and 26 without intermediate stations) are lost. *)
Definition pbeam_card (k : string) : list str :=
  map txt ["PBEAM"; "7"; "3"; "2."; "5."; "6."; ""; "9."; ".5"; ""; ""; ""; ""; ""; ""; ""; ""; k; k]%string.
Theorem C77_beam_shear_refuted : exists vec b k, real_at vec 17 k /\ real_at vec 18 k /\ far (value k) /\ parsePBEAM (at_field vec 1) = Ok b /\
  ~ shear_is (Some k) (bm_shear_y b) /\ ~ shear_is (Some k) (bm_shear_z b).
Proof.
  exists (pbeam_card ".5"). let v := eval vm_compute in (parsePBEAM (at_field (pbeam_card ".5") 1)) in match v with Ok ?r => exists r end.
  exists (5, -1). split; [reflexivity|]. split; [reflexivity|]. split; [left; reflexivity|]. split; [vm_compute; reflexivity|].
  cbn [bm_shear_y bm_shear_z shear_is].
  split; intros H; (destruct H as (q & E & F); [left; reflexivity|]); inversion E; subst q; vm_compute in F; discriminate.
Qed.

(** Rods: the area, the torsion constant and the mass of the card; no bending
    stiffness acts (a truss). *)
Theorem C77_rod_read : forall vec pid mid a j c nsm,
  int_at vec 1 pid -> int_at vec 2 mid -> real_at vec 3 a -> real_or dzero vec 4 j -> real_or dzero vec 5 c -> real_or dzero vec 6 nsm ->
  exists b, parsePROD (at_field vec 1) = Ok b /\ bm_id b = Some pid /\ bm_mat b = mid /\ bm_area b = a /\ bm_j b = j /\ bm_nsm b = nsm /\ bm_model b = TRUSS /\
    bm_iy b = DiscMoment a /\ bm_iz b = DiscMoment a.
Proof.
  intros vec pid mid a j c nsm H1 H2 H3 H4 H5 H6. eexists. split.
  - unfold parsePROD. rewrite (f_int _ _ _ H1). cbn [bind]. rewrite (f_int _ _ _ H2). cbn [bind]. rewrite (f_double _ _ _ H3). cbn [bind].
    rewrite (f_doubledef _ _ _ _ H4). cbn [bind]. rewrite (f_doubledef _ _ _ _ H5). cbn [bind]. rewrite (f_doubledef _ _ _ _ H6). reflexivity.
  - repeat split; reflexivity.
Qed.
Theorem C77_conrod_read : forall vec eid g1 g2 mid a j c nsm,
  int_at vec 1 eid -> int_at vec 2 g1 -> int_at vec 3 g2 -> int_at vec 4 mid -> real_at vec 5 a -> real_or dzero vec 6 j -> real_or dzero vec 7 c ->
  real_or dzero vec 8 nsm ->
  exists b, parseCONROD (at_field vec 1) = Ok (eid, g1, g2, b) /\ bm_id b = None /\ bm_mat b = mid /\ bm_area b = a /\ bm_j b = j /\ bm_nsm b = nsm /\
    bm_model b = TRUSS.
Proof.
  intros vec eid g1 g2 mid a j c nsm H1 H2 H3 H4 H5 H6 H7 H8. eexists. split.
  - unfold parseCONROD. rewrite (f_int _ _ _ H1). cbn [bind]. rewrite (f_int _ _ _ H2). cbn [bind]. rewrite (f_int _ _ _ H3). cbn [bind].
    rewrite (f_int _ _ _ H4). cbn [bind]. rewrite (f_double _ _ _ H5). cbn [bind]. rewrite (f_doubledef _ _ _ _ H6). cbn [bind].
    rewrite (f_doubledef _ _ _ _ H7). cbn [bind]. rewrite (f_doubledef _ _ _ _ H8). reflexivity.
  - repeat split; reflexivity.
Qed.

(** Written beams.  Partial: the non structural mass and the shear flexibility are
    not written (C77_bar_rewritten_refuted). *)
Definition wok (v : wreal) : Prop := writable v /\ 0 <= snd v.
Definition moment_printed (v : wreal) (m : moment) : Prop := exists d, m = Moment d /\ printed v d.
Theorem C77_beam_written_partial : forall tie id mat area iz iy j,
  0 <= id < 10 ^ 8 -> 0 <= mat < 10 ^ 8 -> wok area -> wok iz -> wok iy -> wok j ->
  exists b, parsePBEAM (at_field (beam_keyword false :: write_beam tie id mat area iz iy j) 1) = Ok b /\ bm_id b = Some id /\ bm_mat b = mat /\
    printed area (bm_area b) /\ moment_printed iz (bm_iz b) /\ moment_printed iy (bm_iy b) /\ printed j (bm_j b).
Proof.
  intros tie id mat area iz iy j Hi Hm [A1 A2] [Z1 Z2] [Y1 Y2] [J1 J2].
  destruct (printed_real tie area A1 A2) as (a & Ra & Pa). destruct (printed_real tie iz Z1 Z2) as (z & Rz & Pz).
  destruct (printed_real tie iy Y1 Y2) as (y & Ry & Py). destruct (printed_real tie j J1 J2) as (k & Rk & Pk).
  destruct (printed_real tie (0, 0)) as (o & Ro & _); [right; reflexivity|discriminate|].
  destruct (C77_beam_read_partial (beam_keyword false :: write_beam tie id mat area iz iy j) id mat a z y o k dzero (repeat dzero 8))
    as (b & R & B1 & B2 & B3 & B4 & B5 & B6 & _).
  - apply int_text_at; [assumption|reflexivity].
  - apply int_text_at; [assumption|reflexivity].
  - left; exact Ra.
  - left; exact Rz.
  - left; exact Ry.
  - left; exact Ro.
  - left; exact Rk.
  - right; split; reflexivity.
  - reflexivity.
  - intros n Hn. right. split; [|apply nth_repeat]. unfold blank_at. rewrite field_beyond; [reflexivity|]. cbn. lia.
  - exists b. split; [exact R|]. split; [exact B1|]. split; [exact B2|]. rewrite B3. split; [exact Pa|]. split; [exists z; auto|]. split; [exists y; auto|].
    now rewrite B6.
Qed.
(** The card written for the beam a card made. *)
Definition rewrite_beam (tie : bool) (b : beam) : option (list str) :=
  match bm_id b, bm_iz b, bm_iy b with
  | Some id, Moment z, Moment y => Some (write_beam tie id (bm_mat b) (as_real (bm_area b)) (as_real z) (as_real y) (as_real (bm_j b)))
  | _, _, _ => None
  end.
Theorem C77_bar_rewritten_refuted : exists vec b fields b', parsePBAR (at_field vec 1) = Ok b /\ rewrite_beam false b = Some fields /\
  parsePBEAM (at_field (beam_keyword false :: fields) 1) = Ok b' /\
  ~ (value (bm_nsm b) == 0)%Q /\ (value (bm_nsm b') == 0)%Q /\
  shear_is (Some (5, -1)) (bm_shear_z b) /\ ~ shear_is (Some (5, -1)) (bm_shear_z b').
Proof.
  exists pbar_card. let v := eval vm_compute in (parsePBAR (at_field pbar_card 1)) in match v with Ok ?r => exists r;
    let f := eval vm_compute in (rewrite_beam false r) in match f with Some ?f => exists f;
      let w := eval vm_compute in (parsePBEAM (at_field (beam_keyword false :: f) 1)) in match w with Ok ?s => exists s end end end.
  split; [vm_compute; reflexivity|]. split; [vm_compute; reflexivity|]. split; [vm_compute; reflexivity|]. split; [vm_compute; discriminate|].
  split; [vm_compute; reflexivity|]. cbn [bm_shear_z shear_is]. split.
  - intros _. eexists. split; [reflexivity|vm_compute; reflexivity].
  - intros H. destruct H as (q & E & F); [left; reflexivity|]. inversion E; subst q. vm_compute in F. discriminate.
Qed.
(** The PBAR written for Cosmic has the fields of PBEAM: the torsion constant is
    read back as the non structural mass. *)
Theorem C77_cosmic_bar_refuted : exists id mat area iz iy j b,
  wok area /\ wok iz /\ wok iy /\ wok j /\ fst j <> 0 /\
  parsePBAR (at_field (beam_keyword true :: write_beam false id mat area iz iy j) 1) = Ok b /\
  (value (bm_j b) == 0)%Q /\ printed j (bm_nsm b).
Proof.
  exists 7, 3, (200000000000, 11), (500000000000, 11), (600000000000, 11), (900000000000, 11).
  let v := eval vm_compute in (parsePBAR (at_field (beam_keyword true :: write_beam false 7 3 (200000000000, 11) (500000000000, 11) (600000000000, 11) (900000000000, 11)) 1)) in
  match v with Ok ?r => exists r end.
  split; [split; [left; exists 11; repeat split; vm_compute; congruence|discriminate]|].
  split; [split; [left; exists 11; repeat split; vm_compute; congruence|discriminate]|].
  split; [split; [left; exists 11; repeat split; vm_compute; congruence|discriminate]|].
  split; [split; [left; exists 11; repeat split; vm_compute; congruence|discriminate]|].
  split; [discriminate|]. split; [vm_compute; reflexivity|]. split; [reflexivity|].
  left. exists 11. split; [repeat split; vm_compute; congruence|]. split; vm_compute; congruence.
Qed.
(** What is printed for a rod is not a card, whatever the address. *)
Theorem C77_rod_written_refuted : exists id mat area j, fst area <> 0 /\
  forall digits, firstn 4 (write_truss (txt "0x" ++ digits) id mat area j) <> txt "PROD".
Proof. exists 7, 3, (2, 0), (9, 0). split; discriminate. Qed.

(** ** C78: shells, solids, composites *)
(** PSHELL.  Partial: the other materials, the bending and shear ratios and the
    fibre distances are ignored. *)
Theorem C78_shell_read_partial : forall vec pid mid t mid2 ratio mid3 ts nsm z1 z2 mid4,
  int_at vec 1 pid -> int_at vec 2 mid -> real_or dzero vec 3 t -> int_opt vec 4 mid2 -> real_or (1, 0) vec 5 ratio -> int_opt vec 6 mid3 ->
  real_or (833333, -6) vec 7 ts -> real_or dzero vec 8 nsm -> real_opt vec 9 z1 -> real_opt vec 10 z2 -> int_opt vec 11 mid4 ->
  parsePSHELL (at_field vec 1) = Ok (mkShell pid mid t nsm dzero).
Proof.
  intros vec pid mid t mid2 ratio mid3 ts nsm z1 z2 mid4 H1 H2 H3 H4 H5 H6 H7 H8 H9 H10 H11. unfold parsePSHELL.
  rewrite (f_int _ _ _ H1). cbn [bind]. rewrite (f_int _ _ _ H2). cbn [bind]. rewrite (f_doubledef _ _ _ _ H3). cbn [bind].
  rewrite (f_optional _ _ _ H4). cbn [bind]. rewrite (f_doubledef _ _ _ _ H5). cbn [bind]. rewrite (f_optional _ _ _ H6). cbn [bind].
  rewrite (f_doubledef _ _ _ _ H7). cbn [bind]. rewrite (f_doubledef _ _ _ _ H8). cbn [bind]. rewrite (f_optdouble _ _ _ H9). cbn [bind].
  rewrite (f_optdouble _ _ _ H10). cbn [bind]. rewrite (f_optional _ _ _ H11). reflexivity.
Qed.
(** A plate without membrane (no first material) is refused, not read as another. *)
Theorem C78_bending_plate_refused : forall vec pid, int_at vec 1 pid -> blank_at vec 2 -> parsePSHELL (at_field vec 1) = Throw.
Proof.
  intros vec pid H1 H2. unfold parsePSHELL. rewrite (f_int _ _ _ H1). cbn [bind]. unfold nextInt. rewrite next_field, trim_trim_right.
  unfold blank_at in H2. rewrite H2. reflexivity.
Qed.
(** A membrane (no material for bending) is read as the shell that bends. *)
Definition pshell_card (mid2 : string) : list str := map txt ["PSHELL"; "7"; "3"; ".25"; mid2; ""; ""; ""; "2."]%string.
Theorem C78_membrane_refuted : exists v1 v2 s, int_opt v1 4 None /\ int_opt v2 4 (Some 3) /\ sh_mat s = 3 /\
  parsePSHELL (at_field v1 1) = Ok s /\ parsePSHELL (at_field v2 1) = Ok s.
Proof.
  exists (pshell_card ""), (pshell_card "3"), (mkShell 7 3 (25, -2) (2, 0) dzero).
  split; [reflexivity|]. split; [an_int|]. split; [reflexivity|]. split; vm_compute; reflexivity.
Qed.
(** Written shells.  Partial: the non structural mass is not written. *)
Theorem C78_shell_written_partial : forall tie id mat t, 0 <= id < 10 ^ 8 -> 0 <= mat < 10 ^ 8 -> wok t ->
  exists m, parse_property (txt "PSHELL") (at_field (txt "PSHELL" :: write_shell tie id mat t) 1) = Ok (inl (mkShell id mat m dzero dzero)) /\ printed t m.
Proof.
  intros tie id mat t Hi Hm [T1 T2]. destruct (printed_real tie t T1 T2) as (m & R & P). exists m. split; [|exact P].
  unfold parse_property. change (str_eqb (txt "PSHELL") (txt "PSHELL")) with true. cbv iota.
  rewrite (C78_shell_read_partial _ id mat m (Some mat) (1, 0) None (833333, -6) dzero None None None); [reflexivity|..]; try (right; split; reflexivity); try reflexivity.
  - apply int_text_at; [assumption|reflexivity].
  - apply int_text_at; [assumption|reflexivity].
  - left. exact R.
  - apply int_text_at; [assumption|reflexivity].
Qed.
Theorem C78_shell_mass_refuted : exists vec s fields s', parsePSHELL (at_field vec 1) = Ok s /\
  write_shell false (sh_id s) (sh_mat s) (as_real (sh_thickness s)) = fields /\ parsePSHELL (at_field (txt "PSHELL" :: fields) 1) = Ok s' /\
  ~ (value (sh_nsm s) == 0)%Q /\ (value (sh_nsm s') == 0)%Q.
Proof.
  exists (pshell_card ""), (mkShell 7 3 (25, -2) (2, 0) dzero). eexists.
  let w := eval vm_compute in (parsePSHELL (at_field (txt "PSHELL" :: write_shell false 7 3 (as_real (25, -2))) 1)) in match w with Ok ?s => exists s end.
  split; [vm_compute; reflexivity|]. split; [reflexivity|]. split; [vm_compute; reflexivity|]. split; [discriminate|reflexivity].
Qed.

(** PSOLID: full integration exactly for a two or three point rule with ISOP full. *)
Definition full_rule (in_ isop : str) : Prop :=
  In in_ (map txt ["TWO"; "2"; "THREE"; "3"]%string) /\ In isop (map txt ["FULL"; "1"]%string).
Lemma word_cases w l : In w (map txt l) <-> existsb (fun s => str_eqb w (txt s)) l = true.
Proof.
  rewrite existsb_exists, in_map_iff. split.
  - intros (s & <- & H). exists s. split; [exact H|]. now destruct (str_eqb_spec (txt s) (txt s)).
  - intros (s & H & E). exists s. destruct (str_eqb_spec w (txt s)); [auto|discriminate].
Qed.
Theorem C78_solid_read : forall vec pid mid cs in_ stress isop fctn,
  int_at vec 1 pid -> int_at vec 2 mid -> int_or 0 vec 3 cs -> word_or (txt "BUBBLE") vec 4 in_ -> word_or (txt "GRID") vec 5 stress ->
  word_or (txt "REDUCED") vec 6 isop -> word_or (txt "SMECH") vec 7 fctn ->
  exists s, parsePSOLID (at_field vec 1) = Ok s /\ so_id s = pid /\ so_mat s = mid /\ (so_integration s = TRIDIMENSIONAL <-> full_rule in_ isop).
Proof.
  intros vec pid mid cs in_ stress isop fctn H1 H2 H3 H4 H5 H6 H7. eexists. split.
  - unfold parsePSOLID. rewrite (f_int _ _ _ H1). cbn [bind]. rewrite (f_int _ _ _ H2). cbn [bind]. rewrite (f_intdef _ _ _ _ H3). cbn [bind].
    rewrite (f_worddef _ _ _ _ H4). cbn [bind]. rewrite (f_worddef _ _ _ _ H5). cbn [bind]. rewrite (f_worddef _ _ _ _ H6). cbn [bind].
    rewrite (f_worddef _ _ _ _ H7). reflexivity.
  - cbn [so_id so_mat so_integration]. split; [reflexivity|]. split; [reflexivity|]. unfold full_rule. rewrite !word_cases. cbn [existsb].
    unfold solid_integration. rewrite !orb_false_r.
    destruct (str_eqb_spec in_ (txt "BUBBLE")) as [->|_].
    + change (str_eqb (txt "BUBBLE") (txt "TWO")) with false. change (str_eqb (txt "BUBBLE") (txt "2")) with false.
      change (str_eqb (txt "BUBBLE") (txt "THREE")) with false. change (str_eqb (txt "BUBBLE") (txt "3")) with false.
      cbn [orb andb]. destruct (str_eqb isop (txt "REDUCED")); (split; [discriminate|intros [H _]; discriminate]).
    + cbn [andb]. destruct (str_eqb in_ (txt "TWO")), (str_eqb in_ (txt "2")), (str_eqb in_ (txt "THREE")), (str_eqb in_ (txt "3")),
        (str_eqb isop (txt "FULL")), (str_eqb isop (txt "1")); cbn [orb andb]; split; intros; auto; try discriminate;
        match goal with H : _ /\ _ |- _ => destruct H; discriminate end.
Qed.
Theorem C78_large_strain_read : forall vec pid mid stress, int_at vec 1 pid -> int_at vec 2 mid -> word_or (txt "GRID") vec 3 stress ->
  parsePLSOLID (at_field vec 1) = Ok (mkSolid pid mid TRIDIMENSIONAL).
Proof.
  intros vec pid mid stress H1 H2 H3. unfold parsePLSOLID. rewrite (f_int _ _ _ H1). cbn [bind]. rewrite (f_int _ _ _ H2). cbn [bind].
  now rewrite (f_worddef _ _ _ _ H3).
Qed.
Theorem C78_solid_written : forall id mat i, 0 <= id < 10 ^ 8 -> 0 <= mat < 10 ^ 8 ->
  parse_property (solid_keyword false) (at_field (solid_keyword false :: write_solid false id mat i) 1) = Ok (inr (mkSolid id mat i)).
Proof.
  intros id mat i Hi Hm. unfold parse_property, solid_keyword.
  change (str_eqb (txt "PSOLID") (txt "PSHELL")) with false. change (str_eqb (txt "PSOLID") (txt "PIHEX")) with false.
  change (str_eqb (txt "PSOLID") (txt "PSOLID")) with true. cbv iota.
  destruct i.
  - destruct (C78_solid_read (txt "PSOLID" :: write_solid false id mat TRIDIMENSIONAL) id mat 0 (txt "THREE") (txt "GRID") (txt "FULL") (txt "SMECH"))
      as ([a b c] & -> & E1 & E2 & E3); cbn [so_id so_mat so_integration] in *.
    + apply int_text_at; [assumption|reflexivity].
    + apply int_text_at; [assumption|reflexivity].
    + left. apply int_text_0; reflexivity.
    + left. split; [reflexivity|discriminate].
    + left. split; [reflexivity|discriminate].
    + left. split; [reflexivity|discriminate].
    + left. split; [reflexivity|discriminate].
    + cbn [bind]. subst. rewrite (proj2 E3); [reflexivity|]. split; cbn; auto.
  - destruct (C78_solid_read (txt "PSOLID" :: write_solid false id mat TRIDIMENSIONAL_SI) id mat 0 (txt "BUBBLE") (txt "GRID") (txt "REDUCED") (txt "SMECH"))
      as ([a b c] & -> & E1 & E2 & E3); cbn [so_id so_mat so_integration] in *; try (right; split; reflexivity).
    + apply int_text_at; [assumption|reflexivity].
    + apply int_text_at; [assumption|reflexivity].
    + cbn [bind]. subst. destruct c; [|reflexivity]. exfalso. destruct (proj1 E3 eq_refl) as [H _]. rewrite word_cases in H. discriminate H.
Qed.
(** The solid written for Cosmic is read back as a shell without thickness. *)
Theorem C78_cosmic_solid_refuted : exists id mat i s,
  parse_property (solid_keyword true) (at_field (solid_keyword true :: write_solid true id mat i) 1) = Ok (inl s) /\ (value (sh_thickness s) == 0)%Q.
Proof. exists 7, 3, TRIDIMENSIONAL, (mkShell 7 3 dzero dzero dzero). split; [vm_compute; reflexivity|reflexivity]. Qed.

(** PCOMP.  The plies of the card: four fields for each, from field 9.  Partial:
    every ply gives its material, thickness and angle, the offset is given, and
    each ply after the first has its four fields. *)
Definition ply_at (vec : list str) (i : nat) (p : ply) : Prop :=
  int_at vec i (ply_mat p) /\ real_at vec (i + 1) (ply_thickness p) /\ real_at vec (i + 2) (ply_angle p).
Lemma f_empty4 vec i : (i + 4 <= length vec)%nat -> isNextEmpty 4 (at_field vec i) =
  Ok (null (trim (field vec i)) && null (trim (field vec (i + 1))) && null (trim (field vec (i + 2))) && null (trim (field vec (i + 3)))).
Proof.
  intros H. rewrite at_field_pos by lia. unfold isNextEmpty, at_pos. cbn [csym cvec ccur]. destruct (Nat.leb_spec (length vec) i); [lia|].
  cbn [seq foldM]. rewrite Nat.add_0_r. rewrite !field_error by lia. reflexivity.
Qed.
Lemma plies_read vec p1 : forall l i fuel, (length l < fuel)%nat -> (i + 4 * length l = length vec)%nat \/ (l = [] /\ length vec <= i)%nat ->
  (forall n p, nth_error l n = Some p -> ply_at vec (i + 4 * n) p) -> ply_loop fuel p1 (at_field vec i) = Ok l.
Proof.
  induction l as [|p l IH]; intros i fuel F L H; (destruct fuel as [|fuel]; [lia|]); cbn [ply_loop].
  - assert (length vec <= i)%nat as E by (cbn in L; lia). unfold at_field. rewrite Nat.min_r by lia. unfold isNextEmpty, isEmptyUntilNextKeyword, at_pos.
    cbn [csym]. rewrite Nat.leb_refl. reflexivity.
  - destruct L as [L|[L _]]; [|discriminate]. cbn [length] in L, F. rewrite f_empty4 by lia.
    destruct (H 0%nat p eq_refl) as (M & T & A). rewrite Nat.mul_0_r, Nat.add_0_r in M, T, A. cbn [bind].
    assert (B := int_not_blank _ _ _ M). rewrite (until_false vec i i) by (auto; lia). unfold blank_at in B.
    destruct (trim (field vec i)) eqn:E; [congruence|]. cbn [null andb negb].
    rewrite (f_intdef _ vec i (ply_mat p)) by (now left). cbn [bind]. rewrite Nat.add_1_r in T. rewrite (f_doubledef _ vec (S i) (ply_thickness p)) by (now left). cbn [bind].
    replace (i + 2)%nat with (S (S i)) in A by lia. rewrite (f_doubledef _ vec (S (S i)) (ply_angle p)) by (now left). cbn [bind].
    rewrite f_skipn. cbn [bind]. replace (S (S (S i)) + 1)%nat with (i + 4)%nat by lia.
    rewrite (IH (i + 4)%nat fuel); [cbn [bind]; now destruct p|lia|left; lia|].
    intros n q Hq. specialize (H (S n) q Hq). now replace (i + 4 + 4 * n)%nat with (i + 4 * S n)%nat by lia.
Qed.
Lemma f_empty2 vec i : (i + 2 <= length vec)%nat -> blank_at vec i -> blank_at vec (i + 1) -> isNextEmpty 2 (at_field vec i) = Ok true.
Proof.
  intros H A B. rewrite at_field_pos by lia. unfold isNextEmpty, at_pos. cbn [csym cvec ccur]. destruct (Nat.leb_spec (length vec) i); [lia|].
  cbn [seq foldM]. rewrite Nat.add_0_r. rewrite !field_error by lia. unfold blank_at in A, B. rewrite A, B. reflexivity.
Qed.
Definition theories : list string := [""; "HILL"; "HOFF"; "TSAI"; "STRESS"; "STRAIN"; "STRN"; "LARC02"; "PUCK"; "MCT"]%string.
Definition lam_text (sym : bool) : str := if sym then txt "SYM" else [].
Theorem C78_composite_read_partial : forall vec pid z0 nsm sb ft sym p l,
  int_at vec 1 pid -> real_at vec 2 z0 -> real_or dzero vec 3 nsm -> (value nsm == 0)%Q -> real_opt vec 4 sb -> In ft (map txt theories) -> word_at vec 5 ft ->
  blank_at vec 6 -> blank_at vec 7 -> word_at vec 8 (lam_text sym) ->
  (forall n q, nth_error (p :: l) n = Some q -> ply_at vec (9 + 4 * n) q) -> (length vec = 9 + 4 * length (p :: l))%nat \/ (l = [] /\ length vec <= 13)%nat ->
  exists c, parsePCOMP (at_field vec 1) = Ok c /\ co_id c = pid /\ co_plies c = p :: l /\ (co_offset c == value z0)%Q /\
    co_option c = (if sym then LSYM else LFULL).
Proof.
  intros vec pid z0 nsm sb ft sym p l H1 H2 H3 Z H4 F H5 H6 H7 H8 P L. eexists. split.
  - unfold parsePCOMP. rewrite (f_int _ _ _ H1). cbn [bind]. rewrite (f_optdouble vec 2 (Some z0) H2). cbn [bind]. rewrite (f_doubledef _ _ _ _ H3). cbn [bind].
    rewrite (zero_is_zero _ Z). cbn [negb]. rewrite (f_optdouble _ _ _ H4). cbn [bind].
    rewrite (f_worddef [] vec 5 ft).
    2:{ unfold word_or. destruct ft as [|c s] eqn:E; [right|left; split; [exact H5|discriminate]]. split; [|reflexivity]. unfold word_at in H5. unfold blank_at.
        destruct (trim (field vec 5)); [reflexivity|discriminate]. }
    cbn [bind]. assert (known_theory ft = true) as ->.
    { unfold known_theory. apply existsb_exists. exists ft. split; [exact F|]. now destruct (str_eqb_spec ft ft). }
    cbn [negb].
    destruct (P 0%nat p eq_refl) as (M & T & A). cbn [Nat.mul Nat.add] in M, T, A.
    assert (11 < length vec)%nat as G by (apply (real_present _ _ _ A)).
    rewrite (f_empty2 vec 6) by (auto; lia). cbn [bind]. rewrite f_skipn. cbn [bind]. change (6 + 2)%nat with 8%nat.
    rewrite (f_worddef [] vec 8 (lam_text sym)).
    2:{ unfold word_or. destruct sym; [left; split; [exact H8|discriminate]|right]. split; [|reflexivity]. unfold word_at in H8. unfold blank_at.
        destruct (trim (field vec 8)); [reflexivity|discriminate]. }
    cbn [bind]. replace (laminate_of (lam_text sym) ft) with (Ok (if sym then LSYM else LFULL)) by (destruct sym; reflexivity). cbn [bind].
    rewrite (f_int _ _ _ M). cbn [bind]. rewrite (f_double _ _ _ T). cbn [bind]. rewrite (f_doubledef dzero vec 11 (ply_angle p)) by (now left). cbn [bind].
    rewrite f_skipn. cbn [bind]. change (12 + 1)%nat with 13%nat.
    rewrite (plies_read vec _ l 13).
    + cbn [bind]. reflexivity.
    + unfold at_field, at_pos. cbn [cvec]. destruct L as [L|[-> L]]; cbn [length] in *; lia.
    + destruct L as [L|[-> L]]; [left|right; auto]. cbn [length] in L. lia.
    + intros n q Hq. specialize (P (S n) q Hq). now replace (13 + 4 * n)%nat with (9 + 4 * S n)%nat by lia.
  - cbn [co_id co_plies co_offset co_option]. split; [reflexivity|]. split; [destruct p; reflexivity|]. split; reflexivity.
Qed.
(** The laminate of a symmetric composite is its own mirror image, begins with the
    plies of the card, and is twice as thick; that of another is the plies. *)
Lemma thickness_sum_acc l : forall a, (fold_left (fun s p => s + dec_q (ply_thickness p)) l a == a + thickness_sum l)%Q.
Proof.
  unfold thickness_sum. induction l as [|p l IH]; intros a; cbn [fold_left]; [ring|]. rewrite IH, (IH (0 + _)%Q). ring.
Qed.
Lemma thickness_sum_app a b : (thickness_sum (a ++ b) == thickness_sum a + thickness_sum b)%Q.
Proof. unfold thickness_sum at 1. rewrite fold_left_app. apply thickness_sum_acc. Qed.
Lemma thickness_sum_rev a : (thickness_sum (rev a) == thickness_sum a)%Q.
Proof.
  induction a as [|p a IH]; cbn [rev]; [reflexivity|]. rewrite thickness_sum_app, IH. change (p :: a) with ([p] ++ a). rewrite thickness_sum_app. ring.
Qed.
Fixpoint total (l : list ply) : Q := match l with [] => 0 | p :: r => (value (ply_thickness p) + total r)%Q end.
Lemma total_sum l : (thickness_sum l == total l)%Q.
Proof.
  induction l as [|p l IH]; cbn [total]; [reflexivity|]. rewrite <- IH. change (p :: l) with ([p] ++ l). rewrite thickness_sum_app.
  unfold thickness_sum at 1. cbn [fold_left]. change (dec_q (ply_thickness p)) with (value (ply_thickness p)). ring.
Qed.
Theorem C78_symmetric_laminate : forall l, exists f, full_layers LSYM l = Ok f /\ rev f = f /\ firstn (length l) f = l /\ length f = (2 * length l)%nat /\
  (total f == 2 * total l)%Q /\ (thickness_sum f == total f)%Q /\ full_layers LFULL l = Ok l.
Proof.
  intros l. exists (l ++ rev l). split; [reflexivity|]. split; [now rewrite rev_app_distr, rev_involutive|]. split.
  { rewrite firstn_app, Nat.sub_diag, firstn_all, firstn_O. apply app_nil_r. }
  split; [rewrite app_length, rev_length; lia|]. split; [rewrite <- !total_sum, thickness_sum_app, thickness_sum_rev; ring|]. split; [apply total_sum|reflexivity].
Qed.
(** The other laminate options are refused. *)
Theorem C78_laminate_refused : forall lam ft, In ft (map txt theories) -> lam <> [] -> lam <> txt "SYM" -> laminate_of lam ft = Throw.
Proof.
  intros lam ft F N1 N2. unfold laminate_of. destruct (str_eqb_spec lam []); [congruence|]. destruct (str_eqb_spec lam (txt "SYM")); [congruence|].
  cbn in F. repeat (destruct F as [<-|F]; [reflexivity|]). destruct F.
Qed.
(** The second ply of two, without the SOUT field: fields beyond the end of the
    card are read. *)
Definition pcomp (z0 : string) (plies : list string) : list str := map txt (["PCOMP"; "5"; z0; ""; ""; ""; ""; ""; ""]%string ++ plies).
Theorem C78_composite_end_refuted : exists vec p q, ply_at vec 9 p /\ ply_at vec 13 q /\ length vec = 16%nat /\ parsePCOMP (at_field vec 1) = UB.
Proof.
  exists (pcomp "0." ["3"; ".1"; "0."; "YES"; "3"; ".1"; "90."]%string), (mkPly 3 (1, -1) (0, 0)), (mkPly 3 (1, -1) (90, 0)).
  split; [split; [an_int|split; reflexivity]|]. split; [split; [an_int|split; reflexivity]|]. split; [reflexivity|vm_compute; reflexivity].
Qed.
(** Blank plies.  A blank thickness is that of the last ply that gave one, a blank
    angle is 0; the reader takes those of the first ply. *)
Theorem C78_ply_default_refuted : exists vec p1 p2 p3 c, ply_at vec 9 p1 /\ ply_at vec 13 p2 /\ int_at vec 17 3 /\ blank_at vec 18 /\ blank_at vec 19 /\
  parsePCOMP (at_field vec 1) = Ok c /\ co_plies c = [p1; p2; p3] /\
  ~ (value (ply_thickness p3) == value (ply_thickness p2))%Q /\ ~ (value (ply_angle p3) == 0)%Q.
Proof.
  exists (pcomp "0." ["3"; ".1"; "45."; "YES"; "3"; ".2"; "90."; "YES"; "3"; ""; ""; "YES"]%string), (mkPly 3 (1, -1) (45, 0)), (mkPly 3 (2, -1) (90, 0)), (mkPly 3 (1, -1) (45, 0)).
  match goal with |- exists _, ply_at ?v _ _ /\ _ => let w := eval vm_compute in (parsePCOMP (at_field v 1)) in match w with Ok ?c => exists c end end.
  split; [split; [an_int|split; reflexivity]|]. split; [split; [an_int|split; reflexivity]|]. split; [an_int|]. split; [reflexivity|]. split; [reflexivity|].
  split; [vm_compute; reflexivity|]. split; [reflexivity|]. split; discriminate.
Qed.
(** Without Z0 the reference plane is the middle of the laminate (the distance to
    the bottom is minus half the thickness): the reader takes plus half. *)
Theorem C78_offset_refuted : exists v1 v2 c1 c2 z, blank_at v1 2 /\ real_at v2 2 z /\ parsePCOMP (at_field v1 1) = Ok c1 /\ parsePCOMP (at_field v2 1) = Ok c2 /\
  co_plies c1 = co_plies c2 /\ co_option c1 = LFULL /\ (value z == - (total (co_plies c1) / 2))%Q /\ ~ (co_offset c1 == co_offset c2)%Q.
Proof.
  exists (pcomp "" ["3"; ".1"; "45."; "YES"; "3"; ".3"; "90."; "YES"]%string), (pcomp "-.2" ["3"; ".1"; "45."; "YES"; "3"; ".3"; "90."; "YES"]%string).
  let w := eval vm_compute in (parsePCOMP (at_field (pcomp "" ["3"; ".1"; "45."; "YES"; "3"; ".3"; "90."; "YES"]%string) 1)) in match w with Ok ?c => exists c end.
  let w := eval vm_compute in (parsePCOMP (at_field (pcomp "-.2" ["3"; ".1"; "45."; "YES"; "3"; ".3"; "90."; "YES"]%string) 1)) in match w with Ok ?c => exists c end.
  exists (-2, -1). split; [reflexivity|]. split; [reflexivity|]. split; [vm_compute; reflexivity|]. split; [vm_compute; reflexivity|]. split; [reflexivity|].
  split; [reflexivity|]. split; [reflexivity|]. discriminate.
Qed.

(** ** C79: bushes and concentrated masses *)
Lemma rest_field vec i x r : skipn i vec = x :: r -> field vec i = x /\ skipn (S i) vec = r /\ (i < length vec)%nat.
Proof.
  intros H. destruct (skipn_cons _ _ _ _ H) as [N S]. assert (i < length vec)%nat by (apply nth_error_Some; congruence).
  split; [|auto]. rewrite (field_error vec i) in N by assumption. now injection N.
Qed.
(** What one field of stiffness says: a number, nothing, or RIGID (the largest double). *)
Definition stiff_text (f : str) (v : decimal) : Prop :=
  real_of_field f = Ok v \/ (trim f = [] /\ v = (0, 0)) \/ (to_upper (trim f) = txt "RIGID" /\ v = (2 ^ 1024 - 2 ^ 971, 0)).
Definition real_text_or (d : decimal) (f : str) (v : decimal) : Prop := real_of_field f = Ok v \/ (trim f = [] /\ v = d).
(** The rows of a PBUSH card. *)
Inductive bush_row := RowK (k : list decimal) | RowB (b : list decimal) | RowGE (ge : list decimal) | RowRCV (r : list decimal) | RowUnknown (flag : str).
Definition bush_flags : list string := ["K"; "B"; "GE"; "RCV"]%string.
Definition row_text (r : bush_row) (l : list str) : Prop := exists gap flag fs, l = gap ++ flag :: fs /\ (forall f, In f gap -> trim f = []) /\
  match r with
  | RowK k => to_upper (trim flag) = txt "K" /\ length k = 6%nat /\ Forall2 stiff_text fs k
  | RowB b => to_upper (trim flag) = txt "B" /\ length b = 6%nat /\ Forall2 (real_text_or (0, 0)) fs b
  | RowGE ge => to_upper (trim flag) = txt "GE" /\ length ge = 6%nat /\ Forall2 (real_text_or (0, 0)) fs ge
  | RowRCV r => to_upper (trim flag) = txt "RCV" /\ length r = 4%nat /\ Forall2 (real_text_or (1, 0)) fs r
  | RowUnknown w => to_upper (trim flag) = w /\ w <> [] /\ ~ In w (map txt bush_flags) /\ fs = []
  end.
(** The last row of stiffness, of damping. *)
Fixpoint stiffness_given (d : list decimal) (l : list bush_row) : list decimal :=
  match l with [] => d | RowK k :: r => stiffness_given k r | _ :: r => stiffness_given d r end.
Fixpoint damping_given (d : list decimal) (l : list bush_row) : list decimal :=
  match l with [] => d | RowB b :: r => damping_given b r | _ :: r => damping_given d r end.

Lemma gap_skipped vec x r : trim x <> [] -> forall gap i fuel, (forall f, In f gap -> trim f = []) -> (length gap < fuel)%nat ->
  skipn i vec = gap ++ x :: r -> skipToNotEmpty fuel (at_field vec i) = Ok (at_field vec (i + length gap)) /\ skipn (i + length gap) vec = x :: r.
Proof.
  intros N. induction gap as [|g gap IH]; intros i fuel B F H; (destruct fuel as [|fuel]; [lia|]); cbn [skipToNotEmpty app] in *.
  - destruct (rest_field _ _ _ _ H) as (E & _ & L). rewrite (f_empty vec i L), E. cbn [bind length].
    destruct (trim x); [congruence|]. cbn [null]. rewrite Nat.add_0_r. auto.
  - destruct (rest_field _ _ _ _ H) as (E & S & L). rewrite (f_empty vec i L), E. rewrite (B g) by (now left). cbn [bind null].
    rewrite f_skipn. cbn [bind]. rewrite Nat.add_1_r. cbn [length] in *. destruct (IH (Datatypes.S i) fuel) as [A1 A2]; [intros f Hf; apply B; now right|lia|exact S|].
    replace (i + Datatypes.S (length gap))%nat with (Datatypes.S i + length gap)%nat by lia. auto.
Qed.
Lemma rigid_not_double f : to_upper (trim f) = txt "RIGID" -> forall vec i, field vec i = f -> isNextDouble (at_field vec i) = Ok false.
Proof.
  intros H vec i E. unfold isNextDouble. rewrite peek_field_at by reflexivity. rewrite E. f_equal.
  destruct (trim f) as [|c s]; [discriminate|]. cbn [to_upper map] in H. apply andb_false_iff. right.
  injection H as Hc Hs. destruct (forallb _ _) eqn:F; [|reflexivity]. exfalso. rewrite forallb_forall in F.
  assert (In c (erase_char " " (c :: s))) as I.
  { unfold erase_char. apply filter_In. split; [now left|]. clear F Hs. revert Hc. destruct c as [[] [] [] [] [] [] [] []]; vm_compute; congruence. }
  specialize (F c I). clear I Hs. revert Hc F. destruct c as [[] [] [] [] [] [] [] []]; vm_compute; congruence.
Qed.
Lemma stiff_read vec : forall fs ks i r, Forall2 stiff_text fs ks -> skipn i vec = fs ++ r ->
  bush_stiffnesses (length ks) (at_field vec i) = Ok (ks, at_field vec (i + length ks)) /\ skipn (i + length ks) vec = r.
Proof.
  intros fs ks i r F. revert i. induction F as [|f k fs ks H F IH]; intros i S; cbn [length bush_stiffnesses app] in *; [rewrite Nat.add_0_r; auto|].
  destruct (rest_field _ _ _ _ S) as (E & S' & L).
  assert (bush_stiffness (at_field vec i) = Ok (k, at_field vec (Datatypes.S i))) as ->.
  { unfold bush_stiffness. destruct H as [H|[[H ->]|[H ->]]].
    - rewrite <- E in H. rewrite (f_isdouble vec i k H). rewrite (f_empty vec i L). cbn [bind orb]. apply f_doubledef. now left.
    - rewrite <- E in H. rewrite (f_isdouble_blank vec i H). rewrite (f_empty vec i L). rewrite H. cbn [bind orb null]. apply f_doubledef. right. auto.
    - rewrite (rigid_not_double f H vec i E). rewrite (f_empty vec i L). rewrite E. cbn [bind orb].
      destruct (trim f) eqn:T; [discriminate|]. cbn [null]. rewrite (f_string vec i (txt "RIGID")); [|unfold word_at; now rewrite E, T|discriminate].
      reflexivity. }
  cbn [bind]. destruct (IH (Datatypes.S i) S') as [-> A]. cbn [bind]. replace (i + Datatypes.S (length ks))%nat with (Datatypes.S i + length ks)%nat by lia. auto.
Qed.
Lemma reals_read d vec : forall fs ks i r, Forall2 (real_text_or d) fs ks -> skipn i vec = fs ++ r ->
  exists l, reals (length ks) (at_field vec i) = Ok (l, at_field vec (i + length ks)) /\ skipn (i + length ks) vec = r /\ (d = (0, 0) -> l = ks).
Proof.
  intros fs ks i r F. revert i. induction F as [|f k fs ks H F IH]; intros i S; cbn [length reals app] in *; [rewrite Nat.add_0_r; exists []; auto|].
  destruct (rest_field _ _ _ _ S) as (E & S' & L). destruct (IH _ S') as (l & A & B & C).
  replace (i + Datatypes.S (length ks))%nat with (Datatypes.S i + length ks)%nat by lia.
  destruct H as [H|[H ->]]; rewrite <- E in H.
  - exists (k :: l). rewrite (f_doubledef (0, 0) vec i k) by (now left). cbn [bind]. rewrite A. cbn [bind]. split; [reflexivity|]. split; [exact B|].
    intros D. now rewrite (C D).
  - exists ((0, 0) :: l). rewrite (f_doubledef (0, 0) vec i (0, 0)) by (right; auto). cbn [bind]. rewrite A. cbn [bind]. split; [reflexivity|].
    split; [exact B|]. intros D. now rewrite (C D), D.
Qed.
Lemma flag_not_blank f w : to_upper (trim f) = w -> w <> [] -> trim f <> [].
Proof. intros H N E. rewrite E in H. now subst w. Qed.
Lemma rows_length rows texts : Forall2 row_text rows texts -> (length rows <= length (concat texts))%nat.
Proof.
  induction 1 as [|r l rows texts H _ IH]; [reflexivity|]. cbn [length concat]. rewrite app_length. destruct H as (g & f & fs & -> & _).
  rewrite app_length. cbn [length]. lia.
Qed.
Lemma rows_read vec tail : (forall f, In f tail -> trim f = []) -> forall rows texts i k b fuel, Forall2 row_text rows texts ->
  skipn i vec = concat texts ++ tail -> (length rows < fuel)%nat ->
  bush_loop fuel k b (at_field vec i) = Ok (stiffness_given k rows, damping_given b rows).
Proof.
  intros Tl. induction rows as [|r rows IH]; intros texts i k b fuel F S Fu; inversion F as [|r' l rows' texts' R F' E1 E2]; subst; (destruct fuel as [|fuel]; [lia|]);
    cbn [bush_loop stiffness_given damping_given].
  - cbn [concat app] in S. rewrite f_until, S. assert (forallb (fun f => null (trim f)) tail = true) as ->; [|reflexivity].
    apply forallb_forall. intros f Hf. now rewrite (Tl f Hf).
  - cbn [length] in Fu. cbn [concat] in S. destruct R as (gap & flag & fs & -> & G & R). rewrite <- !app_assoc in S. cbn [app] in S.
    assert (W : exists w, to_upper (trim flag) = w /\ w <> []).
    { destruct r; [exists (txt "K")|exists (txt "B")|exists (txt "GE")|exists (txt "RCV")|exists flag0]; (split; [apply R|try discriminate; apply R]). }
    destruct W as (w & W1 & W2). assert (N := flag_not_blank _ _ W1 W2).
    assert (isEmptyUntilNextKeyword (at_field vec i) = false) as ->.
    { rewrite f_until, S. rewrite forallb_app. cbn [forallb]. destruct (trim flag); [congruence|]. apply andb_false_r. }
    destruct (gap_skipped vec flag (fs ++ concat texts' ++ tail) N gap i (Datatypes.S (length (cvec (at_field vec i)))) G) as [-> S1]; [|rewrite S; now rewrite <- app_assoc || reflexivity|].
    { cbn [cvec at_field at_pos]. assert (length (skipn i vec) <= length vec)%nat as Q by (rewrite skipn_length; lia). rewrite S, app_length in Q. lia. }
    cbn [bind]. destruct (rest_field _ _ _ _ S1) as (E & S2 & L).
    rewrite (f_string vec _ w); [|unfold word_at; now rewrite E|exact W2]. cbn [bind].
    destruct r as [ks|bs|gs|rs|u]; rewrite W1 in R; destruct R as [-> R].
    + change (str_eqb (txt "K") (txt "K")) with true. cbv iota. destruct R as [L6 R]. rewrite <- L6.
      destruct (stiff_read vec fs ks _ _ R S2) as [-> S3]. cbn [bind]. apply (IH texts' _ ks b fuel F' S3). lia.
    + change (str_eqb (txt "B") (txt "K")) with false. change (str_eqb (txt "B") (txt "B")) with true. cbv iota. destruct R as [L6 R].
      destruct (reals_read _ vec fs bs _ _ R S2) as (l & A & S3 & C). rewrite L6 in A, S3. rewrite A. cbn [bind]. rewrite (C eq_refl). apply (IH texts' _ k bs fuel F' S3). lia.
    + change (str_eqb (txt "GE") (txt "K")) with false. change (str_eqb (txt "GE") (txt "B")) with false. change (str_eqb (txt "GE") (txt "GE")) with true. cbv iota.
      destruct R as [L6 R]. destruct (reals_read _ vec fs gs _ _ R S2) as (l & A & S3 & C). rewrite L6 in A, S3. rewrite A. cbn [bind]. apply (IH texts' _ k b fuel F' S3). lia.
    + change (str_eqb (txt "RCV") (txt "K")) with false. change (str_eqb (txt "RCV") (txt "B")) with false. change (str_eqb (txt "RCV") (txt "GE")) with false.
      change (str_eqb (txt "RCV") (txt "RCV")) with true. cbv iota.
      destruct R as [L4 R]. destruct (reals_read _ vec fs rs _ _ R S2) as (l & A & S3 & C). rewrite L4 in A, S3. rewrite A. cbn [bind]. apply (IH texts' _ k b fuel F' S3). lia.
    + destruct R as (_ & NI & ->). cbn [app] in S2. rewrite word_cases in NI. cbn [existsb bush_flags] in NI.
      destruct (str_eqb u (txt "K")); [destruct NI; reflexivity|]. destruct (str_eqb u (txt "B")); [destruct NI; reflexivity|].
      destruct (str_eqb u (txt "GE")); [destruct NI; reflexivity|]. destruct (str_eqb u (txt "RCV")); [destruct NI; reflexivity|].
      apply (IH texts' _ k b fuel F' S2). lia.
Qed.
(** PBUSH: whatever rows the card has, in any order, with blanks between them, the
    bush has the stiffnesses of its last K row and the dampings of its last B row,
    0 without such a row. *)
Theorem C79_bush_read : forall kw id pid rows texts tail,
  int_field id pid -> Forall2 row_text rows texts -> (forall f, In f tail -> trim f = []) ->
  parsePBUSH (at_field (kw :: id :: concat texts ++ tail) 1) = Ok (pid, stiffness_given (repeat (0, 0) 6) rows, damping_given (repeat (0, 0) 6) rows).
Proof.
  intros kw id pid rows texts tail Hi F T. set (vec := kw :: id :: concat texts ++ tail). unfold parsePBUSH.
  rewrite (f_int vec 1 pid) by exact Hi. cbn [bind]. rewrite (rows_read vec tail T rows texts 2 six0 six0); [reflexivity|exact F|reflexivity|].
  cbn [cvec at_field at_pos]. pose proof (rows_length _ _ F). subst vec. cbn [length]. rewrite app_length. lia.
Qed.
(** A row of stiffnesses that stops before its sixth field (allowed: the others
    are 0) is refused. *)
Theorem C79_bush_short_refuted : exists v1 v2 k, parsePBUSH (at_field (v1 ++ v2) 1) = Ok (5, k, repeat (0, 0) 6) /\
  (forall f, In f v2 -> trim f = []) /\ parsePBUSH (at_field v1 1) = Throw.
Proof.
  exists (map txt ["PBUSH"; "5"; "K"; "100."; "200."]%string), (map txt [""; ""; ""; ""]%string).
  exists [(100, 0); (200, 0); (0, 0); (0, 0); (0, 0); (0, 0)]. split; [vm_compute; reflexivity|]. split; [|vm_compute; reflexivity].
  intros f [<-|[<-|[<-|[<-|[]]]]]; reflexivity.
Qed.
(** A written bush is read back. *)
Lemma reals_written tie l : Forall wok l -> exists ms, Forall2 (fun f m => real_of_field f = Ok m) (map (real_field tie) l) ms /\ Forall2 printed l ms /\ length ms = length l.
Proof.
  induction l as [|x l IH]; intros W; [exists []; split; [constructor|split; [constructor|reflexivity]]|]. apply Forall_cons_iff in W. destruct W as [[W1 W2] W']. destruct (IH W') as (ms & A & B & C). destruct (printed_real tie x W1 W2) as (m & R & P).
  exists (m :: ms). cbn [map length]. repeat split; [constructor; auto|constructor; auto|now rewrite C].
Qed.
Theorem C79_bush_written : forall tie id k b, 0 <= id < 10 ^ 8 -> length k = 6%nat -> length b = 6%nat -> Forall wok k -> Forall wok b ->
  exists k' b', parsePBUSH (at_field (txt "PBUSH" :: write_bush tie id k b) 1) = Ok (id, k', b') /\ Forall2 printed k k' /\ Forall2 printed b b'.
Proof.
  intros tie id k b Hi Lk Lb Wk Wb. destruct (reals_written tie k Wk) as (ks & K1 & K2 & K3). destruct (reals_written tie b Wb) as (bs & B1 & B2 & B3).
  exists ks, bs. split; [|auto].
  replace (txt "PBUSH" :: write_bush tie id k b) with
    (txt "PBUSH" :: int_text id :: concat [[int_text 0]; txt "K" :: map (real_field tie) k; [] :: txt "B" :: map (real_field tie) b] ++ []).
  2:{ unfold write_bush. cbn [concat]. rewrite !app_nil_r. reflexivity. }
  rewrite (C79_bush_read _ _ id [RowUnknown (txt "0"); RowK ks; RowB bs]); [reflexivity|apply nonneg_int; exact Hi| |intros f []].
  constructor; [|constructor; [|constructor; [|constructor]]].
  - exists [], (int_text 0), []. split; [reflexivity|]. split; [intros f []|]. split; [reflexivity|]. split; [discriminate|]. split; [|reflexivity].
    rewrite word_cases. discriminate.
  - exists [], (txt "K"), (map (real_field tie) k). split; [reflexivity|]. split; [intros f []|]. split; [reflexivity|]. split; [now rewrite K3|].
    clear - K1. induction K1; constructor; auto. now left.
  - exists [[]], (txt "B"), (map (real_field tie) b). split; [reflexivity|]. split; [intros f [<-|[]]; reflexivity|]. split; [reflexivity|]. split; [now rewrite B3|].
    clear - B1. induction B1; constructor; auto. now left.
Qed.
(** The card written is not one Nastran describes: a flag must follow the number of
    the property. *)
Theorem C79_bush_layout_refuted : exists id k b, Forall wok k /\ Forall wok b /\ length k = 6%nat /\ length b = 6%nat /\
  forall tie, let f := field (txt "PBUSH" :: write_bush tie id k b) 2 in trim f <> [] /\ ~ In (to_upper (trim f)) (map txt bush_flags).
Proof.
  exists 5, (repeat (0, 0) 6), (repeat (0, 0) 6). assert (Forall wok (repeat (0, 0) 6)).
  { cbn. repeat constructor; try discriminate; now right. }
  split; [assumption|]. split; [assumption|]. split; [reflexivity|]. split; [reflexivity|]. intros tie. cbn zeta. split; [discriminate|]. rewrite word_cases. discriminate.
Qed.

(** CONM2: the products of inertia of the card are those of a mass matrix with
    -I21, -I31, -I32 off its diagonal.  Partial: IXZ and IYZ only when the card
    gives the same number for both; the system of the offset only when it is the
    basic one or there is no offset. *)
Theorem C79_mass_read_partial : forall vec eid g cid m x y z i11 i21 i22 i31 i32 i33,
  int_at vec 1 eid -> int_at vec 2 g -> int_or 0 vec 3 cid -> real_at vec 4 m -> real_or dzero vec 5 x -> real_or dzero vec 6 y -> real_or dzero vec 7 z ->
  real_or dzero vec 9 i11 -> real_or dzero vec 10 i21 -> real_or dzero vec 11 i22 -> real_or dzero vec 12 i31 -> real_or dzero vec 13 i32 -> real_or dzero vec 14 i33 ->
  exists cs n, parseCONM2 (at_field vec 1) = Ok (eid, g, cs, n) /\ nm_m n = m /\ (nm_ex n, nm_ey n, nm_ez n) = (x, y, z) /\
    nm_ixx n = i11 /\ nm_iyy n = i22 /\ nm_izz n = i33 /\ (value (nm_ixy n) == - value i21)%Q /\
    ((value i31 == value i32)%Q -> (value (nm_ixz n) == - value i31)%Q /\ (value (nm_iyz n) == - value i32)%Q) /\
    (cid = 0 \/ cid = -1 -> cs = 0) /\ (0 < cid -> (value x == 0)%Q -> (value y == 0)%Q -> (value z == 0)%Q -> cs = cid).
Proof.
  intros vec eid g cid m x y z i11 i21 i22 i31 i32 i33 H1 H2 H3 H4 H5 H6 H7 A1 A2 A3 A4 A5 A6. do 2 eexists. split.
  - unfold parseCONM2. rewrite (f_int _ _ _ H1). cbn [bind]. rewrite (f_int _ _ _ H2). cbn [bind]. rewrite (f_intdef _ _ _ _ H3). cbn [bind].
    rewrite (f_double _ _ _ H4). cbn [bind]. rewrite (f_3 _ _ _ _ _ _ H5 H6 H7). cbn [bind]. rewrite f_skipn. cbn [bind]. change (8 + 1)%nat with 9%nat.
    change 6%nat with (length [i11; i21; i22; i31; i32; i33]). rewrite f_reals.
    2:{ intros j Hj. cbn [length] in Hj. do 6 (destruct j as [|j]; [cbn [nth Nat.add]; assumption|]). lia. }
    cbn [bind fst]. reflexivity.
  - cbn [nm_m nm_ex nm_ey nm_ez nm_ixx nm_iyy nm_izz nm_ixy nm_ixz nm_iyz]. do 5 (split; [reflexivity|]). split; [apply value_neg|]. split.
    { intros E. rewrite !value_neg, E. split; reflexivity. }
    split; [intros [-> | ->]; reflexivity|]. intros C X Y W. rewrite (zero_is_zero _ X), (zero_is_zero _ Y), (zero_is_zero _ W). cbn [negb orb]. rewrite andb_false_r.
    destruct (Z.eqb_spec cid (-1)); [lia|reflexivity].
Qed.
Definition conm2_card (cid x i31 i32 : string) : list str := map txt ["CONM2"; "7"; "42"; cid; "10."; x; ""; ""; ""; "1."; ""; "2."; i31; i32; "3."]%string.
Theorem C79_mass_products_refuted : exists vec i31 i32 n cs, real_at vec 12 i31 /\ real_at vec 13 i32 /\ parseCONM2 (at_field vec 1) = Ok (7, 42, cs, n) /\
  ~ (value (nm_ixz n) == - value i31)%Q /\ ~ (value (nm_iyz n) == - value i32)%Q.
Proof.
  exists (conm2_card "" "" ".5" ".25"), (5, -1), (25, -2).
  let w := eval vm_compute in (parseCONM2 (at_field (conm2_card "" "" ".5" ".25") 1)) in match w with Ok (_, _, ?c, ?n) => exists n, c end.
  split; [reflexivity|]. split; [reflexivity|]. split; [vm_compute; reflexivity|]. split; discriminate.
Qed.
Theorem C79_mass_system_refuted : exists v1 v2 r, int_or 0 v1 3 0 /\ int_at v2 3 4 /\ real_at v1 5 (15, -1) /\ real_at v2 5 (15, -1) /\
  parseCONM2 (at_field v1 1) = Ok r /\ parseCONM2 (at_field v2 1) = Ok r.
Proof.
  exists (conm2_card "" "1.5" "" ""), (conm2_card "4" "1.5" "" "").
  let w := eval vm_compute in (parseCONM2 (at_field (conm2_card "" "1.5" "" "") 1)) in match w with Ok ?r => exists r end.
  split; [right; split; reflexivity|]. split; [an_int|]. split; [reflexivity|]. split; [reflexivity|]. split; vm_compute; reflexivity.
Qed.
(** Written masses.  Partial: the offset and the inertia are not written. *)
Theorem C79_mass_written_partial : forall tie id node m, 0 <= id < 10 ^ 8 -> 0 <= node < 10 ^ 8 -> wok m ->
  exists n, parseCONM2 (at_field (txt "CONM2" :: write_conm2 tie id node m) 1) = Ok (id, node, 0, n) /\ printed m (nm_m n).
Proof.
  intros tie id node m Hi Hn [M1 M2]. destruct (printed_real tie m M1 M2) as (v & R & P).
  destruct (C79_mass_read_partial (txt "CONM2" :: write_conm2 tie id node m) id node 0 v dzero dzero dzero dzero dzero dzero dzero dzero dzero)
    as (cs & n & E & F & _ & _ & _ & _ & _ & _ & C & _); try (right; split; reflexivity).
  - apply int_text_at; [assumption|reflexivity].
  - apply int_text_at; [assumption|reflexivity].
  - left. apply int_text_0; reflexivity.
  - exact R.
  - exists n. rewrite E, F, (C (or_introl eq_refl)). auto.
Qed.
Theorem C79_mass_rewritten_refuted : exists vec n n', parseCONM2 (at_field vec 1) = Ok (7, 42, 0, n) /\
  parseCONM2 (at_field (txt "CONM2" :: write_conm2 false 7 42 (as_real (nm_m n))) 1) = Ok (7, 42, 0, n') /\
  ~ (value (nm_ixx n) == 0)%Q /\ (value (nm_ixx n') == 0)%Q /\ ~ (value (nm_ex n) == 0)%Q /\ (value (nm_ex n') == 0)%Q.
Proof.
  exists (conm2_card "" "1.5" "" "").
  let w := eval vm_compute in (parseCONM2 (at_field (conm2_card "" "1.5" "" "") 1)) in match w with Ok (_, _, _, ?n) => exists n end.
  let w := eval vm_compute in (parseCONM2 (at_field (txt "CONM2" :: write_conm2 false 7 42 (as_real (10, 0))) 1)) in match w with Ok (_, _, _, ?n) => exists n end.
  split; [vm_compute; reflexivity|]. split; [vm_compute; reflexivity|]. split; [discriminate|]. split; [reflexivity|]. split; [discriminate|reflexivity].
Qed.

(** ** Cases *)
Definition pbeaml_card : list str := map txt ["PBEAML"; "7"; "3"; ""; "tube"; ""; ""; ""; ""; "2."; "1.5"; ".25"]%string.
Example C77_case :
  (int_at pbar_card 1 7 /\ int_at pbar_card 2 3 /\ real_at pbar_card 3 (2, 0) /\ real_or dzero pbar_card 9 (1, 0) /\ real_opt pbar_card 17 (Some (5, -1)) /\
   far (value (5, -1))) /\
  (exists b, parsePBAR (at_field pbar_card 1) = Ok b /\ bm_iz b = Moment (5, 0) /\ bm_recovery b = [(false, (1, 0), (2, 0)); (true, (1, 0), (2, 0))]) /\
  (word_at pbeaml_card 4 (txt (fst (shape_word SectionModel.TUBE))) /\ parsePBEAML (at_field pbeaml_card 1) = Ok (7, 3, SectionModel.TUBE, [(2, 0); (15, -1)], (25, -2))) /\
  parsePBARL (at_field (map txt ["PBARL"; "7"; "3"; ""; "HAT"; ""; ""; ""; ""; "2."; "1.5"; ".25"]%string) 1) = Throw /\
  (exists b, parsePBEAM (at_field (pbeam_card "") 1) = Ok b /\ bm_iy b = Moment (6, 0) /\ bm_j b = (9, 0)) /\
  (exists b, parsePROD (at_field (map txt ["PROD"; "7"; "3"; "2."; "1."; ""; ".5"]%string) 1) = Ok b /\ bm_area b = (2, 0) /\ bm_nsm b = (5, -1)) /\
  (exists b, parseCONROD (at_field (map txt ["CONROD"; "9"; "1"; "2"; "3"; "2."; "1."]%string) 1) = Ok (9, 1, 2, b) /\ bm_area b = (2, 0)) /\
  wok (250000000000, 11) /\ write_beam false 7 3 (250000000000, 11) (0, 0) (0, 0) (0, 0) = map txt ["7"; "3"; "   2.5+0"; "0."; "0."; "0."; "0."]%string.
Proof.
  split. { split; [an_int|]. split; [an_int|]. split; [reflexivity|]. split; [left; reflexivity|]. split; [reflexivity|left; reflexivity]. }
  split. { let w := eval vm_compute in (parsePBAR (at_field pbar_card 1)) in match w with Ok ?r => exists r end. split; [vm_compute; reflexivity|]. split; reflexivity. }
  split; [split; vm_compute; reflexivity|]. split; [vm_compute; reflexivity|].
  split. { let w := eval vm_compute in (parsePBEAM (at_field (pbeam_card "") 1)) in match w with Ok ?r => exists r end. split; [vm_compute; reflexivity|]. split; reflexivity. }
  split. { eexists. split; [vm_compute; reflexivity|]. split; reflexivity. }
  split. { eexists. split; [vm_compute; reflexivity|]. reflexivity. }
  split; [split; [left; exists 11; repeat split; vm_compute; congruence|discriminate]|vm_compute; reflexivity].
Qed.
Definition psolid_card : list str := map txt ["PSOLID"; "7"; "3"; ""; "two"; ""; "full"]%string.
Definition pcomp_card : list str := pcomp "-.1" ["3"; ".1"; "45."; "YES"; "4"; ".2"; "90."; "YES"]%string.
Definition two_plies : list ply := [mkPly 3 (1, -1) (45, 0); mkPly 4 (2, -1) (90, 0)].
Example C78_case :
  parsePSHELL (at_field (pshell_card "") 1) = Ok (mkShell 7 3 (25, -2) (2, 0) dzero) /\
  parsePSHELL (at_field (map txt ["PSHELL"; "7"; ""; ".25"; "3"]%string) 1) = Throw /\
  (word_or (txt "BUBBLE") psolid_card 4 (txt "TWO") /\ full_rule (txt "TWO") (txt "FULL") /\
   parsePSOLID (at_field psolid_card 1) = Ok (mkSolid 7 3 TRIDIMENSIONAL)) /\
  parsePLSOLID (at_field (map txt ["PLSOLID"; "7"; "3"]%string) 1) = Ok (mkSolid 7 3 TRIDIMENSIONAL) /\
  write_solid false 7 3 TRIDIMENSIONAL = map txt ["7"; "3"; "0"; "THREE"; "GRID"; "FULL"; "SMECH"]%string /\
  (ply_at pcomp_card 9 (mkPly 3 (1, -1) (45, 0)) /\ ply_at pcomp_card 13 (mkPly 4 (2, -1) (90, 0)) /\ length pcomp_card = 17%nat /\
   exists c, parsePCOMP (at_field pcomp_card 1) = Ok c /\ co_plies c = [mkPly 3 (1, -1) (45, 0); mkPly 4 (2, -1) (90, 0)]) /\
  (total two_plies == 3 # 10)%Q /\
  full_layers LSYM two_plies =
    Ok [mkPly 3 (1, -1) (45, 0); mkPly 4 (2, -1) (90, 0); mkPly 4 (2, -1) (90, 0); mkPly 3 (1, -1) (45, 0)] /\
  laminate_of (txt "SMEAR") (txt "HILL") = Throw.
Proof.
  split; [vm_compute; reflexivity|]. split; [vm_compute; reflexivity|].
  split. { split; [left; split; [reflexivity|discriminate]|]. split; [split; cbn; auto|vm_compute; reflexivity]. }
  split; [vm_compute; reflexivity|]. split; [vm_compute; reflexivity|].
  split. { split; [split; [an_int|split; reflexivity]|]. split; [split; [an_int|split; reflexivity]|]. split; [reflexivity|].
    let w := eval vm_compute in (parsePCOMP (at_field pcomp_card 1)) in match w with Ok ?r => exists r end. split; [vm_compute; reflexivity|reflexivity]. }
  split; [reflexivity|]. split; [reflexivity|vm_compute; reflexivity].
Qed.
Definition pbush_texts : list (list str) := [map txt ["K"; "100."; ""; "rigid"; "1.+3"; ""; ""]%string; map txt [""; "B"; "5."; ""; ""; ""; ""; "6."]%string].
Example C79_case :
  Forall2 row_text [RowK [(100, 0); (0, 0); (2 ^ 1024 - 2 ^ 971, 0); (1, 3); (0, 0); (0, 0)]; RowB [(5, 0); (0, 0); (0, 0); (0, 0); (0, 0); (6, 0)]] pbush_texts /\
  parsePBUSH (at_field (txt "PBUSH" :: txt "5" :: concat pbush_texts) 1) =
    Ok (5, [(100, 0); (0, 0); (2 ^ 1024 - 2 ^ 971, 0); (1, 3); (0, 0); (0, 0)], [(5, 0); (0, 0); (0, 0); (0, 0); (0, 0); (6, 0)]) /\
  (real_or dzero (conm2_card "" "" ".5" ".5") 12 (5, -1) /\ real_at (conm2_card "" "" ".5" ".5") 4 (10, 0) /\
   exists n, parseCONM2 (at_field (conm2_card "" "" ".5" ".5") 1) = Ok (7, 42, 0, n) /\ nm_ixz n = (-5, -1) /\ nm_iyz n = (-5, -1)) /\
  write_conm2 false 7 42 (250000000000, 11) = map txt ["7"; "42"; "0"; "   2.5+0"]%string.
Proof.
  split. { constructor; [|constructor; [|constructor]].
    - exists [], (txt "K"), (map txt ["100."; ""; "rigid"; "1.+3"; ""; ""]%string). split; [reflexivity|]. split; [intros f []|]. split; [reflexivity|]. split; [reflexivity|].
      constructor; [left; reflexivity|]. constructor; [right; left; auto|]. constructor; [right; right; auto|]. constructor; [left; reflexivity|].
      constructor; [right; left; auto|]. constructor; [right; left; auto|constructor].
    - exists [[]], (txt "B"), (map txt ["5."; ""; ""; ""; ""; "6."]%string). split; [reflexivity|]. split; [intros f [<-|[]]; reflexivity|]. split; [reflexivity|]. split; [reflexivity|].
      constructor; [left; reflexivity|]. do 4 (constructor; [right; auto|]). constructor; [left; reflexivity|constructor]. }
  split; [vm_compute; reflexivity|].
  split. { split; [left; reflexivity|]. split; [reflexivity|].
    let w := eval vm_compute in (parseCONM2 (at_field (conm2_card "" "" ".5" ".5") 1)) in match w with Ok (_, _, _, ?n) => exists n end.
    split; [vm_compute; reflexivity|]. split; reflexivity. }
  vm_compute; reflexivity.
Qed.

(** The bending inertia given to a rod is that of the disc of its area. *)
From Coq Require Import Reals Qreals Lra.
Theorem C77_rod_inertia : forall vec pid mid a j c nsm,
  int_at vec 1 pid -> int_at vec 2 mid -> real_at vec 3 a -> real_or dzero vec 4 j -> real_or dzero vec 5 c -> real_or dzero vec 6 nsm -> (0 < value a)%Q ->
  exists b r, parsePROD (at_field vec 1) = Ok b /\ (0 < r)%R /\ (PI * r ^ 2 = Q2R (value (bm_area b)))%R /\
    (moment_R (bm_iy b) = PI * r ^ 4 / 4)%R /\ (moment_R (bm_iz b) = PI * r ^ 4 / 4)%R.
Proof.
  intros vec pid mid a j c nsm H1 H2 H3 H4 H5 H6 P. destruct (C77_rod_read vec pid mid a j c nsm H1 H2 H3 H4 H5 H6) as (b & R & _ & _ & A & _ & _ & _ & Y & Z).
  assert (0 < Q2R (value a))%R as PA by (apply Qlt_Rlt in P; unfold Q2R at 1 in P; cbn in P; lra).
  assert (PP := PI_RGT_0). exists b, (sqrt (Q2R (value a) / PI))%R. rewrite A, Y, Z. unfold moment_R. change (dec_q a) with (value a).
  assert (0 < Q2R (value a) / PI)%R as D by (apply Rdiv_lt_0_compat; lra).
  assert (S2 : (sqrt (Q2R (value a) / PI) ^ 2 = Q2R (value a) / PI)%R) by (rewrite <- Rsqr_pow2; apply Rsqr_sqrt; lra).
  assert (S4 : (sqrt (Q2R (value a) / PI) ^ 4 = (Q2R (value a) / PI) ^ 2)%R) by (match goal with |- (?x ^ 4 = _)%R => replace (x ^ 4)%R with ((x ^ 2) ^ 2)%R by ring end; now rewrite S2).
  split; [exact R|]. split; [now apply sqrt_lt_R0|]. rewrite S2, S4. repeat split; field; lra.
Qed.
Example C77_rod_case : real_at (map txt ["PROD"; "7"; "3"; "2."; "1."]%string) 3 (2%Z, 0%Z) /\ (0 < value (2%Z, 0%Z))%Q.
Proof. split; reflexivity. Qed.

Print Assumptions C77_bar_read_partial.
Print Assumptions C77_bar_shear_refuted.
Print Assumptions C77_bar_product_refuted.
Print Assumptions C77_shape_read.
Print Assumptions C77_shape_refused.
Print Assumptions C77_beam_read_partial.
Print Assumptions C77_beam_shear_refuted.
Print Assumptions C77_rod_read.
Print Assumptions C77_conrod_read.
Print Assumptions C77_beam_written_partial.
Print Assumptions C77_bar_rewritten_refuted.
Print Assumptions C77_cosmic_bar_refuted.
Print Assumptions C77_rod_written_refuted.
Print Assumptions C77_rod_inertia.
Print Assumptions C78_shell_read_partial.
Print Assumptions C78_bending_plate_refused.
Print Assumptions C78_membrane_refuted.
Print Assumptions C78_shell_written_partial.
Print Assumptions C78_shell_mass_refuted.
Print Assumptions C78_solid_read.
Print Assumptions C78_large_strain_read.
Print Assumptions C78_solid_written.
Print Assumptions C78_cosmic_solid_refuted.
Print Assumptions C78_composite_read_partial.
Print Assumptions C78_symmetric_laminate.
Print Assumptions C78_laminate_refused.
Print Assumptions C78_composite_end_refuted.
Print Assumptions C78_ply_default_refuted.
Print Assumptions C78_offset_refuted.
Print Assumptions C79_bush_read.
Print Assumptions C79_bush_short_refuted.
Print Assumptions C79_bush_written.
Print Assumptions C79_bush_layout_refuted.
Print Assumptions C79_mass_read_partial.
Print Assumptions C79_mass_products_refuted.
Print Assumptions C79_mass_system_refuted.
Print Assumptions C79_mass_written_partial.
Print Assumptions C79_mass_rewritten_refuted.
