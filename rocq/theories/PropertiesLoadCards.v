(** C74: nodal forces, gravity, combinations in Nastran decks.  C75: pressures.
    C76: loads on lines. *)
From Coq Require Import Ascii String ZArith QArith Qpower Qabs Qminmax List Bool Arith Lia Lqa.
From Verif Require Import Base DofModel TextModel TextProofs TokenizerModel NextIntsProofs RealModel WriterLineModel WriterLineProofs
  PropertiesReal CardModel CardProofs PropertiesGrid LoadCardModel FieldProofs.
Import ListNotations.
Open Scope Z_scope.
Open Scope list_scope.

(** ** The number a decimal stands for *)
Definition value (d : decimal) : Q := (inject_Z (fst d) * Qpower (10 # 1) (snd d))%Q.
Lemma ten_not_0 : ~ (10 # 1 == 0)%Q.
Proof. intros H. discriminate H. Qed.
Lemma value_mul a b : (value (dmul a b) == value a * value b)%Q.
Proof.
  unfold value, dmul. cbn [fst snd]. rewrite inject_Z_mult, Qpower_plus by exact ten_not_0. ring.
Qed.
Lemma value_neg a : (value (dneg a) == - value a)%Q.
Proof. unfold value, dneg. cbn [fst snd]. rewrite inject_Z_opp. ring. Qed.
Lemma value_pos e : (0 < Qpower (10 # 1) e)%Q.
Proof. apply Qpower_0_lt. reflexivity. Qed.
Lemma value_zero d : (value d == 0)%Q <-> fst d = 0.
Proof.
  unfold value. split.
  - intros H. apply Qmult_integral in H. destruct H as [H|H]; [|pose proof (value_pos (snd d)); rewrite H in *; lra].
    destruct d as [m e]. cbn in *. unfold inject_Z, Qeq in H. cbn in H. lia.
  - intros ->. unfold inject_Z. ring.
Qed.
(** Vectors, component by component. *)
Definition vec_is (v : dvec) (x y z : Q) : Prop :=
  let '(a, b, c) := v in (value a == x)%Q /\ (value b == y)%Q /\ (value c == z)%Q.
Lemma scale_is s x y z : vec_is (dvec_scale s (x, y, z)) (value s * value x) (value s * value y) (value s * value z).
Proof. repeat split; rewrite value_mul; ring. Qed.
Lemma vec0_is : vec_is dvec0 0 0 0.
Proof. repeat split; reflexivity. Qed.

(** ** C74 Forces *)
(** A FORCE card is the force [f * (n1, n2, n3)] at its node, in its system, in
    its set; blank system: the global one; blank number: 0. *)
Theorem C74_force_read : forall vec set node cs f n1 n2 n3,
  int_at vec 1 set -> int_at vec 2 node -> int_or 0 vec 3 cs -> real_or dzero vec 4 f ->
  real_or dzero vec 5 n1 -> real_or dzero vec 6 n2 -> real_or dzero vec 7 n3 ->
  exists l, parseFORCE (at_field vec 1) = Ok l /\ nl_set l = set /\ nl_node l = node /\ nl_cs l = cs /\
    vec_is (nl_force l) (value f * value n1) (value f * value n2) (value f * value n3) /\ vec_is (nl_moment l) 0 0 0.
Proof.
  intros vec set node cs f n1 n2 n3 H1 H2 H3 H4 H5 H6 H7. eexists. split.
  { unfold parseFORCE. rewrite (f_int _ _ _ H1). cbn [bind]. rewrite (f_int _ _ _ H2). cbn [bind]. rewrite (f_intdef _ _ _ _ H3). cbn [bind].
    rewrite (f_doubledef _ _ _ _ H4). cbn [bind]. rewrite (f_3 _ _ _ _ _ _ H5 H6 H7). cbn [bind fst]. reflexivity. }
  cbn [nl_set nl_node nl_cs nl_force nl_moment]. repeat (split; [reflexivity|]). split; [apply scale_is|apply vec0_is].
Qed.
(** The same for MOMENT when no number is blank. *)
Theorem C74_moment_read_partial : forall vec set node cs f n1 n2 n3,
  int_at vec 1 set -> int_at vec 2 node -> int_or 0 vec 3 cs -> real_at vec 4 f -> real_at vec 5 n1 -> real_at vec 6 n2 -> real_at vec 7 n3 ->
  exists l, parseMOMENT (at_field vec 1) = Ok l /\ nl_set l = set /\ nl_node l = node /\ nl_cs l = cs /\
    vec_is (nl_moment l) (value f * value n1) (value f * value n2) (value f * value n3) /\ vec_is (nl_force l) 0 0 0.
Proof.
  intros vec set node cs f n1 n2 n3 H1 H2 H3 H4 H5 H6 H7. eexists. split.
  { unfold parseMOMENT. rewrite (f_int _ _ _ H1). cbn [bind]. rewrite (f_int _ _ _ H2). cbn [bind]. rewrite (f_intdef _ _ _ _ H3). cbn [bind].
    rewrite (f_doubledef _ _ _ _ (or_introl H4)). cbn [bind].
    rewrite (f_3 _ _ _ _ _ _ (or_introl H5) (or_introl H6) (or_introl H7)). cbn [bind fst]. reflexivity. }
  cbn [nl_set nl_node nl_cs nl_force nl_moment]. repeat (split; [reflexivity|]). split; [apply scale_is|apply vec0_is].
Qed.
(** A blank component of a MOMENT card is not 0: it is an enormous moment. *)
Lemma unavailable_huge : (value UNAVAILABLE_DOUBLE < - (10 # 1) ^ 300)%Q.
Proof. vm_compute. reflexivity. Qed.
Theorem C74_moment_blank : forall vec set node cs f n1 n2,
  int_at vec 1 set -> int_at vec 2 node -> int_or 0 vec 3 cs -> real_at vec 4 f -> (1 <= value f)%Q ->
  real_at vec 5 n1 -> real_at vec 6 n2 -> blank_at vec 7 ->
  exists l x y z, parseMOMENT (at_field vec 1) = Ok l /\ nl_moment l = (x, y, z) /\ (value z < - (10 # 1) ^ 300)%Q.
Proof.
  intros vec set node cs f n1 n2 H1 H2 H3 H4 F H5 H6 H7. do 4 eexists. split.
  { unfold parseMOMENT. rewrite (f_int _ _ _ H1). cbn [bind]. rewrite (f_int _ _ _ H2). cbn [bind]. rewrite (f_intdef _ _ _ _ H3). cbn [bind].
    rewrite (f_doubledef _ _ _ _ (or_introl H4)). cbn [bind].
    rewrite (f_3 _ _ _ _ _ UNAVAILABLE_DOUBLE (or_introl H5) (or_introl H6) (or_intror (conj H7 eq_refl))). cbn [bind fst dvec_scale]. reflexivity. }
  split; [reflexivity|]. rewrite value_mul. pose proof unavailable_huge as U.
  remember (value UNAVAILABLE_DOUBLE) as u. remember ((10 # 1) ^ 300)%Q as h. assert (0 < h)%Q by (subst h; reflexivity).
  clear - U F H. nra.
Qed.
Definition moment_card : list str := map txt ["MOMENT"; "1"; "5"; ""; "10."; "1."; "0."]%string.
Theorem C74_moment_blank_refuted : exists vec l x y z, (forall i, (7 <= i)%nat -> blank_at vec i) /\ real_at vec 4 (10, 0) /\
  parseMOMENT (at_field vec 1) = Ok l /\ nl_moment l = (x, y, z) /\ ~ (value z == 0)%Q.
Proof.
  exists moment_card. do 4 eexists. split.
  { intros i Hi. unfold blank_at. rewrite field_beyond; [reflexivity|exact Hi]. }
  split; [vm_compute; reflexivity|]. split; [cbv -[UNAVAILABLE_DOUBLE dmul]; reflexivity|]. split; [reflexivity|].
  rewrite value_zero. vm_compute. discriminate.
Qed.
(** Forces along two nodes or across four nodes: the numbers are those of the
    card (the vectors are in C38 and C39). *)
Lemma directed_forces_read : forall n vec set node f l,
  length l = n -> int_at vec 1 set -> int_at vec 2 node -> real_at vec 3 f ->
  (forall j, (j < n)%nat -> int_at vec (4 + j) (nth j l 0)) ->
  parseFORCEn n (at_field vec 1) = Ok (set, node, f, l).
Proof.
  intros n vec set node f l Hl H1 H2 H3 H4. unfold parseFORCEn. rewrite (f_int _ _ _ H1). cbn [bind]. rewrite (f_int _ _ _ H2). cbn [bind].
  rewrite (f_double _ _ _ H3). cbn [bind]. rewrite (f_ints n vec 4 l Hl H4). reflexivity.
Qed.
Theorem C74_directed_forces_read : forall vec set node f a b c d,
  int_at vec 1 set -> int_at vec 2 node -> real_at vec 3 f -> int_at vec 4 a -> int_at vec 5 b ->
  parseFORCE1 (at_field vec 1) = Ok (set, node, f, [a; b]) /\
  (int_at vec 6 c -> int_at vec 7 d -> parseFORCE2 (at_field vec 1) = Ok (set, node, f, [a; b; c; d])).
Proof.
  intros vec set node f a b c d H1 H2 H3 A B. split; [|intros C D]; apply directed_forces_read; try assumption; try reflexivity; intros j Hj.
  - destruct j as [|[|]]; [exact A|exact B|lia].
  - destruct j as [|[|[|[|]]]]; [exact A|exact B|exact C|exact D|lia].
Qed.
(** Gravity: the acceleration is read; the system of the vector is not. *)
Theorem C74_gravity_read_partial : forall vec set cs a x y z mb,
  int_at vec 1 set -> int_or 0 vec 2 cs -> real_or dzero vec 3 a ->
  real_or dzero vec 4 x -> real_or dzero vec 5 y -> real_or dzero vec 6 z -> int_or 0 vec 7 mb ->
  parseGRAV (at_field vec 1) = Ok (set, a, (x, y, z)).
Proof.
  intros vec set cs a x y z mb H1 H2 H3 H4 H5 H6 H7. unfold parseGRAV. rewrite (f_int _ _ _ H1). cbn [bind]. rewrite (f_intdef _ _ _ _ H2). cbn [bind].
  rewrite (f_doubledef _ _ _ _ H3). cbn [bind]. rewrite (f_3 _ _ _ _ _ _ H4 H5 H6). cbn [bind]. rewrite (f_intdef _ _ _ _ H7). reflexivity.
Qed.
(** Two cards that differ by the system of the vector only are the same load. *)
Theorem C74_gravity_system_refuted : exists v1 v2 l, int_at v1 2 0 /\ int_at v2 2 7 /\
  (forall i, i <> 2%nat -> field v1 i = field v2 i) /\ parseGRAV (at_field v1 1) = Ok l /\ parseGRAV (at_field v2 1) = Ok l.
Proof.
  exists (map txt ["GRAV"; "1"; "0"; "9.81"; "1."; "0."; "0."]%string), (map txt ["GRAV"; "1"; "7"; "9.81"; "1."; "0."; "0."]%string).
  eexists. split; [|split; [|split; [|split; vm_compute; reflexivity]]].
  - exists (txt "0"). vm_compute. split; [discriminate|]. split; [reflexivity|]. split; [split; discriminate|]. left. split; reflexivity.
  - exists (txt "7"). vm_compute. split; [discriminate|]. split; [reflexivity|]. split; [split; discriminate|]. left. split; reflexivity.
  - intros i Hi. do 7 (destruct i as [|i]; [now try reflexivity; contradiction Hi|]). unfold field. now rewrite !nth_overflow by (cbn; lia).
Qed.

(** LOAD: each embedded set with the product of its factor and of the overall
    one; the list ends with the fields of the card. *)
Theorem C74_combination_read : forall vec set s l,
  int_at vec 1 set -> real_or (1, 0) vec 2 s ->
  (forall j sc id, nth_error l j = Some (id, sc) -> double_field (field vec (3 + 2 * j)) sc /\ int_at vec (4 + 2 * j) id) ->
  not_double (field vec (3 + 2 * length l)) ->
  exists r, parseLOAD (at_field vec 1) = Ok (set, r) /\
    Forall2 (fun a b => fst a = fst b /\ (value (snd b) == value s * value (snd a))%Q) l r.
Proof.
  intros vec set s l H1 H2 H3 H4. unfold parseLOAD. rewrite (f_int _ _ _ H1). cbn [bind]. rewrite (f_doubledef _ _ _ _ H2). cbn [bind].
  cbn [cvec at_field at_pos].
  assert (G : forall l i fuel, (length l < fuel)%nat ->
            (forall j sc id, nth_error l j = Some (id, sc) -> double_field (field vec (i + 2 * j)) sc /\ int_at vec (S i + 2 * j) id) ->
            not_double (field vec (i + 2 * length l)) ->
            exists r, load_loop fuel s (at_field vec i) = Ok r /\
              Forall2 (fun a b => fst a = fst b /\ (value (snd b) == value s * value (snd a))%Q) l r).
  { clear. induction l as [|[id sc] l IH]; intros i fuel Hf H E; destruct fuel as [|fuel]; try (cbn in Hf; lia); cbn [load_loop].
    - exists []. split; [|constructor]. cbn [length] in E. rewrite Nat.mul_0_r, Nat.add_0_r in E.
      unfold isNextDouble. rewrite peek_field_at by reflexivity.
      destruct E as [E|(c & Hc & Hs & Hd)]; [rewrite E; reflexivity|].
      match goal with |- context [Ok ?b] => assert (b = false) as -> end; [|reflexivity].
      apply andb_false_iff. right. destruct (forallb _ _) eqn:F; [|reflexivity]. rewrite forallb_forall in F. contradiction Hd.
      specialize (F c). unfold TextModel.contains in F. 
      assert (In c (erase_char " " (trim (field vec i)))) as Hin.
      { unfold erase_char. apply filter_In. split; [exact Hc|]. destruct (Ascii.eqb_spec c " "); [congruence|reflexivity]. }
      apply F in Hin. apply existsb_exists in Hin. destruct Hin as (c' & I & E). apply Ascii.eqb_eq in E. now subst c'.
    - destruct (H 0%nat sc id eq_refl) as [[Hr Hc] Hi]. rewrite Nat.mul_0_r, Nat.add_0_r in Hr, Hc, Hi.
      assert (P := real_present vec i sc Hr).
      assert (isNextDouble (at_field vec i) = Ok true) as ->.
      { rewrite at_field_pos by lia. eapply double_isdouble; [|split; [exact Hr|exact Hc]].
        rewrite <- (firstn_skipn i vec) at 1. instantiate (1 := skipn (S i) vec). 
        rewrite firstn_skipn. unfold field. clear - P. revert vec P. induction i as [|i IH]; intros [|a v] P; cbn [length] in P; try lia; [reflexivity|].
        cbn [skipn nth]. apply IH. lia. }
      cbn [bind]. rewrite (f_doubledef _ _ _ _ (or_introl Hr)). cbn [bind]. rewrite (f_int _ _ _ Hi). cbn [bind].
      destruct (IH (S (S i)) fuel) as (r & R1 & R2).
      + cbn in Hf. lia.
      + intros j sc' id' Hj. specialize (H (S j) sc' id' Hj). replace (i + 2 * S j)%nat with (S (S i) + 2 * j)%nat in H by lia.
        replace (S i + 2 * S j)%nat with (S (S (S i)) + 2 * j)%nat in H by lia. exact H.
      + cbn [length] in E. replace (i + 2 * S (length l))%nat with (S (S i) + 2 * length l)%nat in E by lia. exact E.
      + rewrite R1. cbn [bind]. eexists. split; [reflexivity|]. constructor; [|exact R2]. split; [reflexivity|]. cbn [snd]. apply value_mul. }
  destruct (G l 3%nat (S (length vec))) as (r & R1 & R2).
  - destruct l as [|x l]; [cbn; lia|]. destruct (nth_error (x :: l) (length l)) as [[id sc]|] eqn:E; [|apply nth_error_None in E; cbn in E; lia].
    destruct (H3 _ _ _ E) as [_ Hi]. apply int_present in Hi. cbn [length]. lia.
  - intros j sc id Hj. destruct (H3 j sc id Hj) as [A B]. split; [exact A|exact B].
  - exact H4.
  - rewrite R1. cbn [bind]. exists r. split; [reflexivity|exact R2].
Qed.

(** A rotation: the node of its centre, the factor and the axis of the card.  The
    abstract model documents the speed in radians per unit of time (Loading.h:167)
    and the card counts revolutions; no factor is applied (the theorem gives the
    number of the card itself), and the system and the angular acceleration are
    ignored. *)
Theorem C74_rotation_read_partial : forall vec set node cs a x y z method racc mb,
  int_at vec 1 set -> int_at vec 2 node -> int_or 0 vec 3 cs -> real_at vec 4 a ->
  real_at vec 5 x -> real_at vec 6 y -> real_at vec 7 z -> int_or 1 vec 8 method -> real_or dzero vec 9 racc -> int_or 0 vec 10 mb ->
  parseRFORCE (at_field vec 1) = Ok (set, node, a, (x, y, z)).
Proof.
  intros vec set node cs a x y z method racc mb H1 H2 H3 H4 H5 H6 H7 H8 H9 H10. unfold parseRFORCE.
  rewrite (f_int _ _ _ H1). cbn [bind]. rewrite (f_int _ _ _ H2). cbn [bind]. rewrite (f_intdef _ _ _ _ H3). cbn [bind].
  rewrite (f_double _ _ _ H4). cbn [bind]. rewrite (f_double _ _ _ H5). cbn [bind]. rewrite (f_double _ _ _ H6). cbn [bind].
  rewrite (f_double _ _ _ H7). cbn [bind]. rewrite (f_intdef _ _ _ _ H8). cbn [bind]. rewrite (f_doubledef _ _ _ _ H9). cbn [bind].
  rewrite (f_intdef _ _ _ _ H10). reflexivity.
Qed.
(** C74 fails for rotations: between 6 and 7 radians make a revolution, and the
    speed given is that of the card; cards that differ only by their system or by
    their angular acceleration are read alike. *)
Definition rforce (cs a racc : string) : list str := map txt ["RFORCE"; "2"; "1"; cs; a; "0.0"; "0.0"; "1.0"; "2"; racc]%string.
Theorem C74_rotation_refuted : exists speed axis, parseRFORCE (at_field (rforce "" "200." "") 1) = Ok (2, 1, speed, axis) /\
  (value speed == 200)%Q /\ ~ (6 * 200 <= value speed)%Q /\
  parseRFORCE (at_field (rforce "5" "200." "3.") 1) = Ok (2, 1, speed, axis).
Proof.
  let v := eval vm_compute in (parseRFORCE (at_field (rforce "" "200." "") 1)) in match v with Ok (_, _, ?a, ?b) => exists a, b end.
  split; [vm_compute; reflexivity|]. split; [reflexivity|]. split; [vm_compute; intros H; apply H; reflexivity|vm_compute; reflexivity].
Qed.
(** ** Written numbers *)
(** A real the writer prints with the accuracy of C24, or 0. *)
Definition writable (v : wreal) : Prop := (exists d, printable d v) \/ fst v = 0.
Definition printed (v : wreal) (m : decimal) : Prop := (exists d, printable d v /\ accurate d v m) \/ (fst v = 0 /\ fst m = 0).
Lemma printed_real tie v : writable v -> 0 <= snd v -> exists m, real_of_field (real_field tie v) = Ok m /\ printed v m.
Proof.
  intros [(d & H)|H] K.
  - destruct (printed_coordinate tie d v H) as (m & R & A). exists m. split; [exact R|]. left. exists d. auto.
  - destruct v as [n k]. cbn [fst] in H. subst n. exists (0, 0). split; [|right; auto]. unfold real_field, real_text, is_zero. cbn [fst snd].
    change (Z.abs 0) with 0. rewrite Z.mul_0_l. assert (0 <=? 5 * 10 ^ k = true) as -> by (apply Z.leb_le; pose proof (Z.pow_nonneg 10 k); lia).
    reflexivity.
Qed.
Lemma writable_nonneg v : writable v -> 0 <= snd v \/ fst v = 0.
Proof. intros [(d & H)|H]; [left; apply H|now right]. Qed.
Lemma field_S k l i : field (k :: l) (S i) = field l i.
Proof. reflexivity. Qed.
Lemma int_text_at vec i n : 0 <= n < 10 ^ 8 -> field vec i = int_text n -> int_at vec i n.
Proof. intros H E. unfold int_at. rewrite E. apply nonneg_int, H. Qed.
Lemma int_text_0 vec i : field vec i = int_text 0 -> int_at vec i 0.
Proof. apply int_text_at. split; [discriminate|reflexivity]. Qed.
Lemma one_written tie : exists m, real_of_field (real_field tie (1, 0)) = Ok m /\ (value m == 1)%Q.
Proof. destruct tie; eexists; (split; [vm_compute; reflexivity|reflexivity]). Qed.

(** A force written by the writer is read back, in the global system, with the
    accuracy of the numbers; so is gravity. *)
Definition vec_printed (v : wvec) (r : dvec) : Prop :=
  let '(x, y, z) := v in exists a b c, printed x a /\ printed y b /\ printed z c /\ vec_is r (value a) (value b) (value c).
Theorem C74_force_written_partial : forall tie strict kw set node x y z,
  0 <= set < 10 ^ 8 -> 0 <= node < 10 ^ 8 -> writable x -> writable y -> writable z -> 0 <= snd x -> 0 <= snd y -> 0 <= snd z ->
  exists fields l, write_force tie strict set node (x, y, z) true = Ok fields /\ parseFORCE (at_field (kw :: fields) 1) = Ok l /\
    nl_set l = set /\ nl_node l = node /\ nl_cs l = 0 /\ vec_printed (x, y, z) (nl_force l) /\ vec_is (nl_moment l) 0 0 0.
Proof.
  intros tie strict kw set node x y z Hs Hn Hx Hy Hz Kx Ky Kz.
  destruct (printed_real tie x Hx Kx) as (a & A1 & A2). destruct (printed_real tie y Hy Ky) as (b & B1 & B2).
  destruct (printed_real tie z Hz Kz) as (c & C1 & C2). destruct (one_written tie) as (o & O1 & O2).
  eexists. unfold write_force. cbn [negb]. rewrite andb_false_r.
  match goal with |- exists _, Ok ?f = _ /\ _ => destruct (C74_force_read (kw :: f) set node 0 o a b c) as (l & R & L1 & L2 & L3 & L4 & L5) end.
  - apply int_text_at; [assumption|reflexivity].
  - apply int_text_at; [assumption|reflexivity].
  - left. apply int_text_0; reflexivity.
  - left. exact O1.
  - left. exact A1.
  - left. exact B1.
  - left. exact C1.
  - exists l. split; [reflexivity|]. split; [exact R|]. split; [exact L1|]. split; [exact L2|]. split; [exact L3|]. split; [|exact L5].
    exists a, b, c. split; [exact A2|]. split; [exact B2|]. split; [exact C2|]. destruct (nl_force l) as [[fx fy] fz].
    destruct L4 as (F1 & F2 & F3). repeat split; [rewrite F1|rewrite F2|rewrite F3]; rewrite O2; ring.
Qed.
Theorem C74_gravity_written : forall tie kw set a x y z,
  0 <= set < 10 ^ 8 -> writable a -> writable x -> writable y -> writable z -> 0 <= snd a -> 0 <= snd x -> 0 <= snd y -> 0 <= snd z ->
  exists ra v, parseGRAV (at_field (kw :: write_grav tie set a (x, y, z)) 1) = Ok (set, ra, v) /\ printed a ra /\ vec_printed (x, y, z) v.
Proof.
  intros tie kw set a x y z Hs Ha Hx Hy Hz Ka Kx Ky Kz.
  destruct (printed_real tie a Ha Ka) as (ra & R1 & R2). destruct (printed_real tie x Hx Kx) as (rx & X1 & X2).
  destruct (printed_real tie y Hy Ky) as (ry & Y1 & Y2). destruct (printed_real tie z Hz Kz) as (rz & Z1 & Z2).
  exists ra, (rx, ry, rz). split; [|split; [exact R2|]].
  - apply C74_gravity_read_partial with (cs := 0) (mb := 0); [apply int_text_at; [assumption|reflexivity]|left; apply int_text_0; reflexivity|left; exact R1|left; exact X1
      |left; exact Y1|left; exact Z1|right; split; reflexivity].
  - exists rx, ry, rz. split; [exact X2|]. split; [exact Y2|]. split; [exact Z2|]. repeat split; reflexivity.
Qed.
(** VectorialValue::iszero (Value.cpp:194-196). *)
Definition near0 (v : dvec) : bool := let '(x, y, z) := v in is_equal x dzero && is_equal y dzero && is_equal z dzero.
(** A moment is not written: the writer stops or, if told to go on, prints a FORCE
    card that does not have it. *)
Theorem C74_moment_written_refuted : exists vec l x y z fields l', parseMOMENT (at_field vec 1) = Ok l /\ nl_moment l = (x, y, z) /\
  ~ (value x == 0)%Q /\ write_force false true (nl_set l) (nl_node l) ((0, 0), (0, 0), (0, 0)) (near0 (nl_moment l)) = Throw /\
  write_force false false (nl_set l) (nl_node l) ((0, 0), (0, 0), (0, 0)) (near0 (nl_moment l)) = Ok fields /\
  parseFORCE (at_field (txt "FORCE" :: fields) 1) = Ok l' /\ vec_is (nl_moment l') 0 0 0 /\ vec_is (nl_force l') 0 0 0.
Proof.
  exists (map txt ["MOMENT"; "3"; "17"; ""; "2."; "1."; "0."; "0."]%string). do 6 eexists. split; [vm_compute; reflexivity|]. split; [reflexivity|].
  split; [vm_compute; discriminate|]. split; [vm_compute; reflexivity|]. split; [vm_compute; reflexivity|]. split; [vm_compute; reflexivity|].
  repeat split; reflexivity.
Qed.

Definition force_card : list str := map txt ["FORCE"; "3"; "17"; "2"; "10."; ".5"; "-1.5"]%string.
Definition load_card : list str := map txt ["LOAD"; "9"; "2."; "1.5"; "3"; "-1."; "4"]%string.
Lemma digits_int w n : forallb is_digit (txt w) = true -> txt w <> [] -> trim (txt w) = txt w -> INT_MIN32 <= n <= INT_MAX32 -> n = digits_val (txt w) -> int_field (txt w) n.
Proof. intros H1 H2 H3 H4 H5. exists (txt w). split; [exact H2|]. split; [exact H1|]. split; [exact H4|]. left. auto. Qed.
Ltac an_int := apply digits_int; [vm_compute; reflexivity|discriminate|vm_compute; reflexivity|vm_compute; split; discriminate|vm_compute; reflexivity].
Example C74_case :
  (int_at force_card 1 3 /\ int_at force_card 2 17 /\ int_or 0 force_card 3 2 /\ real_or dzero force_card 4 (10, 0) /\
   real_or dzero force_card 5 (5, -1) /\ real_or dzero force_card 6 (-15, -1) /\ real_or dzero force_card 7 dzero) /\
  parseFORCE (at_field force_card 1) = Ok (mkNodal 3 17 2 ((50, -1), (-150, -1), (0, 0)) dvec0) /\
  parseMOMENT (at_field (map txt ["MOMENT"; "3"; "17"; ""; "2."; "1."; "0."; "0."]%string) 1) = Ok (mkNodal 3 17 0 dvec0 ((2, 0), (0, 0), (0, 0))) /\
  parseFORCE1 (at_field (map txt ["FORCE1"; "3"; "17"; "2."; "1"; "2"]%string) 1) = Ok (3, 17, (2, 0), [1; 2]) /\
  parseLOAD (at_field load_card 1) = Ok (9, [(3, (30, -1)); (4, (-2, 0))]) /\
  writable (123456789012345, 9) /\ writable (0, 0) /\
  write_force false true 3 17 ((123456789012345, 9), (0, 0), (-250000000000, 9)) true =
    Ok (map txt ["3"; "17"; "0"; "    1.+0"; "1.2346+5"; "0."; "  -2.5+2"]%string).
Proof.
  split.
  { split; [an_int|]. split; [an_int|]. split; [left; an_int|]. split; [left; vm_compute; reflexivity|]. split; [left; vm_compute; reflexivity|].
    split; [left; vm_compute; reflexivity|]. right. split; vm_compute; reflexivity. }
  split; [vm_compute; reflexivity|]. split; [vm_compute; reflexivity|]. split; [vm_compute; reflexivity|]. split; [vm_compute; reflexivity|].
  split; [left; exists 14; repeat split; vm_compute; congruence|]. split; [right; reflexivity|]. vm_compute. reflexivity.
Qed.

(** ** C75 Pressures *)
(** What a PLOAD4 card covers: the cells from [first] to the one given, on the
    face given by one or two of its nodes or on the whole shell. *)
Inductive covers (vec : list str) (first : Z) : Z -> option (Z * option Z) -> Prop :=
| whole : blank_at vec 7 -> blank_at vec 8 -> covers vec first first None
| face_one_node g1 : int_at vec 7 g1 -> 0 <= g1 -> blank_at vec 8 -> covers vec first first (Some (g1, None))
| face_two_nodes g1 g2 : int_at vec 7 g1 -> int_at vec 8 g2 -> 0 <= g1 -> 0 <= g2 -> covers vec first first (Some (g1, Some g2))
| through last : word_at vec 7 (txt "THRU") -> int_at vec 8 last -> covers vec first last None.
(** Without a direction: along the normal of the shell, towards the inside of the
    solid (a load on a face is counted outwards); with a direction [n]: the
    pressure times [n]. *)
Definition acts (face : option (Z * option Z)) (p : decimal) (n : option dvec) (l : surface_load) : Prop :=
  match face, n with
  | None, None => exists i, l = PressionFace i /\ (value i == value p)%Q
  | Some (g1, g2), None => exists i, l = PressionFaceTwoNodes g1 g2 i /\ (value i == - value p)%Q
  | None, Some (x, y, z) => exists f, l = SurfaceForce f /\ vec_is f (value p * value x) (value p * value y) (value p * value z)
  | Some (g1, g2), Some (x, y, z) =>
    exists f, l = SurfaceForceTwoNodes g1 g2 f /\ vec_is f (value p * value x) (value p * value y) (value p * value z)
  end.
(** No direction: every component is 0.  A direction: a component is not
    negligible. *)
Inductive direction_of : dvec -> option dvec -> Prop :=
| no_direction x y z : (value x == 0)%Q -> (value y == 0)%Q -> (value z == 0)%Q -> direction_of (x, y, z) None
| a_direction x y z c : In c [x; y; z] -> ((1 # 100000000000000) < value c \/ value c < - (1 # 100000000000000))%Q ->
  direction_of (x, y, z) (Some (x, y, z)).
Lemma not_negligible c : ((1 # 100000000000000) < value c \/ value c < - (1 # 100000000000000))%Q -> is_equal c dzero = false.
Proof.
  intros H. unfold is_equal. change (dec_q c) with (value c). change (dec_q dzero) with (value dzero).
  destruct (Qle_bool _ _) eqn:E; [|reflexivity]. exfalso. apply Qle_bool_iff in E.
  assert (Z0 : (value dzero == 0)%Q) by reflexivity. rewrite Z0 in E. change (Qabs.Qabs 0) with 0%Q in E.
  assert (A : (Qabs.Qabs (value c - 0) == Qabs.Qabs (value c))%Q) by (apply Qabs.Qabs_wd; ring). rewrite A in E. clear A Z0.
  assert (P : ((1 # 100000000000000) < Qabs.Qabs (value c))%Q).
  { destruct H as [H|H]; [pose proof (Qabs.Qle_Qabs (value c)); lra|]. rewrite <- Qabs.Qabs_opp. pose proof (Qabs.Qle_Qabs (- value c)). lra. }
  revert E. generalize dependent (Qabs.Qabs (value c)). intros a P E. clear H.
  destruct (Qminmax.Q.max_spec 1 (Qminmax.Qmax a 0)) as [[_ M]|[_ M]]; rewrite M in E; [|lra].
  destruct (Qminmax.Q.max_spec a 0) as [[_ M2]|[_ M2]]; rewrite M2 in E; lra.
Qed.
Lemma negligible c : (value c == 0)%Q -> is_equal c dzero = true.
Proof.
  intros H. unfold is_equal. change (dec_q c) with (value c). change (dec_q dzero) with (value dzero).
  apply Qle_bool_iff. rewrite H. change (value dzero) with 0%Q. vm_compute. discriminate.
Qed.
Lemma direction_seen x y z n : direction_of (x, y, z) n ->
  negb (is_equal x dzero && is_equal y dzero && is_equal z dzero && true) = match n with None => false | Some _ => true end /\
  (forall v, n = Some v -> v = (x, y, z)).
Proof.
  intros H. inversion H; subst.
  - rewrite !negligible by assumption. split; [reflexivity|discriminate].
  - split; [|intros v E; now inversion E]. 
    match goal with A : In _ _, B : _ \/ _ |- _ => apply not_negligible in B; destruct A as [<-|[<-|[<-|[]]]]; rewrite B, ?andb_false_r; reflexivity end.
Qed.
Lemma range_in a b c : In c (cell_range a b) <-> a <= c <= b.
Proof.
  unfold cell_range. rewrite in_map_iff. split.
  - intros (i & <- & H). apply in_seq in H. lia.
  - intros H. exists (Z.to_nat (c - a)). split; [lia|]. apply in_seq. lia.
Qed.
Lemma range_nodup a b : NoDup (cell_range a b).
Proof. apply FinFun.Injective_map_NoDup; [intros i j H; lia|apply seq_NoDup]. Qed.
Lemma node_some g : 0 <= g -> node_option g = Some g.
Proof. intros H. unfold node_option, INT_MIN32. destruct (Z.eqb_spec g (-2147483648)); [lia|reflexivity]. Qed.

Theorem C75_pressure_read_partial : forall vec set first p last face x y z n,
  int_at vec 1 set -> int_at vec 2 first -> real_at vec 3 p ->
  real_or p vec 4 p -> real_or p vec 5 p -> real_or p vec 6 p ->
  covers vec first last face -> int_or 0 vec 9 0 ->
  real_or dzero vec 10 x -> real_or dzero vec 11 y -> real_or dzero vec 12 z -> direction_of (x, y, z) n ->
  exists cells l, parsePLOAD4 (at_field vec 1) = Ok (set, cells, l) /\
    (forall c, In c cells <-> first <= c <= last) /\ NoDup cells /\ acts face p n l.
Proof.
  intros vec set first p last face x y z n H1 H2 H3 H4 H5 H6 Hc H9 Hx Hy Hz Hn.
  destruct (direction_seen x y z n Hn) as [D1 D2]. destruct (f_stringdef (txt "SURF") vec 13) as (w13 & W13). destruct (f_stringdef (txt "NORM") vec 14) as (w14 & W14).
  assert (P : exists g1 g2, (
     do isint <- isNextInt (at_field vec 7); do isempty <- isNextEmpty 1 (at_field vec 7);
     (if isint || isempty || isEmptyUntilNextKeyword (at_field vec 7) then
              do r <- nextIntDefault INT_MIN32 (at_field vec 7); let '(g1, t) := r in
              do r <- nextIntDefault INT_MIN32 t; let '(g2, t) := r in
              Ok (g1, g2, first, t)
            else
              do thru <- isNextTHRU (at_field vec 7);
              if thru then
                do t <- skip 1 (at_field vec 7);
                do r <- nextInt t; let '(e2, t) := r in Ok (INT_MIN32, INT_MIN32, e2, t)
              else Throw)) = Ok (g1, g2, last, at_field vec 9) /\
     match face with None => node_option g1 = None | Some (a, b) => node_option g1 = Some a /\ node_option g2 = b end).
  { assert (X : forall g1 g2, int_or INT_MIN32 vec 7 g1 -> int_or INT_MIN32 vec 8 g2 -> last = first ->
              (do isint <- isNextInt (at_field vec 7); do isempty <- isNextEmpty 1 (at_field vec 7);
     (if isint || isempty || isEmptyUntilNextKeyword (at_field vec 7) then
              do r <- nextIntDefault INT_MIN32 (at_field vec 7); let '(g1, t) := r in
              do r <- nextIntDefault INT_MIN32 t; let '(g2, t) := r in
              Ok (g1, g2, first, t)
            else
              do thru <- isNextTHRU (at_field vec 7);
              if thru then
                do t <- skip 1 (at_field vec 7);
                do r <- nextInt t; let '(e2, t) := r in Ok (INT_MIN32, INT_MIN32, e2, t)
              else Throw)) = Ok (g1, g2, last, at_field vec 9)).
    { intros g1 g2 G1 G2 E. subst last. destruct (f_format1 vec 7 g1) as (a & b & A & B & C); [destruct G1 as [G1|[G1 _]]; auto|].
      rewrite A. cbn [bind]. rewrite B. cbn [bind]. rewrite C. rewrite (f_intdef _ _ _ _ G1). cbn [bind]. rewrite (f_intdef _ _ _ _ G2). reflexivity. }
    inversion Hc; subst.
    - exists INT_MIN32, INT_MIN32. split; [apply X; auto; right; auto|reflexivity].
    - exists g1, INT_MIN32. split; [apply X; auto; [left; assumption|right; auto]|]. split; [now apply node_some|reflexivity].
    - exists g1, g2. split; [apply X; auto; left; assumption|]. split; now apply node_some.
    - exists INT_MIN32, INT_MIN32. split; [|reflexivity].
      assert (L : (7 < length vec)%nat) by (apply present; unfold word_at in H; destruct (trim (field vec 7)); [discriminate H|discriminate]).
      assert (isNextInt (at_field vec 7) = Ok false) as ->.
      { unfold isNextInt. rewrite peek_field_at by reflexivity. rewrite (word_not_int "THRU" _ H); [reflexivity|]. eexists _, _. split; [reflexivity|reflexivity]. }
      cbn [bind]. rewrite (f_empty vec 7 L). cbn [bind].
      assert (null (trim (field vec 7)) = false) as E. { unfold word_at in H. destruct (trim (field vec 7)); [discriminate H|reflexivity]. }
      rewrite E. cbn [orb].
      assert (isEmptyUntilNextKeyword (at_field vec 7) = false) as ->.
      { rewrite at_field_pos by lia. rewrite s_empty. destruct (forallb _ _) eqn:F; [|reflexivity]. rewrite forallb_forall in F.
        rewrite (F (field vec 7)) in E; [discriminate E|]. 
        assert (skipn 7 vec = field vec 7 :: skipn 8 vec) as ->; [|now left].
        clear - L. unfold field. do 7 (destruct vec as [|? vec]; [cbn in L; lia|]; cbn [skipn nth length] in *). destruct vec; [cbn in L; lia|reflexivity]. }
      unfold isNextTHRU. rewrite peek_field_at by reflexivity. unfold word_at in H. rewrite H. change (str_eqb (txt "THRU") (txt "THRU")) with true. cbn [bind].
      rewrite (f_skip vec 7 L). cbn [bind]. rewrite (f_int _ _ _ H0). reflexivity. }
  destruct P as (g1 & g2 & P1 & P2).
  exists (cell_range first last). eexists. split.
  { unfold parsePLOAD4. rewrite (f_int _ _ _ H1). cbn [bind]. rewrite (f_int _ _ _ H2). cbn [bind]. rewrite (f_double _ _ _ H3). cbn [bind].
    rewrite (f_3 _ _ _ _ _ _ H4 H5 H6). cbn [bind].
    match goal with |- bind ?A (fun a => bind ?B (fun b => bind (@?C a b) ?D)) = _ =>
      transitivity (bind (bind A (fun a => bind B (fun b => C a b))) D) end.
    { destruct (isNextInt (at_field vec 7)); cbn [bind]; [|reflexivity..]. destruct (isNextEmpty 1 (at_field vec 7)); reflexivity. }
    rewrite P1. cbn [bind]. rewrite (f_intdef _ _ _ _ H9). cbn [bind]. rewrite (f_3 _ _ _ _ _ _ Hx Hy Hz). cbn [bind].
    rewrite W13. cbn [bind]. rewrite W14. cbn [bind]. change (0 =? 0) with true. rewrite D1. reflexivity. }
  split; [apply range_in|]. split; [apply range_nodup|].
  destruct face as [[a b]|]; destruct n as [v|]; cbn [acts].
  - destruct P2 as [-> ->]. rewrite (D2 v eq_refl). eexists. split; [reflexivity|]. apply scale_is.
  - destruct P2 as [-> ->]. eexists. split; [reflexivity|]. apply value_neg.
  - rewrite P2, (D2 v eq_refl). eexists. split; [reflexivity|]. apply scale_is.
  - rewrite P2. eexists. split; [reflexivity|]. reflexivity.
Qed.
(** Four different pressures at the corners are one pressure, the first. *)
Theorem C75_corner_pressures_refuted : exists v1 v2 l, real_at v1 4 (1, 0) /\ real_at v2 4 (5, 0) /\
  (forall i, i <> 4%nat -> field v1 i = field v2 i) /\ parsePLOAD4 (at_field v1 1) = Ok l /\ parsePLOAD4 (at_field v2 1) = Ok l.
Proof.
  exists (map txt ["PLOAD4"; "1"; "7"; "1."; "1."]%string), (map txt ["PLOAD4"; "1"; "7"; "1."; "5."]%string).
  eexists. split; [vm_compute; reflexivity|]. split; [vm_compute; reflexivity|]. split; [|split; vm_compute; reflexivity].
  intros i Hi. do 5 (destruct i as [|i]; [now try reflexivity; contradiction Hi|]). unfold field. now rewrite !nth_overflow by (cbn; lia).
Qed.
(** The system of the direction is not used: the same load as in the global one. *)
Theorem C75_direction_system_refuted : exists v1 v2 l, int_at v1 9 0 /\ int_at v2 9 4 /\
  (forall i, i <> 9%nat -> field v1 i = field v2 i) /\ parsePLOAD4 (at_field v1 1) = Ok l /\ parsePLOAD4 (at_field v2 1) = Ok l.
Proof.
  exists (map txt ["PLOAD4"; "1"; "7"; "1."; ""; ""; ""; ""; ""; "0"; "1."; "0."; "0."]%string),
         (map txt ["PLOAD4"; "1"; "7"; "1."; ""; ""; ""; ""; ""; "4"; "1."; "0."; "0."]%string).
  eexists. split; [an_int|]. split; [an_int|]. split; [|split; vm_compute; reflexivity].
  intros i Hi. do 13 (destruct i as [|i]; [now try reflexivity; contradiction Hi|]). unfold field. now rewrite !nth_overflow by (cbn; lia).
Qed.

(** PLOAD (three or four nodes) and PLOAD2. *)
Theorem C75_nodes_pressure_read : forall vec set p g,
  int_at vec 1 set -> real_at vec 2 p -> (forall j, (j < length g)%nat -> int_at vec (3 + j) (nth j g 0)) ->
  (forall n, In n g -> 0 <= n) -> (length g = 3%nat /\ blank_at vec 6) \/ length g = 4%nat ->
  parsePLOAD (at_field vec 1) = Ok (set, p, g).
Proof.
  intros vec set p g H1 H2 H3 Hpos Hg. unfold parsePLOAD. rewrite (f_int _ _ _ H1). cbn [bind]. rewrite (f_double _ _ _ H2). cbn [bind].
  destruct Hg as [[L B]|L].
  - rewrite (f_ints 3 vec 3 g L) by (intros j Hj; apply H3; lia). cbn [bind]. change (3 + 3)%nat with 6%nat. rewrite (f_intdef INT_MIN32 vec 6 INT_MIN32) by (right; auto). reflexivity.
  - rewrite (f_ints 3 vec 3 (firstn 3 g)); [|rewrite firstn_length; lia|intros j Hj].
    + cbn [bind]. change (3 + 3)%nat with 6%nat. rewrite (f_intdef INT_MIN32 vec 6 (nth 3 g 0)) by (left; apply (H3 3%nat); lia). cbn [bind fst].
      destruct g as [|a [|b [|c [|d [|]]]]]; try discriminate L. cbn [nth firstn app].
      assert (0 <= d) by (apply Hpos; cbn; auto). unfold INT_MIN32. destruct (Z.eqb_spec d (-2147483648)); [lia|reflexivity].
    + destruct g as [|a [|b [|c [|d [|]]]]]; try discriminate L. specialize (H3 j). cbn [length] in H3.
      destruct j as [|[|[|j]]]; [apply H3; lia|apply H3; lia|apply H3; lia|lia].
Qed.
Theorem C75_nodes_pressure_written : forall tie kw set p g,
  0 <= set < 10 ^ 8 -> writable p -> 0 <= snd p -> (forall n, In n g -> 0 <= n < 10 ^ 8) -> length g = 3%nat \/ length g = 4%nat ->
  exists m, parsePLOAD (at_field (kw :: write_pload tie set p g) 1) = Ok (set, m, g) /\ printed p m.
Proof.
  intros tie kw set p g Hs Hp Kp Hg L. destruct (printed_real tie p Hp Kp) as (m & M1 & M2). exists m. split; [|exact M2].
  apply C75_nodes_pressure_read.
  - apply int_text_at; [assumption|reflexivity].
  - exact M1.
  - intros j Hj. apply int_text_at; [apply Hg, nth_In, Hj|]. change (3 + j)%nat with (S (S (S j))). unfold write_pload. rewrite !field_S. unfold field.
    rewrite (nth_indep _ [] (int_text 0)) by now rewrite map_length. apply map_nth.
  - intros n Hn. apply Hg, Hn.
  - destruct L as [L|L]; [left|now right]. split; [exact L|]. unfold blank_at. rewrite field_beyond; [reflexivity|]. cbn. rewrite map_length. lia.
Qed.
(** PLOAD2: the pressure of a card on the cells it lists (C21 says which). *)
Theorem C75_shell_pressure_read : forall vec set p l t,
  int_at vec 1 set -> real_at vec 2 p -> nextInts (at_field vec 3) = Ok (l, t) -> parsePLOAD2 (at_field vec 1) = Ok (set, p, l).
Proof.
  intros vec set p l t H1 H2 H3. unfold parsePLOAD2. rewrite (f_int _ _ _ H1). cbn [bind]. rewrite (f_double _ _ _ H2). cbn [bind].
  rewrite H3. reflexivity.
Qed.
Theorem C75_shell_pressure_written : forall tie kw set p cell,
  0 <= set < 10 ^ 8 -> 0 <= cell < 10 ^ 8 -> writable p -> 0 <= snd p ->
  exists m, parsePLOAD2 (at_field (kw :: write_pload2 tie set p cell) 1) = Ok (set, m, [cell]) /\ printed p m.
Proof.
  intros tie kw set p cell Hs Hc Hp Kp. destruct (printed_real tie p Hp Kp) as (m & M1 & M2). exists m. split; [|exact M2].
  set (vec := kw :: write_pload2 tie set p cell).
  apply C75_shell_pressure_read with (t := at_pos vec 4); [apply int_text_at; [assumption|reflexivity]|exact M1|].
  change (at_field vec 3) with (at_pos vec 3). unfold nextInts. change (length (cvec (at_pos vec 3))) with 4%nat.
  rewrite (step_int _ _ vec 3 (int_text cell) cell eq_refl) by apply nonneg_int, Hc. reflexivity.
Qed.
(** A pressure on a shell or on a face of a solid is written on the same cell and
    the same nodes; the number written is that of the card read. *)
Lemma only_one (l : list Z) a : (forall c, In c l <-> a <= c <= a) -> NoDup l -> l = [a].
Proof.
  intros H N. destruct l as [|b l]; [destruct (proj2 (H a)); lia|].
  assert (b = a) as -> by (pose proof (proj1 (H b) (or_introl eq_refl)); lia). f_equal. destruct l as [|c l]; [reflexivity|]. exfalso.
  assert (c = a) as -> by (pose proof (proj1 (H c) (or_intror (or_introl eq_refl))); lia). inversion N; subst. apply H2. now left.
Qed.
Theorem C75_shell_written : forall split tie strict kw set cell i,
  0 <= set < 10 ^ 8 -> 0 <= cell < 10 ^ 8 -> writable (as_real i) -> 0 <= snd (as_real i) ->
  exists fields j m, write_surface split tie strict set cell (PressionFace i) = Ok fields /\
    parsePLOAD4 (at_field (kw :: fields) 1) = Ok (set, [cell], PressionFace j) /\ (value j == value m)%Q /\ printed (as_real i) m.
Proof.
  intros split tie strict kw set cell i Hs Hc Hw Kw. destruct (printed_real tie _ Hw Kw) as (m & M1 & M2). eexists. cbn [write_surface].
  match goal with |- exists _ _, Ok ?f = _ /\ _ =>
    destruct (C75_pressure_read_partial (kw :: f) set cell m cell None dzero dzero dzero None) as (cells & l & R & C & N & (j & -> & J)) end;
    try (right; split; reflexivity); try (apply int_text_at; [assumption|reflexivity]); try exact M1; try (constructor; reflexivity).
  rewrite (only_one _ _ C N) in R. exists j, m. auto.
Qed.
Theorem C75_face_written : forall split tie strict kw set cell g1 g2 i,
  0 <= set < 10 ^ 8 -> 0 <= cell < 10 ^ 8 -> 0 <= g1 < 10 ^ 8 -> (forall g, g2 = Some g -> 0 <= g < 10 ^ 8) ->
  writable (wneg (as_real i)) -> 0 <= snd (as_real i) ->
  exists fields j m, write_surface split tie strict set cell (PressionFaceTwoNodes g1 g2 i) = Ok fields /\
    parsePLOAD4 (at_field (kw :: fields) 1) = Ok (set, [cell], PressionFaceTwoNodes g1 g2 j) /\
    (value j == - value m)%Q /\ printed (wneg (as_real i)) m.
Proof.
  intros split tie strict kw set cell g1 g2 i Hs Hc H1 H2 Hw Kw. destruct (printed_real tie _ Hw Kw) as (m & M1 & M2). eexists. cbn [write_surface].
  match goal with |- exists _ _, Ok ?f = _ /\ _ =>
    destruct (C75_pressure_read_partial (kw :: f) set cell m cell (Some (g1, g2)) dzero dzero dzero None) as (cells & l & R & C & N & (j & -> & J)) end;
    try (right; split; reflexivity); try (apply int_text_at; [assumption|reflexivity]); try exact M1; try (constructor; reflexivity).
  { destruct g2 as [g|].
    - specialize (H2 g eq_refl). apply face_two_nodes; [apply int_text_at; [assumption|reflexivity]|apply int_text_at; [assumption|reflexivity]|lia|lia].
    - apply face_one_node; [apply int_text_at; [assumption|reflexivity]|lia|reflexivity]. }
  rewrite (only_one _ _ C N) in R. exists j, m. auto.
Qed.
(** A number that is not tiny is not printed as a tiny one. *)
Lemma written_far v m : 0 <= snd v -> 10 ^ snd v <= Z.abs (fst v) * 10 ^ 9 -> printed v m ->
  (1 # 2000000000 <= value m \/ value m <= - (1 # 2000000000))%Q.
Proof.
  intros K B [(d & (_ & D & (R1 & R2) & _ & _) & A1 & A2)|[H _]]; [|rewrite H in B; change (Z.abs 0) with 0 in B; pose proof (Z.pow_pos_nonneg 10 (snd v)); lia].
  destruct v as [n k], m as [m e]. cbn [fst snd] in *.
  assert (X : 2 * Z.abs (m * 10 ^ (e + k)) >= Z.abs n).
  { assert (E1 : 10 ^ (d - decimals_kept (d - k) (n <? 0)) <= 10 ^ (d - 1)).
    { apply Z.pow_le_mono_r; [lia|]. unfold decimals_kept. destruct (n <? 0), (Z.abs (d - k) <? 10), (Z.abs (d - k) <? 100); lia. }
    assert (E2 : 10 ^ (d - 11) <= 10 ^ (d - 1)) by (apply Z.pow_le_mono_r; lia).
    assert (E3 : 10 ^ d = 10 * 10 ^ (d - 1)). { replace d with (1 + (d - 1)) at 1 by ring. rewrite Z.pow_add_r by lia. reflexivity. }
    remember (10 ^ (d - decimals_kept (d - k) (n <? 0))) as u. remember (10 ^ (d - 11)) as w. remember (10 ^ (d - 1)) as z. remember (m * 10 ^ (e + k)) as y.
    clear - E1 E2 E3 A2 R1. lia. }
  assert (V : (value (m, e) * inject_Z (10 ^ k) == inject_Z (m * 10 ^ (e + k)))%Q).
  { unfold value. cbn [fst snd]. rewrite inject_Z_mult. rewrite !Zpower_Qpower by lia. change (inject_Z 10) with (10 # 1)%Q.
    rewrite Qpower_plus by exact ten_not_0. ring. }
  assert (T : (0 < inject_Z (10 ^ k))%Q). { change 0%Q with (inject_Z 0). rewrite <- Zlt_Qlt. apply Z.pow_pos_nonneg; lia. }
  assert (W : (inject_Z (10 ^ k) <= inject_Z (Z.abs n) * (1000000000 # 1))%Q).
  { change (1000000000 # 1)%Q with (inject_Z (10 ^ 9)). rewrite <- inject_Z_mult, <- Zle_Qle. exact B. }
  destruct (Z.le_ge_cases 0 (m * 10 ^ (e + k))) as [S|S].
  - left. assert (Y : (inject_Z (Z.abs n) <= 2 * inject_Z (m * 10 ^ (e + k)))%Q).
    { change 2%Q with (inject_Z 2). rewrite <- inject_Z_mult, <- Zle_Qle. lia. }
    rewrite <- V in Y. apply Qmult_lt_0_le_reg_r with (inject_Z (10 ^ k)); [exact T|].
    remember (inject_Z (10 ^ k)) as t. remember (inject_Z (Z.abs n)) as z. remember (value (m, e)) as y. clear - T W Y. lra.
  - right. assert (Y : (inject_Z (Z.abs n) <= - (2) * inject_Z (m * 10 ^ (e + k)))%Q).
    { change (-(2))%Q with (inject_Z (-2)). rewrite <- inject_Z_mult, <- Zle_Qle. lia. }
    rewrite <- V in Y. apply Qmult_lt_0_le_reg_r with (inject_Z (10 ^ k)); [exact T|].
    remember (inject_Z (10 ^ k)) as t. remember (inject_Z (Z.abs n)) as z. remember (value (m, e)) as y. clear - T W Y. lra.
Qed.
(** A force along a direction on a face of a solid: the same cell and nodes, and
    the product of the two numbers written. *)
Theorem C75_directed_face_written : forall split tie strict kw set cell g1 g2 f p x y z c,
  0 <= set < 10 ^ 8 -> 0 <= cell < 10 ^ 8 -> 0 <= g1 < 10 ^ 8 -> (forall g, g2 = Some g -> 0 <= g < 10 ^ 8) ->
  split f = (p, (x, y, z)) -> (forall v, In v [p; x; y; z] -> writable v /\ 0 <= snd v) ->
  In c [x; y; z] -> 10 ^ snd c <= Z.abs (fst c) * 10 ^ 9 ->
  exists fields r mp n, write_surface split tie strict set cell (SurfaceForceTwoNodes g1 g2 f) = Ok fields /\
    parsePLOAD4 (at_field (kw :: fields) 1) = Ok (set, [cell], SurfaceForceTwoNodes g1 g2 r) /\ printed p mp /\ vec_printed (x, y, z) n /\
    (let '(a, b, c) := n in vec_is r (value mp * value a) (value mp * value b) (value mp * value c)).
Proof.
  intros split tie strict kw set cell g1 g2 f p x y z c Hs Hc H1 H2 Hf Hw Ic Fc.
  destruct (Hw p) as [Wp Kp]; [cbn; auto|]. destruct (Hw x) as [Wx Kx]; [cbn; auto|]. destruct (Hw y) as [Wy Ky]; [cbn; auto|]. destruct (Hw z) as [Wz Kz]; [cbn; auto|].
  destruct (printed_real tie p Wp Kp) as (mp & P1 & P2). destruct (printed_real tie x Wx Kx) as (a & A1 & A2).
  destruct (printed_real tie y Wy Ky) as (b & B1 & B2). destruct (printed_real tie z Wz Kz) as (d & D1 & D2).
  assert (N : direction_of (a, b, d) (Some (a, b, d))).
  { assert (Far : forall v m, 0 <= snd v -> 10 ^ snd v <= Z.abs (fst v) * 10 ^ 9 -> printed v m -> ((1 # 100000000000000) < value m \/ value m < - (1 # 100000000000000))%Q).
    { intros v m Kv F Pm. destruct (written_far v m Kv F Pm) as [W|W]; [left|right]; lra. }
    destruct Ic as [<-|[<-|[<-|[]]]]; [apply a_direction with a; [cbn; tauto|exact (Far _ _ Kx Fc A2)]|apply a_direction with b; [cbn; tauto|exact (Far _ _ Ky Fc B2)]
      |apply a_direction with d; [cbn; tauto|exact (Far _ _ Kz Fc D2)]]. }
  eexists. cbn [write_surface]. rewrite Hf. cbn [fst snd vec_fields app].
  match goal with |- exists _ _ _, Ok ?fl = _ /\ _ =>
    destruct (C75_pressure_read_partial (kw :: fl) set cell mp cell (Some (g1, g2)) a b d (Some (a, b, d))) as (cells & l & R & C & ND & (j & -> & J)) end;
    try (right; split; reflexivity); try (apply int_text_at; [assumption|reflexivity]); try exact P1; try exact N;
    try (left; exact A1); try (left; exact B1); try (left; exact D1); try (left; apply int_text_0; reflexivity).
  { destruct g2 as [g|].
    - specialize (H2 g eq_refl). apply face_two_nodes; [apply int_text_at; [assumption|reflexivity]|apply int_text_at; [assumption|reflexivity]|lia|lia].
    - apply face_one_node; [apply int_text_at; [assumption|reflexivity]|lia|reflexivity]. }
  rewrite (only_one _ _ C ND) in R. exists j, mp, (a, b, d). split; [reflexivity|]. split; [exact R|]. split; [exact P2|]. split; [|exact J].
  exists a, b, d. repeat split; assumption || reflexivity.
Qed.
(** A load along a direction on a whole shell can be read and not written. *)
Theorem C75_shell_direction_refuted : exists vec set cells f, (exists p, real_at vec 3 p /\ ~ (value p == 0)%Q) /\
  parsePLOAD4 (at_field vec 1) = Ok (set, cells, SurfaceForce f) /\
  forall split tie strict cell, write_surface split tie strict set cell (SurfaceForce f) = Throw \/
    write_surface split tie strict set cell (SurfaceForce f) = UB.
Proof.
  exists (map txt ["PLOAD4"; "1"; "7"; "1."; ""; ""; ""; ""; ""; "0"; "1."; "0."; "0."]%string). do 3 eexists. split.
  { exists (1, 0). split; [vm_compute; reflexivity|discriminate]. }
  split; [vm_compute; reflexivity|]. intros split tie [|] cell; [now left|now right].
Qed.
Definition pload4_card : list str := map txt ["PLOAD4"; "1"; "7"; "2.5"; ""; ""; ""; "11"; "13"]%string.
Definition pload4_thru : list str := map txt ["PLOAD4"; "1"; "7"; "2.5"; ""; ""; ""; "thru"; "9"; ""; "0."; "0."; "-1."]%string.
Example C75_case :
  covers pload4_card 7 7 (Some (11, Some 13)) /\
  parsePLOAD4 (at_field pload4_card 1) = Ok (1, [7], PressionFaceTwoNodes 11 (Some 13) (-25, -1)) /\
  covers pload4_thru 7 9 None /\ direction_of (dzero, dzero, (-1, 0)) (Some (dzero, dzero, (-1, 0))) /\
  parsePLOAD4 (at_field pload4_thru 1) = Ok (1, [7; 8; 9], SurfaceForce ((0, -1), (0, -1), (-25, -1))) /\
  parsePLOAD (at_field (map txt ["PLOAD"; "1"; "2.5"; "4"; "5"; "6"]%string) 1) = Ok (1, (25, -1), [4; 5; 6]) /\
  parsePLOAD2 (at_field (map txt ["PLOAD2"; "1"; "2.5"; "4"; "THRU"; "6"]%string) 1) = Ok (1, (25, -1), [4; 5; 6]) /\
  writable (wneg (as_real (-250000000000, -11))) /\ writable (-800000000000, 12) /\ 10 ^ 12 <= Z.abs (-800000000000) * 10 ^ 9.
Proof.
  split; [apply face_two_nodes; [an_int|an_int|lia|lia]|]. split; [vm_compute; reflexivity|].
  split; [apply through; [reflexivity|an_int]|]. split; [apply a_direction with (-1, 0); [cbn; auto|right; reflexivity]|].
  split; [vm_compute; reflexivity|]. split; [vm_compute; reflexivity|]. split; [vm_compute; reflexivity|].
  split; [left; exists 11; repeat split; vm_compute; congruence|]. split; [left; exists 11; repeat split; vm_compute; congruence|vm_compute; congruence].
Qed.

(** ** C76 Loads on lines *)
(** The value of a table at [x] by linear interpolation between its points. *)
Fixpoint interp (l : list (Q * Q)) (x : Q) : option Q :=
  match l with
  | (x0, y0) :: (((x1, y1) :: _) as r) =>
    if Qle_bool x0 x && Qle_bool x x1 then Some (y0 + (x - x0) / (x1 - x0) * (y1 - y0))%Q else interp r x
  | _ => None
  end.
Definition points (l : line_load) : list (Q * Q) := map (fun p => (value (fst p), value (snd p))) (ll_table l).
(** The load of a line: between the two abscissas, the straight line of the two
    values; far from them nothing. *)
Definition line_from (x1 p1 x2 p2 : Q) (l : list (Q * Q)) : Prop :=
  (forall x, x1 <= x -> x <= x2 -> exists v, interp l x = Some v /\ v == p1 + (x - x1) / (x2 - x1) * (p2 - p1))%Q /\
  (forall x, x < (999 # 1000) * x1 \/ (1001 # 1000) * x2 < x -> interp l x = None)%Q.
Definition letters_of (d : dof) : string :=
  match d with DX => "FX" | DY => "FY" | DZ => "FZ" | RX => "MX" | RY => "MY" | RZ => "MZ" end.
Lemma letters_dof d : line_dof (txt (letters_of d)) = Ok d.
Proof. destruct d; reflexivity. Qed.
Lemma value_before x : (value (just_before x) == (999 # 1000) * value x)%Q.
Proof.
  unfold value, just_before. cbn [fst snd]. rewrite inject_Z_mult. unfold Z.sub. rewrite Qpower_plus by exact ten_not_0.
  change (Qpower (10 # 1) (- (3)))%Q with (1 # 1000)%Q. change (inject_Z 999) with (999 # 1)%Q.
  assert (((999 # 1) * (1 # 1000) == (999 # 1000)))%Q as E by reflexivity. rewrite <- E. ring.
Qed.
Lemma value_after x : (value (just_after x) == (1001 # 1000) * value x)%Q.
Proof.
  unfold value, just_after. cbn [fst snd]. rewrite inject_Z_mult. unfold Z.sub. rewrite Qpower_plus by exact ten_not_0.
  change (Qpower (10 # 1) (- (3)))%Q with (1 # 1000)%Q. change (inject_Z 1001) with (1001 # 1)%Q.
  assert (((1001 # 1) * (1 # 1000) == (1001 # 1000)))%Q as E by reflexivity. rewrite <- E. ring.
Qed.
Lemma value_sign x : (0 < value x)%Q <-> 0 < fst x.
Proof.
  unfold value. pose proof (value_pos (snd x)) as P. remember ((10 # 1) ^ snd x)%Q as t. clear Heqt. split.
  - intros H. destruct (Z.lt_ge_cases 0 (fst x)) as [L|L]; [exact L|]. exfalso. assert (inject_Z (fst x) <= 0)%Q by (change 0%Q with (inject_Z 0); rewrite <- Zle_Qle; lia). nra.
  - intros H. assert (0 < inject_Z (fst x))%Q by (change 0%Q with (inject_Z 0); rewrite <- Zlt_Qlt; lia). nra.
Qed.
Lemma between_true a b x : (a <= x)%Q -> (x <= b)%Q -> Qle_bool a x && Qle_bool x b = true.
Proof. intros. apply andb_true_iff. split; now apply Qle_bool_iff. Qed.
Lemma between_low a b x : (x < a)%Q -> Qle_bool a x && Qle_bool x b = false.
Proof. intros H. apply andb_false_iff. left. destruct (Qle_bool a x) eqn:E; [|reflexivity]. apply Qle_bool_iff in E. lra. Qed.
Lemma between_high a b x : (b < x)%Q -> Qle_bool a x && Qle_bool x b = false.
Proof. intros H. apply andb_false_iff. right. destruct (Qle_bool x b) eqn:E; [|reflexivity]. apply Qle_bool_iff in E. lra. Qed.

Theorem C76_line_load_read : forall vec set cell d scale x1 p1 x2 p2,
  int_at vec 1 set -> int_at vec 2 cell -> word_at vec 3 (txt (letters_of d)) ->
  word_at vec 4 (txt scale) -> In scale ["LE"; "FR"; "FRPR"]%string ->
  real_or dzero vec 5 x1 -> real_or dzero vec 6 p1 -> real_at vec 7 x2 -> real_or dzero vec 8 p2 ->
  (0 <= value x1)%Q -> (value x1 < value x2)%Q -> is_equal x2 x1 = false ->
  exists l, parsePLOAD1 (at_field vec 1) = Ok l /\ ll_set l = set /\ ll_cell l = cell /\ ll_dof l = d /\
    (ll_length l = true <-> scale = "LE"%string) /\ line_from (value x1) (value p1) (value x2) (value p2) (points l).
Proof.
  intros vec set cell d scale x1 p1 x2 p2 H1 H2 H3 H4 Hs H5 H6 H7 H8 P1 P2 E. eexists. split.
  { unfold parsePLOAD1. rewrite (f_int _ _ _ H1). cbn [bind]. rewrite (f_int _ _ _ H2). cbn [bind].
    rewrite (f_string _ _ _ H3) by (destruct d; discriminate). cbn [bind].
    rewrite (f_string _ _ _ H4) by (destruct Hs as [<-|[<-|[<-|[]]]]; discriminate). cbn [bind].
    rewrite (f_doubledef _ _ _ _ H5). cbn [bind]. rewrite (f_doubledef _ _ _ _ H6). cbn [bind]. rewrite (f_doubledef _ _ _ _ (or_introl H7)). cbn [bind].
    rewrite (f_doubledef _ _ _ _ H8). cbn [bind]. rewrite letters_dof. cbn [bind].
    assert ((if str_eqb (txt scale) (txt "LE") then Ok true
            else if str_eqb (txt scale) (txt "FRPR") || str_eqb (txt scale) (txt "FR") then Ok false else Throw) = Ok (String.eqb scale "LE")) as ->
      by (destruct Hs as [<-|[<-|[<-|[]]]]; reflexivity).
    cbn [bind]. rewrite E, orb_false_r. assert (0 < fst x2) as X by (apply value_sign; lra). destruct (Z.ltb_spec (fst x2) 0); [lia|]. reflexivity. }
  cbn [ll_set ll_cell ll_dof ll_length]. split; [reflexivity|]. split; [reflexivity|]. split; [reflexivity|]. split; [apply String.eqb_eq|].
  unfold points. cbn [ll_table]. clear - P1 P2.
  assert (Z0 : (value dzero == 0)%Q) by reflexivity.
  assert (C : forall x, (value x1 <= x)%Q -> (x <= value x2)%Q -> exists v,
            interp [(value x1, value p1); (value x2, value p2); (value (just_after x2), value dzero)] x = Some v /\
            (v == value p1 + (x - value x1) / (value x2 - value x1) * (value p2 - value p1))%Q).
  { intros x A B. cbn [interp]. rewrite between_true by assumption. eexists. split; [reflexivity|reflexivity]. }
  destruct (Z.ltb_spec 0 (fst x1)) as [L|L].
  - apply value_sign in L. cbn [map app fst snd]. split.
    + intros x A B. cbn [interp]. destruct (Qle_bool (value (just_before x1)) x && Qle_bool x (value x1)) eqn:F; [|apply C; assumption].
      apply andb_true_iff in F. destruct F as [_ F]. apply Qle_bool_iff in F. assert (X : (x == value x1)%Q) by lra.
      eexists. split; [reflexivity|]. rewrite X, value_before, Z0. field. split; lra.
    + intros x A. cbn [interp]. destruct A as [A|A].
      * rewrite between_low by (rewrite value_before; exact A). rewrite between_low by lra. rewrite between_low by lra. reflexivity.
      * rewrite between_high by lra. rewrite between_high by lra. rewrite between_high by (rewrite value_after; exact A). reflexivity.
  - assert (X0 : (value x1 == 0)%Q). { destruct (Qlt_le_dec 0 (value x1)) as [K|K]; [apply value_sign in K; lia|lra]. }
    cbn [map app fst snd]. split; [apply C|]. intros x A. cbn [interp]. destruct A as [A|A].
    + rewrite between_low by lra. rewrite between_low by lra. reflexivity.
    + rewrite between_high by lra. rewrite between_high by (rewrite value_after; exact A). reflexivity.
Qed.
(** A concentrated load is not read. *)
Theorem C76_concentrated_refused : forall vec set cell d scale x1 p1 x2 p2,
  int_at vec 1 set -> int_at vec 2 cell -> word_at vec 3 (txt (letters_of d)) ->
  word_at vec 4 (txt scale) -> In scale ["LE"; "FR"; "FRPR"]%string ->
  real_or dzero vec 5 x1 -> real_or dzero vec 6 p1 -> real_or (-1, 0) vec 7 x2 -> real_or dzero vec 8 p2 ->
  blank_at vec 7 \/ (value x2 == value x1)%Q -> parsePLOAD1 (at_field vec 1) = Throw.
Proof.
  intros vec set cell d scale x1 p1 x2 p2 H1 H2 H3 H4 Hs H5 H6 H7 H8 B.
  unfold parsePLOAD1. rewrite (f_int _ _ _ H1). cbn [bind]. rewrite (f_int _ _ _ H2). cbn [bind].
  rewrite (f_string _ _ _ H3) by (destruct d; discriminate). cbn [bind].
  rewrite (f_string _ _ _ H4) by (destruct Hs as [<-|[<-|[<-|[]]]]; discriminate). cbn [bind].
  rewrite (f_doubledef _ _ _ _ H5). cbn [bind]. rewrite (f_doubledef _ _ _ _ H6). cbn [bind]. rewrite (f_doubledef _ _ _ _ H7). cbn [bind].
  rewrite (f_doubledef _ _ _ _ H8). cbn [bind]. rewrite letters_dof. cbn [bind].
  assert ((if str_eqb (txt scale) (txt "LE") then Ok true
          else if str_eqb (txt scale) (txt "FRPR") || str_eqb (txt scale) (txt "FR") then Ok false else Throw) = Ok (String.eqb scale "LE")) as ->
    by (destruct Hs as [<-|[<-|[<-|[]]]]; reflexivity).
  cbn [bind]. destruct B as [B|B].
  - destruct H7 as [H7|[_ ->]]; [|reflexivity]. exfalso. unfold real_at, blank_at, real_of_field in *. rewrite B in H7. discriminate H7.
  - assert (is_equal x2 x1 = true) as ->; [|now rewrite orb_true_r]. unfold is_equal. apply Qle_bool_iff.
    change dec_q with value. assert ((Qabs (value x2 - value x1) == 0)%Q) as -> by (rewrite B; setoid_replace (value x1 - value x1)%Q with 0%Q by ring; reflexivity).
    apply Qmult_le_0_compat; [discriminate|]. apply Qle_trans with 1%Q; [discriminate|]. apply Qminmax.Q.le_max_l.
Qed.
(** A load from the origin of the line, in fractions of its length, is written and
    read back with the accuracy of the numbers. *)
Lemma letters_same d : dof_letters d = txt (letters_of d).
Proof. now destruct d. Qed.
Lemma letters_word d : forall vec i, field vec i = dof_letters d -> word_at vec i (txt (letters_of d)).
Proof. intros vec i E. unfold word_at. rewrite E. now destruct d. Qed.
Lemma written_far_pos v m : 0 <= snd v -> 0 < fst v -> 10 ^ snd v <= fst v * 10 ^ 9 -> printed v m -> (1 # 2000000000 <= value m)%Q.
Proof.
  intros K P B H. pose proof (written_far v m K) as W. rewrite Z.abs_eq in W by lia. specialize (W B H). destruct W as [W|W]; [exact W|exfalso].
  destruct H as [(d & (_ & D & (R1 & R2) & _ & _) & A1 & A2)|[H _]]; [|lia]. assert (fst m < 0).
  { destruct (Z.lt_ge_cases (fst m) 0) as [L|L]; [exact L|]. exfalso.
    assert (0 <= value m)%Q; [|lra]. unfold value. pose proof (value_pos (snd m)). assert (0 <= inject_Z (fst m))%Q by (change 0%Q with (inject_Z 0); rewrite <- Zle_Qle; lia). nra. }
  rewrite Z.abs_eq in R1 by lia. pose proof (Z.pow_pos_nonneg 10 (snd m + snd v)) as Q.
  assert (E1 : 10 ^ (d - decimals_kept (d - snd v) (fst v <? 0)) <= 10 ^ (d - 1)).
  { apply Z.pow_le_mono_r; [lia|]. unfold decimals_kept. destruct (fst v <? 0), (Z.abs (d - snd v) <? 10), (Z.abs (d - snd v) <? 100); lia. }
  assert (E2 : 10 ^ (d - 11) <= 10 ^ (d - 1)) by (apply Z.pow_le_mono_r; lia).
  assert (E3 : 10 ^ d = 10 * 10 ^ (d - 1)). { replace d with (1 + (d - 1)) at 1 by ring. rewrite Z.pow_add_r by lia. reflexivity. }
  assert (fst m * 10 ^ (snd m + snd v) < 0) by nia. lia.
Qed.
Theorem C76_line_load_written_partial : forall tie kw set cell d x1 p1 x2 p2 rest,
  0 <= set < 10 ^ 8 -> 0 <= cell < 10 ^ 8 -> fst x1 = 0 -> 0 <= snd x1 -> writable p1 -> 0 <= snd p1 ->
  writable x2 -> 0 <= snd x2 -> 0 < fst x2 -> 10 ^ snd x2 <= fst x2 * 10 ^ 9 -> writable p2 -> 0 <= snd p2 ->
  exists fields l q1 y2 q2, write_pload1 tie set cell d ((x1, p1) :: (x2, p2) :: rest) = Ok fields /\
    parsePLOAD1 (at_field (kw :: fields) 1) = Ok l /\ ll_set l = set /\ ll_cell l = cell /\ ll_dof l = d /\ ll_length l = false /\
    printed p1 q1 /\ printed x2 y2 /\ printed p2 q2 /\ line_from 0 (value q1) (value y2) (value q2) (points l).
Proof.
  intros tie kw set cell d x1 p1 x2 p2 rest Hs Hc Z1 K1 W1 Kp1 W2 K2 P2 F2 Wp2 Kp2.
  destruct (printed_real tie x1 (or_intror Z1) K1) as (y1 & X1 & X2). destruct (printed_real tie p1 W1 Kp1) as (q1 & Q1 & Q2).
  destruct (printed_real tie x2 W2 K2) as (y2 & Y1 & Y2). destruct (printed_real tie p2 Wp2 Kp2) as (q2 & R1 & R2).
  assert (V1 : (value y1 == 0)%Q).
  { apply value_zero. destruct X2 as [(dd & (_ & D & (B & _) & _) & _)|[_ X2]]; [|exact X2]. rewrite Z1 in B. change (Z.abs 0) with 0 in B. pose proof (Z.pow_pos_nonneg 10 dd). lia. }
  assert (V2 := written_far_pos _ _ K2 P2 F2 Y2).
  cbn [write_pload1]. eexists.
  match goal with |- exists _ _ _ _, Ok ?f = _ /\ _ => destruct (C76_line_load_read (kw :: f) set cell d "FR" y1 q1 y2 q2) as (l & L & L1 & L2 & L3 & L4 & L5) end.
  - apply int_text_at; [assumption|reflexivity].
  - apply int_text_at; [assumption|reflexivity].
  - apply letters_word. reflexivity.
  - reflexivity.
  - cbn; auto.
  - left. exact X1.
  - left. exact Q1.
  - exact Y1.
  - left. exact R1.
  - rewrite V1. discriminate.
  - rewrite V1. lra.
  - unfold is_equal. change dec_q with value. destruct (Qle_bool _ _) eqn:E; [exfalso|reflexivity]. apply Qle_bool_iff in E. revert E.
    setoid_replace (value y2 - value y1)%Q with (value y2) by (rewrite V1; ring). setoid_replace (Qabs (value y1)) with 0%Q by (rewrite V1; reflexivity).
    rewrite (Qabs_pos (value y2)) by lra. destruct (Qminmax.Q.max_spec (value y2) 0) as [[? ->]|[? ->]]; [lra|].
    destruct (Qminmax.Q.max_spec 1 (value y2)) as [[? ->]|[? ->]]; intros E; lra.
  - exists l, q1, y2, q2. split; [reflexivity|]. split; [exact L|]. split; [exact L1|]. split; [exact L2|]. split; [exact L3|].
    split; [destruct (ll_length l); [|reflexivity]; destruct L4 as [L4 _]; discriminate (L4 eq_refl)|]. split; [exact Q2|]. split; [exact Y2|]. split; [exact R2|].
    destruct L5 as [L5 L6]. split.
    + intros x A B. destruct (L5 x) as (v & V & E); [rewrite V1; exact A|exact B|]. exists v. split; [exact V|]. rewrite E, V1. reflexivity.
    + intros x A. apply L6. rewrite V1. exact A.
Qed.
(** A load read from a card and written again, on the same cell. *)
Definition rewrite_line (tie : bool) (l : line_load) : outcome line_load :=
  do fields <- write_pload1 tie (ll_set l) (ll_cell l) (ll_dof l) (map (fun p => (as_real (fst p), as_real (snd p))) (ll_table l));
  parsePLOAD1 (at_field (txt "PLOAD1" :: fields) 1).
(** C76 fails for a load that starts away from the origin of the line: what is
    written is the short rise before it, and the load itself is lost. *)
Definition partway : list str := map txt ["PLOAD1"; "1"; "7"; "FY"; "FR"; "0.25"; "2."; "0.75"; "2."]%string.
Theorem C76_partway_refuted : exists vec l l', parsePLOAD1 (at_field vec 1) = Ok l /\ rewrite_line false l = Ok l' /\
  (exists v, interp (points l) (1 # 2) = Some v /\ v == 2)%Q /\ interp (points l') (1 # 2) = None.
Proof.
  exists partway. let v := eval vm_compute in (parsePLOAD1 (at_field partway 1)) in match v with Ok ?r => exists r end.
  match goal with |- exists l', _ /\ rewrite_line false ?l = _ /\ _ => let v := eval vm_compute in (rewrite_line false l) in match v with Ok ?r => exists r end end.
  split; [vm_compute; reflexivity|]. split; [vm_compute; reflexivity|]. split; [|vm_compute; reflexivity].
  match goal with |- exists v, ?i = _ /\ _ => let v := eval vm_compute in i in match v with Some ?r => exists r end end. split; vm_compute; reflexivity.
Qed.
(** C76 fails for a load given by lengths: it is written as fractions. *)
Definition by_length : list str := map txt ["PLOAD1"; "1"; "7"; "FY"; "LE"; "0."; "2."; "30."; "2."]%string.
Theorem C76_length_refuted : exists vec l l', parsePLOAD1 (at_field vec 1) = Ok l /\ rewrite_line false l = Ok l' /\
  ll_length l = true /\ ll_length l' = false /\
  Forall2 (fun p q => fst p == fst q /\ snd p == snd q)%Q (points l) (points l').
Proof.
  exists by_length. let v := eval vm_compute in (parsePLOAD1 (at_field by_length 1)) in match v with Ok ?r => exists r end.
  match goal with |- exists l', _ /\ rewrite_line false ?l = _ /\ _ => let v := eval vm_compute in (rewrite_line false l) in match v with Ok ?r => exists r end end.
  split; [vm_compute; reflexivity|]. split; [vm_compute; reflexivity|]. split; [reflexivity|]. split; [reflexivity|].
  repeat constructor; vm_compute; reflexivity.
Qed.
Example C76_case :
  parsePLOAD1 (at_field partway 1) =
    Ok (mkLine 1 7 DY false [((24975, -5), dzero); ((25, -2), (2, 0)); ((75, -2), (2, 0)); ((75075, -5), dzero)]) /\
  is_equal (75, -2) (25, -2) = false /\ is_equal (30, 0) dzero = false /\
  parsePLOAD1 (at_field (map txt ["PLOAD1"; "1"; "7"; "FY"; "FR"; "0.25"; "2."]%string) 1) = Throw /\
  writable (2000000000000, 12) /\ 10 ^ 12 <= 2000000000000 * 10 ^ 9.
Proof.
  split; [vm_compute; reflexivity|]. split; [vm_compute; reflexivity|]. split; [vm_compute; reflexivity|]. split; [vm_compute; reflexivity|].
  split; [left; exists 12; repeat split; vm_compute; congruence|vm_compute; congruence].
Qed.

Print Assumptions C74_force_read.
Print Assumptions C74_moment_read_partial.
Print Assumptions C74_moment_blank.
Print Assumptions C74_moment_blank_refuted.
Print Assumptions C74_directed_forces_read.
Print Assumptions C74_gravity_read_partial.
Print Assumptions C74_gravity_system_refuted.
Print Assumptions C74_combination_read.
Print Assumptions C74_rotation_read_partial.
Print Assumptions C74_rotation_refuted.
Print Assumptions C74_force_written_partial.
Print Assumptions C74_gravity_written.
Print Assumptions C74_moment_written_refuted.
Print Assumptions C75_pressure_read_partial.
Print Assumptions C75_corner_pressures_refuted.
Print Assumptions C75_direction_system_refuted.
Print Assumptions C75_nodes_pressure_read.
Print Assumptions C75_nodes_pressure_written.
Print Assumptions C75_shell_pressure_read.
Print Assumptions C75_shell_pressure_written.
Print Assumptions C75_shell_written.
Print Assumptions C75_face_written.
Print Assumptions C75_directed_face_written.
Print Assumptions C75_shell_direction_refuted.
Print Assumptions C76_line_load_read.
Print Assumptions C76_concentrated_refused.
Print Assumptions C76_line_load_written_partial.
Print Assumptions C76_partway_refuted.
Print Assumptions C76_length_refuted.
