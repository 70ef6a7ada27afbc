(** C118: the tests of results written for Code_Aster and Systus accept a computed value when it
    is within the tolerance of the expected one, and refuse it otherwise. *)
From Coq Require Import Reals ZArith List Bool Arith Lia Lra Psatz.
From Verif Require Import Base DofModel ResultTestModel.
Import ListNotations.
Open Scope nat_scope.
Open Scope R_scope.

(** ** What is expected *)

(** A computed number [x] has a relative error of at most [tol] with respect to [v]. *)
Definition distance (x v : R * R) : R := sqrt ((fst x - fst v) ^ 2 + (snd x - snd v) ^ 2).
Definition close (tol : R) (v x : R * R) : Prop := distance x v <= tol * distance v (0, 0).

(** The results agree with an expectation; [low] and [high] bound the frequencies computed. *)
Definition met (buckling : bool) (low high : R) (res : query -> R * R) (e : expected) : Prop :=
  match e with
  | Displacement pos _ d tol v t =>
      (t = -1 -> close tol (v, 0) (res (AtNode pos d FirstOrder))) /\ (t <> -1 -> close tol (v, 0) (res (AtNode pos d (Instant t))))
  | Harmonic pos _ d tol v f => close tol v (res (AtNode pos d (AtFrequency f)))
  | Frequency n c e m k tol =>
      if buckling then close tol (e, 0) (res (OfMode CHAR_CRIT n)) else
      low <= c <= high -> close tol (c, 0) (res (OfMode FREQ n)) /\ close tol (m, 0) (res (OfMode MASS_GENE n)) /\
        (m <> 1 -> close tol (k, 0) (res (OfMode RIGI_GENE n)))
  | VonMises n c tol v => close tol (v, 0) (res (AtCell n c))
  end.
(** Expectations large enough to be compared relatively: 1e-7 for displacements and stresses,
    1e-14 for frequencies and for the distance of a generalised mass to 1; an instant is
    -1 (none) or not negative. *)
Definition fair (e : expected) : Prop :=
  match e with
  | Displacement _ _ _ _ v t => / 10 ^ 7 <= Rabs v /\ (t = -1 \/ 0 <= t)
  | Harmonic _ _ _ _ v _ => / 10 ^ 7 <= distance v (0, 0)
  | Frequency _ c _ m _ _ => / 10 ^ 14 <= Rabs c /\ (m = 1 \/ / 10 ^ 14 * Rmax 1 (Rabs m) <= Rabs (m - 1))
  | VonMises _ _ _ v => / 10 ^ 7 <= Rabs v
  end.

(** A block of TEST_RESU accepts the results: CRITERE tells whether the differences with
    VALE_REFE and with VALE_CALC are relative; they are compared with PRECISION and with
    TOLE_MACHINE, of which a relative test uses the first value.  Which value an absolute test
    uses is [first]: the theorems hold for both. *)
Definition accepts (c : criterion) (tol : R) (v x : R * R) : Prop :=
  match c with Relative => close tol v x | Absolute => distance x v <= tol end.
Definition passes (first : bool) (res : query -> R * R) (b : block) : Prop :=
  (forall p v, b_ref b = Some (p, v) -> accepts (b_crit b) p (v, 0) (res (b_query b))) /\
  accepts (b_crit b) (match b_crit b with Relative => fst (b_machine b) | Absolute => if first then fst (b_machine b) else snd (b_machine b) end)
    (b_calc b) (res (b_query b)).

Lemma le_bool_spec x y : reflect (x <= y) (le_bool x y).
Proof. unfold le_bool. destruct (Rle_dec x y); constructor; assumption. Qed.
Lemma tiny_small : 0 < tiny < / 10 ^ 14.
Proof. unfold tiny. lra. Qed.
Lemma modulus_dist v : modulus v = distance v (0, 0).
Proof. unfold modulus, distance. f_equal. cbn. ring. Qed.
Lemma dist_real x v : snd x = snd v -> distance x v = Rabs (fst x - fst v).
Proof. intros E. unfold distance. rewrite E. replace ((snd v - snd v) ^ 2) with 0 by ring. rewrite Rplus_0_r, <- Rsqr_pow2. apply sqrt_Rsqr_abs. Qed.
Lemma modulus_real v : distance (v, 0) (0, 0) = Rabs v.
Proof. rewrite dist_real by reflexivity. cbn. f_equal. ring. Qed.
Lemma big_crit s : / 10 ^ 7 <= s -> crit_of s = Relative.
Proof. intros H. unfold crit_of, smallest_relative. destruct (le_bool_spec (/ 10 ^ 7) s); [reflexivity|contradiction]. Qed.
Lemma big_null s : / 10 ^ 14 <= Rabs s -> is_null s = false.
Proof. intros H. unfold is_null. destruct (le_bool_spec (Rabs s) tiny); [|reflexivity]. pose proof tiny_small. lra. Qed.

Lemma one_block first res b p : b_crit b = Relative -> fst (b_machine b) = p -> (forall q v, b_ref b = Some (q, v) -> q = p /\ (v, 0) = b_calc b) ->
  (passes first res b <-> close p (b_calc b) (res (b_query b))).
Proof.
  intros C M Rf. unfold passes. rewrite C, M. cbn [accepts]. split; [intros [_ H]; exact H|]. intros H. split; [|exact H].
  intros q v E. destruct (Rf _ _ E) as (-> & ->). exact H.
Qed.

Lemma aster_one first buckling low high res e : fair e ->
  (Forall (passes first res) (aster_blocks buckling low high e) <-> met buckling low high res e).
Proof.
  assert (One : forall b (P : Prop), (passes first res b <-> P) -> (Forall (passes first res) [b] <-> P)).
  { intros b P H. split; [intros F; inversion F; subst; now apply H|]. intros X. constructor; [now apply H|constructor]. }
  pose proof tiny_small as T. destruct e as [pos id d tol v t|pos id d tol v f|n c e m k tol|n c tol v]; cbn [fair aster_blocks met].
  - intros [B I]. assert (N : is_null v = false) by (apply big_null; lra).
    apply One. unfold aster_displacement. rewrite (big_crit _ B), N.
    rewrite (one_block _ _ _ tol) by (cbn; try reflexivity; intros q w [= -> ->]; split; reflexivity). cbn [b_calc b_query].
    unfold same_real. destruct (le_bool_spec (Rabs (t - -1)) (tiny * Rmax 1 (Rmax (Rabs t) (Rabs (-1))))) as [H|H]; cbn [negb].
    + destruct I as [->|I]; [split; [intros X; split; [intros; exact X|intros []; reflexivity]|intros [X _]; now apply X]|]. exfalso.
      assert (M : Rmax 1 (Rmax (Rabs t) (Rabs (-1))) <= 1 + t).
      { assert (Ab : Rabs (-1) = 1) by (unfold Rabs; destruct (Rcase_abs (-1)); lra). rewrite Ab, (Rabs_pos_eq t) by exact I.
        unfold Rmax. repeat destruct (Rle_dec _ _); lra. }
      rewrite (Rabs_pos_eq (t - -1)) in H by lra. assert (tiny * Rmax 1 (Rmax (Rabs t) (Rabs (-1))) <= tiny * (1 + t)) by (apply Rmult_le_compat_l; lra). nra.
    + destruct (Req_dec t (-1)) as [->|Nt]; [exfalso; apply H|].
      * replace (-1 - -1) with 0 by ring. rewrite Rabs_R0. apply Rmult_le_pos; [lra|]. apply Rle_trans with 1; [lra|apply Rmax_l].
      * split; [intros X; split; [intros; contradiction|intros _; exact X]|intros [_ X]; now apply X].
  - intros B. apply One. unfold aster_harmonic. rewrite modulus_dist, (big_crit _ B). rewrite (one_block _ _ _ tol) by (cbn; try reflexivity; discriminate). reflexivity.
  - intros [B Bm]. unfold aster_frequency. rewrite (big_null _ B). destruct buckling; cbn [negb andb].
    + apply One. rewrite (one_block _ _ _ tol) by (cbn; try reflexivity; discriminate). reflexivity.
    + destruct (le_bool_spec low c) as [L|L]; cbn [negb orb]; [|split; [intros _ [X _]; contradiction|constructor]].
      destruct (le_bool_spec c high) as [Hh|Hh]; cbn [negb]; [|split; [intros _ [_ X]; contradiction|constructor]].
      assert (Sm : same_real m 1 = true <-> m = 1).
      { unfold same_real. destruct (le_bool_spec (Rabs (m - 1)) (tiny * Rmax 1 (Rmax (Rabs m) (Rabs 1)))) as [H|H]; (split; [|]); try discriminate; auto.
        - intros _. destruct Bm as [Bm|Bm]; [exact Bm|]. exfalso. rewrite Rabs_R1 in H. replace (Rmax (Rabs m) 1) with (Rmax 1 (Rabs m)) in H by apply Rmax_comm.
          rewrite (Rmax_right 1 (Rmax 1 (Rabs m))) in H by apply Rmax_l. assert (1 <= Rmax 1 (Rabs m)) by apply Rmax_l. nra.
        - intros ->. exfalso. apply H. replace (1 - 1) with 0 by ring. rewrite Rabs_R0. apply Rmult_le_pos; [lra|]. apply Rle_trans with 1; [lra|apply Rmax_l]. }
      assert (Bk : forall p v, passes first res (mkBlock (OfMode p n) Relative None (v, 0) (tol, tol)) <-> close tol (v, 0) (res (OfMode p n))).
      { intros p v. rewrite (one_block _ _ _ tol) by (cbn; try reflexivity; discriminate). reflexivity. }
      rewrite Forall_app. cbn [app]. rewrite !Forall_cons_iff, !Bk. destruct (same_real m 1).
      * assert (m = 1) by (now apply Sm). split; [intros ((X & Y & _) & _) _; tauto|]. intros X. destruct X as (X & Y & _); [tauto|]. repeat split; try assumption; constructor.
      * assert (m <> 1) by (intros X; apply Sm in X; discriminate). rewrite !Forall_cons_iff, !Bk. split; [intros ((X & Y & _) & Z & _) _; tauto|]. intros X. destruct X as (X & Y & Z); [tauto|]. repeat split; auto; constructor.
  - intros B. apply One. unfold aster_vonmises. rewrite (big_crit _ B). rewrite (one_block _ _ _ tol) by (cbn; try reflexivity; discriminate). reflexivity.
Qed.

(** ** Code_Aster *)

(** The TEST_RESU of an analysis passes exactly when the results meet every expectation. *)
Theorem C118_aster : forall first buckling low high res l, Forall fair l ->
  (Forall (passes first res) (aster_tests buckling low high l) <-> Forall (met buckling low high res) l).
Proof.
  intros first buckling low high res l. induction l as [|e l IH]; intros F; [split; constructor|]. inversion F as [|e' l' F1 F2]; subst.
  unfold aster_tests. cbn [flat_map]. rewrite Forall_app, Forall_cons_iff, (aster_one first _ _ _ _ _ F1). fold (aster_tests buckling low high l). now rewrite (IH F2).
Qed.
Print Assumptions C118_aster.

(** A displacement smaller than 1e-7 is compared absolutely, with the tolerance meant to be
    relative: an error of more than a hundred times the expected value is accepted. *)
Theorem C118_small_refuted : exists pos id d tol v t res, 0 < tol < 1 /\ v <> 0 /\
  (forall first low high, Forall (passes first res) (aster_tests false low high [Displacement pos id d tol v t])) /\
  100 * Rabs v < distance (res (AtNode pos d FirstOrder)) (v, 0).
Proof.
  exists 0%nat, 1%Z, DX, (/ 50), (/ 20000000), (-1), (fun _ => (9 / 1000000, 0)). split; [lra|]. split; [lra|].
  assert (A : forall a b, b < a -> le_bool a b = false) by (intros a b H; destruct (le_bool_spec a b); [lra|reflexivity]).
  assert (E : Rabs (/ 20000000) = / 20000000) by (apply Rabs_pos_eq; lra).
  assert (Dx : distance (9 / 1000000, 0) (/ 20000000, 0) = 9 / 1000000 - / 20000000) by (rewrite dist_real by reflexivity; cbn [fst]; apply Rabs_pos_eq; lra).
  split; [|rewrite E, Dx; lra]. intros first low high. constructor; [|constructor].
  unfold aster_displacement, crit_of, smallest_relative, is_null. rewrite E, (A (/ 10 ^ 7)), (A (/ 20000000) tiny) by (pose proof tiny_small; lra).
  split; cbn [b_ref b_crit b_calc b_query b_machine accepts fst snd].
  - intros p v [= <- <-]. cbn [accepts]. rewrite Dx. lra.
  - rewrite Dx. destruct first; lra.
Qed.
Print Assumptions C118_small_refuted.

(** A mode of frequency zero has its generalised mass compared absolutely too: a computed mass
    of zero is accepted for a small expected one. *)
Theorem C118_zero_mode_refuted : exists n e m k tol res, 0 < tol < 1 /\ m <> 1 /\
  (forall first, Forall (passes first res) (aster_tests false 0 1 [Frequency n 0 e m k tol])) /\ ~ close tol (m, 0) (res (OfMode MASS_GENE n)).
Proof.
  exists 1%Z, 0, (/ 1000), 0, (/ 50), (fun _ => (0, 0)). split; [lra|]. split; [lra|].
  assert (N : distance (0, 0) (/ 1000, 0) = / 1000) by (rewrite dist_real by reflexivity; cbn [fst]; replace (0 - / 1000) with (- / 1000) by ring; rewrite Rabs_Ropp; apply Rabs_pos_eq; lra).
  assert (N0 : distance (0, 0) (0, 0) = 0) by (rewrite dist_real by reflexivity; cbn [fst]; replace (0 - 0) with 0 by ring; apply Rabs_R0).
  split.
  - intros first. cbn [aster_tests flat_map aster_blocks app]. unfold aster_frequency, is_null.
    destruct (le_bool_spec 0 0) as [_|X]; [|lra]. destruct (le_bool_spec 0 1) as [_|X]; [|lra]. rewrite Rabs_R0.
    destruct (le_bool_spec 0 tiny) as [_|X]; [|pose proof tiny_small; lra]. cbn [negb andb orb]. rewrite app_nil_r.
    assert (P : forall p v, distance (0, 0) (v, 0) <= / 50 -> passes first (fun _ => (0, 0)) (mkBlock (OfMode p 1) Absolute None (v, 0) (/ 50, / 50))).
    { intros p v H. split; cbn; [discriminate|]. destruct first; exact H. }
    apply Forall_app. split; [|destruct (same_real (/ 1000) 1); constructor; try constructor; apply P; rewrite N0; lra].
    constructor; [apply P; rewrite N0; lra|]. constructor; [apply P; rewrite N; lra|constructor].
  - unfold close. rewrite N, modulus_real, Rabs_pos_eq by lra. lra.
Qed.
Print Assumptions C118_zero_mode_refuted.

(** ** Systus *)

(** What Systus is asked: displacements of the static results and frequencies of the modes;
    the frequencies of a dynamic analysis and stresses are not looked at. *)
Definition smet (dynamic : bool) (r : sresults) (e : expected) : Prop :=
  match e with
  | Displacement _ id d tol v _ => Rabs (s_disp r id (match d with DX => 1 | DY => 2 | DZ => 3 | RX => 4 | RY => 5 | RZ => 6 end)%Z - v) <= tol * Rabs v
  | Frequency n c _ _ _ tol => dynamic = false -> Rabs (s_freq r n - c) <= tol * Rabs c
  | _ => True
  end.
Definition sfair (e : expected) : Prop :=
  match e with
  | Displacement _ _ _ tol v t => 0 <= tol /\ / 10 ^ 9 <= Rabs v /\ t = -1
  | Harmonic _ _ _ _ _ _ => False
  | Frequency _ c _ _ _ tol => 0 <= tol /\ / 10 ^ 9 <= Rabs c
  | VonMises _ _ _ _ => True
  end.
Lemma rel_ok x v tol : 0 <= tol -> / 10 ^ 9 <= Rabs v -> (le_bool (Rabs ((x - v) / divisor_of (Rabs v) v)) (Rabs tol) = true <-> Rabs (x - v) <= tol * Rabs v).
Proof.
  intros T V. unfold divisor_of. destruct (le_bool_spec (/ 10 ^ 9) (Rabs v)) as [_|X]; [|contradiction]. rewrite (Rabs_pos_eq tol) by exact T.
  assert (P : 0 < Rabs v) by (assert (0 < / 10 ^ 9) by lra; lra). assert (N : v <> 0) by (intros ->; rewrite Rabs_R0 in P; lra).
  unfold Rdiv. rewrite Rabs_mult, Rabs_inv. destruct (le_bool_spec (Rabs (x - v) * / Rabs v) tol) as [H|H].
  - split; [|reflexivity]. intros _. apply Rmult_le_compat_r with (r := Rabs v) in H; [|lra]. rewrite Rmult_assoc, Rinv_l, Rmult_1_r in H by lra. exact H.
  - split; [discriminate|]. intros L. exfalso. apply H. apply Rmult_le_reg_r with (Rabs v); [exact P|]. rewrite Rmult_assoc, Rinv_l, Rmult_1_r by lra. exact L.
Qed.
Lemma minus_one : same_real (-1) (-1) = true.
Proof.
  unfold same_real. destruct (le_bool_spec (Rabs (-1 - -1)) (tiny * Rmax 1 (Rmax (Rabs (-1)) (Rabs (-1))))) as [_|H]; [reflexivity|]. exfalso. apply H.
  replace (-1 - -1) with 0 by ring. rewrite Rabs_R0. pose proof tiny_small. apply Rmult_le_pos; [lra|]. apply Rle_trans with 1; [lra|apply Rmax_l].
Qed.

(** Every test written for Systus says OK exactly when the results meet every expectation
    (harmonic displacements apart, see below). *)
Theorem C118_systus : forall strict dynamic r l, Forall sfair l -> exists ts, systus_tests strict dynamic l = Ok ts /\
  (Forall (fun t => says_ok r t = true) ts <-> Forall (smet dynamic r) l).
Proof.
  intros strict dynamic r l F. unfold systus_tests. enough (X : exists ls, mapM (systus_test strict dynamic) l = Ok ls /\
    (Forall (fun t => says_ok r t = true) (concat ls) <-> Forall (smet dynamic r) l)).
  { destruct X as (ls & E & H). exists (concat ls). now rewrite E. }
  induction F as [|e l F1 F2 IH]; [exists []; split; [reflexivity|split; constructor]|]. destruct IH as (ls & E & H).
  assert (X : exists ts, systus_test strict dynamic e = Ok ts /\ (Forall (fun t => says_ok r t = true) ts <-> smet dynamic r e)).
  { clear - F1. destruct e as [pos id d tol v t|pos id d tol v f|n c e m k tol|n c tol v]; cbn [sfair systus_test smet] in *.
    - destruct F1 as (T & V & ->). rewrite minus_one. cbn [negb andb]. eexists. split; [reflexivity|]. rewrite Forall_cons_iff. cbn [says_ok].
      rewrite rel_ok by assumption. replace (dof_position d + 1)%Z with (match d with DX => 1 | DY => 2 | DZ => 3 | RX => 4 | RY => 5 | RZ => 6 end)%Z by (now destruct d).
      split; [tauto|]. intros X. split; [exact X|constructor].
    - destruct F1.
    - destruct F1 as (T & V). destruct dynamic; eexists; (split; [reflexivity|]); [split; [intros _ X; discriminate X|constructor]|].
      rewrite Forall_cons_iff. cbn [says_ok]. rewrite rel_ok by assumption. split; [intros [X _] _; exact X|]. intros X. split; [now apply X|constructor].
    - eexists. split; [reflexivity|]. split; constructor. }
  destruct X as (ts & E1 & H1). exists (ts :: ls). cbn [mapM]. rewrite E1. cbn [bind]. rewrite E. cbn [bind]. split; [reflexivity|].
  cbn [concat]. rewrite Forall_app, Forall_cons_iff, H, H1. reflexivity.
Qed.
Print Assumptions C118_systus.

(** The loop over the maps stops at the first one whose pulsation is the one looked for, to
    1e-5 (absolutely below one radian per second). *)
Theorem C118_search : forall times puls k, (1 <= k <= length times - 1)%nat ->
  Rabs (nth (k - 1) times 0 - puls) <= / 10 ^ 5 * Rmax puls 1 -> (forall j, (1 <= j < k)%nat -> / 10 ^ 5 * Rmax puls 1 < Rabs (nth (j - 1) times 0 - puls)) ->
  search times puls (Rmax puls 1) (length times) 1 = k.
Proof.
  intros times puls k K H1 H2. assert (P : 0 < Rmax puls 1) by (apply Rlt_le_trans with 1; [lra|apply Rmax_r]).
  assert (G : forall fuel n, (1 <= n <= k)%nat -> (k - n < fuel)%nat -> search times puls (Rmax puls 1) fuel n = k).
  { induction fuel as [|fuel IH]; intros n N Fu; [lia|]. cbn [search]. destruct (Nat.eq_dec n k) as [->|Ne].
    - replace (le_bool _ _) with true; [cbn [negb]; rewrite andb_false_r; reflexivity|]. symmetry.
      destruct (le_bool_spec (Rabs (nth (k - 1) times 0 - puls) / Rmax puls 1) (/ 10 ^ 5)) as [_|X]; [reflexivity|]. exfalso. apply X.
      apply Rmult_le_reg_r with (Rmax puls 1); [exact P|]. unfold Rdiv. rewrite Rmult_assoc, Rinv_l, Rmult_1_r by lra. exact H1.
    - replace (n <? length times - 1)%nat with true by (symmetry; apply Nat.ltb_lt; lia). replace (le_bool _ _) with false; [cbn [negb andb]; apply IH; lia|]. symmetry.
      destruct (le_bool_spec (Rabs (nth (n - 1) times 0 - puls) / Rmax puls 1) (/ 10 ^ 5)) as [X|_]; [|reflexivity]. exfalso.
      apply Rmult_le_compat_r with (r := Rmax puls 1) in X; [|lra]. unfold Rdiv in X. rewrite Rmult_assoc, Rinv_l, Rmult_1_r in X by lra.
      assert (/ 10 ^ 5 * Rmax puls 1 < Rabs (nth (n - 1) times 0 - puls)) by (apply H2; lia). lra. }
  apply G; lia.
Qed.
Print Assumptions C118_search.

(** A harmonic displacement said OK is, at the pulsation looked for, within the tolerance. *)
Theorem C118_systus_harmonic_partial : forall strict dynamic r pos id d tol v f k, 0 <= tol -> / 10 ^ 9 <= distance v (0, 0) ->
  (1 <= k <= length (s_times r) - 1)%nat -> Rabs (nth (k - 1) (s_times r) 0 - 2 * PI * f) <= / 10 ^ 5 * Rmax (2 * PI * f) 1 ->
  (forall j, (1 <= j < k)%nat -> / 10 ^ 5 * Rmax (2 * PI * f) 1 < Rabs (nth (j - 1) (s_times r) 0 - 2 * PI * f)) ->
  exists t, systus_tests strict dynamic [Harmonic pos id d tol v f] = Ok [t] /\ forall rank, rank = (dof_position d + 1)%Z ->
    let a := s_trans r k id rank in let p := s_trans r (k + 1) id rank in
    (says_ok r t = true -> close tol v (a * cos p, a * sin p)) /\ (distance (a * cos p, a * sin p) v * 2 <= tol * distance v (0, 0) -> says_ok r t = true).
Proof.
  intros strict dynamic r pos id d tol v f k T V K H1 H2. eexists. split; [reflexivity|]. intros rank -> a p. cbn [says_ok].
  replace (f * 2 * PI) with (2 * PI * f) by ring. rewrite (C118_search (s_times r) (2 * PI * f) k K H1 H2). fold a. fold p.
  rewrite !modulus_dist. unfold divisor_of. destruct (le_bool_spec (/ 10 ^ 9) (distance v (0, 0))) as [_|X]; [|contradiction]. rewrite (Rabs_pos_eq tol) by exact T.
  assert (P : 0 < distance v (0, 0)) by (assert (0 < / 10 ^ 9) by lra; lra).
  set (x := a * cos p - fst v). set (y := a * sin p - snd v). unfold close.
  assert (D : distance (a * cos p, a * sin p) v = sqrt (x ^ 2 + y ^ 2)) by reflexivity. rewrite D.
  pose proof (Rabs_pos x) as Px. pose proof (Rabs_pos y) as Py. assert (Sx : Rabs x ^ 2 = x ^ 2) by (rewrite RPow_abs, Rabs_pos_eq; [reflexivity|apply pow2_ge_0]).
  assert (Sy : Rabs y ^ 2 = y ^ 2) by (rewrite RPow_abs, Rabs_pos_eq; [reflexivity|apply pow2_ge_0]).
  assert (L1 : sqrt (x ^ 2 + y ^ 2) <= Rabs x + Rabs y).
  { rewrite <- (sqrt_Rsqr (Rabs x + Rabs y)) by lra. apply sqrt_le_1_alt. rewrite <- Sx, <- Sy. unfold Rsqr. nra. }
  assert (L2 : Rabs x + Rabs y <= 2 * sqrt (x ^ 2 + y ^ 2)).
  { assert (Rabs x <= sqrt (x ^ 2 + y ^ 2)) by (rewrite <- (sqrt_Rsqr (Rabs x)) by lra; apply sqrt_le_1_alt; unfold Rsqr; nra).
    assert (Rabs y <= sqrt (x ^ 2 + y ^ 2)) by (rewrite <- (sqrt_Rsqr (Rabs y)) by lra; apply sqrt_le_1_alt; unfold Rsqr; nra). lra. }
  split.
  - destruct (le_bool_spec ((Rabs x + Rabs y) / distance v (0, 0)) tol) as [H|H]; [|discriminate]. intros _.
    apply Rmult_le_compat_r with (r := distance v (0, 0)) in H; [|lra]. unfold Rdiv in H. rewrite Rmult_assoc, Rinv_l, Rmult_1_r in H by lra. lra.
  - intros H. destruct (le_bool_spec ((Rabs x + Rabs y) / distance v (0, 0)) tol) as [_|X]; [reflexivity|]. exfalso. apply X.
    apply Rmult_le_reg_r with (distance v (0, 0)); [exact P|]. unfold Rdiv. rewrite Rmult_assoc, Rinv_l, Rmult_1_r by lra. lra.
Qed.
Print Assumptions C118_systus_harmonic_partial.

(** The converse does not hold: the errors on the real and imaginary parts are added, so a value
    whose distance is within the tolerance may be refused. *)
Theorem C118_systus_harmonic_refuted : exists r pos id d tol v f k t rank, systus_tests true true [Harmonic pos id d tol v f] = Ok [t] /\
  rank = (dof_position d + 1)%Z /\ search (s_times r) (2 * PI * f) (Rmax (2 * PI * f) 1) (length (s_times r)) 1 = k /\ nth (k - 1) (s_times r) 0 = 2 * PI * f /\
  close tol v (s_trans r k id rank * cos (s_trans r (k + 1) id rank), s_trans r k id rank * sin (s_trans r (k + 1) id rank)) /\ says_ok r t = false.
Proof.
  exists (mkSR (fun _ _ => 0) (fun _ => 0) [0; 0] (fun k _ _ => if (k =? 1)%nat then 1 else 0)), 0%nat, 7%Z, DX, 1, (3 / 5, 4 / 5), 0, 1%nat.
  eexists _, 1%Z. split; [reflexivity|]. split; [reflexivity|]. replace (2 * PI * 0) with 0 by ring. split; [reflexivity|]. split; [reflexivity|].
  cbn [s_trans Nat.add Nat.eqb]. rewrite cos_0, sin_0.
  assert (M : distance (3 / 5, 4 / 5) (0, 0) = 1) by (unfold distance; cbn [fst snd]; replace ((3 / 5 - 0) ^ 2 + (4 / 5 - 0) ^ 2) with (1 * 1) by field; apply sqrt_square; lra).
  split.
  - unfold close. rewrite M. unfold distance. cbn [fst snd]. apply Rle_trans with (sqrt 1); [apply sqrt_le_1_alt; lra|rewrite sqrt_1; lra].
  - cbn [says_ok s_times length search Nat.sub Nat.ltb Nat.leb andb s_trans Nat.add Nat.eqb fst snd]. rewrite cos_0, sin_0, modulus_dist, M. unfold divisor_of.
    destruct (le_bool_spec (/ 10 ^ 9) 1) as [_|X]; [|lra]. rewrite Rabs_R1. replace (1 * 1 - 3 / 5) with (2 / 5) by field. rewrite (Rabs_pos_eq (2 / 5)) by lra.
    replace (1 * 0 - 4 / 5) with (- (4 / 5)) by field. rewrite Rabs_Ropp, (Rabs_pos_eq (4 / 5)) by lra.
    destruct (le_bool_spec ((2 / 5 + 4 / 5) / 1) 1) as [X|_]; [lra|reflexivity].
Qed.
Print Assumptions C118_systus_harmonic_refuted.

(** When no map has the frequency asked for, the last one is tested all the same. *)
Theorem C118_other_frequency_refuted : exists r pos id d tol v f t, systus_tests true true [Harmonic pos id d tol v f] = Ok [t] /\ 0 < tol < 1 /\
  (forall x, In x (s_times r) -> 2 * PI * f + 1 < x) /\ says_ok r t = true.
Proof.
  exists (mkSR (fun _ _ => 0) (fun _ => 0) [2; 2; 3; 3] (fun k _ _ => if (k =? 3)%nat then 1 else 0)), 0%nat, 7%Z, DX, (/ 50), (1, 0), 0.
  eexists. split; [reflexivity|]. split; [lra|]. replace (2 * PI * 0) with 0 by ring. split; [cbn; intros x Hx; repeat destruct Hx as [<-|Hx]; try lra; destruct Hx|].
  cbn [says_ok s_times length]. replace (0 * 2 * PI) with 0 by ring. rewrite (Rmax_right 0 1) by lra.
  assert (L : forall x, 1 < x -> le_bool (Rabs (x - 0) / 1) (/ 10 ^ 5) = false).
  { intros x X. destruct (le_bool_spec (Rabs (x - 0) / 1) (/ 10 ^ 5)) as [Y|_]; [|reflexivity]. rewrite Rabs_pos_eq in Y by lra. lra. }
  cbn [search length Nat.sub Nat.ltb Nat.leb Nat.add nth]. rewrite !L by lra. cbn [negb andb s_trans Nat.add Nat.eqb fst snd]. rewrite cos_0, sin_0.
  rewrite modulus_dist, modulus_real, Rabs_R1. unfold divisor_of. destruct (le_bool_spec (/ 10 ^ 9) 1) as [_|X]; [|lra].
  replace (1 * 1 - 1) with 0 by ring. replace (1 * 0 - 0) with 0 by ring. rewrite Rabs_R0, (Rabs_pos_eq (/ 50)) by lra.
  destruct (le_bool_spec ((0 + 0) / 1) (/ 50)) as [_|X]; [reflexivity|lra].
Qed.
Print Assumptions C118_other_frequency_refuted.

(** A displacement expected at an instant is an error in strict mode; otherwise the instant is
    ignored and the static result is tested. *)
Theorem C118_instant : forall dynamic pos id d tol v t, 0 <= t -> systus_tests true dynamic [Displacement pos id d tol v t] = Throw /\
  systus_tests false dynamic [Displacement pos id d tol v t] = systus_tests false dynamic [Displacement pos id d tol v (-1)].
Proof.
  intros dynamic pos id d tol v t H. assert (S : same_real t (-1) = false).
  { unfold same_real. destruct (le_bool_spec (Rabs (t - -1)) (tiny * Rmax 1 (Rmax (Rabs t) (Rabs (-1))))) as [X|_]; [|reflexivity]. exfalso. pose proof tiny_small as T.
    assert (M : Rmax 1 (Rmax (Rabs t) (Rabs (-1))) <= 1 + t).
    { assert (Ab : Rabs (-1) = 1) by (unfold Rabs; destruct (Rcase_abs (-1)); lra). rewrite Ab, (Rabs_pos_eq t) by exact H.
      unfold Rmax. repeat destruct (Rle_dec _ _); lra. }
    rewrite (Rabs_pos_eq (t - -1)) in X by lra. assert (tiny * Rmax 1 (Rmax (Rabs t) (Rabs (-1))) <= tiny * (1 + t)) by (apply Rmult_le_compat_l; lra). nra. }
  unfold systus_tests. cbn [mapM systus_test]. rewrite S, minus_one. cbn [negb andb bind]. split; reflexivity.
Qed.
Print Assumptions C118_instant.

(** Both solvers are asked the same of a displacement of at least 1e-7. *)
Theorem C118_agree : forall first strict dynamic low high buckling res r pos id d tol v, 0 <= tol -> / 10 ^ 7 <= Rabs v ->
  res (AtNode pos d FirstOrder) = (s_disp r id (dof_position d + 1)%Z, 0) ->
  exists ts, systus_tests strict dynamic [Displacement pos id d tol v (-1)] = Ok ts /\
    (Forall (fun t => says_ok r t = true) ts <-> Forall (passes first res) (aster_tests buckling low high [Displacement pos id d tol v (-1)])).
Proof.
  intros first strict dynamic low high buckling res r pos id d tol v T V E.
  destruct (C118_systus strict dynamic r [Displacement pos id d tol v (-1)]) as (ts & E1 & H1); [constructor; [cbn; lra|constructor]|].
  exists ts. split; [exact E1|]. rewrite H1, (C118_aster first) by (constructor; [cbn; lra|constructor]). rewrite !Forall_cons_iff. cbn [smet met]. unfold close.
  rewrite E, modulus_real, dist_real by reflexivity. cbn [fst]. replace (match d with DX => 1 | DY => 2 | DZ => 3 | RX => 4 | RY => 5 | RZ => 6 end)%Z with (dof_position d + 1)%Z by (now destruct d).
  split; intros [H F]; (split; [|constructor]); [split; [intros _; exact H|intros []; reflexivity]|now apply H].
Qed.
Print Assumptions C118_agree.
(** Between 1e-9 and 1e-7 they are not. *)
Theorem C118_agree_refuted : exists res r pos id d tol v, 0 < tol < 1 /\ / 10 ^ 9 <= Rabs v /\ res (AtNode pos d FirstOrder) = (s_disp r id (dof_position d + 1)%Z, 0) /\
  (forall first low high, Forall (passes first res) (aster_tests false low high [Displacement pos id d tol v (-1)])) /\
  exists t, systus_tests true false [Displacement pos id d tol v (-1)] = Ok [t] /\ says_ok r t = false.
Proof.
  exists (fun _ => (9 / 1000000, 0)), (mkSR (fun _ _ => 9 / 1000000) (fun _ => 0) [] (fun _ _ _ => 0)), 0%nat, 1%Z, DX, (/ 50), (/ 20000000).
  assert (E : Rabs (/ 20000000) = / 20000000) by (apply Rabs_pos_eq; lra). split; [lra|]. split; [rewrite E; lra|]. split; [reflexivity|].
  assert (A : forall a b, b < a -> le_bool a b = false) by (intros a b H; destruct (le_bool_spec a b); [lra|reflexivity]).
  assert (Dx : distance (9 / 1000000, 0) (/ 20000000, 0) = 9 / 1000000 - / 20000000) by (rewrite dist_real by reflexivity; cbn [fst]; apply Rabs_pos_eq; lra).
  split.
  - intros first low high. constructor; [|constructor].
    unfold aster_displacement, crit_of, smallest_relative, is_null. rewrite E, (A (/ 10 ^ 7)), (A (/ 20000000) tiny) by (pose proof tiny_small; lra).
    split; cbn [b_ref b_crit b_calc b_query b_machine accepts fst snd]; [intros p v [= <- <-]; cbn [accepts]; rewrite Dx; lra|rewrite Dx; destruct first; lra].
  - unfold systus_tests. cbn [mapM systus_test]. rewrite minus_one. cbn [negb andb bind concat app]. eexists. split; [reflexivity|]. cbn [says_ok s_disp].
    apply not_true_iff_false. rewrite rel_ok by (rewrite ?E; lra). rewrite E. rewrite Rabs_pos_eq by lra. lra.
Qed.
Print Assumptions C118_agree_refuted.

(** ** Examples *)
Definition C118_list : list expected :=
  [Displacement 3 11 DZ (/ 100) (-2) (-1); Harmonic 3 11 DX (/ 100) (3, 4) 50; Frequency 2 30 0 1 0 (/ 100); VonMises 3 5 (/ 100) 200].
Example C118_fair_case : Forall fair C118_list.
Proof.
  unfold C118_list. repeat constructor; cbn [fair]; try (left; reflexivity); try (rewrite modulus_real); try (rewrite Rabs_pos_eq by lra; lra).
  - rewrite Rabs_left by lra. lra.
  - unfold distance. cbn [fst snd]. replace ((3 - 0) ^ 2 + (4 - 0) ^ 2) with (5 * 5) by ring. rewrite sqrt_square by lra. lra.
Qed.
Example C118_sfair_case : Forall sfair [Displacement 3 11 DZ (/ 100) (-2) (-1); Frequency 2 30 0 1 0 (/ 100); VonMises 3 5 (/ 100) 200].
Proof. repeat constructor; cbn [sfair]; try lra; [rewrite Rabs_left by lra; lra|rewrite Rabs_pos_eq by lra; lra]. Qed.
(** Two frequencies, each with its displacements and phases: the second is found at map 3. *)
Example C118_search_case : search [1; 1; 20; 20] 20 (Rmax 20 1) 4 1 = 3%nat.
Proof.
  apply (C118_search [1; 1; 20; 20] 20 3); [cbn; lia| |]; rewrite Rmax_left by lra.
  - cbn. replace (20 - 20) with 0 by ring. rewrite Rabs_R0. lra.
  - intros j J. assert (Hj : (j = 1 \/ j = 2)%nat) by lia. destruct Hj as [-> | ->]; cbn; rewrite Rabs_left by lra; lra.
Qed.
