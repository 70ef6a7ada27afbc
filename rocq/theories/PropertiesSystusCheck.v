(** C129: the checks of the Systus command files tell whether the assertions are met. *)
From Coq Require Import Reals ZArith List Bool Lia Lra Psatz.
From Verif Require Import Base OptionsModel SystusCaseModel SystusDatModel SystusCheckModel.
Import ListNotations.
Open Scope R_scope.

(** Close to an expected value: relatively to it, or absolutely when it is almost zero. *)
Definition close (x v tol : R) : Prop := (/ 10 ^ 9 <= Rabs v -> Rabs (x - v) <= Rabs tol * Rabs v) /\ (Rabs v < / 10 ^ 9 -> Rabs (x - v) <= Rabs tol).
(** What an assertion asks of the results of the first load case. *)
Definition met (r : results) (a : assertion) : Prop :=
  match a with
  | Displacement node dof v tol _ => close (r_disp r 1%Z node (dof + 1)%Z) v tol
  | Frequency number cycles tol => close (r_freq r number) cycles tol
  | _ => True
  end.

Lemma small9 : 0 < / 10 ^ 9. Proof. apply Rinv_0_lt_compat. lra. Qed.
Lemma quotient x v tol : Rabs ((x - v) / divisor v) <= Rabs tol <-> close x v tol.
Proof.
  unfold divisor, close. pose proof small9. destruct (Rle_dec (/ 10 ^ 9) (Rabs v)) as [L|L].
  - assert (v <> 0) as V by (intros ->; rewrite Rabs_R0 in L; lra). unfold Rdiv. rewrite Rabs_mult, Rabs_inv.
    assert (0 < Rabs v) as P by lra. split.
    + intros X. split; [intros _|lra]. apply Rmult_le_compat_r with (r := Rabs v) in X; [|lra]. rewrite Rmult_assoc, Rinv_l, Rmult_1_r in X by lra. exact X.
    + intros [X _]. apply Rmult_le_reg_r with (Rabs v); [exact P|]. rewrite Rmult_assoc, Rinv_l, Rmult_1_r by lra. auto.
  - unfold Rdiv. rewrite Rinv_1, Rmult_1_r. split; [intros X; split; [lra|auto]|intros [_ X]; apply X; lra].
Qed.
Lemma ok_iff r c : prints_ok r c = true <-> difference r c <= Rabs (tolerance_of c).
Proof. unfold prints_ok. destruct (Rgt_dec _ _); split; intros; try discriminate; try reflexivity; lra. Qed.

(** The checks of displacements and frequencies all print OK exactly when the assertions are
    met; the frequencies of a dynamic modal analysis are not asked. *)
Definition asked (type : Z) (a : assertion) : Prop := match a with Frequency _ _ _ => type <> DYNA_MODAL | _ => True end.
Definition plain (a : assertion) : Prop := match a with ComplexDisplacement _ _ _ _ _ _ => False | _ => True end.
Theorem C129_verdict : forall mode type l cs r, write_checks mode type l = Ok cs -> Forall plain l ->
  (forall c, In c cs -> prints_ok r c = true) <-> (forall a, In a l -> asked type a -> met r a).
Proof.
  intros mode type l cs r H P. unfold write_checks in H. destruct (mapM (write_check mode type) l) as [css| | |] eqn:M; try discriminate H. injection H as <-.
  revert css M. induction l as [|a l IH]; intros css M.
  - injection M as <-. cbn. split; intros; contradiction.
  - cbn [mapM] in M. destruct (write_check mode type a) as [x| | |] eqn:W; try discriminate M. cbn [bind] in M.
    destruct (mapM (write_check mode type) l) as [y| | |]; try discriminate M. cbn [bind] in M. injection M as <-. inversion P as [|? ? P1 P2]; subst.
    specialize (IH P2 y eq_refl). cbn [concat].
    assert (E : (forall c, In c x -> prints_ok r c = true) <-> (asked type a -> met r a)).
    { destruct a as [node dof v tol inst|number cyc tol|?| |]; cbn [write_check met asked] in *; [| |contradiction| |].
      - destruct (near inst (-1)); [|destruct mode; try discriminate W]; cbn [bind writing_error] in W; injection W as <-; rewrite <- quotient; split; intros X;
          solve [intros _; exact (proj1 (ok_iff _ _) (X _ (or_introl eq_refl)))|intros c [<-|[]]; apply ok_iff; exact (X Logic.I)].
      - destruct (Z.eqb_spec type DYNA_MODAL) as [T|T]; injection W as <-; [split; [contradiction|intros _ c []]|]. rewrite <- quotient. split; intros X;
          solve [intros _; exact (proj1 (ok_iff _ _) (X _ (or_introl eq_refl)))|intros c [<-|[]]; apply ok_iff; exact (X T)].
      - injection W as <-. split; [auto|intros _ c []].
      - destruct mode; try discriminate W; injection W as <-; (split; [auto|intros _ c []]). }
    split.
    + intros X b [<-|I] A; [apply E; [intros c J; apply X, in_or_app; now left|exact A]|]. apply IH; [|exact I|exact A]. intros c J. apply X, in_or_app; now right.
    + intros X c I. apply in_app_or in I as [I|I]; [apply E; [apply X; now left|exact I]|]. apply IH; [|exact I]. intros b J. apply X; now right.
Qed.
(** Strict mode refuses an instant and the assertions without check, never a displacement
    without instant nor a frequency. *)
Definition checkable (a : assertion) : Prop :=
  match a with Displacement _ _ _ _ t => near t (-1) = true | OtherAssertion => False | _ => True end.
Theorem C129_strict : forall type l, (exists cs, write_checks Strict type l = Ok cs) <-> Forall checkable l.
Proof.
  intros type l. unfold write_checks. assert ((exists css, mapM (write_check Strict type) l = Ok css) <-> Forall checkable l) as <-.
  - induction l as [|a l IH]; [split; [constructor|exists []; reflexivity]|]. cbn [mapM].
    assert (E : (exists x, write_check Strict type a = Ok x) <-> checkable a).
    { destruct a as [node dof v tol inst|number cyc tol|?| |]; cbn.
      - destruct (near inst (-1)); cbn; (split; [intros [x X]; first [discriminate X|reflexivity]|intros X; first [discriminate X|eauto]]).
      - destruct (type =? DYNA_MODAL)%Z; split; eauto.
      - split; eauto.
      - split; eauto.
      - split; [intros []; discriminate|intros []]. }
    split.
    + intros [css X]. destruct (write_check Strict type a) eqn:W; try discriminate X. cbn in X. destruct (mapM _ l) eqn:M; try discriminate X.
      constructor; [apply E; eauto|apply IH; eauto].
    + intros X. inversion X as [|? ? X1 X2]; subst. apply E in X1 as [x ->]. apply IH in X2 as [y ->]. cbn. eauto.
  - destruct (mapM _ l); cbn; split; intros []; try discriminate; eauto.
Qed.

(** The map of a frequency response is the first one at the frequency, when there is one
    before the last. *)
Definition at_frequency (r : results) (puls scale : R) (n : nat) : Prop := Rabs (r_time r n - puls) / scale <= / 10 ^ 5.
Lemma find_from r puls scale fuel : forall n k, (n <= k < r_maps r - 1)%nat -> (k - n < fuel)%nat -> at_frequency r puls scale k ->
  let m := find_map r puls scale n fuel in at_frequency r puls scale m /\ (n <= m <= k)%nat /\ forall i, (n <= i < m)%nat -> ~ at_frequency r puls scale i.
Proof.
  unfold at_frequency. induction fuel as [|f IH]; intros n k B F K; [lia|]. cbn [find_map]. destruct (Nat.ltb_spec n (r_maps r - 1)) as [L|L]; [|lia].
  destruct (Rlt_dec (/ 10 ^ 5) (Rabs (r_time r n - puls) / scale)) as [D|D].
  - assert (n <> k) by (intros ->; lra). destruct (IH (S n) k ltac:(lia) ltac:(lia) K) as (A & M & N). split; [exact A|]. split; [lia|].
    intros i I. destruct (Nat.eq_dec i n) as [->|]; [lra|]. apply N. lia.
  - split; [lra|]. split; [lia|]. intros i I. lia.
Qed.
Theorem C129_map : forall r puls scale k, (1 <= k < r_maps r - 1)%nat -> at_frequency r puls scale k ->
  let m := find_map r puls scale 1 (r_maps r) in at_frequency r puls scale m /\ (1 <= m <= k)%nat /\ forall i, (1 <= i < m)%nat -> ~ at_frequency r puls scale i.
Proof. intros r puls scale k B K. apply find_from; [lia|lia|exact K]. Qed.

(** A check of a complex displacement prints OK only when the computed value is within the
    tolerance of the expected one, and prints OK whenever it is within it up to the square
    root of two. *)
Definition distance (r : results) (m : nat) (node comp : Z) (re im : R) : R :=
  modulus (r_tran r m node comp * cos (r_tran r (S m) node comp) - re) (r_tran r m node comp * sin (r_tran r (S m) node comp) - im).
Lemma norms x y : modulus x y <= Rabs x + Rabs y <= sqrt 2 * modulus x y.
Proof.
  pose proof (Rabs_pos x). pose proof (Rabs_pos y). unfold modulus.
  assert (x * x = Rabs x * Rabs x) as -> by (rewrite <- Rabs_mult, Rabs_right; [reflexivity|nra]).
  assert (y * y = Rabs y * Rabs y) as -> by (rewrite <- Rabs_mult, Rabs_right; [reflexivity|nra]).
  set (a := Rabs x) in *. set (b := Rabs y) in *. split.
  - rewrite <- (sqrt_square (a + b)) by lra. apply sqrt_le_1; nra.
  - rewrite <- sqrt_mult by nra. apply Rle_trans with (sqrt ((a + b) * (a + b))); [rewrite sqrt_square; lra|]. pose proof (Rle_0_sqr (a - b)) as Q. unfold Rsqr in Q. apply sqrt_le_1; nra.
Qed.
Theorem C129_complex : forall mode type node dof re im f tol r, / 10 ^ 9 <= modulus re im -> exists c,
  write_check mode type (ComplexDisplacement node dof re im f tol) = Ok [c] /\
  let m := find_map r (f * 2 * PI) (Rmax (f * 2 * PI) 1) 1 (r_maps r) in
  (prints_ok r c = true -> distance r m node (dof + 1)%Z re im <= Rabs tol * modulus re im) /\
  (sqrt 2 * distance r m node (dof + 1)%Z re im <= Rabs tol * modulus re im -> prints_ok r c = true).
Proof.
  intros mode type node dof re im f tol r V. eexists. split; [reflexivity|]. cbv zeta. rewrite ok_iff. cbn [difference tolerance_of].
  set (m := find_map _ _ _ _ _). pose proof small9 as S9. unfold distance.
  assert (divisor (modulus re im) = modulus re im) as ->.
  { unfold divisor. assert (Rabs (modulus re im) = modulus re im) as -> by (apply Rabs_right; lra). destruct (Rle_dec (/ 10 ^ 9) (modulus re im)); [reflexivity|contradiction]. }
  set (dx := _ - re). set (dy := _ - im). destruct (norms dx dy) as [N1 N2]. set (v := modulus re im) in *. assert (0 < v) as P by lra.
  assert (E : (Rabs dx + Rabs dy) / v <= Rabs tol <-> Rabs dx + Rabs dy <= Rabs tol * v).
  { split; intros X.
    - apply Rmult_le_compat_r with (r := v) in X; [|lra]. unfold Rdiv in X. rewrite Rmult_assoc, Rinv_l, Rmult_1_r in X by lra. exact X.
    - apply Rmult_le_reg_r with v; [exact P|]. unfold Rdiv. rewrite Rmult_assoc, Rinv_l, Rmult_1_r by lra. exact X. }
  split; intros X; [apply E in X; lra|apply E; lra].
Qed.

(** A check looks at the first load case, whatever the analysis: when two static analyses
    share a subcase, the assertions of the second one are compared with the results of the
    first.  An exact result of the second case is then reported as wrong, and conversely. *)
Theorem C129_case_refuted : exists l cs r r', write_checks Strict STATIC l = Ok cs /\ l = [Displacement 5 0 2 (/ 10) (-1)] /\
  r_disp r 2%Z 5%Z 1%Z = 2 /\ (exists c, In c cs /\ prints_ok r c = false) /\ r_disp r' 2%Z 5%Z 1%Z = 7 /\ forall c, In c cs -> prints_ok r' c = true.
Proof.
  exists [Displacement 5 0 2 (/ 10) (-1)], [CheckDisplacement 1 5 1 2 (divisor 2) (/ 10)],
    (mkRes (fun c _ _ => if (c =? 2)%Z then 2 else 7) (fun _ => 0) 0 (fun _ => 0) (fun _ _ _ => 0)),
    (mkRes (fun c _ _ => if (c =? 2)%Z then 7 else 2) (fun _ => 0) 0 (fun _ => 0) (fun _ _ _ => 0)).
  assert (near (-1) (-1) = true) as N.
  { unfold near. destruct (Rle_dec _ _) as [|X]; [reflexivity|]. exfalso. apply X. rewrite Rminus_diag_eq, Rabs_R0 by reflexivity.
    apply Rmult_le_pos; [lra|]. apply Rle_trans with 1; [lra|apply Rmax_l]. }
  split; [unfold write_checks; cbn; rewrite N; reflexivity|]. split; [reflexivity|]. split; [reflexivity|]. split; [|split; [reflexivity|]].
  - eexists. split; [now left|]. destruct (prints_ok _ _) eqn:E; [|reflexivity]. exfalso. apply ok_iff in E. cbn in E. apply quotient in E as [E _].
    rewrite !Rabs_right in E by lra. assert (/ 10 ^ 9 <= 2) as X by lra. apply E in X. lra.
  - intros c [<-|[]]. apply ok_iff. cbn. rewrite Rminus_diag_eq by reflexivity. unfold Rdiv. rewrite Rmult_0_l, Rabs_R0. apply Rabs_pos.
Qed.
(** When no map is at the frequency the check looks at the last one it tried. *)
Theorem C129_missing_frequency_refuted : exists r puls scale, (2 < r_maps r)%nat /\ scale = Rmax puls 1 /\
  (forall n, (1 <= n <= r_maps r)%nat -> ~ at_frequency r puls scale n) /\ find_map r puls scale 1 (r_maps r) = (r_maps r - 1)%nat.
Proof.
  assert (F : forall r puls scale, (forall n, ~ at_frequency r puls scale n) -> r_maps r = 4%nat -> find_map r puls scale 1 4 = 3%nat).
  { intros r puls scale A M. cbn [find_map]. rewrite !M. cbn [Nat.ltb Nat.leb Nat.sub].
    destruct (Rlt_dec _ (Rabs (r_time r 1 - puls) / scale)) as [_|X]; [|exfalso; apply (A 1%nat); unfold at_frequency; lra].
    destruct (Rlt_dec _ (Rabs (r_time r 2 - puls) / scale)) as [_|X]; [reflexivity|exfalso; apply (A 2%nat); unfold at_frequency; lra]. }
  set (r := mkRes (fun _ _ _ => 0) (fun _ => 0) 4 (fun _ => 2) (fun _ _ _ => 0)).
  assert (A : forall n, ~ at_frequency r 1 (Rmax 1 1) n).
  { intros n. unfold at_frequency. cbn. rewrite Rmax_left by lra. replace ((2 - 1)) with 1 by lra. rewrite Rabs_R1. lra. }
  exists r, 1, (Rmax 1 1). split; [cbn; lia|]. split; [reflexivity|]. split; [intros n _; apply A|]. now apply F.
Qed.

(** An analysis with a displacement and a frequency. *)
Example C129_study : exists l cs r, write_checks BestEffort STATIC l = Ok cs /\ length cs = 2%nat /\ Forall plain l /\
  forall a, In a l -> asked STATIC a /\ met r a.
Proof.
  exists [Displacement 5 2 3 (/ 10) (-1); Frequency 1 (-4) 0; VonMises]. unfold write_checks. cbn.
  exists [CheckDisplacement 1 5 3 3 (divisor 3) (/ 10); CheckFrequency 1 (-4) (divisor (-4)) 0],
    (mkRes (fun _ _ _ => 31 / 10) (fun _ => -4) 0 (fun _ => 0) (fun _ _ _ => 0)).
  split; [destruct (near (-1) (-1)); reflexivity|]. split; [reflexivity|]. split; [repeat constructor|].
  intros a [<-|[<-|[<-|[]]]]; (split; [first [exact I|discriminate]|]); cbn; [| |exact I].
  - unfold close. rewrite !Rabs_right by lra. split; lra.
  - unfold close. rewrite (Rminus_diag_eq (-4)), Rabs_R0 by reflexivity. pose proof (Rabs_pos (-4)). split; intros _; lra.
Qed.
Example C129_response : exists r puls scale, (1 <= 3 < r_maps r - 1)%nat /\ at_frequency r puls scale 3 /\ ~ at_frequency r puls scale 2 /\ / 10 ^ 9 <= modulus 3 4.
Proof.
  exists (mkRes (fun _ _ _ => 0) (fun _ => 0) 6 (fun n => INR n) (fun _ _ _ => 0)), 3, 3. unfold at_frequency. cbn. split; [lia|]. split; [|split].
  - replace (1 + 1 + 1 - 3) with 0 by lra. rewrite Rabs_R0. lra.
  - replace (1 + 1 - 3) with (-(1)) by lra. rewrite Rabs_Ropp, Rabs_R1. lra.
  - unfold modulus. replace (3 * 3 + 4 * 4) with (5 * 5) by lra. rewrite sqrt_square by lra. lra.
Qed.

Print Assumptions C129_verdict.
Print Assumptions C129_strict.
Print Assumptions C129_map.
Print Assumptions C129_complex.
Print Assumptions C129_case_refuted.
Print Assumptions C129_missing_frequency_refuted.
