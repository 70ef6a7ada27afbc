(** C122: lengths of a mesh and stiffness of the rigid elements made from them. *)
From Coq Require Import Reals List Bool Lra Lia.
From Verif Require Import Base GeomModel MeshStatsModel MeshStatsProofs.
Import ListNotations.
Open Scope R_scope.

(** ** Specification *)
(** The square of the distance of two points. *)
Definition square_between (p q : vec) : R := (vx p - vx q) ^ 2 + (vy p - vy q) ^ 2 + (vz p - vz q) ^ 2.
(** A cell of a type with two nodes at least. *)
Definition cell_of (ts : ctypes) (cell : list vec) : Prop := exists n cells, In (n, cells) ts /\ (2 <= n)%nat /\ In cell cells.
(** [d] is the distance of two different nodes of a cell. *)
Definition apart (ts : ctypes) (d : R) : Prop :=
  exists cell i j p q, cell_of ts cell /\ (i < j)%nat /\ nth_error cell i = Some p /\ nth_error cell j = Some q /\ d = sqrt (square_between p q).
(** The squares of all the distances that are not null, cell by cell. *)
Fixpoint squares (l : list vec) : list R :=
  match l with [] => [] | p :: r => map (square_between p) r ++ squares r end.
Definition not_null (tol x : R) : bool := if Rlt_dec tol x then true else false.
Definition all_squares (tol : R) (ts : ctypes) : list R :=
  filter (not_null tol) (flat_map (fun t => if Nat.leb 2 (fst t) then flat_map squares (snd t) else []) ts).
Definition sum (l : list R) : R := fold_right Rplus 0 l.

(** ** Lemmas *)
Lemma sqd_square p q : sqd p q = square_between p q.
Proof. unfold sqd, square_between. ring. Qed.
Lemma long_leb t : long t = Nat.leb 2 (fst t).
Proof. unfold long. destruct (Nat.ltb (fst t) 2) eqn:A, (Nat.leb 2 (fst t)) eqn:B; try reflexivity;
  [apply Nat.ltb_lt in A; apply Nat.leb_le in B; lia|apply Nat.ltb_ge in A; apply Nat.leb_gt in B; lia]. Qed.
Lemma strict_squares l : strict_pairs l = squares l.
Proof. induction l as [|a l IH]; [reflexivity|]. cbn. rewrite IH. f_equal. apply map_ext. apply sqd_square. Qed.
Lemma squares_nonneg : forall l x, In x (squares l) -> 0 <= x.
Proof.
  induction l as [|a l IH]; intros x; cbn; [intros []|]. intros H. apply in_app_or in H as [H|H]; [|auto].
  apply in_map_iff in H as (q & <- & _). rewrite <- sqd_square. apply sqd_nonneg.
Qed.
Lemma flat_map_kept tol {A} (f g : A -> list R) : (forall a, kept tol (f a) = kept tol (g a)) -> forall l, kept tol (flat_map f l) = kept tol (flat_map g l).
Proof. intros H. induction l as [|a l IH]; [reflexivity|]. cbn [flat_map]. rewrite !kept_app, H, IH. reflexivity. Qed.
Lemma kept_all tol ts : 0 <= tol -> kept tol (flat_map distances ts) = all_squares tol ts.
Proof.
  intros T. rewrite (flat_map_kept tol distances (fun t => if Nat.leb 2 (fst t) then flat_map squares (snd t) else [])).
  - unfold all_squares, kept. apply filter_ext_in. intros x Ix. assert (0 <= x).
    { apply in_flat_map in Ix as (t & _ & Ix). destruct (Nat.leb 2 (fst t)); [|destruct Ix]. apply in_flat_map in Ix as (c & _ & Ix). exact (squares_nonneg c x Ix). }
    unfold near_zero, not_null. rewrite Rabs_right by lra. destruct (Rle_dec x tol), (Rlt_dec tol x); try reflexivity; lra.
  - intros t. unfold distances. rewrite long_leb. destruct (Nat.leb 2 (fst t)); [|reflexivity]. apply flat_map_kept. intros c. rewrite kept_pairs by exact T. rewrite strict_squares. reflexivity.
Qed.
Lemma distance_cell ts x : In x (flat_map distances ts) -> exists cell, cell_of ts cell /\ In x (pair_distances cell).
Proof.
  intros H. apply in_flat_map in H as ([n cells] & It & H). unfold distances in H. rewrite long_leb in H. cbn [fst snd] in H.
  destruct (Nat.leb 2 n) eqn:L; [|destruct H]. apply in_flat_map in H as (c & Ic & H). exists c. split; [|exact H]. exists n, cells. repeat split; auto. apply Nat.leb_le. exact L.
Qed.
Lemma cell_distance ts cell x : cell_of ts cell -> In x (pair_distances cell) -> In x (flat_map distances ts).
Proof.
  intros (n & cells & It & L & Ic) H. apply in_flat_map. exists (n, cells). split; [exact It|]. unfold distances. rewrite long_leb. cbn [fst snd].
  apply Nat.leb_le in L. rewrite L. apply in_flat_map. exists cell. auto.
Qed.
Lemma sum_fold l : fold_left Rplus l 0 = sum l.
Proof. induction l as [|x l IH]; [reflexivity|]. cbn [fold_left sum fold_right]. rewrite sum_from. fold (sum l). rewrite <- IH. lra. Qed.

(** ** Theorems *)
Theorem C122_longest : forall M tol ts s, compute_stats M tol ts = Ok s ->
  (forall d, apart ts d -> d <= maxLength s) /\ (maxLength s = 0 \/ apart ts (maxLength s)).
Proof.
  intros M tol ts s E. unfold compute_stats in E. destruct (foldM (type_step tol) ts (mkAcc M M 0 0 0)) as [a| | |] eqn:F; try discriminate E. cbn [bind] in E. injection E as <-.
  destruct (fold_acc tol ts _ _ F) as (A & _). cbn [maxLength a_max] in *. rewrite A. split.
  - intros d (cell & i & j & p & q & C & L & Ei & Ej & ->). apply sqrt_le_1_alt. apply max_in. rewrite <- sqd_square. eapply cell_distance; [exact C|]. eapply pair_all; eassumption.
  - destruct (max_attained (flat_map distances ts) 0) as [->|H]; [left; apply sqrt_0|].
    destruct (distance_cell ts _ H) as (cell & C & P). apply pair_in in P as (i & j & p & q & L & Ei & Ej & X). rewrite X.
    destruct (Nat.eq_dec i j) as [->|Ne]; [left; assert (p = q) by congruence; subst q; rewrite sqd_self; apply sqrt_0|].
    right. exists cell, i, j, p, q. repeat split; auto; [lia|]. rewrite sqd_square. reflexivity.
Qed.

Theorem C122_shortest : forall M tol ts s, 0 <= tol -> compute_stats M tol ts = Ok s ->
  (forall d, apart ts d -> tol < d * d -> minNonzeroLength s <= d) /\
  (minNonzeroLength s = sqrt M \/ (apart ts (minNonzeroLength s) /\ tol < minNonzeroLength s * minNonzeroLength s)).
Proof.
  intros M tol ts s T E. unfold compute_stats in E. destruct (foldM (type_step tol) ts (mkAcc M M 0 0 0)) as [a| | |] eqn:F; try discriminate E. cbn [bind] in E. injection E as <-.
  destruct (fold_acc tol ts _ _ F) as (_ & A & _). cbn [minNonzeroLength a_minnz] in *. rewrite A. split.
  - intros d (cell & i & j & p & q & C & L & Ei & Ej & ->) B. rewrite sqrt_sqrt in B by (rewrite <- sqd_square; apply sqd_nonneg).
    apply sqrt_le_1_alt. apply min_in. apply kept_in. rewrite <- sqd_square in *. split; [|rewrite Rabs_right by (apply Rle_ge; apply sqd_nonneg); exact B].
    eapply cell_distance; [exact C|]. eapply pair_all; eassumption.
  - destruct (min_attained (kept tol (flat_map distances ts)) M) as [->|H]; [auto|]. right. apply kept_in in H as [H B].
    destruct (distance_cell ts _ H) as (cell & C & P). apply pair_in in P as (i & j & p & q & L & Ei & Ej & X). rewrite X in *.
    rewrite Rabs_right in B by (apply Rle_ge; apply sqd_nonneg).
    destruct (Nat.eq_dec i j) as [->|Ne]; [assert (p = q) by congruence; subst q; rewrite sqd_self in B; lra|].
    split; [|rewrite sqrt_sqrt by apply sqd_nonneg; exact B]. exists cell, i, j, p, q. repeat split; auto; [lia|]. rewrite sqd_square. reflexivity.
Qed.

(** The mean is that of the distances that are not null; there is none exactly
    when no cell has two nodes. *)
Theorem C122_mean : forall M tol ts s m, 0 <= tol -> compute_stats M tol ts = Ok s -> quadraticMeanLength s = Some m ->
  m = sqrt (sum (all_squares tol ts) / INR (length (all_squares tol ts))) /\ minNonzeroLength s <= m <= maxLength s /\ tol < m * m.
Proof.
  intros M tol ts s m T E Q. unfold compute_stats in E. destruct (foldM (type_step tol) ts (mkAcc M M 0 0 0)) as [a| | |] eqn:F; try discriminate E. cbn [bind] in E. injection E as <-.
  destruct (fold_acc tol ts _ _ F) as (A & B & C & D). cbn [quadraticMeanLength minNonzeroLength maxLength a_max a_minnz a_sum a_count] in *.
  assert (Qm : m = sqrt (a_sum a / INR (a_count a)) /\ (0 < a_count a)%nat) by (destruct (a_count a); [discriminate Q|injection Q as <-; split; [reflexivity|lia]]).
  destruct Qm as [-> Cp]. clear Q. cbn [Nat.add] in D.
  rewrite kept_all in B, C, D by exact T. rewrite sum_fold, Rplus_0_l in C. rewrite C, D in *. split; [reflexivity|].
  assert (Pos : 0 < INR (length (all_squares tol ts))) by (apply lt_0_INR; lia).
  assert (In1 : forall x, In x (all_squares tol ts) -> tol < x /\ x <= a_max a /\ a_minnz a <= x).
  { intros x Ix. rewrite B, A. rewrite <- kept_all in Ix |- * by exact T. pose proof (proj1 (kept_in _ _ _) Ix) as [Ix' Bx].
    assert (0 <= x). { destruct (distance_cell ts _ Ix') as (cell & _ & P). apply pair_in in P as (i & j & p & q & _ & _ & _ & ->). apply sqd_nonneg. }
    rewrite Rabs_right in Bx by lra. split; [exact Bx|]. split; [apply max_in; exact Ix'|apply min_in; exact Ix]. }
  destruct (sum_bounds (all_squares tol ts) (a_minnz a) (a_max a)) as [Lo Hi]; [intros x Ix; destruct (In1 x Ix) as (_ & U & V); auto|]. rewrite sum_fold in Lo, Hi.
  assert (S1 : a_minnz a <= sum (all_squares tol ts) / INR (length (all_squares tol ts)) <= a_max a).
  { split; [apply (Rmult_le_reg_r (INR (length (all_squares tol ts)))); [exact Pos|]|apply (Rmult_le_reg_r (INR (length (all_squares tol ts)))); [exact Pos|]];
    unfold Rdiv; rewrite Rmult_assoc, Rinv_l by lra; lra. }
  destruct S1 as [S1 S2]. split; [split; apply sqrt_le_1_alt; assumption|].
  assert (S3 : tol < sum (all_squares tol ts) / INR (length (all_squares tol ts))).
  { destruct (all_squares tol ts) as [|x0 xs] eqn:Al; [cbn in Pos; lra|].
    set (lo := fold_left Rmin xs x0). assert (Blo : tol < lo).
    { unfold lo. destruct (min_attained xs x0) as [->|H]; [apply (In1 x0); left; reflexivity|]. apply (In1 _ (or_intror H)). }
    destruct (sum_bounds (x0 :: xs) lo (a_max a)) as [Lo' _].
    { intros x Ix. split; [|apply (In1 x Ix)]. unfold lo. destruct Ix as [<-|Ix]; [apply min_le|apply min_in; exact Ix]. }
    rewrite sum_fold in Lo'. apply Rlt_le_trans with lo; [exact Blo|].
    apply (Rmult_le_reg_r (INR (length (x0 :: xs)))); [exact Pos|]. unfold Rdiv; rewrite Rmult_assoc, Rinv_l by lra. lra. }
  rewrite sqrt_sqrt by lra. exact S3.
Qed.
Theorem C122_no_mean : forall M tol ts s, compute_stats M tol ts = Ok s ->
  (quadraticMeanLength s = None <-> forall n cells, In (n, cells) ts -> (n < 2)%nat).
Proof.
  intros M tol ts s E. unfold compute_stats in E. destruct (foldM (type_step tol) ts (mkAcc M M 0 0 0)) as [a| | |] eqn:F; try discriminate E. cbn [bind] in E. injection E as <-.
  destruct (fold_acc tol ts _ _ F) as (_ & _ & _ & D). cbn [quadraticMeanLength a_count Nat.add] in *. split.
  - intros Q n cells It. destruct (a_count a) eqn:N; [|discriminate Q]. destruct (lt_dec n 2) as [L|L]; [exact L|]. exfalso.
    assert (Lg : long (n, cells) = true) by (rewrite long_leb; apply Nat.leb_le; cbn; lia).
    pose proof (fold_nonempty tol ts _ _ _ F It Lg) as Ne. apply Ne. symmetry in D. apply length_zero_iff_nil in D.
    destruct (kept tol (distances (n, cells))) as [|x r] eqn:K; [reflexivity|]. exfalso.
    assert (Ix : In x (kept tol (distances (n, cells)))) by (rewrite K; left; reflexivity). apply kept_in in Ix as [Ix Bx].
    assert (X : In x (kept tol (flat_map distances ts))) by (apply kept_in; split; [apply in_flat_map; exists (n, cells); auto|exact Bx]). rewrite D in X. destruct X.
  - intros H. assert (X : flat_map distances ts = []).
    { clear -H. induction ts as [|[n cells] ts IH]; [reflexivity|]. cbn [flat_map]. rewrite IH by (intros n' c' I'; apply (H n' c'); right; exact I').
      unfold distances. rewrite long_leb. pose proof (H n cells (or_introl eq_refl)). cbn [fst]. destruct (Nat.leb 2 n) eqn:L; [apply Nat.leb_le in L; lia|reflexivity]. }
    rewrite X in D. cbn in D. rewrite D. reflexivity.
Qed.

(** When every type of cells has one that is not reduced to a point, there are statistics. *)
Definition extended (tol : R) (t : nat * list (list vec)) : Prop :=
  exists cell i j p q, In cell (snd t) /\ (i < j)%nat /\ nth_error cell i = Some p /\ nth_error cell j = Some q /\ tol < square_between p q.
Theorem C122_computed : forall M tol ts, (forall t, In t ts -> (2 <= fst t)%nat -> extended tol t) -> exists s, compute_stats M tol ts = Ok s.
Proof.
  intros M tol ts H. unfold compute_stats. destruct (fold_succeeds tol ts (mkAcc M M 0 0 0)) as (a & ->); [|eexists; reflexivity].
  intros t It L K. rewrite long_leb in L. apply Nat.leb_le in L. destruct (H t It L) as (cell & i & j & p & q & Ic & Lt & Ei & Ej & B).
  assert (X : In (square_between p q) (kept tol (distances t))).
  { apply kept_in. rewrite <- sqd_square in *. split; [|rewrite Rabs_right by (apply Rle_ge; apply sqd_nonneg); exact B].
    unfold distances. rewrite long_leb. apply Nat.leb_le in L. rewrite L. apply in_flat_map. exists cell. split; [exact Ic|]. eapply pair_all; eassumption. }
  rewrite K in X. destruct X.
Qed.
(** It is not so when the cells of a type are all reduced to points (for instance
    when the only two-node cells are springs between coincident nodes), or when a
    type has no cell left: the program reads past the end of an array. *)
Theorem C122_coincident_refuted : forall M tol ts n cells, 0 <= tol -> In (n, cells) ts -> (2 <= n)%nat ->
  (forall cell i j p q, In cell cells -> nth_error cell i = Some p -> nth_error cell j = Some q -> square_between p q <= tol) ->
  compute_stats M tol ts = UB.
Proof.
  intros M tol ts n cells T It L H. unfold compute_stats. rewrite (fold_fails tol ts _ (n, cells) It); [reflexivity|rewrite long_leb; apply Nat.leb_le; exact L|].
  destruct (kept tol (distances (n, cells))) as [|x r] eqn:K; [reflexivity|]. exfalso.
  assert (Ix : In x (kept tol (distances (n, cells)))) by (rewrite K; left; reflexivity). apply kept_in in Ix as [Ix Bx].
  unfold distances in Ix. destruct (long (n, cells)); [|destruct Ix]. apply in_flat_map in Ix as (c & Ic & Ix). apply pair_in in Ix as (i & j & p & q & _ & Ei & Ej & ->).
  specialize (H c i j p q Ic Ei Ej). rewrite <- sqd_square in H. pose proof (sqd_nonneg p q). rewrite Rabs_right in Bx by lra. lra.
Qed.
(** The smallest length is 0 for every mesh: each node is compared with itself. *)
Theorem C122_min_length_refuted : forall M tol ts s, 0 < M -> compute_stats M tol ts = Ok s ->
  (exists n cells, In (n, cells) ts /\ (2 <= n)%nat) -> minLength s = 0.
Proof.
  intros M tol ts s P E (n & cells & It & L). unfold compute_stats in E. destruct (foldM (type_step tol) ts (mkAcc M M 0 0 0)) as [a| | |] eqn:F; try discriminate E. cbn [bind] in E. injection E as <-.
  destruct (min_fold tol ts (mkAcc M M 0 0 0) a) as (_ & _ & Z); [cbn; lra|exact F|]. cbn [minLength]. rewrite Z; [apply sqrt_0|].
  apply existsb_exists. exists (n, cells). split; [exact It|]. rewrite long_leb. apply Nat.leb_le. exact L.
Qed.

(** The statistics are those of the mesh at the first call: a longer cell added
    later is not seen. *)
Theorem C122_first_call : forall M tol ts c s, calcStats M tol None ts = Ok (c, s) <-> c = Some s /\ compute_stats M tol ts = Ok s.
Proof.
  intros M tol ts c s. unfold calcStats. destruct (compute_stats M tol ts) as [x| | |]; cbn [bind].
  - split; [intros E; injection E as <- <-; auto|intros [-> E]; injection E as ->; reflexivity].
  - split; [discriminate|intros [_ E]; discriminate E].
  - split; [discriminate|intros [_ E]; discriminate E].
  - split; [discriminate|intros [_ E]; discriminate E].
Qed.
Theorem C122_stale_refuted : forall M tol ts ts' c s d, calcStats M tol None ts = Ok (c, s) -> apart ts' d -> maxLength s < d ->
  exists c' s', calcStats M tol c ts' = Ok (c', s') /\ maxLength s' < d.
Proof. intros M tol ts ts' c s d E A L. apply C122_first_call in E as [-> _]. exists (Some s), s. split; [reflexivity|exact L]. Qed.

(** The stiffness of rigid elements: greatest modulus times mean length. *)
Theorem C122_stiffness : forall M tol moduli ts e c k, 0 <= tol < 1 ->
  generateRbarStiffness M tol None None moduli ts = Ok (e, c, Some k) ->
  (forall x, In x moduli -> x <= e) /\ (e = 0 \/ In e moduli) /\ 0 <= e /\
  exists s m, compute_stats M tol ts = Ok s /\ quadraticMeanLength s = Some m /\ k = e * m /\ e * minNonzeroLength s <= k <= e * maxLength s.
Proof.
  intros M tol moduli ts e c k T E. unfold generateRbarStiffness in E. destruct (calcStats M tol None ts) as [[c0 s]| | |] eqn:F; try discriminate E. cbn [bind fst snd] in E.
  apply C122_first_call in F as [-> F]. injection E as <- _ K. split; [intros x Ix; apply max_in; exact Ix|]. split; [apply max_attained|]. split; [apply max_ge|].
  destruct (quadraticMeanLength s) as [m|] eqn:Q; [|discriminate K]. injection K as <-.
  destruct (C122_mean M tol ts s m (proj1 T) F Q) as (X & [B1 B2] & B). pose proof (max_ge moduli 0).
  assert (Nz : near_zero tol m = false).
  { unfold near_zero. assert (0 <= m) by (rewrite X; apply sqrt_pos). destruct (Rle_dec (Rabs m) tol) as [L|L]; [|reflexivity]. rewrite Rabs_right in L by lra. exfalso. nra. }
  rewrite Nz. exists s, m. repeat split; auto; apply Rmult_le_compat_l; assumption.
Qed.
(** Without a cell of two nodes it is not a number, and so is the rigidity of a
    penalised element whose stiffness the user has not chosen. *)
Theorem C122_points_refuted : forall M tol young moduli ts coef, (forall n cells, In (n, cells) ts -> (n < 2)%nat) ->
  exists e c, generateRbarStiffness M tol young None moduli ts = Ok (e, c, None) /\ rigid_value false coef None None = None.
Proof.
  intros M tol young moduli ts coef H.
  destruct (C122_computed M tol ts) as (s & E). { intros [n cells] It L. pose proof (H n cells It). cbn in L. lia. }
  pose proof (proj2 (C122_no_mean M tol ts s E) H) as Q. unfold generateRbarStiffness, calcStats. rewrite E. cbn [bind fst snd]. rewrite Q. do 2 eexists. split; reflexivity.
Qed.
(** A writer that has already written a model keeps its modulus. *)
Theorem C122_second_model_refuted : forall M tol young cache moduli ts e c k, generateRbarStiffness M tol (Some young) cache moduli ts = Ok (e, c, k) -> e = young.
Proof. intros M tol young cache moduli ts e c k E. unfold generateRbarStiffness in E. destruct (calcStats M tol cache ts) as [[c0 s]| | |]; try discriminate E. cbn [bind] in E. congruence. Qed.
(** The number given to the material. *)
Theorem C122_value : forall coef chosen computed,
  rigid_value true coef chosen computed = Some coef /\
  (forall k, rigid_value false coef (Some k) computed = Some (coef * k)) /\
  (forall k, rigid_value false coef None (Some k) = Some (coef * k)).
Proof. intros. repeat split. Qed.

(** ** Examples *)
Definition seg : ctypes := [(1%nat, [[V3 5 5 5]]); (2%nat, [[V3 0 0 0; V3 3 4 0]; [V3 1 1 1; V3 1 1 1]])].
Example C122_case : exists s, compute_stats 100 0 seg = Ok s /\ apart seg 5 /\ maxLength s = 5 /\ minNonzeroLength s = 5 /\ minLength s = 0 /\ quadraticMeanLength s = Some 5.
Proof.
  destruct (C122_computed 100 0 seg) as (s & E).
  { intros t It L. destruct It as [<-|[<-|[]]]; cbn in L; [lia|]. exists [V3 0 0 0; V3 3 4 0], 0%nat, 1%nat, (V3 0 0 0), (V3 3 4 0). cbn. repeat split; auto. unfold square_between. cbn. lra. }
  assert (S5 : sqrt (square_between (V3 0 0 0) (V3 3 4 0)) = 5) by (replace (square_between (V3 0 0 0) (V3 3 4 0)) with (5 * 5) by (unfold square_between; cbn; ring); apply sqrt_square; lra).
  assert (C : forall cell, cell_of seg cell -> cell = [V3 0 0 0; V3 3 4 0] \/ cell = [V3 1 1 1; V3 1 1 1]).
  { intros cell (n & cells & It & L & Ic). destruct It as [X|[X|[]]]; injection X as <- <-; [lia|]. destruct Ic as [<-|[<-|[]]]; auto. }
  assert (U : forall d, apart seg d -> d = 5 \/ d = 0).
  { intros d (cell & i & j & p & q & Ce & L & Ei & Ej & ->). destruct (C cell Ce) as [->| ->].
    - destruct i as [|[|[|i]]], j as [|[|[|j]]]; cbn in Ei, Ej; try discriminate; try lia. injection Ei as <-. injection Ej as <-. left. exact S5.
    - destruct i as [|[|[|i]]], j as [|[|[|j]]]; cbn in Ei, Ej; try discriminate; try lia. injection Ei as <-. injection Ej as <-. right.
      replace (square_between (V3 1 1 1) (V3 1 1 1)) with 0 by (unfold square_between; cbn; ring). apply sqrt_0. }
  assert (A : apart seg 5).
  { exists [V3 0 0 0; V3 3 4 0], 0%nat, 1%nat, (V3 0 0 0), (V3 3 4 0). split; [|cbn; repeat split; auto]. exists 2%nat. eexists. split; [right; left; reflexivity|]. split; [lia|left; reflexivity]. }
  exists s. split; [exact E|]. split; [exact A|].
  destruct (C122_longest _ _ _ _ E) as [L1 L2]. pose proof (L1 5 A).
  assert (Mx : maxLength s = 5) by (destruct L2 as [X|X]; [lra|destruct (U _ X); lra]).
  destruct (C122_shortest 100 0 seg s (Rle_refl 0) E) as [M1 M2]. pose proof (M1 5 A ltac:(lra)).
  assert (Mn : minNonzeroLength s = 5).
  { destruct M2 as [X|[X Y]]; [|destruct (U _ X) as [Z|Z]; rewrite Z in *; lra]. assert (sqrt 100 = 10) by (replace 100 with (10 * 10) by ring; apply sqrt_square; lra). lra. }
  split; [exact Mx|]. split; [exact Mn|]. split; [apply (C122_min_length_refuted 100 0 seg s); [lra|exact E|exists 2%nat; eexists; split; [right; left; reflexivity|lia]]|].
  destruct (quadraticMeanLength s) as [m|] eqn:Q.
  - destruct (C122_mean 100 0 seg s m (Rle_refl 0) E Q) as (_ & B & _). f_equal. lra.
  - pose proof (proj1 (C122_no_mean _ _ _ _ E) Q 2%nat _ (or_intror (or_introl eq_refl))). lia.
Qed.
Example C122_springs : compute_stats 100 0 [(2%nat, [[V3 1 1 1; V3 1 1 1]]); (3%nat, [[V3 0 0 0; V3 1 0 0; V3 0 1 0]])] = UB.
Proof.
  eapply C122_coincident_refuted; [lra|left; reflexivity|lia|]. intros cell i j p q [<-|[]] Ei Ej.
  assert (X : p = V3 1 1 1) by (destruct i as [|[|[|i]]]; cbn in Ei; congruence). assert (Y : q = V3 1 1 1) by (destruct j as [|[|[|j]]]; cbn in Ej; congruence).
  subst. unfold square_between. cbn. lra.
Qed.
Example C122_rigid : exists c k, generateRbarStiffness 100 0 None None [2; 7; 1] seg = Ok (7, c, Some k) /\ k = 35.
Proof.
  destruct C122_case as (s & E & _ & _ & _ & _ & Q). unfold generateRbarStiffness, calcStats. rewrite E. cbn [bind fst snd]. rewrite Q. unfold near_zero.
  destruct (Rle_dec (Rabs 5) 0) as [L|_]; [rewrite Rabs_right in L by lra; lra|].
  assert (X : fold_left Rmax [2; 7; 1] 0 = 7) by (cbn; rewrite (Rmax_right 0 2), (Rmax_right 2 7), (Rmax_left 7 1) by lra; reflexivity).
  rewrite X. do 2 eexists. split; [reflexivity|lra].
Qed.

Print Assumptions C122_longest.
Print Assumptions C122_shortest.
Print Assumptions C122_mean.
Print Assumptions C122_no_mean.
Print Assumptions C122_computed.
Print Assumptions C122_coincident_refuted.
Print Assumptions C122_min_length_refuted.
Print Assumptions C122_first_call.
Print Assumptions C122_stale_refuted.
Print Assumptions C122_stiffness.
Print Assumptions C122_points_refuted.
Print Assumptions C122_second_model_refuted.
Print Assumptions C122_value.
