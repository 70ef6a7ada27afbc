(** C96: the angles written in the Systus file for the elements with axes. *)
From Coq Require Import Reals ZArith List Bool Lra Lia.
Require Import Verif.Base Verif.GeomModel Verif.GeomProofs Verif.EulerProofs Verif.PropertiesGeom Verif.OrientModel Verif.OrientProofs Verif.PropertiesOrient Verif.SystusAxesModel.
Import ListNotations.
Open Scope R_scope.

(** The axes of a system in space: those of a system defined in the global one, or
    those of an orientation between known nodes. *)
Inductive stands (nodes : Z -> outcome vec) : system -> frame -> Prop :=
| Stands_user f : rcs f = 0%Z -> ortho (ex f) (ey f) (ez f) -> stands nodes (User f) f
| Stands_orient o f : built_axes nodes o = Ok f -> ortho (ex f) (ey f) (ez f) -> stands nodes (Orient o) f.

Lemma stands_frame nodes s f : stands nodes s f -> frame_of nodes s = Ok f /\ rcs f = 0%Z /\ ortho (ex f) (ey f) (ez f).
Proof.
  intros [g R O|o g B O]; cbn [frame_of]; auto. split; [exact B|]. split; [|exact O]. unfold built_axes in B.
  destruct (nodes (oO o)) as [a| | |]; cbn [bind] in B; try discriminate. destruct (nodes (oX o)) as [b| | |]; cbn [bind] in B; try discriminate.
  destruct (built_vector nodes o) as [v| | |]; cbn [bind] in B; try discriminate. injection B as <-. reflexivity.
Qed.
Lemma never_refused s : refused s = false.
Proof. unfold refused. destruct (absolute s); [now rewrite andb_false_r|reflexivity]. Qed.

(** Coordinates of a vector along three axes. *)
Definition loc (X Y Z v : vec) : vec := V3 (dot v X) (dot v Y) (dot v Z).
Lemma loc_dot X Y Z u v : ortho X Y Z -> dot (loc X Y Z u) (loc X Y Z v) = dot u v.
Proof. intros O. rewrite <- (along_dot X Y Z O). unfold loc. now rewrite !(ortho_rows X Y Z O). Qed.
Lemma loc_ortho X Y Z a b c : ortho X Y Z -> ortho a b c -> ortho (loc X Y Z a) (loc X Y Z b) (loc X Y Z c).
Proof.
  intros O [H1 H2 H3 H4 H5 H6 H7]. constructor; rewrite ?(loc_dot _ _ _ _ _ O); auto.
  transitivity (det3 a b c * det3 X Y Z); [unfold loc; vunfold; ring|]. rewrite H7, (o_det _ _ _ O). ring.
Qed.
Lemma euler_default n tiny env f o X Y Z : rcs f = 0%Z -> ortho X Y Z ->
  euler_angles (S n) tiny env f (Some (built_frame o X Y Z 0)) = Ok (euler_angles_of tiny (loc X Y Z (ex f)) (loc X Y Z (ey f)) (loc X Y Z (ez f))).
Proof.
  intros R O. unfold euler_angles. rewrite R. cbn [Z.eqb bind]. cbn [vector_to_local built_frame fkind rcs inverse Z.eqb bind of_option row0 row1 row2]. reflexivity.
Qed.
Lemma local_built o x y : cross x y <> vzero ->
  exists X Y Z, local_frame o x y = built_frame o X Y Z 0 /\ ortho X Y Z /\ X = normalized x /\ Y = orthonormalized y X /\ Z = cross X Y.
Proof.
  intros N. pose proof (base_axes_ortho x y N) as O. unfold local_frame, new_cartesian. unfold base_axes in *. cbv zeta in *.
  eexists. eexists. eexists. split; [apply build_ortho; exact O|]. split; [exact O|]. auto.
Qed.
Lemma global_built o : local_frame o AX AY = built_frame o AX AY AZ 0 /\ ortho AX AY AZ.
Proof.
  assert (N : cross AX AY <> vzero) by (apply cross_test; cbn; lra).
  destruct (local_built o AX AY N) as (X & Y & Z & E & O & EX & EY & EZ).
  assert (X1 : X = AX) by (rewrite EX; apply normalized_of_unit; cbn; vunfold; unfold AX; cbn; ring).
  assert (Y1 : Y = AY). { rewrite EY, X1, orthonormalized_noop by (unfold AX, AY; vunfold; ring). apply normalized_of_unit. unfold AY; vunfold; ring. }
  assert (Z1 : Z = AZ) by (rewrite EZ, X1, Y1; unfold AX, AY, AZ; vunfold; f_equal; ring).
  rewrite X1, Y1, Z1 in *. auto.
Qed.
Lemma near_zero_0 tol : 0 <= tol -> near_zero tol 0 = true.
Proof. intros H. unfold near_zero. rewrite Rabs_R0. destruct (Rle_dec 0 tol); [reflexivity|contradiction]. Qed.
Lemma near_zero_false tol x : tol < Rabs x -> near_zero tol x = false.
Proof. intros H. unfold near_zero. destruct (Rle_dec (Rabs x) tol); [lra|reflexivity]. Qed.
Lemma near_zero_nz tol x : 0 <= tol -> near_zero tol x = false -> x <> 0.
Proof. intros H E ->. rewrite near_zero_0 in E by exact H. discriminate. Qed.

(** ** Bars and beams *)
(** The axes of Systus for a bar: the first from the first node to the second,
    the second horizontal and the third upwards, or, for a vertical bar, the
    second along the global y axis. *)
Definition bar_axes (a b X Y Z : vec) : Prop :=
  ortho X Y Z /\ (exists k, 0 < k /\ X = vscale k (vsub b a)) /\
  ((vx (vsub b a) = 0 /\ vy (vsub b a) = 0) /\ Y = V3 0 1 0 \/
   (vx (vsub b a) <> 0 \/ vy (vsub b a) <> 0) /\ vz Y = 0 /\ 0 < vz Z).
(** The tolerance of the program separates the two cases. *)
Definition clear_bar (tol : R) (a b : vec) : Prop :=
  (vx (vsub b a) = 0 /\ vy (vsub b a) = 0 /\ tol < Rabs (vz (vsub b a))) \/
  tol < Rabs (vx (vsub b a)) \/ tol < Rabs (vy (vsub b a)).
Lemma scale_nz k u : 0 < k -> u <> vzero -> vscale k u <> vzero.
Proof. intros K N E. apply N. unfold vscale, vzero in E. injection E as E1 E2 E3. apply vec_eq; cbn; nra. Qed.
Lemma bar_default tol nodes ctype i j ids a b : 0 <= tol -> ctype <> 6%Z -> nodes i = Ok a -> nodes j = Ok b -> clear_bar tol a b ->
  exists X Y Z, default_axes tol nodes 1 ctype (i :: j :: ids) = Ok (built_frame a X Y Z 0, []) /\ bar_axes a b X Y Z /\ X = normalized (vsub b a).
Proof.
  intros T C Ei Ej D. unfold clear_bar in D. unfold bar_axes. unfold default_axes. cbn [Z.eqb]. apply Z.eqb_neq in C. rewrite C, Ei, Ej. cbn [bind]. set (x := vsub b a) in *. cbv zeta.
  destruct D as [(D1 & D2 & D3)|D].
  - rewrite D1, D2, near_zero_0, (near_zero_false _ _ D3) by exact T. cbn [andb].
    assert (Hz : vz x <> 0) by (intros E; rewrite E, Rabs_R0 in D3; lra).
    assert (N : cross x AY <> vzero) by (apply cross_test; unfold AY; vunfold; right; right; lra).
    destruct (local_built a x AY N) as (X & Y & Z & E & O & EX & EY & EZ). exists X, Y, Z. rewrite E. split; [reflexivity|]. split; [|exact EX].
    split; [exact O|]. pose proof (norm_pos x (cross_nonzero_l _ _ N)) as P. split.
    { exists (/ norm x). split; [now apply Rinv_0_lt_compat|]. rewrite EX. apply normalized_scale. }
    left. split; [auto|]. rewrite EY. rewrite orthonormalized_noop; [apply normalized_of_unit; unfold AY; vunfold; ring|].
    rewrite EX, normalized_scale. unfold AY, dot, vscale. cbn [vx vy vz]. rewrite D2. ring.
  - assert (Hxy : vx x <> 0 \/ vy x <> 0).
    { destruct D as [D|D]; [left|right]; intros E; rewrite E, Rabs_R0 in D; lra. }
    replace (near_zero tol (vx x) && near_zero tol (vy x)) with false.
    2: { destruct D as [D|D]; rewrite (near_zero_false _ _ D); [reflexivity|now rewrite andb_false_r]. }
    assert (Hsq : 0 < vx x * vx x + vy x * vy x) by (destruct Hxy as [H|H]; nra).
    assert (N : cross x (cross AZ x) <> vzero) by (apply cross_test; unfold AZ; vunfold; left; nra).
    destruct (local_built a x (cross AZ x) N) as (X & Y & Z & E & O & EX & EY & EZ). exists X, Y, Z. rewrite E. split; [reflexivity|]. split; [|exact EX].
    split; [exact O|]. pose proof (norm_pos x (cross_nonzero_l _ _ N)) as P. pose proof (Rinv_0_lt_compat _ P) as P'. split.
    { exists (/ norm x). split; [exact P'|]. rewrite EX. apply normalized_scale. }
    right. split; [exact Hxy|].
    assert (Y1 : Y = normalized (cross AZ x)).
    { rewrite EY. apply orthonormalized_noop. rewrite EX, normalized_scale, dot_scale_l, cross_orth_r. ring. }
    pose proof (norm_pos _ (cross_nonzero_r _ _ N)) as Q. pose proof (Rinv_0_lt_compat _ Q) as Q'.
    rewrite normalized_scale in Y1. rewrite normalized_scale in EX. split.
    + rewrite Y1. unfold AZ. vunfold. ring.
    + rewrite EZ, EX, Y1. set (p := / norm x) in *. set (q := / norm (cross AZ x)) in *. clearbody p q.
      replace (vz (cross (vscale p x) (vscale q (cross AZ x)))) with (p * q * (vx x * vx x + vy x * vy x)) by (unfold AZ; vunfold; ring).
      apply Rmult_lt_0_compat; [apply Rmult_lt_0_compat; assumption|exact Hsq].
Qed.

(** C96 for a bar.  The orientation of a bar between its nodes is written as a
    single angle after two zeros: turned by it about the bar, the axes of Systus
    are those of the orientation, and nothing is dismissed. *)
Lemma atan2_01 : atan2 0 1 = 0.
Proof. unfold atan2. destruct (Rlt_dec 0 1); [|lra]. unfold Rdiv. rewrite Rmult_0_l. apply atan_0. Qed.
Lemma along_x tiny a b c : ortho a b c -> 0 <= tiny < 1 -> a = V3 1 0 0 ->
  exists phi, euler_angles_of tiny a b c = V3 0 0 phi /\ b = V3 0 (cos phi) (sin phi) /\ c = V3 0 (- sin phi) (cos phi).
Proof.
  intros O T Ea. assert (S1 : sqrt (vz c * vz c + vz b * vz b) = 1).
  { replace (vz c * vz c + vz b * vz b) with 1; [apply sqrt_1|].
    pose proof (ortho_rows a b c O (V3 0 0 1)) as E. apply (f_equal vz) in E. rewrite Ea in E. unfold along, dot in E. cbn [vx vy vz] in E. lra. }
  destruct (euler_regular tiny a b c ltac:(lra) O ltac:(rewrite S1; lra)) as (_ & E2 & E3).
  exists (vz (euler_angles_of tiny a b c)).
  assert (E : euler_angles_of tiny a b c = V3 0 0 (vz (euler_angles_of tiny a b c))).
  { unfold euler_angles_of. cbv zeta. rewrite S1. destruct (Rlt_dec tiny 1); [|lra]. rewrite Ea. cbn [vx vy vz]. rewrite Ropp_0, atan2_01. reflexivity. }
  split; [exact E|]. rewrite E in E2, E3. cbn [vx vy vz] in E2, E3. set (phi := vz (euler_angles_of tiny a b c)) in *. clearbody phi.
  unfold rebuilt_y, rebuilt_z in *. rewrite cos_0, sin_0 in *. split; [rewrite <- E2|rewrite <- E3]; apply vec_eq; cbn; ring.
Qed.

Theorem C96_bar : forall n tol tiny env nodes ctype i j ids o a b v, 0 <= tol -> 0 <= tiny < 1 -> ctype <> 6%Z ->
  nodes i = Ok a -> nodes j = Ok b -> clear_bar tol a b ->
  oO o = i -> oX o = j -> built_vector nodes o = Ok v -> cross (vsub b a) v <> vzero ->
  exists X Y Z phi f,
    element_axes (S n) tol tiny env nodes 1 ctype (i :: j :: ids) (Some (Orient o)) = Ok ((3%Z, [0; 0; phi]), []) /\
    bar_axes a b X Y Z /\ built_axes nodes o = Ok f /\
    ex f = X /\ ey f = vadd (vscale (cos phi) Y) (vscale (sin phi) Z) /\ ez f = vadd (vscale (- sin phi) Y) (vscale (cos phi) Z).
Proof.
  intros n tol tiny env nodes ctype i j ids o a b v T Ti C Ei Ej D EO EX Ev Nz.
  destruct (bar_default tol nodes ctype i j ids a b T C Ei Ej D) as (X & Y & Z & Ed & Hb & E1).
  assert (Ef : built_axes nodes o = Ok (oriented a b v)) by (unfold built_axes; rewrite EO, EX, Ei, Ej, Ev; reflexivity).
  destruct (C95_axes nodes o (oriented a b v) a b v Ef) as (Of & _ & _ & _); try (rewrite ?EO, ?EX; assumption).
  set (f := oriented a b v) in *.
  assert (Xf : ex f = X) by (rewrite E1; reflexivity).
  pose proof (proj1 Hb) as O. pose proof (loc_ortho X Y Z _ _ _ O Of) as Ol.
  destruct (along_x tiny _ _ _ Ol Ti) as (phi & Ee & E2 & E3).
  { rewrite Xf. unfold loc. rewrite (o11 _ _ _ O), (o12 _ _ _ O), (o13 _ _ _ O). reflexivity. }
  exists X, Y, Z, phi, f. split; [|split; [exact Hb|split; [exact Ef|split; [exact Xf|]]]].
  - unfold element_axes. rewrite never_refused, Ed. cbn [bind frame_of]. rewrite Ef. cbn [bind]. rewrite euler_default by (exact O || reflexivity).
    rewrite Ee. cbn [bind Z.eqb vx vy vz]. apply Z.eqb_neq in C. rewrite C, near_zero_0 by exact T. reflexivity.
  - rewrite <- (ortho_rows X Y Z O (ey f)), <- (ortho_rows X Y Z O (ez f)). fold (loc X Y Z (ey f)) (loc X Y Z (ez f)). rewrite E2, E3.
    split; apply vec_eq; unfold along, vadd, vscale; cbn [vx vy vz]; ring.
Qed.

(** The axes of a bar are determined by its nodes: the angle above means the same
    to Systus. *)
Lemma same_scale k k' d : 0 < k -> 0 < k' -> dot (vscale k d) (vscale k d) = 1 -> dot (vscale k' d) (vscale k' d) = 1 -> k = k'.
Proof.
  intros K K' H H'. rewrite dot_scale_l, dot_scale_r in H, H'. pose proof (dot_self_nonneg d) as P. set (m := dot d d) in *. clearbody m.
  assert (E : (k - k') * ((k + k') * m) = 0) by lra. apply Rmult_integral in E. destruct E as [E|E]; [lra|].
  apply Rmult_integral in E. destruct E as [E|E]; [lra|]. rewrite E in H. lra.
Qed.
Lemma ortho_third a b c : ortho a b c -> c = cross a b.
Proof. intros O. symmetry. exact (ortho_cross _ _ _ (ortho_rot _ _ _ (ortho_rot _ _ _ O))). Qed.
Lemma level p q p' q' dx dy : dx <> 0 \/ dy <> 0 -> p * p + q * q = 1 -> p' * p' + q' * q' = 1 -> p * dx + q * dy = 0 -> p' * dx + q' * dy = 0 ->
  0 < dx * q - dy * p -> 0 < dx * q' - dy * p' -> p = p' /\ q = q'.
Proof.
  intros N U U' D D' W W'. assert (H : 0 < dx * dx + dy * dy) by (destruct N; nra).
  assert (E : dx * q - dy * p = dx * q' - dy * p').
  { assert (S1 : (dx * q - dy * p) * (dx * q - dy * p) = dx * dx + dy * dy).
    { replace ((dx * q - dy * p) * (dx * q - dy * p)) with ((dx * dx + dy * dy) * (p * p + q * q) - (p * dx + q * dy) * (p * dx + q * dy)) by ring. rewrite U, D. ring. }
    assert (S2 : (dx * q' - dy * p') * (dx * q' - dy * p') = dx * dx + dy * dy).
    { replace ((dx * q' - dy * p') * (dx * q' - dy * p')) with ((dx * dx + dy * dy) * (p' * p' + q' * q') - (p' * dx + q' * dy) * (p' * dx + q' * dy)) by ring. rewrite U', D'. ring. }
    set (w := dx * q - dy * p) in *. set (w' := dx * q' - dy * p') in *. clearbody w w'.
    assert (F : (w - w') * (w + w') = 0) by lra. apply Rmult_integral in F. lra. }
  assert (P : (dx * dx + dy * dy) * (p - p') = 0).
  { replace ((dx * dx + dy * dy) * (p - p')) with (dx * (p * dx + q * dy) - dx * (p' * dx + q' * dy) - dy * ((dx * q - dy * p) - (dx * q' - dy * p'))) by ring. rewrite D, D', E. ring. }
  assert (Q : (dx * dx + dy * dy) * (q - q') = 0).
  { replace ((dx * dx + dy * dy) * (q - q')) with (dy * (p * dx + q * dy) - dy * (p' * dx + q' * dy) + dx * ((dx * q - dy * p) - (dx * q' - dy * p'))) by ring. rewrite D, D', E. ring. }
  apply Rmult_integral in P. apply Rmult_integral in Q. split; lra.
Qed.
Theorem C96_bar_axes_unique : forall a b X Y Z X' Y' Z', bar_axes a b X Y Z -> bar_axes a b X' Y' Z' -> X = X' /\ Y = Y' /\ Z = Z'.
Proof.
  intros a b X Y Z X' Y' Z' (O & (k & K & EX) & C) (O' & (k' & K' & EX') & C'). unfold bar_axes in *. set (d := vsub b a) in *. clearbody d.
  assert (Ek : k = k') by (apply (same_scale k k' d K K'); [rewrite <- EX; apply O|rewrite <- EX'; apply O']). subst k'.
  assert (E1 : X = X') by congruence. split; [exact E1|].
  assert (E2 : Y = Y').
  { destruct C as [[V ->]|[N [H U]]], C' as [[V' ->]|[N' [H' U']]]; [reflexivity|lra|lra|].
    pose proof (ortho_third _ _ _ O) as EZ. pose proof (ortho_third _ _ _ O') as EZ'. rewrite EZ, EX in U. rewrite EZ', EX' in U'.
    pose proof (o22 _ _ _ O) as Y1. pose proof (o22 _ _ _ O') as Y1'. pose proof (o12 _ _ _ O) as Y2. pose proof (o12 _ _ _ O') as Y2'.
    rewrite EX, dot_scale_l in Y2. rewrite EX', dot_scale_l in Y2'. apply Rmult_integral in Y2, Y2'. destruct Y2 as [Y2|Y2]; [lra|]. destruct Y2' as [Y2'|Y2']; [lra|].
    unfold dot, cross, vscale in *. cbn [vx vy vz] in *. rewrite H, H' in *.
    destruct (level (vx Y) (vy Y) (vx Y') (vy Y') (vx d) (vy d)) as [A B]; try lra.
    - apply (Rmult_lt_reg_l k); lra.
    - apply (Rmult_lt_reg_l k); lra.
    - apply vec_eq; lra. }
  split; [exact E2|]. rewrite (ortho_third _ _ _ O), (ortho_third _ _ _ O'). now rewrite E1, E2.
Qed.

(** ** Solids, springs and points *)
(** C96 for an element placed in the global axes (a solid, a spring or a bush, a
    point with a numbered system): three angles that rebuild the axes, exactly
    when the first one is away from the vertical, within twice the tolerance
    otherwise. *)
Definition spatial (dim ctype : Z) (s : system) : Prop :=
  dim = 3%Z \/ dim = 1%Z /\ ctype = 6%Z \/ dim = 0%Z /\ exists f, s = User f.
Lemma loc_global v : loc AX AY AZ v = v.
Proof. unfold loc, AX, AY, AZ. apply vec_eq; vunfold; ring. Qed.
Theorem C96_spatial_partial : forall n tol tiny env nodes dim ctype ids s f, 0 <= tiny <= / 2 -> spatial dim ctype s -> stands nodes s f ->
  exists psi theta phi,
    element_axes (S n) tol tiny env nodes dim ctype ids (Some s) = Ok ((3%Z, [psi; theta; phi]), []) /\
    let e := V3 psi theta phi in
    (tiny < slope f -> rotated e (V3 1 0 0) = ex f /\ rotated e (V3 0 1 0) = ey f /\ rotated e (V3 0 0 1) = ez f) /\
    close (2 * tiny) (rotated e (V3 1 0 0)) (ex f) /\ close (2 * tiny) (rotated e (V3 0 1 0)) (ey f) /\
    close (2 * tiny) (rotated e (V3 0 0 1)) (ez f).
Proof.
  intros n tol tiny env nodes dim ctype ids s f Ht Hs Hf. destruct (stands_frame _ _ _ Hf) as (Ef & R & O).
  destruct (global_built vzero) as [G OG]. set (e := euler_angles_of tiny (ex f) (ey f) (ez f)).
  assert (Ee : euler_angles (S n) tiny env f (Some (local_frame vzero AX AY)) = Ok e) by (rewrite G, euler_default, !loc_global by assumption; reflexivity).
  exists (vx e), (vy e), (vz e). split.
  - unfold element_axes. rewrite never_refused.
    destruct Hs as [-> |[[-> ->]|[-> [g ->]]]]; cbn [default_axes Z.eqb Z.pos_sub Pos.eqb]; unfold default_axes; cbn [Z.eqb Pos.eqb bind]; rewrite Ef; cbn [bind]; rewrite Ee; reflexivity.
  - cbv zeta. destruct (rotated_axes (V3 (vx e) (vy e) (vz e))) as (R1 & R2 & R3). rewrite R1, R2, R3. cbn [vx vy vz].
    split; [intros Hc; apply euler_regular; [lra|exact O|exact Hc]|].
    destruct (Rlt_dec tiny (sqrt (vz (ez f) * vz (ez f) + vz (ey f) * vz (ey f)))) as [Hc|Hc].
    + destruct (euler_regular tiny _ _ _ ltac:(lra) O Hc) as (E1 & E2 & E3). fold e in E1, E2, E3. rewrite E1, E2, E3.
      unfold close. rewrite !Rminus_diag_eq by reflexivity. rewrite Rabs_R0. lra.
    + apply euler_singular; [exact Ht|exact O|lra].
Qed.

(** ** Shells *)
(** The axes of Systus for a triangle that is not horizontal: the third along the
    normal of its nodes, the first horizontal, the second upwards. *)
Definition triangle_axes (a b c X Y N : vec) : Prop :=
  ortho X Y N /\ (exists k, 0 < k /\ N = vscale k (cross (vsub b a) (vsub c a))) /\ vz X = 0 /\ 0 < vz Y.
Definition clear_triangle (tol : R) (a b c : vec) : Prop :=
  let z := cross (vsub b a) (vsub c a) in
  vec_iszero tol (cross AZ z) = false /\ vec_iszero tol (cross z (cross AZ z)) = false.
Lemma iszero_nz tol v : 0 <= tol -> vec_iszero tol v = false -> v <> vzero.
Proof. intros T E ->. unfold vec_iszero, vzero in E. cbn [vx vy vz] in E. rewrite near_zero_0 in E by exact T. discriminate. Qed.
Lemma cross_scale2 p q u v : cross (vscale p u) (vscale q v) = vscale (p * q) (cross u v).
Proof. apply vec_eq; unfold cross, vscale; cbn [vx vy vz]; ring. Qed.
Lemma triangle_default tol nodes i j k a b c : 0 <= tol -> nodes i = Ok a -> nodes j = Ok b -> nodes k = Ok c -> clear_triangle tol a b c ->
  exists o X Y N, default_axes tol nodes 2 4 [i; j; k] = Ok (built_frame o X Y N 0, []) /\ triangle_axes a b c X Y N.
Proof.
  intros T Ei Ej Ek (D1 & D2). unfold default_axes. cbn [Z.eqb Pos.eqb mapM]. rewrite Ei, Ej, Ek. cbn [bind mapM length Nat.ltb Nat.leb]. cbv zeta. rewrite D1, D2. cbn [orb].
  pose proof (iszero_nz _ _ T D1) as N1. set (z := cross (vsub b a) (vsub c a)) in *.
  assert (Hz : 0 < vx z * vx z + vy z * vy z).
  { assert (Q : vx z <> 0 \/ vy z <> 0).
    { destruct (Req_dec (vx z) 0) as [H1|H1]; [|now left]. destruct (Req_dec (vy z) 0) as [H2|H2]; [|now right].
      exfalso. apply N1. unfold AZ, cross, vzero. cbn [vx vy vz]. rewrite H1, H2. f_equal; ring. }
    destruct Q; nra. }
  assert (N2 : cross (cross AZ z) (cross z (cross AZ z)) = vscale (vx z * vx z + vy z * vy z) z) by (unfold AZ; vring).
  assert (Nz : z <> vzero) by (intros E; rewrite E in Hz; cbn in Hz; lra).
  assert (N3 : cross (cross AZ z) (cross z (cross AZ z)) <> vzero) by (rewrite N2; now apply scale_nz).
  set (o := centre [a; b; c]). destruct (local_built o _ _ N3) as (X & Y & N & E & O & EX & EY & EN). exists o, X, Y, N. rewrite E. split; [reflexivity|].
  pose proof (norm_pos _ N1) as P. pose proof (Rinv_0_lt_compat _ P) as P'. pose proof (norm_pos _ (cross_nonzero_r _ _ N3)) as Q. pose proof (Rinv_0_lt_compat _ Q) as Q'.
  rewrite normalized_scale in EX.
  assert (Y1 : Y = normalized (cross z (cross AZ z))) by (rewrite EY; apply orthonormalized_noop; rewrite EX, dot_scale_l, cross_orth_r; ring).
  rewrite normalized_scale in Y1. set (p := / norm (cross AZ z)) in *. set (q := / norm (cross z (cross AZ z))) in *. clearbody p q.
  split; [exact O|]. split.
  - exists (p * q * (vx z * vx z + vy z * vy z)). split; [apply Rmult_lt_0_compat; [now apply Rmult_lt_0_compat|exact Hz]|].
    rewrite EN, EX, Y1, cross_scale2, N2, vscale_vscale. reflexivity.
  - split; [rewrite EX; unfold AZ; vunfold; ring|]. rewrite Y1.
    replace (vz (vscale q (cross z (cross AZ z)))) with (q * (vx z * vx z + vy z * vy z)) by (unfold AZ; vunfold; ring). now apply Rmult_lt_0_compat.
Qed.

(** C96 for a triangle: one angle, that of the projection of the first axis on the
    plane of the triangle, from the first axis of Systus.  When the third axis is
    the normal the angle gives the axes and nothing is dismissed. *)
Definition projected (N v : vec) : vec := vsub v (vscale (dot v N) N).
Lemma projected_norm X Y N v : ortho X Y N -> dot v v = 1 -> dot (projected N v) (projected N v) = dot v X * dot v X + dot v Y * dot v Y.
Proof.
  intros O U. transitivity (dot v v - dot v N * dot v N * (2 - dot N N)); [unfold projected; vunfold; ring|]. rewrite (o33 _ _ _ O).
  pose proof (loc_dot X Y N v v O) as E. unfold loc, dot at 1 in E. cbn [vx vy vz] in E. lra.
Qed.
Theorem C96_triangle_partial : forall n tol tiny env nodes i j k s f a b c, 0 <= tol -> 0 <= tiny < 1 ->
  nodes i = Ok a -> nodes j = Ok b -> nodes k = Ok c -> clear_triangle tol a b c -> stands nodes s f ->
  exists X Y N psi r, element_axes (S n) tol tiny env nodes 2 4 [i; j; k] (Some s) = Ok ((1%Z, [psi]), r) /\ triangle_axes a b c X Y N /\
    (tiny < norm (projected N (ex f)) ->
     exists h, 0 < h /\ projected N (ex f) = vscale h (vadd (vscale (cos psi) X) (vscale (sin psi) Y))) /\
    (ez f = N -> r = [] /\ ex f = vadd (vscale (cos psi) X) (vscale (sin psi) Y) /\ ey f = vadd (vscale (- sin psi) X) (vscale (cos psi) Y)).
Proof.
  intros n tol tiny env nodes i j k s f a b c T Ti Ei Ej Ek D Hf. destruct (stands_frame _ _ _ Hf) as (Ef & R & O).
  destruct (triangle_default tol nodes i j k a b c T Ei Ej Ek D) as (o & X & Y & N & Ed & Ht). pose proof (proj1 Ht) as OX.
  pose proof (loc_ortho X Y N _ _ _ OX O) as Ol. set (e := euler_angles_of tiny (loc X Y N (ex f)) (loc X Y N (ey f)) (loc X Y N (ez f))).
  assert (Ee : forall n, euler_angles (S n) tiny env f (Some (built_frame o X Y N 0)) = Ok e) by (intros; apply euler_default; assumption).
  eexists X, Y, N, (vx e), _. split; [|split; [exact Ht|]].
  { unfold element_axes. rewrite never_refused, Ed. cbn [bind]. rewrite Ef. cbn [bind]. rewrite Ee. cbn [bind Z.eqb Pos.eqb app]. reflexivity. }
  destruct (ortho_lines _ _ _ Ol) as (L1 & L2 & L3 & _).
  assert (Cy : vz (loc X Y N (ez f)) * vz (loc X Y N (ez f)) + vz (loc X Y N (ey f)) * vz (loc X Y N (ey f)) = dot (ex f) X * dot (ex f) X + dot (ex f) Y * dot (ex f) Y).
  { pose proof (loc_dot X Y N (ex f) (ex f) OX) as E. rewrite (o11 _ _ _ O) in E. unfold loc, dot at 1 in E. unfold loc in L3 |- *. cbn [vx vy vz] in *. lra. }
  split.
  - intros S. unfold norm in S. rewrite (projected_norm X Y N (ex f) OX (o11 _ _ _ O)) in S. set (p := dot (ex f) X) in *. set (q := dot (ex f) Y) in *.
    assert (P : 0 < sqrt (p * p + q * q)) by lra. assert (Nz : p <> 0 \/ q <> 0).
    { destruct (Req_dec p 0) as [H1|H1]; [|now left]. destruct (Req_dec q 0) as [H2|H2]; [|now right]. rewrite H1, H2 in P. replace (0 * 0 + 0 * 0) with 0 in P by ring. rewrite sqrt_0 in P. lra. }
    exists (sqrt (p * p + q * q)). split; [exact P|].
    assert (E : vx e = atan2 q p).
    { unfold e, euler_angles_of. cbv zeta. rewrite Cy. destruct (Rlt_dec tiny (sqrt (p * p + q * q))); [reflexivity|contradiction]. }
    rewrite E. destruct (atan2_spec q p Nz) as [-> ->].
    assert (Ex : ex f = along X Y N (V3 p q (dot (ex f) N))) by (symmetry; apply (ortho_rows X Y N OX)).
    unfold projected. set (t := dot (ex f) N) in *. rewrite Ex. clear - P. set (r := sqrt (p * p + q * q)) in *. apply vec_eq; unfold along, vadd, vsub, vscale; cbn [vx vy vz]; field; lra.
  - intros En. assert (Ez : loc X Y N (ez f) = V3 0 0 1).
    { rewrite En. unfold loc. rewrite (dot_comm N X), (dot_comm N Y), (o13 _ _ _ OX), (o23 _ _ _ OX), (o33 _ _ _ OX). reflexivity. }
    assert (Y0 : vz (loc X Y N (ey f)) = 0) by (unfold loc; cbn [vz]; rewrite <- En; apply (o23 _ _ _ O)).
    assert (X0 : vz (loc X Y N (ex f)) = 0) by (unfold loc; cbn [vz]; rewrite <- En; apply (o13 _ _ _ O)).
    assert (S1 : sqrt (vz (loc X Y N (ez f)) * vz (loc X Y N (ez f)) + vz (loc X Y N (ey f)) * vz (loc X Y N (ey f))) = 1).
    { rewrite Ez, Y0. cbn [vz]. replace (1 * 1 + 0 * 0) with 1 by ring. apply sqrt_1. }
    assert (E : vy e = 0 /\ vz e = 0).
    { unfold e, euler_angles_of. cbv zeta. rewrite S1. destruct (Rlt_dec tiny 1); [|lra]. cbn [vy vz]. rewrite X0, Y0, Ez. cbn [vz]. rewrite Ropp_0, atan2_01. auto. }
    destruct E as [E1 E2]. rewrite E1, E2, near_zero_0 by exact T. split; [reflexivity|].
    destruct (euler_regular tiny _ _ _ ltac:(lra) Ol ltac:(rewrite S1; lra)) as (R1 & R2 & _). fold e in R1, R2. rewrite E1, E2 in R1, R2.
    unfold rebuilt_x, rebuilt_y in R1, R2. rewrite cos_0, sin_0 in R1, R2.
    rewrite <- (ortho_rows X Y N OX (ex f)), <- (ortho_rows X Y N OX (ey f)). fold (loc X Y N (ex f)) (loc X Y N (ey f)). rewrite <- R1, <- R2.
    split; apply vec_eq; unfold along, vadd, vscale; cbn [vx vy vz]; ring.
Qed.
Theorem C96_triangle_axes_unique : forall a b c X Y N X' Y' N', triangle_axes a b c X Y N -> triangle_axes a b c X' Y' N' -> X = X' /\ Y = Y' /\ N = N'.
Proof.
  intros a b c X Y N X' Y' N' (O & (k & K & EN) & H & U) (O' & (k' & K' & EN') & H' & U'). set (d := cross (vsub b a) (vsub c a)) in *. clearbody d.
  assert (Ek : k = k') by (apply (same_scale k k' d K K'); [rewrite <- EN; apply O|rewrite <- EN'; apply O']). subst k'.
  assert (E3 : N = N') by congruence.
  pose proof (ortho_cross _ _ _ (ortho_rot _ _ _ O)) as EY. pose proof (ortho_cross _ _ _ (ortho_rot _ _ _ O')) as EY'.
  assert (E1 : X = X').
  { rewrite <- EY in U. rewrite <- EY', <- E3 in U'. pose proof (o11 _ _ _ O) as X1. pose proof (o11 _ _ _ O') as X1'. pose proof (o13 _ _ _ O) as X2. pose proof (o13 _ _ _ O') as X2'. rewrite <- E3 in X2'.
    unfold dot, cross in *. cbn [vx vy vz] in *. rewrite H, H' in *.
    destruct (level (vx X) (vy X) (vx X') (vy X') (vx N) (vy N)) as [A B]; try lra; [|apply vec_eq; lra].
    destruct (Req_dec (vx N) 0) as [F1|F1]; [|now left]. destruct (Req_dec (vy N) 0) as [F2|F2]; [|now right]. rewrite F1, F2 in U. lra. }
  split; [exact E1|]. split; [|exact E3]. rewrite <- EY, <- EY'. now rewrite E1, E3.
Qed.

(** A horizontal triangle: the angle is measured in the global axes, and a
    message says so. *)
Theorem C96_flat_triangle : forall n tol tiny env nodes i j k s f a b c, 0 <= tol -> 0 <= tiny ->
  nodes i = Ok a -> nodes j = Ok b -> nodes k = Ok c -> vz a = vz b -> vz b = vz c -> stands nodes s f ->
  tiny < norm (V3 (vx (ex f)) (vy (ex f)) 0) ->
  exists psi r h, element_axes (S n) tol tiny env nodes 2 4 [i; j; k] (Some s) = Ok ((1%Z, [psi]), r) /\ In RFlat r /\
    0 < h /\ vx (ex f) = h * cos psi /\ vy (ex f) = h * sin psi.
Proof.
  intros n tol tiny env nodes i j k s f a b c T Ti Ei Ej Ek Za Zb Hf S. destruct (stands_frame _ _ _ Hf) as (Ef & R & O).
  assert (Fl : cross AZ (cross (vsub b a) (vsub c a)) = vzero).
  { unfold AZ, cross, vsub, vzero. cbn [vx vy vz]. rewrite Za, Zb. f_equal; ring. }
  assert (Ed : default_axes tol nodes 2 4 [i; j; k] = Ok (built_frame (centre [a; b; c]) AX AY AZ 0, [RFlat])).
  { unfold default_axes. cbn [Z.eqb Pos.eqb mapM]. rewrite Ei, Ej, Ek. cbn [bind mapM length Nat.ltb Nat.leb]. cbv zeta. rewrite Fl. unfold vec_iszero at 1. unfold vzero at 1 2 3. cbn [vx vy vz].
    rewrite near_zero_0 by exact T. cbn [andb orb]. now rewrite (proj1 (global_built _)). }
  set (e := euler_angles_of tiny (ex f) (ey f) (ez f)).
  assert (Ee : euler_angles (Datatypes.S n) tiny env f (Some (built_frame (centre [a; b; c]) AX AY AZ 0)) = Ok e) by (rewrite euler_default, !loc_global by (assumption || apply (global_built vzero)); reflexivity).
  set (p := vx (ex f)) in *. set (q := vy (ex f)) in *. unfold norm in S. replace (dot (V3 p q 0) (V3 p q 0)) with (p * p + q * q) in S by (unfold dot; cbn; ring).
  assert (P : 0 < sqrt (p * p + q * q)) by lra. assert (Nz : p <> 0 \/ q <> 0).
  { destruct (Req_dec p 0) as [H1|H1]; [|now left]. destruct (Req_dec q 0) as [H2|H2]; [|now right]. rewrite H1, H2 in P. replace (0 * 0 + 0 * 0) with 0 in P by ring. rewrite sqrt_0 in P. lra. }
  assert (E : vx e = atan2 q p).
  { unfold e, euler_angles_of. cbv zeta. destruct (ortho_lines _ _ _ O) as (_ & _ & L3 & _). pose proof (o11 _ _ _ O) as U. unfold dot in U. fold p q in U.
    replace (vz (ez f) * vz (ez f) + vz (ey f) * vz (ey f)) with (p * p + q * q) by lra. destruct (Rlt_dec tiny (sqrt (p * p + q * q))); [reflexivity|contradiction]. }
  eexists (vx e), _, (sqrt (p * p + q * q)). split.
  { unfold element_axes. rewrite never_refused, Ed. cbn [bind]. rewrite Ef. cbn [bind]. rewrite Ee. cbn [bind Z.eqb Pos.eqb app]. reflexivity. }
  split; [now left|]. split; [exact P|]. rewrite E. destruct (atan2_spec q p Nz) as [-> ->]. split; field; lra.
Qed.

(** ** The line *)
(** Whatever the element, the count is that of the angles that follow: none, one
    for a surface, three otherwise.  None only if the position has no system or
    for an orientation at a point, with a message. *)
Theorem C96_form : forall n tol tiny env nodes dim ctype ids s k l r,
  element_axes n tol tiny env nodes dim ctype ids s = Ok ((k, l), r) ->
  k = Z.of_nat (length l) /\
  (l = [] -> r <> [] /\ (s = None \/ dim = 0%Z /\ exists o, s = Some (Orient o))) /\
  (l <> [] -> length l = if (dim =? 2)%Z then 1%nat else 3%nat).
Proof.
  intros n tol tiny env nodes dim ctype ids s k l r E. unfold element_axes in E.
  destruct s as [s|]; [|injection E as <- <- <-; split; [reflexivity|]; split; [intros _; split; [discriminate|now left]|congruence]].
  rewrite never_refused in E. destruct (default_axes tol nodes dim ctype ids) as [[g q]| | |]; cbn [bind] in E; try discriminate.
  destruct (frame_of nodes s) as [f| | |]; cbn [bind] in E; try discriminate.
  destruct (euler_angles n tiny env f (Some g)) as [e| | |]; cbn [bind] in E; try discriminate.
  destruct (Z.eqb_spec dim 0) as [D0|D0].
  { subst dim. destruct s as [u|o]; cbn [absolute] in E; injection E as <- <- <-; (split; [reflexivity|]); split; intros L; try discriminate; try congruence; try reflexivity.
    split; [destruct q; discriminate|]. right. eauto. }
  destruct (Z.eqb_spec dim 1) as [D1|D1].
  { subst dim. destruct (ctype =? 6)%Z; injection E as <- <- <-; (split; [reflexivity|]); split; intros L; try discriminate; reflexivity. }
  destruct (Z.eqb_spec dim 2) as [D2|D2]; injection E as <- <- <-; (split; [reflexivity|]); split; intros L; try discriminate; reflexivity.
Qed.

(** Every element between known nodes is written, whatever its shape. *)
Lemma default_total tol nodes dim ctype ids : 0 <= tol -> (forall i, In i ids -> exists p, nodes i = Ok p) -> (dim = 1%Z -> (2 <= length ids)%nat) ->
  exists o X Y Z r, default_axes tol nodes dim ctype ids = Ok (built_frame o X Y Z 0, r) /\ ortho X Y Z.
Proof.
  intros T K L. assert (G : forall o r, exists o' X Y Z r', @Ok (frame * list remark) (local_frame o AX AY, r) = Ok (built_frame o' X Y Z 0, r') /\ ortho X Y Z).
  { intros o r. destruct (global_built o) as [E O]. rewrite E. exists o, AX, AY, AZ, r. auto. }
  assert (N : forall o x y r, cross x y <> vzero -> exists o' X Y Z r', @Ok (frame * list remark) (local_frame o x y, r) = Ok (built_frame o' X Y Z 0, r') /\ ortho X Y Z).
  { intros o x y r H. destruct (local_built o x y H) as (X & Y & Z & E & O & _). rewrite E. exists o, X, Y, Z, r. auto. }
  unfold default_axes. destruct (Z.eqb_spec dim 1) as [D|D].
  { destruct (ctype =? 6)%Z; [apply G|]. specialize (L D). destruct ids as [|i [|j ids]]; cbn in L; try lia.
    destruct (K i) as [a Ea]; [now left|]. destruct (K j) as [b Eb]; [right; now left|]. rewrite Ea, Eb. cbn [bind]. cbv zeta. set (x := vsub b a).
    destruct (near_zero tol (vx x) && near_zero tol (vy x)) eqn:Q.
    - destruct (near_zero tol (vz x)) eqn:Qz; [apply G|]. apply near_zero_nz in Qz; [|exact T]. apply N. apply cross_test. right; right. unfold AY, cross. cbn [vx vy vz]. lra.
    - apply N. apply cross_test. left. assert (H : vx x <> 0 \/ vy x <> 0).
      { apply andb_false_iff in Q. destruct Q as [Q|Q]; apply near_zero_nz in Q; auto. }
      unfold AZ, cross. cbn [vx vy vz]. assert (0 < vx x * vx x + vy x * vy x) by (destruct H; nra). nra. }
  destruct (Z.eqb_spec dim 2) as [D2|D2]; [|apply G].
  assert (M : exists pts, mapM nodes ids = Ok pts).
  { clear - K. induction ids as [|i ids IH]; [eexists; reflexivity|]. destruct (K i) as [p Ep]; [now left|]. destruct IH as [q Eq]; [intros; apply K; now right|].
    cbn [mapM]. rewrite Ep. cbn [bind]. rewrite Eq. eexists. reflexivity. }
  destruct M as [pts ->]. cbn [bind]. cbv zeta. destruct (length pts <? 3)%nat; [apply G|]. destruct (ctype =? 4)%Z; [|apply G].
  destruct pts as [|a [|b [|c [|d pts]]]]; try apply G. set (z := cross (vsub b a) (vsub c a)).
  destruct (vec_iszero tol (cross AZ z)) eqn:Q1; cbn [orb]; [apply G|]. destruct (vec_iszero tol (cross z (cross AZ z))); [apply G|].
  apply iszero_nz in Q1; [|exact T]. apply N.
  assert (N2 : cross (cross AZ z) (cross z (cross AZ z)) = vscale (vx z * vx z + vy z * vy z) z) by (clearbody z; unfold AZ; vring).
  assert (Hz : 0 < vx z * vx z + vy z * vy z).
  { assert (H : vx z <> 0 \/ vy z <> 0).
    { destruct (Req_dec (vx z) 0) as [H1|H1]; [|now left]. destruct (Req_dec (vy z) 0) as [H2|H2]; [|now right].
      exfalso. apply Q1. unfold AZ, cross, vzero. cbn [vx vy vz]. rewrite H1, H2. f_equal; ring. }
    destruct H; nra. }
  rewrite N2. apply scale_nz; [exact Hz|]. intros E. rewrite E in Hz. cbn in Hz. lra.
Qed.
Theorem C96_accepted : forall n tol tiny env nodes dim ctype ids s f, 0 <= tol ->
  (forall i, In i ids -> exists p, nodes i = Ok p) -> (dim = 1%Z -> (2 <= length ids)%nat) -> stands nodes s f ->
  exists r, element_axes (S n) tol tiny env nodes dim ctype ids (Some s) = Ok r.
Proof.
  intros n tol tiny env nodes dim ctype ids s f T K L Hf. destruct (stands_frame _ _ _ Hf) as (Ef & R & _).
  destruct (default_total tol nodes dim ctype ids T K L) as (o & X & Y & Z & r & Ed & O).
  unfold element_axes. rewrite never_refused, Ed. cbn [bind]. rewrite Ef. cbn [bind]. rewrite euler_default by assumption. cbn [bind]. cbv zeta.
  destruct (dim =? 0)%Z; [destruct (absolute s); eexists; reflexivity|]. destruct (dim =? 1)%Z; [destruct (ctype =? 6)%Z; eexists; reflexivity|].
  destruct (dim =? 2)%Z; eexists; reflexivity.
Qed.

(** ** What fails *)
(** A cylindrical system is meant to be refused (with a message), as its axes turn
    from one point to another: it never is.  The axes of its origin are written
    for every element, without a message. *)
Theorem C96_cylindrical_refuted : exists f env nodes psi theta phi p,
  fkind f = Cylindrical (V3 1 0 0) (V3 0 1 0) /\ nodes 1%Z = Ok p /\
  (forall n tol tiny ids, 0 <= tiny < 1 -> element_axes (S n) tol tiny env nodes 3 0 ids (Some (User f)) = Ok ((3%Z, [psi; theta; phi]), [])) /\
  forall tol, 0 <= tol < 1 -> fkind (update_local_base tol f p) = Cylindrical (V3 0 1 0) (V3 (-1) 0 0) /\ rotated (V3 psi theta phi) (V3 1 0 0) <> V3 0 1 0.
Proof.
  set (f := Frame (Cylindrical (V3 1 0 0) (V3 0 1 0)) (V3 0 0 0) (V3 1 0 0) (V3 0 1 0) (V3 0 0 1) 0 None).
  exists f, (fun _ => None), (fun _ => Ok (V3 0 1 0)), 0, 0, 0, (V3 0 1 0). split; [reflexivity|]. split; [reflexivity|]. split.
  - intros n tol tiny ids Ti. unfold element_axes. rewrite never_refused. unfold default_axes. cbn [Z.eqb Pos.eqb bind frame_of]. destruct (global_built vzero) as [G O]. rewrite G.
    rewrite euler_default by (reflexivity || exact O). rewrite !loc_global. destruct (along_x tiny (V3 1 0 0) (V3 0 1 0) (V3 0 0 1) O Ti eq_refl) as (phi & E & E2 & _).
    cbn [f ex ey ez]. unfold euler_angles_of. cbn [vx vy vz bind]. cbv zeta. replace (1 * 1 + 0 * 0) with 1 by ring. rewrite sqrt_1. destruct (Rlt_dec tiny 1); [|lra].
    rewrite Ropp_0, atan2_01. reflexivity.
  - intros tol Ht. split.
    + unfold update_local_base. cbn [fkind f origin ez]. cbv zeta. replace (vsub (V3 0 1 0) (V3 0 0 0)) with (V3 0 1 0) by vring.
      assert (Q : vec_iszero tol (V3 0 1 0) = false).
      { unfold vec_iszero. cbn [vx vy vz]. rewrite (near_zero_false tol 1) by (rewrite Rabs_R1; lra). now rewrite andb_false_r. }
      rewrite Q. cbn [fkind]. replace (cross (V3 0 0 1) (V3 0 1 0)) with (V3 (-1) 0 0) by vring.
      rewrite normalized_of_unit by (unfold dot; cbn; ring). replace (cross (V3 (-1) 0 0) (V3 0 0 1)) with (V3 0 1 0) by vring. reflexivity.
    + unfold rotated, rot_x, rot_y, rot_z. cbn [vx vy vz]. rewrite cos_0, sin_0. intros E. injection E as E1 E2 E3. lra.
Qed.

(** The angle of a surface of four nodes is measured in the global axes, whatever
    its plane: two halves of a square get the angle PI/2 and the square -PI/2. *)
Definition wall (i : Z) : outcome vec :=
  if (i =? 1)%Z then Ok (V3 0 0 0) else if (i =? 2)%Z then Ok (V3 1 0 0) else if (i =? 3)%Z then Ok (V3 1 0 1) else if (i =? 4)%Z then Ok (V3 0 0 1) else Throw.
Definition upright : frame := built_frame vzero (V3 0 0 1) (V3 1 0 0) (V3 0 1 0) 0.
Lemma upright_stands nodes : stands nodes (User upright) upright.
Proof. constructor; [reflexivity|]. constructor; cbn; vunfold; ring. Qed.
Lemma wall_half tol tiny n env i j k : 0 <= tol < 1 -> 0 <= tiny < 1 -> (i, j, k) = (1, 2, 3)%Z \/ (i, j, k) = (1, 3, 4)%Z ->
  exists psi r, element_axes (S n) tol tiny env wall 2 4 [i; j; k] (Some (User upright)) = Ok ((1%Z, [psi]), r) /\ cos psi = 0 /\ sin psi = 1.
Proof.
  intros T Ti C. assert (W : exists a b c, wall i = Ok a /\ wall j = Ok b /\ wall k = Ok c /\ cross (vsub b a) (vsub c a) = V3 0 (-1) 0).
  { destruct C as [C|C]; injection C as -> -> ->; eexists; eexists; eexists; (split; [reflexivity|]); (split; [reflexivity|]); (split; [reflexivity|]); vring. }
  destruct W as (a & b & c & Ea & Eb & Ec & Ez).
  assert (X1 : cross AZ (V3 0 (-1) 0) = V3 1 0 0) by (unfold AZ; vring). assert (Y1 : cross (V3 0 (-1) 0) (V3 1 0 0) = V3 0 0 1) by vring.
  assert (Hc : clear_triangle tol a b c).
  { unfold clear_triangle. cbv zeta. rewrite Ez, X1, Y1. unfold vec_iszero. cbn [vx vy vz]. rewrite (near_zero_false tol 1) by (rewrite Rabs_R1; lra). rewrite andb_false_r. auto. }
  destruct (C96_triangle_partial n tol tiny env wall i j k (User upright) upright a b c (proj1 T) Ti Ea Eb Ec Hc (upright_stands wall)) as (X & Y & N & psi & r & E & Ht & Hp & _).
  exists psi, r. split; [exact E|].
  assert (Ht' : triangle_axes a b c (V3 1 0 0) (V3 0 0 1) (V3 0 (-1) 0)).
  { split; [constructor; vunfold; ring|]. split; [|cbn; lra]. exists 1. split; [lra|]. rewrite Ez. vring. }
  destruct (C96_triangle_axes_unique _ _ _ _ _ _ _ _ _ Ht Ht') as (-> & -> & ->).
  assert (Pe : projected (V3 0 (-1) 0) (ex upright) = V3 0 0 1) by (unfold projected, upright, built_frame; cbn [ex]; vring). rewrite Pe in Hp.
  destruct Hp as (h & H & Eh). { rewrite norm_one by (vunfold; ring). lra. }
  unfold vscale, vadd in Eh. cbn [vx vy vz] in Eh. injection Eh as E1 _ E3. pose proof (sin2_cos2 psi) as SC. unfold Rsqr in SC.
  assert (C0 : cos psi = 0). { assert (Q : h * cos psi = 0) by lra. apply Rmult_integral in Q. lra. }
  split; [exact C0|]. rewrite C0 in SC. assert (S2 : (sin psi - 1) * (sin psi + 1) = 0) by lra. apply Rmult_integral in S2. destruct S2 as [S2|S2]; [lra|]. exfalso. nra.
Qed.
Theorem C96_quadrangle_refuted : exists s f, stands wall s f /\ forall n tol tiny env, 0 <= tol < 1 -> 0 <= tiny < 1 ->
  (exists psi r, element_axes (S n) tol tiny env wall 2 4 [1; 2; 3]%Z (Some s) = Ok ((1%Z, [psi]), r) /\ sin psi = 1) /\
  (exists psi r, element_axes (S n) tol tiny env wall 2 4 [1; 3; 4]%Z (Some s) = Ok ((1%Z, [psi]), r) /\ sin psi = 1) /\
  (exists psi r, element_axes (S n) tol tiny env wall 2 4 [1; 2; 3; 4]%Z (Some s) = Ok ((1%Z, [psi]), r) /\ sin psi = -1).
Proof.
  exists (User upright), upright. split; [apply upright_stands|]. intros n tol tiny env T Ti. split; [|split].
  - destruct (wall_half tol tiny n env 1 2 3 T Ti (or_introl eq_refl)) as (psi & r & E & _ & S1). eauto.
  - destruct (wall_half tol tiny n env 1 3 4 T Ti (or_intror eq_refl)) as (psi & r & E & _ & S1). eauto.
  - set (o := centre [V3 0 0 0; V3 1 0 0; V3 1 0 1; V3 0 0 1]). destruct (global_built o) as [G O].
    assert (Ed : default_axes tol wall 2 4 [1; 2; 3; 4]%Z = Ok (built_frame o AX AY AZ 0, [RQuad])).
    { unfold default_axes. cbn [Z.eqb Pos.eqb mapM wall bind length Nat.ltb Nat.leb]. fold o. now rewrite G. }
    eexists. eexists. split.
    { unfold element_axes. rewrite never_refused, Ed. cbn [bind frame_of]. rewrite euler_default by (reflexivity || exact O). cbn [bind Z.eqb Pos.eqb]. reflexivity. }
    rewrite !loc_global. unfold upright, built_frame. cbn [ex ey ez]. unfold euler_angles_of. cbn [vx vy vz]. cbv zeta. replace (0 * 0 + 0 * 0) with 0 by ring. rewrite sqrt_0.
    destruct (Rlt_dec tiny 0); [lra|]. cbn [vx]. destruct (atan2_spec (- (1)) 0 ltac:(right; lra)) as [_ ->].
    replace (0 * 0 + - (1) * - (1)) with 1 by ring. rewrite sqrt_1. lra.
Qed.

(** A bar along (3,4,0) whose plane holds the global z axis: the third axis of
    Systus is vertical, and the angle that brings the second one there is PI/2. *)
Definition bar_nodes (i : Z) : outcome vec := if (i =? 1)%Z then Ok (V3 0 0 0) else if (i =? 2)%Z then Ok (V3 3 4 0) else Throw.
Example C96_example : forall tol tiny env, 0 <= tol < 3 -> 0 <= tiny < 1 ->
  let o := mkOrient 1 2 (Along (V3 0 0 1)) in
  clear_bar tol (V3 0 0 0) (V3 3 4 0) /\ cross (vsub (V3 3 4 0) (V3 0 0 0)) (V3 0 0 1) <> vzero /\
  bar_axes (V3 0 0 0) (V3 3 4 0) (V3 (3 / 5) (4 / 5) 0) (V3 (- (4 / 5)) (3 / 5) 0) (V3 0 0 1) /\
  exists phi, element_axes 1 tol tiny env bar_nodes 1 0 [1; 2]%Z (Some (Orient o)) = Ok ((3%Z, [0; 0; phi]), []) /\ cos phi = 0 /\ sin phi = 1.
Proof.
  intros tol tiny env T Ti o.
  assert (C : clear_bar tol (V3 0 0 0) (V3 3 4 0)).
  { right; left. unfold vsub. cbn [vx vy vz]. replace (3 - 0) with 3 by ring. rewrite Rabs_pos_eq; lra. }
  assert (N : cross (vsub (V3 3 4 0) (V3 0 0 0)) (V3 0 0 1) <> vzero) by (apply cross_test; unfold cross, vsub; cbn [vx vy vz]; right; left; lra).
  assert (B : bar_axes (V3 0 0 0) (V3 3 4 0) (V3 (3 / 5) (4 / 5) 0) (V3 (- (4 / 5)) (3 / 5) 0) (V3 0 0 1)).
  { split; [constructor; vunfold; field|]. split; [exists (/ 5); split; [lra|]; apply vec_eq; vunfold; field|]. right. vunfold. split; [left; lra|lra]. }
  split; [exact C|]. split; [exact N|]. split; [exact B|].
  destruct (C96_bar 0 tol tiny env bar_nodes 0 1 2 [] o (V3 0 0 0) (V3 3 4 0) (V3 0 0 1) (proj1 T) Ti ltac:(discriminate) eq_refl eq_refl C eq_refl eq_refl eq_refl N)
    as (X & Y & Z & phi & f & E & B' & Ef & E1 & E2 & E3).
  destruct (C96_bar_axes_unique _ _ _ _ _ _ _ _ B' B) as (-> & -> & ->). exists phi. split; [exact E|].
  assert (Ey : ey f = V3 0 0 1).
  { assert (Ef' : f = oriented (V3 0 0 0) (V3 3 4 0) (V3 0 0 1)) by (injection Ef as <-; reflexivity). rewrite Ef'. unfold oriented. cbn [build fkind ey].
    rewrite orthonormalized_noop; [apply normalized_of_unit; vunfold; ring|]. rewrite normalized_scale. vunfold. ring. }
  rewrite Ey in E2. unfold vadd, vscale in E2. cbn [vx vy vz] in E2. injection E2 as F1 F2 F3. lra.
Qed.

Print Assumptions C96_bar.
Print Assumptions C96_bar_axes_unique.
Print Assumptions C96_spatial_partial.
Print Assumptions C96_triangle_partial.
Print Assumptions C96_triangle_axes_unique.
Print Assumptions C96_flat_triangle.
Print Assumptions C96_form.
Print Assumptions C96_accepted.
Print Assumptions C96_cylindrical_refuted.
Print Assumptions C96_quadrangle_refuted.
