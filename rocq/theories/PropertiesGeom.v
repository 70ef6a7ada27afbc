(* Coordinate systems: C36, C37, C65, C66. *)
From Coq Require Import Reals ZArith List Bool Lra Lia Arith.
Require Import Verif.Base Verif.GeomModel Verif.GeomProofs Verif.EulerProofs.
Import ListNotations.
Open Scope R_scope.

(* A point of the reference system [rid] of a card, as a global point. *)
Definition to_global (n : nat) (env : systems) (rid : Z) (p : vec) : outcome vec :=
  if Z.eqb rid 0 then Ok p else do g <- of_option (env rid); position_to_global n env g p.

(* Cartesian systems, given by three points that are not aligned, each in the
   global system or in another such system, at any depth. *)
Inductive cartesian (env : systems) : frame -> Prop :=
| cart_nodes : forall o z xz, not_aligned o z xz -> cartesian env (build_from_nodes o z xz 0)
| cart_global : forall a b c, not_aligned a b c -> cartesian env (build (cord2r a b c 0))
| cart_nested : forall a b c rid p, not_aligned a b c -> rid <> 0%Z ->
    env rid = Some p -> cartesian env p -> cartesian env (build (cord2r a b c rid)).
Inductive cartesian_id (env : systems) (rid : Z) : Prop :=
| id_global : rid = 0%Z -> cartesian_id env rid
| id_named : forall p, rid <> 0%Z -> env rid = Some p -> cartesian env p -> cartesian_id env rid.

Lemma cartesian_converts : forall env f, cartesian env f -> exists n o a b c, converts env n f o a b c.
Proof.
  intros env f H. induction H as [o z xz H|a b c H|a b c rid p H Hr Hp _ (n & o & a' & b' & c' & K)].
  - destruct (nodes_built o z xz 0 H) as (a & b & c & E & O & _). exists 1%nat. rewrite E.
    exists o, a, b, c. apply converts_global. exact O.
  - rewrite cord2r_built by assumption. exists 1%nat. do 4 eexists. apply converts_global, card_axes_ortho. exact H.
  - rewrite cord2r_built by assumption. exists (S n). do 4 eexists.
    apply (converts_nested env n rid p); try eassumption. apply card_axes_ortho. exact H.
Qed.

Lemma cartesian_id_converts : forall env rid, cartesian_id env rid ->
  exists n o a b c, ortho a b c /\ forall m, (n <= m)%nat -> forall p, to_global m env rid p = Ok (vadd o (along a b c p)).
Proof.
  intros env rid [E|p E Hp Hc].
  - subst. exists 0%nat, vzero, (V3 1 0 0), (V3 0 1 0), (V3 0 0 1). split.
    + constructor; vunfold; ring.
    + intros m _ p. unfold to_global. cbn [Z.eqb]. f_equal. apply vec_eq; vunfold; ring.
  - destruct (cartesian_converts env p Hc) as (n & o & a & b & c & K).
    exists n, o, a, b, c. split; [apply (cv_ortho _ _ _ _ _ _ _ K)|].
    intros m Hm q. unfold to_global. apply Z.eqb_neq in E. rewrite E, Hp. cbn [of_option bind].
    apply (cv_pos _ _ _ _ _ _ _ (converts_more _ _ _ _ _ _ _ K m Hm)).
Qed.

(** C36.  Converting a vector to the global axes and back gives the vector, in
    both directions; lengths and angles are kept, and so is handedness. *)
Theorem C36_vectors_convert : forall env f, cartesian env f -> exists depth, forall n, (depth <= n)%nat ->
  (forall l m, exists gl gm,
     vector_to_global n env f l = Ok gl /\ vector_to_global n env f m = Ok gm /\
     vector_to_local n env f gl = Ok l /\
     dot gl gm = dot l m /\ norm gl = norm l /\
     vector_to_global n env f (cross l m) = Ok (cross gl gm)) /\
  (forall g, exists l, vector_to_local n env f g = Ok l /\ vector_to_global n env f l = Ok g).
Proof.
  intros env f H. destruct (cartesian_converts env f H) as (n0 & o & a & b & c & K0).
  exists n0. intros n Hn. pose proof (converts_more _ _ _ _ _ _ _ K0 n Hn) as [K1 K2 K3 K4].
  split.
  - intros l m. exists (along a b c l), (along a b c m). rewrite !K2, K3. repeat split.
    + f_equal. apply along_coords. exact K1.
    + apply along_dot. exact K1.
    + unfold norm. rewrite along_dot by exact K1. reflexivity.
    + f_equal.
      pose proof (ortho_cross _ _ _ K1) as Ha. pose proof (ortho_cross _ _ _ (ortho_rot _ _ _ K1)) as Hb.
      pose proof (ortho_cross _ _ _ (ortho_rot _ _ _ (ortho_rot _ _ _ K1))) as Hc.
      transitivity (vadd (vscale (vx (cross l m)) (cross b c)) (vadd (vscale (vy (cross l m)) (cross c a)) (vscale (vz (cross l m)) (cross a b)))).
      * rewrite Ha, Hb, Hc. vring.
      * vring.
  - intros g. eexists. rewrite K3. split; [reflexivity|]. rewrite K2. f_equal. apply ortho_rows. exact K1.
Qed.

(** C36.  The system of a card with points A, B and C: its origin is A, its
    third axis goes from A to B, and C lies in the half plane of the first
    axis.  Together with the conversion of vectors this fixes the system. *)
Theorem C36_card_points_placed : forall env a b c rid, not_aligned a b c -> cartesian_id env rid ->
  exists depth, forall n, (depth <= n)%nat ->
  let f := build (cord2r a b c rid) in
  exists A B C, to_global n env rid a = Ok A /\ to_global n env rid b = Ok B /\ to_global n env rid c = Ok C /\
    position_to_global (S n) env f (V3 0 0 0) = Ok A /\
    position_to_global (S n) env f (V3 0 0 (norm (vsub b a))) = Ok B /\
    (exists x z, 0 < x /\ position_to_global (S n) env f (V3 x 0 z) = Ok C) /\
    (forall p q, exists P Q, position_to_global (S n) env f p = Ok P /\ position_to_global (S n) env f q = Ok Q /\
       norm (vsub P Q) = norm (vsub p q)).
Proof.
  intros env a b c rid H Hid. destruct (cartesian_id_converts env rid Hid) as (n0 & o & u & v & w & O & K).
  set (e1 := fst (card_axes a b c)). set (e2 := normalized (snd (card_axes a b c))). set (e3 := normalized (vsub b a)).
  pose proof (card_axes_ortho a b c H) as O2. fold e1 e2 e3 in O2.
  assert (P : exists n1, forall n, (n1 <= n)%nat -> forall l,
    position_to_global (S n) env (build (cord2r a b c rid)) l = Ok (vadd o (along u v w (vadd a (along e1 e2 e3 l))))).
  { rewrite cord2r_built by exact H. fold e1 e2 e3. destruct Hid as [E|p E Hp Hc].
    - subst rid. exists n0. intros n Hn l.
      rewrite (cv_pos _ _ _ _ _ _ _ (converts_global env n a e1 e2 e3 O2)). f_equal.
      specialize (K n Hn (vadd a (along e1 e2 e3 l))). unfold to_global in K. cbn [Z.eqb] in K. injection K as K1 K2 K3.
      apply vec_eq; assumption.
    - destruct (cartesian_converts env p Hc) as (n1 & o' & u' & v' & w' & K').
      exists (max n0 n1). intros n Hn l.
      pose proof (converts_more _ _ _ _ _ _ _ K' n ltac:(lia)) as K''.
      rewrite (cv_pos _ _ _ _ _ _ _ (converts_nested env n rid p o' u' v' w' a e1 e2 e3 E Hp K'' O2)).
      rewrite <- (K n ltac:(lia)). unfold to_global. apply Z.eqb_neq in E. rewrite E, Hp. cbn [of_option bind].
      rewrite (cv_pos _ _ _ _ _ _ _ K''). f_equal. rewrite <- along_comp. vring. }
  destruct P as [n1 P]. destruct (card_points a b c H) as [Pb [x [z [Hx Pc]]]]. fold e1 e2 e3 in Pb, Pc.
  exists (max n0 n1). intros n Hn. cbv zeta.
  pose proof (K n ltac:(lia)) as Kn. pose proof (P n ltac:(lia)) as Pn.
  do 3 eexists. rewrite !Kn, !Pn, Pb. do 3 (split; [reflexivity|]).
  split; [f_equal; clear; vring|]. split; [reflexivity|]. split.
  - exists x, z. split; [exact Hx|]. rewrite Pn, Pc. reflexivity.
  - intros p q. do 2 eexists. rewrite !Pn. do 2 (split; [reflexivity|]).
    unfold norm. f_equal.
    replace (vsub (vadd o (along u v w (vadd a (along e1 e2 e3 p)))) (vadd o (along u v w (vadd a (along e1 e2 e3 q)))))
      with (along u v w (along e1 e2 e3 (vsub p q))) by vring.
    rewrite !along_dot by assumption. reflexivity.
Qed.

(* A system nested in another one. *)
Definition e36_env : systems := fun k =>
  if Z.eqb k 5 then Some (build (cord2r (V3 1 2 3) (V3 1 4 3) (V3 3 2 9) 0)) else None.
Lemma cross_test : forall a b, vz (cross a b) <> 0 \/ vy (cross a b) <> 0 \/ vx (cross a b) <> 0 -> cross a b <> vzero.
Proof. intros a b H E. rewrite E in H. cbn in H. lra. Qed.
Example C36_example : cartesian e36_env (build (cord2r (V3 0 1 0) (V3 1 1 1) (V3 2 5 7) 5)).
Proof.
  eapply cart_nested; [|lia|reflexivity|apply cart_global].
  - unfold not_aligned. apply cross_test. cbn. lra.
  - unfold not_aligned. apply cross_test. cbn. lra.
Qed.
Example C36_example_id : cartesian_id e36_env 5.
Proof. eapply id_named; [lia|reflexivity|]. apply cart_global. unfold not_aligned. apply cross_test. cbn. lra. Qed.

Lemma cord2c_axes : forall a b c r, not_aligned a b c -> cord2c a b c r =
  Frame (Cylindrical (fst (card_axes a b c)) (normalized (snd (card_axes a b c)))) a
    (fst (card_axes a b c)) (normalized (snd (card_axes a b c))) (normalized (vsub b a)) r None.
Proof.
  intros a b c r H. destruct (card_axes_spec a b c H) as (_ & E & _). unfold cord2c, new_cylindrical.
  destruct (card_axes a b c) as [e1 e2]. cbn [fst snd] in *. rewrite E. reflexivity.
Qed.
Lemma cord2s_axes : forall a b c r, not_aligned a b c -> cord2s a b c r =
  Frame Spherical a
    (fst (card_axes a b c)) (normalized (snd (card_axes a b c))) (normalized (vsub b a)) r None.
Proof.
  intros a b c r H. destruct (card_axes_spec a b c H) as (_ & E & _). unfold cord2s, new_spherical.
  destruct (card_axes a b c) as [e1 e2]. cbn [fst snd] in *. rewrite E. reflexivity.
Qed.

(* [u], [w], [k]: radial direction at angle zero, direction at angle 90 degrees
   and axis of the system whose three points are A, B, C (global points). *)
Definition axes_of_points (A B C u w k : vec) : Prop :=
  ortho u w k /\ (exists d, 0 < d /\ vsub B A = vscale d k) /\
  (exists x h, 0 < x /\ vsub C A = vadd (vscale x u) (vscale h k)).

Lemma card_axes_points : forall env rid a b c, not_aligned a b c -> cartesian_id env rid ->
  exists depth, forall n, (depth <= n)%nat ->
  exists A B C u w k, to_global n env rid a = Ok A /\ to_global n env rid b = Ok B /\ to_global n env rid c = Ok C /\
    axes_of_points A B C u w k /\
    forall p, to_global n env rid (vadd a (along (fst (card_axes a b c)) (normalized (snd (card_axes a b c))) (normalized (vsub b a)) p))
      = Ok (vadd A (along u w k p)).
Proof.
  intros env rid a b c H Hid. destruct (cartesian_id_converts env rid Hid) as (n0 & o & u & v & w & O & K).
  pose proof (card_axes_ortho a b c H) as O2. destruct (card_points a b c H) as [Pb [x [z [Hx Pc]]]].
  set (e1 := fst (card_axes a b c)) in *. set (e2 := normalized (snd (card_axes a b c))) in *. set (e3 := normalized (vsub b a)) in *.
  exists n0. intros n Hn. pose proof (K n Hn) as Kn.
  do 3 eexists. exists (along u v w e1), (along u v w e2), (along u v w e3). rewrite !Kn.
  do 3 (split; [reflexivity|]). split; [split; [apply along_ortho; assumption|]; split|].
  - exists (norm (vsub b a)). split; [apply norm_pos, (cross_nonzero_l _ _ H)|].
    rewrite <- Pb at 1. set (h := norm (vsub b a)). clearbody h. clearbody e1 e2 e3. clear. vring.
  - exists x, z. split; [exact Hx|]. rewrite <- Pc at 1. clearbody e1 e2 e3. clear. vring.
  - intros p. rewrite Kn. f_equal. rewrite <- along_comp. clear. vring.
Qed.

(** C37.  In a cylindrical system referring to Cartesian systems, the point
    (r, theta, z) lies at height z along the axis from A to B, at distance |r|
    from that axis, and at the angle theta from the half plane of C. *)
Theorem C37_cylindrical_partial : forall env rid a b c, not_aligned a b c -> cartesian_id env rid ->
  exists depth, forall n, (depth <= n)%nat ->
  exists A B C u w k, to_global n env rid a = Ok A /\ to_global n env rid b = Ok B /\ to_global n env rid c = Ok C /\
    axes_of_points A B C u w k /\
    forall r theta z, exists P, position_to_global (S n) env (cord2c a b c rid) (V3 r theta z) = Ok P /\
      dot (vsub P A) k = z /\
      norm (vsub (vsub P A) (vscale z k)) = Rabs r /\
      dot (vsub P A) u = r * cos (PI * theta / 180) /\ dot (vsub P A) w = r * sin (PI * theta / 180).
Proof.
  intros env rid a b c H Hid. destruct (card_axes_points env rid a b c H Hid) as [d K].
  exists d. intros n Hn. destruct (K n Hn) as (A & B & C & u & w & k & HA & HB & HC & Hax & HP).
  exists A, B, C, u, w, k. repeat (split; [assumption|]). intros r theta z.
  exists (vadd A (along u w k (cyl_xyz (V3 r theta z)))). rewrite cord2c_axes by exact H.
  split; [cbn [position_to_global fkind origin ex ey ez rcs]; exact (HP _)|].
  destruct Hax as [O _]. pose proof (along_coords _ _ _ O (cyl_xyz (V3 r theta z))) as E. injection E as E1 E2 E3.
  assert (S : vsub (vadd A (along u w k (cyl_xyz (V3 r theta z)))) A = along u w k (cyl_xyz (V3 r theta z))) by vring.
  rewrite S. split; [exact E3|]. split; [|split; [exact E1|exact E2]].
  replace (vsub (along u w k (cyl_xyz (V3 r theta z))) (vscale z k)) with
    (along u w k (V3 (r * cos (PI * theta / 180)) (r * sin (PI * theta / 180)) 0)) by (unfold cyl_xyz; vring).
  unfold norm. rewrite along_dot by exact O. rewrite <- sqrt_Rsqr_abs. f_equal. unfold dot. cbn [vx vy vz].
  pose proof (sin2_cos2 (PI * theta / 180)) as X. unfold Rsqr in *. nra.
Qed.

(** C37.  In a spherical system, the point (r, theta, phi) lies at distance |r|
    from A, theta away from the axis from A to B and phi away from the half
    plane of C. *)
Theorem C37_spherical_partial : forall env rid a b c, not_aligned a b c -> cartesian_id env rid ->
  exists depth, forall n, (depth <= n)%nat ->
  exists A B C u w k, to_global n env rid a = Ok A /\ to_global n env rid b = Ok B /\ to_global n env rid c = Ok C /\
    axes_of_points A B C u w k /\
    forall r theta phi, exists P, position_to_global (S n) env (cord2s a b c rid) (V3 r theta phi) = Ok P /\
      norm (vsub P A) = Rabs r /\ dot (vsub P A) k = r * cos (PI * theta / 180) /\
      dot (vsub P A) u = r * sin (PI * theta / 180) * cos (PI * phi / 180) /\
      dot (vsub P A) w = r * sin (PI * theta / 180) * sin (PI * phi / 180).
Proof.
  intros env rid a b c H Hid. destruct (card_axes_points env rid a b c H Hid) as [d K].
  exists d. intros n Hn. destruct (K n Hn) as (A & B & C & u & w & k & HA & HB & HC & Hax & HP).
  exists A, B, C, u, w, k. repeat (split; [assumption|]). intros r theta phi.
  exists (vadd A (along u w k (sph_xyz (V3 r theta phi)))). rewrite cord2s_axes by exact H.
  split; [cbn [position_to_global fkind origin ex ey ez rcs]; exact (HP _)|].
  destruct Hax as [O _]. pose proof (along_coords _ _ _ O (sph_xyz (V3 r theta phi))) as E. injection E as E1 E2 E3.
  assert (S : vsub (vadd A (along u w k (sph_xyz (V3 r theta phi)))) A = along u w k (sph_xyz (V3 r theta phi))) by vring.
  rewrite S. split; [|split; [exact E3|split; [exact E1|exact E2]]].
  unfold norm. rewrite along_dot by exact O. rewrite <- sqrt_Rsqr_abs. f_equal. unfold dot, sph_xyz. cbn [vx vy vz].
  set (t := PI * theta / 180). set (f := PI * phi / 180).
  pose proof (sin2_cos2 t) as X. pose proof (sin2_cos2 f) as Y. unfold Rsqr in *.
  transitivity (r * r * (sin t * sin t * (sin f * sin f + cos f * cos f) + cos t * cos t)); [ring|].
  rewrite Y. replace (sin t * sin t * 1 + cos t * cos t) with 1 by lra. ring.
Qed.

Example C37_example : not_aligned (V3 1 0 2) (V3 1 3 2) (V3 4 1 2) /\ cartesian_id e36_env 5.
Proof. split; [unfold not_aligned; apply cross_test; cbn; lra|exact C36_example_id]. Qed.

(** C37 fails when the reference system is itself cylindrical: the three points
    of the card are given by their cylindrical coordinates, but the axes are
    computed from the differences of these coordinates. Witness: a Cartesian
    system that refers to the cylindrical system on the global axes, with the
    points A = (1, 0 deg, 0), B = (1, 0 deg, 1) and C = (2, 90 deg, 0). No point
    of its x-z plane is the point C. *)
Lemma cos_90 : cos (PI * 90 / 180) = 0.
Proof. replace (PI * 90 / 180) with (PI / 2) by field. apply cos_PI2. Qed.
Lemma sin_90 : sin (PI * 90 / 180) = 1.
Proof. replace (PI * 90 / 180) with (PI / 2) by field. apply sin_PI2. Qed.
Lemma card_axes_unit : forall a b c, dot (vsub b a) (vsub b a) = 1 -> dot (vsub c a) (vsub c a) = 1 -> dot (vsub b a) (vsub c a) = 0 ->
  fst (card_axes a b c) = vsub c a /\ normalized (snd (card_axes a b c)) = cross (vsub b a) (vsub c a) /\ normalized (vsub b a) = vsub b a.
Proof.
  intros a b c H1 H2 H3. unfold card_axes. cbn [fst snd]. rewrite orthonormalized_noop, (normalized_of_unit _ H2) by exact H3.
  split; [reflexivity|]. split; [|apply normalized_of_unit; exact H1].
  apply normalized_of_unit. rewrite lagrange, H1, H2, H3. ring.
Qed.

Theorem C37_cylindrical_reference_refuted : exists env rid a b c C,
  not_aligned a b c /\ env rid = Some (cord2c (V3 0 0 0) (V3 0 0 1) (V3 1 0 0) 0) /\
  (forall n, to_global (S n) env rid c = Ok C) /\
  forall n x z, position_to_global n env (build (cord2r a b c rid)) (V3 x 0 z) <> Ok C.
Proof.
  set (cyl := cord2c (V3 0 0 0) (V3 0 0 1) (V3 1 0 0) 0).
  exists (fun _ => Some cyl), 1%Z, (V3 1 0 0), (V3 1 0 1), (V3 2 90 0), (V3 0 2 0).
  assert (NA : not_aligned (V3 1 0 0) (V3 1 0 1) (V3 2 90 0)) by (unfold not_aligned; apply cross_test; cbn; lra).
  assert (NC : not_aligned (V3 0 0 0) (V3 0 0 1) (V3 1 0 0)) by (unfold not_aligned; apply cross_test; cbn; lra).
  assert (Ecyl : cyl = Frame (Cylindrical (V3 1 0 0) (V3 0 1 0)) (V3 0 0 0) (V3 1 0 0) (V3 0 1 0) (V3 0 0 1) 0 None).
  { unfold cyl. rewrite cord2c_axes by exact NC.
    destruct (card_axes_unit (V3 0 0 0) (V3 0 0 1) (V3 1 0 0)) as (E1 & E2 & E3); try (vunfold; ring).
    rewrite E1, E2, E3. f_equal; [f_equal|..]; apply vec_eq; vunfold; ring. }
  split; [exact NA|]. split; [reflexivity|]. split.
  - intros n. unfold to_global. cbn [Z.eqb of_option bind]. rewrite Ecyl.
    cbn [position_to_global fkind rcs origin ex ey ez Z.eqb]. f_equal.
    unfold cyl_xyz. cbn [vx vy vz]. rewrite cos_90, sin_90. apply vec_eq; vunfold; ring.
  - intros n x z E. rewrite cord2r_built in E by exact NA.
    set (e2 := normalized (snd (card_axes (V3 1 0 0) (V3 1 0 1) (V3 2 90 0)))) in E.
    assert (E1 : fst (card_axes (V3 1 0 0) (V3 1 0 1) (V3 2 90 0)) = vscale (/ norm (V3 1 90 0)) (V3 1 90 0)).
    { unfold card_axes. cbn [fst]. rewrite orthonormalized_noop by (vunfold; ring).
      rewrite normalized_scale. replace (vsub (V3 2 90 0) (V3 1 0 0)) with (V3 1 90 0) by vring. reflexivity. }
    assert (E3 : normalized (vsub (V3 1 0 1) (V3 1 0 0)) = V3 0 0 1).
    { replace (vsub (V3 1 0 1) (V3 1 0 0)) with (V3 0 0 1) by vring. apply normalized_of_unit. vunfold; ring. }
    rewrite E1, E3 in E. clearbody e2. set (k := / norm (V3 1 90 0)) in E. clearbody k. clear E1 E3 NA NC.
    destruct n as [|[|n]]; [discriminate|discriminate|]. rewrite Ecyl in E.
    cbn [position_to_global vector_to_global built_frame fkind rcs origin ex ey ez Z.eqb of_option bind] in E.
    injection E as X1 X2 X3. vunfold. unfold cyl_xyz in *. cbn [vx vy vz] in *.
    replace (PI * 0 / 180) with 0 in * by field. rewrite cos_0, sin_0 in *. nra.
Qed.

(* Image of the local axes under rotations about the moving third, second and
   first axes by the three given angles. *)
Definition rot_z (t : R) (v : vec) := V3 (cos t * vx v - sin t * vy v) (sin t * vx v + cos t * vy v) (vz v).
Definition rot_y (t : R) (v : vec) := V3 (cos t * vx v + sin t * vz v) (vy v) (- sin t * vx v + cos t * vz v).
Definition rot_x (t : R) (v : vec) := V3 (vx v) (cos t * vy v - sin t * vz v) (sin t * vy v + cos t * vz v).
Definition rotated (e : vec) (v : vec) : vec := rot_z (vx e) (rot_y (vy e) (rot_x (vz e) v)).

Lemma rotated_axes : forall e,
  rotated e (V3 1 0 0) = rebuilt_x (vx e) (vy e) (vz e) /\
  rotated e (V3 0 1 0) = rebuilt_y (vx e) (vy e) (vz e) /\
  rotated e (V3 0 0 1) = rebuilt_z (vx e) (vy e) (vz e).
Proof.
  intros e. unfold rotated, rot_x, rot_y, rot_z, rebuilt_x, rebuilt_y, rebuilt_z. cbn [vx vy vz].
  repeat split; f_equal; ring.
Qed.

(* Distance between the first axis of the frame and the third axis of the
   reference, as a sine: zero exactly in the singular orientations. *)
Definition slope (f : frame) : R := sqrt (vz (ez f) * vz (ez f) + vz (ey f) * vz (ey f)).

(** C65.  For a system defined in the global system, rotating the global axes by
    the computed angles gives the axes of the system: exactly when the first
    axis is away from the vertical, within twice the tolerance otherwise. *)
Theorem C65_angles_rebuild_partial : forall env n tiny a b c, 0 <= tiny <= / 2 -> not_aligned a b c ->
  let f := build (cord2r a b c 0) in
  exists e, euler_angles n tiny env f None = Ok e /\
  (tiny < slope f -> rotated e (V3 1 0 0) = ex f /\ rotated e (V3 0 1 0) = ey f /\ rotated e (V3 0 0 1) = ez f) /\
  close (2 * tiny) (rotated e (V3 1 0 0)) (ex f) /\ close (2 * tiny) (rotated e (V3 0 1 0)) (ey f) /\
  close (2 * tiny) (rotated e (V3 0 0 1)) (ez f).
Proof.
  intros env n tiny a b c Ht H f. unfold f. rewrite cord2r_built by exact H.
  pose proof (card_axes_ortho a b c H) as O. unfold slope, built_frame. cbn [ex ey ez].
  set (e1 := fst (card_axes a b c)) in *. set (e2 := normalized (snd (card_axes a b c))) in *. set (e3 := normalized (vsub b a)) in *.
  exists (euler_angles_of tiny e1 e2 e3). unfold euler_angles. cbn [rcs Z.eqb bind ex ey ez]. split; [reflexivity|].
  destruct (rotated_axes (euler_angles_of tiny e1 e2 e3)) as (R1 & R2 & R3). rewrite R1, R2, R3.
  split; [intros Hc; apply euler_regular; [lra|exact O|exact Hc]|].
  destruct (Rlt_dec tiny (sqrt (vz e3 * vz e3 + vz e2 * vz e2))) as [Hc|Hc].
  - destruct (euler_regular tiny e1 e2 e3 ltac:(lra) O Hc) as (E1 & E2 & E3). rewrite E1, E2, E3.
    unfold close. rewrite !Rminus_eq_0, Rabs_R0. repeat split; lra.
  - apply euler_singular; [exact Ht|exact O|lra].
Qed.
Example C65_example : 0 <= 1 / 100000000 <= / 2 /\ not_aligned (V3 1 2 3) (V3 1 4 3) (V3 3 2 9).
Proof. split; [lra|]. unfold not_aligned. apply cross_test. cbn. lra. Qed.

(** C65 fails for a system defined in another system: its axes are converted as
    if they were given in the system itself.  Witness: a quarter turn about the
    vertical inside a quarter turn about the vertical. *)
Theorem C65_nested_refuted : exists env f p, f = build (cord2r (V3 0 0 0) (V3 0 0 1) (V3 0 1 0) 1) /\
  env 1%Z = Some p /\ p = build (cord2r (V3 0 0 0) (V3 0 0 1) (V3 0 1 0) 0) /\ cartesian env f /\
  exists e g, (forall n, euler_angles (S (S n)) (1 / 100000000) env f None = Ok e) /\
    (forall n, vector_to_global (S (S n)) env f (V3 1 0 0) = Ok g) /\ rotated e (V3 1 0 0) <> g.
Proof.
  set (p := build (cord2r (V3 0 0 0) (V3 0 0 1) (V3 0 1 0) 0)).
  set (f := build (cord2r (V3 0 0 0) (V3 0 0 1) (V3 0 1 0) 1)).
  assert (NA : not_aligned (V3 0 0 0) (V3 0 0 1) (V3 0 1 0)) by (unfold not_aligned; apply cross_test; cbn; lra).
  exists (fun _ => Some p), f, p. repeat (split; [reflexivity|]). split.
  { eapply cart_nested; [exact NA|lia|reflexivity|]. apply cart_global. exact NA. }
  assert (E : forall r, build (cord2r (V3 0 0 0) (V3 0 0 1) (V3 0 1 0) r) = built_frame (V3 0 0 0) (V3 0 1 0) (V3 (-1) 0 0) (V3 0 0 1) r).
  { intros r. rewrite cord2r_built by exact NA.
    destruct (card_axes_unit (V3 0 0 0) (V3 0 0 1) (V3 0 1 0)) as (E1 & E2 & E3); try (vunfold; ring).
    rewrite E1, E2, E3.
    replace (vsub (V3 0 1 0) (V3 0 0 0)) with (V3 0 1 0) by vring.
    replace (vsub (V3 0 0 1) (V3 0 0 0)) with (V3 0 0 1) by vring.
    replace (cross (V3 0 0 1) (V3 0 1 0)) with (V3 (-1) 0 0) by vring. reflexivity. }
  assert (Ef : f = built_frame (V3 0 0 0) (V3 0 1 0) (V3 (-1) 0 0) (V3 0 0 1) 1) by apply E.
  assert (Ep : p = built_frame (V3 0 0 0) (V3 0 1 0) (V3 (-1) 0 0) (V3 0 0 1) 0) by apply E.
  assert (V : forall n l, vector_to_global (S (S n)) (fun _ => Some p) f l = Ok (V3 (- vx l) (- vy l) (vz l))).
  { intros n l. rewrite Ef. cbn [vector_to_global built_frame fkind rcs ex ey ez Z.eqb of_option bind]. rewrite Ep.
    cbn [fkind rcs ex ey ez Z.eqb built_frame]. f_equal. apply vec_eq; vunfold; ring. }
  exists (euler_angles_of (1 / 100000000) (V3 (- 0) (- 1) 0) (V3 (- -1) (- 0) 0) (V3 (- 0) (- 0) 1)), (V3 (- 1) (- 0) 0).
  split; [|split].
  - intros n. unfold euler_angles. rewrite !V, Ef. cbn [built_frame rcs ex ey ez Z.eqb bind vx vy vz]. reflexivity.
  - intros n. rewrite V. reflexivity.
  - destruct (rotated_axes (euler_angles_of (1 / 100000000) (V3 (- 0) (- 1) 0) (V3 (- -1) (- 0) 0) (V3 (- 0) (- 0) 1))) as (R1 & _ & _).
    rewrite R1. assert (O : ortho (V3 (- 0) (- 1) 0) (V3 (- -1) (- 0) 0) (V3 (- 0) (- 0) 1)) by (constructor; vunfold; ring).
    destruct (euler_regular (1 / 100000000) _ _ _ ltac:(lra) O) as (E1 & _ & _).
    + cbn [vx vy vz]. replace (1 * 1 + 0 * 0) with 1 by ring. rewrite sqrt_1. lra.
    + rewrite E1. intros X. injection X as X1 X2. lra.
Qed.

Lemma vsub_zero : forall u v, vsub u v = vzero -> u = v.
Proof. intros u v E. unfold vsub, vzero in E. injection E as E1 E2 E3. apply vec_eq; lra. Qed.

(** C66.  After the local base of a cylindrical system has been set for a point
    off the axis, the vector (1,0,0) is the unit vector from the axis to the
    point, (0,1,0) is the unit vector of increasing angle and (0,0,1) the axis. *)
Theorem C66_local_base_partial : forall env n tol a b c p, 0 <= tol -> not_aligned a b c ->
  let k := normalized (vsub b a) in
  let d := vsub p a in
  let foot := vadd a (vscale (dot d k) k) in
  ~ (Rabs (vx d) <= tol /\ Rabs (vy d) <= tol /\ Rabs (vz d) <= tol) ->
  p <> foot ->
  let f := update_local_base tol (cord2c a b c 0) p in
  exists ur ut, vector_to_global (S n) env f (V3 1 0 0) = Ok ur /\
    vector_to_global (S n) env f (V3 0 1 0) = Ok ut /\ vector_to_global (S n) env f (V3 0 0 1) = Ok k /\
    ortho ur ut k /\ ur = normalized (vsub p foot) /\
    (forall l, exists g, vector_to_global (S n) env f l = Ok g /\ norm g = norm l).
Proof.
  intros env n tol a b c p Ht H k d foot Hz Hp f.
  assert (Hk : dot k k = 1) by (apply normalized_unit, (cross_nonzero_l _ _ H)).
  assert (Dz : vec_iszero tol d = false).
  { apply not_true_is_false. intros E. apply Hz. unfold vec_iszero, near_zero in E.
    destruct (Rle_dec (Rabs (vx d)) tol); [|discriminate]. destruct (Rle_dec (Rabs (vy d)) tol); [|discriminate].
    destruct (Rle_dec (Rabs (vz d)) tol); [|discriminate]. auto. }
  assert (Ef : exists r i, f = Frame (Cylindrical (cross (normalized (cross k d)) k) (normalized (cross k d))) a
     (fst (card_axes a b c)) (normalized (snd (card_axes a b c))) k r i /\ r = 0%Z).
  { unfold f. rewrite cord2c_axes by exact H. unfold update_local_base. cbn [fkind origin ez]. fold k. fold d.
    rewrite Dz. cbn. do 2 eexists. split; [fold d k; reflexivity|reflexivity]. }
  destruct Ef as (r & i & Ef & Er). subst r. rewrite Ef.
  set (h := vsub p foot). assert (Hh : h <> vzero).
  { intros E. apply Hp, vsub_zero, E. }
  assert (Ck : cross k d = cross k h) by (unfold h, foot, d; clearbody k; clear; vring).
  assert (Okh : dot k h = 0).
  { unfold h, foot, d. transitivity (dot k (vsub p a) - dot (vsub p a) k * dot k k); [clear; clearbody k; vunfold; ring|].
    rewrite Hk, (dot_comm k). ring. }
  assert (Nkh : norm (cross k h) = norm h) by (unfold norm; rewrite lagrange, Hk, Okh; f_equal; ring).
  assert (Eur : cross (normalized (cross k d)) k = normalized h).
  { rewrite Ck, !normalized_scale, Nkh.
    transitivity (vscale (/ norm h) (vsub (vscale (dot k k) h) (vscale (dot k h) k))).
    - generalize (/ norm h). intros q. clearbody h k. clear. vring.
    - rewrite Hk, Okh. f_equal. clear. clearbody h k. vring. }
  exists (normalized h), (normalized (cross k d)). rewrite Eur.
  assert (Hh1 : dot (normalized h) (normalized h) = 1) by (apply normalized_unit; exact Hh).
  assert (O : ortho (normalized h) (normalized (cross k d)) k).
  { rewrite Ck. rewrite (normalized_scale (cross k h)), Nkh.
    replace (vscale (/ norm h) (cross k h)) with (cross k (normalized h))
      by (rewrite normalized_scale; generalize (/ norm h); intros q; clearbody h k; clear; vring).
    apply ortho_rot, ortho_of_two; [exact Hk|exact Hh1|]. rewrite normalized_scale, dot_scale_r, Okh. ring. }
  assert (V : forall l, vector_to_global (S n) env (Frame (Cylindrical (normalized h) (normalized (cross k d))) a
     (fst (card_axes a b c)) (normalized (snd (card_axes a b c))) k 0 i) l = Ok (along (normalized h) (normalized (cross k d)) k l)) by reflexivity.
  rewrite !V. split; [f_equal; clear; generalize (normalized h) (normalized (cross k d)); clearbody k; intros; vring|].
  split; [f_equal; clear; generalize (normalized h) (normalized (cross k d)); clearbody k; intros; vring|].
  split; [f_equal; clear; generalize (normalized h) (normalized (cross k d)); clearbody k; intros; vring|].
  split; [exact O|]. split; [reflexivity|].
  intros l. eexists. rewrite V. split; [reflexivity|]. unfold norm. rewrite along_dot by exact O. reflexivity.
Qed.
Example C66_example : let a := V3 0 0 0 in let b := V3 0 0 1 in let p := V3 3 4 5 in
  not_aligned a b (V3 1 0 0) /\ ~ (Rabs 3 <= 0 /\ Rabs 4 <= 0 /\ Rabs 5 <= 0) /\
  p <> vadd a (vscale (dot (vsub p a) (normalized (vsub b a))) (normalized (vsub b a))).
Proof.
  cbv zeta. split; [unfold not_aligned; apply cross_test; cbn; lra|]. split.
  - intros [H _]. rewrite Rabs_pos_eq in H by lra. lra.
  - replace (normalized (vsub (V3 0 0 1) (V3 0 0 0))) with (V3 0 0 1).
    + vunfold. intros E. injection E as E1 E2 E3. lra.
    + replace (vsub (V3 0 0 1) (V3 0 0 0)) with (V3 0 0 1) by vring. symmetry. apply normalized_of_unit. vunfold; ring.
Qed.

Print Assumptions C36_vectors_convert.
Print Assumptions C36_card_points_placed.
Print Assumptions C37_cylindrical_partial.
Print Assumptions C37_spherical_partial.
Print Assumptions C37_cylindrical_reference_refuted.
Print Assumptions C65_angles_rebuild_partial.
Print Assumptions C65_nested_refuted.
Print Assumptions C66_local_base_partial.
