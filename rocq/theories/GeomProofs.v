(* Facts about vectors, orthonormal frames and their conversions. *)
From Coq Require Import Reals ZArith List Bool Lra Lia Arith.
Require Import Verif.Base Verif.GeomModel.
Import ListNotations.
Open Scope R_scope.

Lemma vec_eq : forall a b, vx a = vx b -> vy a = vy b -> vz a = vz b -> a = b.
Proof. intros [] []; cbn; intros; subst; reflexivity. Qed.

Ltac vunfold := unfold det3, along, vadd, vsub, vscale, vzero, dot, cross in *; cbn [vx vy vz] in *.
Ltac vring := intros; apply vec_eq; vunfold; ring.

Lemma dot_comm : forall a b, dot a b = dot b a.
Proof. intros; vunfold; ring. Qed.
Lemma dot_self_nonneg : forall a, 0 <= dot a a.
Proof. intros; vunfold; nra. Qed.
Lemma dot_self_zero : forall a, dot a a = 0 -> a = vzero.
Proof. intros a H. vunfold. apply vec_eq; cbn; nra. Qed.
Lemma dot_scale_l : forall k a b, dot (vscale k a) b = k * dot a b.
Proof. intros; vunfold; ring. Qed.
Lemma dot_scale_r : forall k a b, dot a (vscale k b) = k * dot a b.
Proof. intros; vunfold; ring. Qed.
Lemma dot_sub_l : forall a b c, dot (vsub a b) c = dot a c - dot b c.
Proof. intros; vunfold; ring. Qed.
Lemma dot_add_l : forall a b c, dot (vadd a b) c = dot a c + dot b c.
Proof. intros; vunfold; ring. Qed.
Lemma dot_add_r : forall a b c, dot a (vadd b c) = dot a b + dot a c.
Proof. intros; vunfold; ring. Qed.
Lemma cross_orth_l : forall a b, dot a (cross a b) = 0.
Proof. intros; vunfold; ring. Qed.
Lemma cross_orth_r : forall a b, dot b (cross a b) = 0.
Proof. intros; vunfold; ring. Qed.
Lemma lagrange : forall a b, dot (cross a b) (cross a b) = dot a a * dot b b - dot a b * dot a b.
Proof. intros; vunfold; ring. Qed.

Lemma norm_nonneg : forall a, 0 <= norm a.
Proof. intros. apply sqrt_pos. Qed.
Lemma norm_sq : forall a, norm a * norm a = dot a a.
Proof. intros. apply sqrt_sqrt, dot_self_nonneg. Qed.
Lemma norm_pos : forall a, a <> vzero -> 0 < norm a.
Proof.
  intros a H. apply sqrt_lt_R0. destruct (Rle_lt_or_eq_dec 0 (dot a a) (dot_self_nonneg a)) as [|E]; [assumption|].
  exfalso. apply H, dot_self_zero. congruence.
Qed.
Lemma norm_one : forall a, dot a a = 1 -> norm a = 1.
Proof. intros a H. unfold norm. rewrite H. apply sqrt_1. Qed.

Lemma normalized_scale : forall a, normalized a = vscale (/ norm a) a.
Proof. intros. apply vec_eq; unfold normalized, vscale; cbn; unfold Rdiv; ring. Qed.
Lemma normalized_unit : forall a, a <> vzero -> dot (normalized a) (normalized a) = 1.
Proof.
  intros a H. rewrite normalized_scale, dot_scale_l, dot_scale_r, <- norm_sq.
  pose proof (norm_pos a H). field. lra.
Qed.
Lemma vscale_one : forall a, vscale 1 a = a.
Proof. vring. Qed.
Lemma vscale_vscale : forall k l a, vscale k (vscale l a) = vscale (k * l) a.
Proof. vring. Qed.
Lemma normalized_of_unit : forall a, dot a a = 1 -> normalized a = a.
Proof. intros a H. rewrite normalized_scale, (norm_one a H), Rinv_1. apply vscale_one. Qed.
Lemma norm_scale : forall k a, 0 <= k -> norm (vscale k a) = k * norm a.
Proof.
  intros k a H. unfold norm. rewrite dot_scale_l, dot_scale_r, <- Rmult_assoc.
  rewrite sqrt_mult; [|nra|apply dot_self_nonneg]. rewrite sqrt_square by assumption. reflexivity.
Qed.
Lemma normalized_pos_scale : forall k a, 0 < k -> a <> vzero -> normalized (vscale k a) = normalized a.
Proof.
  intros k a Hk Ha. rewrite !normalized_scale, norm_scale by lra. rewrite vscale_vscale.
  f_equal. pose proof (norm_pos a Ha). field. split; lra.
Qed.

(* Part of [v] orthogonal to [u]. *)
Definition reject (v u : vec) : vec := vsub v (vscale (dot u v / dot u u) u).
Lemma reject_orth : forall v u, u <> vzero -> dot u (reject v u) = 0.
Proof.
  intros v u H. unfold reject. rewrite dot_comm, dot_sub_l, dot_scale_l, (dot_comm v u).
  assert (dot u u <> 0) by (intros E; apply H, dot_self_zero, E). field. assumption.
Qed.
Lemma reject_cross : forall v u, cross u (reject v u) = cross u v.
Proof. intros; unfold reject; apply vec_eq; vunfold; ring. Qed.
Lemma cross_zero_r : forall u, cross u vzero = vzero.
Proof. vring. Qed.
Lemma reject_nonzero : forall v u, cross u v <> vzero -> reject v u <> vzero.
Proof. intros v u H E. apply H. rewrite <- reject_cross, E. apply cross_zero_r. Qed.
Lemma cross_nonzero_l : forall u v, cross u v <> vzero -> u <> vzero.
Proof. intros u v H E. apply H. subst. apply vec_eq; vunfold; ring. Qed.
Lemma cross_nonzero_r : forall u v, cross u v <> vzero -> v <> vzero.
Proof. intros u v H E. apply H. subst. apply cross_zero_r. Qed.
Lemma orthonormalized_eq : forall v u, orthonormalized v u = normalized (reject v u).
Proof. reflexivity. Qed.
Lemma orthonormalized_unit : forall v u, cross u v <> vzero -> dot (orthonormalized v u) (orthonormalized v u) = 1.
Proof. intros. rewrite orthonormalized_eq. apply normalized_unit, reject_nonzero. assumption. Qed.
Lemma orthonormalized_orth : forall v u, cross u v <> vzero -> dot u (orthonormalized v u) = 0.
Proof.
  intros v u H. rewrite orthonormalized_eq, normalized_scale, dot_scale_r, reject_orth; [ring|].
  apply (cross_nonzero_l _ _ H).
Qed.
Lemma orthonormalized_noop : forall v u, dot u v = 0 -> orthonormalized v u = normalized v.
Proof.
  intros v u H. rewrite orthonormalized_eq. f_equal. unfold reject. rewrite H.
  unfold Rdiv. rewrite Rmult_0_l. apply vec_eq; vunfold; ring.
Qed.

(* Orthonormal, right-handed triples. *)
Record ortho (a b c : vec) : Prop := Ortho {
  o11 : dot a a = 1; o22 : dot b b = 1; o33 : dot c c = 1;
  o12 : dot a b = 0; o13 : dot a c = 0; o23 : dot b c = 0;
  o_det : det3 a b c = 1 }.

Lemma ortho_of_two : forall a b, dot a a = 1 -> dot b b = 1 -> dot a b = 0 -> ortho a b (cross a b).
Proof.
  intros a b Ha Hb Hab. assert (L := lagrange a b). rewrite Ha, Hb, Hab in L.
  constructor; try assumption.
  - rewrite L. ring.
  - apply cross_orth_l.
  - apply cross_orth_r.
  - unfold det3. transitivity (dot (cross a b) (cross a b)); [vunfold; ring|rewrite L; ring].
Qed.

Lemma ortho_rot : forall a b c, ortho a b c -> ortho b c a.
Proof.
  intros a b c [H11 H22 H33 H12 H13 H23 HD]. constructor; try assumption; try (rewrite dot_comm; assumption).
  rewrite <- HD. vunfold; ring.
Qed.

(* In an orthonormal direct triple each vector is the cross product of the two others. *)
Lemma ortho_cross : forall a b c, ortho a b c -> cross b c = a.
Proof.
  intros a b c [H11 H22 H33 H12 H13 H23 HD].
  assert (dot (vsub (cross b c) a) (vsub (cross b c) a) = 0) as E.
  { transitivity (dot (cross b c) (cross b c) - 2 * det3 a b c + dot a a); [vunfold; ring|].
    rewrite lagrange, H23, H22, H33, H11, HD. ring. }
  apply dot_self_zero in E. unfold vsub, vzero in E. injection E as E1 E2 E3. clear -E1 E2 E3; apply vec_eq; vunfold; lra.
Qed.

(* The rows of the matrix are orthonormal as well. *)
Lemma ortho_rows : forall a b c, ortho a b c -> forall v,
  along a b c (V3 (dot v a) (dot v b) (dot v c)) = v.
Proof.
  intros a b c H v. pose proof (ortho_cross _ _ _ H) as Ha.
  pose proof (ortho_cross _ _ _ (ortho_rot _ _ _ H)) as Hb.
  pose proof (ortho_cross _ _ _ (ortho_rot _ _ _ (ortho_rot _ _ _ H))) as Hc.
  (* coordinates: v * det = sum of (v . a) (b x c) *)
  assert (vscale (det3 a b c) v = vadd (vscale (dot v a) (cross b c)) (vadd (vscale (dot v b) (cross c a)) (vscale (dot v c) (cross a b)))) as E by vring.
  rewrite (o_det _ _ _ H), vscale_one, Ha, Hb, Hc in E. rewrite E at 4.
  apply vec_eq; vunfold; ring.
Qed.

Lemma along_dot : forall a b c, ortho a b c -> forall l m, dot (along a b c l) (along a b c m) = dot l m.
Proof.
  intros a b c [H11 H22 H33 H12 H13 H23 HD] l m.
  transitivity (vx l * vx m * dot a a + vy l * vy m * dot b b + vz l * vz m * dot c c
    + (vx l * vy m + vy l * vx m) * dot a b + (vx l * vz m + vz l * vx m) * dot a c
    + (vy l * vz m + vz l * vy m) * dot b c); [vunfold; ring|].
  rewrite H11, H22, H33, H12, H13, H23. vunfold; ring.
Qed.

Lemma along_coords : forall a b c, ortho a b c -> forall l,
  V3 (dot (along a b c l) a) (dot (along a b c l) b) (dot (along a b c l) c) = l.
Proof.
  intros a b c [H11 H22 H33 H12 H13 H23 HD] l. apply vec_eq; cbn [vx vy vz].
  - transitivity (vx l * dot a a + vy l * dot a b + vz l * dot a c); [vunfold; ring|]. rewrite H11, H12, H13. ring.
  - transitivity (vx l * dot a b + vy l * dot b b + vz l * dot b c); [vunfold; ring|]. rewrite H12, H22, H23. ring.
  - transitivity (vx l * dot a c + vy l * dot b c + vz l * dot c c); [vunfold; ring|]. rewrite H13, H23, H33. ring.
Qed.

Lemma along_det : forall a b c, ortho a b c -> forall l m n,
  det3 (along a b c l) (along a b c m) (along a b c n) = det3 l m n.
Proof.
  intros a b c H l m n. transitivity (det3 a b c * det3 l m n); [vunfold; ring|].
  rewrite (o_det _ _ _ H). ring.
Qed.

Lemma along_linear : forall a b c k l m, along a b c (vadd (vscale k l) m) = vadd (vscale k (along a b c l)) (along a b c m).
Proof. vring. Qed.
Lemma along_add : forall a b c l m, along a b c (vadd l m) = vadd (along a b c l) (along a b c m).
Proof. vring. Qed.
Lemma along_sub : forall a b c l m, along a b c (vsub l m) = vsub (along a b c l) (along a b c m).
Proof. vring. Qed.

(* The axes computed by the constructor from two non-aligned vectors. *)
Lemma base_axes_ortho : forall u v, cross u v <> vzero ->
  let '(a, b, c) := base_axes u v in ortho a b c.
Proof.
  intros u v H. cbn. apply ortho_of_two.
  - apply normalized_unit, (cross_nonzero_l _ _ H).
  - apply orthonormalized_unit. rewrite normalized_scale. intros E. apply H.
    pose proof (norm_pos u (cross_nonzero_l _ _ H)) as P.
    assert (cross u v = vscale (norm u) (cross (vscale (/ norm u) u) v)) as X.
    { apply vec_eq; vunfold; field; lra. }
    rewrite X, E. vring.
  - apply orthonormalized_orth. rewrite normalized_scale. intros E. apply H.
    pose proof (norm_pos u (cross_nonzero_l _ _ H)) as P.
    assert (cross u v = vscale (norm u) (cross (vscale (/ norm u) u) v)) as X.
    { apply vec_eq; vunfold; field; lra. }
    rewrite X, E. vring.
Qed.

(* Points that are not aligned. *)
Definition not_aligned (a b c : vec) : Prop := cross (vsub b a) (vsub c a) <> vzero.

(* The three axes of a card: third axis along AB, first axis in the half plane of C. *)
Lemma card_axes_spec : forall a b c, not_aligned a b c ->
  let e1 := fst (card_axes a b c) in let e2 := snd (card_axes a b c) in
  cross e1 e2 <> vzero /\
  base_axes e1 e2 = (e1, normalized e2, normalized (vsub b a)) /\
  dot e1 e1 = 1 /\ dot e1 (vsub b a) = 0.
Proof.
  intros a b c H. unfold not_aligned in H. unfold card_axes. cbn [fst snd].
  set (u := vsub b a) in *. set (v := vsub c a) in *.
  pose proof (orthonormalized_unit v u H) as U1. pose proof (orthonormalized_orth v u H) as O1.
  set (e1 := orthonormalized v u) in *.
  assert (Hu : u <> vzero) by apply (cross_nonzero_l _ _ H).
  assert (X : cross e1 (cross u e1) = u).
  { transitivity (vsub (vscale (dot e1 e1) u) (vscale (dot u e1) e1)); [vring|].
    rewrite U1, O1. vring. }
  assert (D : dot e1 (cross u e1) = 0) by apply cross_orth_r.
  assert (N2 : norm (cross u e1) = norm u).
  { unfold norm. rewrite lagrange, U1, O1. f_equal. ring. }
  assert (Hc : cross u e1 <> vzero).
  { intros E. apply Hu. rewrite <- X, E. apply cross_zero_r. }
  split; [rewrite X; exact Hu|]. split; [|split; [exact U1| rewrite dot_comm; exact O1]].
  unfold base_axes. rewrite (normalized_of_unit e1 U1). rewrite (orthonormalized_noop _ _ D).
  f_equal. rewrite !normalized_scale, N2. transitivity (vscale (/ norm u) (cross e1 (cross u e1))); [|rewrite X; reflexivity].
  generalize (/ norm u). intros k. generalize (cross u e1). vring.
Qed.

Lemma card_axes_ortho : forall a b c, not_aligned a b c ->
  ortho (fst (card_axes a b c)) (normalized (snd (card_axes a b c))) (normalized (vsub b a)).
Proof.
  intros a b c H. destruct (card_axes_spec a b c H) as (Hc & E & _).
  pose proof (base_axes_ortho _ _ Hc) as O. rewrite E in O. exact O.
Qed.

(* A frame whose vectors and positions convert as an affine isometry. *)
Record converts (env : systems) (n : nat) (f : frame) (o a b c : vec) : Prop := Converts {
  cv_ortho : ortho a b c;
  cv_vec : forall l, vector_to_global n env f l = Ok (along a b c l);
  cv_back : forall g, vector_to_local n env f g = Ok (V3 (dot g a) (dot g b) (dot g c));
  cv_pos : forall l, position_to_global n env f l = Ok (vadd o (along a b c l)) }.

Lemma invert_ortho : forall a b c, ortho a b c -> invert_matrix a b c = Some (Rows a b c).
Proof.
  intros a b c H. unfold invert_matrix. rewrite (o_det _ _ _ H).
  destruct (Req_EM_T 1 0); [lra|]. rewrite Rinv_1, !vscale_one.
  rewrite (ortho_cross _ _ _ H), (ortho_cross _ _ _ (ortho_rot _ _ _ H)),
    (ortho_cross _ _ _ (ortho_rot _ _ _ (ortho_rot _ _ _ H))). reflexivity.
Qed.

Lemma along_ortho : forall a b c d e f, ortho a b c -> ortho d e f ->
  ortho (along a b c d) (along a b c e) (along a b c f).
Proof.
  intros a b c d e f H K. constructor; try rewrite (along_dot a b c H); try rewrite (along_det a b c H); apply K.
Qed.

Lemma along_comp : forall a b c d e f l,
  along a b c (along d e f l) = along (along a b c d) (along a b c e) (along a b c f) l.
Proof. vring. Qed.

Definition built_frame (o a b c : vec) (r : Z) := Frame Cartesian o a b c r (Some (Rows a b c)).

Lemma build_ortho : forall o a b c r i, ortho a b c -> build (Frame Cartesian o a b c r i) = built_frame o a b c r.
Proof. intros. unfold build. cbn. rewrite invert_ortho by assumption. reflexivity. Qed.

Lemma converts_global : forall env n o a b c, ortho a b c -> converts env (S n) (built_frame o a b c 0) o a b c.
Proof. intros env n o a b c H. constructor; [exact H|reflexivity|reflexivity|reflexivity]. Qed.

Lemma converts_nested : forall env n r p o' a' b' c' o a b c,
  r <> 0%Z -> env r = Some p -> converts env n p o' a' b' c' -> ortho a b c ->
  converts env (S n) (built_frame o a b c r) (vadd o' (along a' b' c' o))
    (along a' b' c' a) (along a' b' c' b) (along a' b' c' c).
Proof.
  intros env n r p o' a' b' c' o a b c Hr Hp [K1 K2 K3 K4] H.
  assert (Z.eqb r 0 = false) as E by (apply Z.eqb_neq; exact Hr).
  constructor.
  - apply along_ortho; assumption.
  - intros l. cbn [vector_to_global built_frame fkind rcs ex ey ez]. rewrite E, Hp. cbn [of_option bind].
    rewrite K2. f_equal. apply along_comp.
  - intros g. cbn [vector_to_local built_frame fkind rcs inverse]. rewrite E, Hp. cbn [of_option bind].
    rewrite K3. cbn [bind row0 row1 row2]. f_equal. apply vec_eq; vunfold; ring.
  - intros l. cbn [position_to_global built_frame fkind rcs origin vector_to_global ex ey ez].
    rewrite E, Hp. cbn [of_option bind].
    rewrite K2. cbn [bind]. rewrite K4. cbn [bind]. f_equal.
    rewrite along_comp. reflexivity.
Qed.

Lemma converts_more : forall env n f o a b c, converts env n f o a b c -> forall m, (n <= m)%nat -> converts env m f o a b c.
Proof.
  intros env n f o a b c [K1 K2 K3 K4] m Hm.
  assert (V : forall n f l g m, (n <= m)%nat -> vector_to_global n env f l = Ok g -> vector_to_global m env f l = Ok g).
  { clear. induction n as [|n IH]; intros f l g m Hm E; [discriminate|]. destruct m as [|m]; [lia|].
    cbn [vector_to_global] in *. destruct (fkind f); try discriminate.
    - destruct (Z.eqb (rcs f) 0); [exact E|]. destruct (env (rcs f)) as [p|]; [|discriminate]. cbn [of_option bind] in *.
      apply (IH p _ _ m); [lia|exact E].
    - destruct (Z.eqb (rcs f) 0); [exact E|]. destruct (env (rcs f)) as [p|]; [|discriminate]. cbn [of_option bind] in *.
      apply (IH p _ _ m); [lia|exact E]. }
  assert (W : forall n f l g m, (n <= m)%nat -> vector_to_local n env f l = Ok g -> vector_to_local m env f l = Ok g).
  { clear. induction n as [|n IH]; intros f l g m Hm E; [discriminate|]. destruct m as [|m]; [lia|].
    cbn [vector_to_local] in *. destruct (fkind f); try discriminate.
    destruct (Z.eqb (rcs f) 0); [exact E|]. destruct (env (rcs f)) as [p|]; [|discriminate]. cbn [of_option bind] in *.
    destruct (vector_to_local n env p l) as [v| | |] eqn:Ev; try discriminate.
    rewrite (IH p l v m) by (lia || assumption). exact E. }
  assert (P : forall n f l g m, (n <= m)%nat -> position_to_global n env f l = Ok g -> position_to_global m env f l = Ok g).
  { clear -V. induction n as [|n IH]; intros f l g m Hm E; [discriminate|]. destruct m as [|m]; [lia|].
    cbn [position_to_global] in *. destruct (fkind f).
    - destruct (vector_to_global (S n) env f l) as [v| | |] eqn:Ev; try discriminate.
      rewrite (V (S n) f l v (S m)) by (lia || assumption). cbn [bind] in *.
      destruct (Z.eqb (rcs f) 0); [exact E|]. destruct (env (rcs f)) as [p|]; [|discriminate]. cbn [of_option bind] in *.
      destruct (position_to_global n env p (origin f)) as [w| | |] eqn:Ew; try discriminate.
      rewrite (IH p _ w m) by (lia || assumption). exact E.
    - destruct (Z.eqb (rcs f) 0); [exact E|]. destruct (env (rcs f)) as [p|]; [|discriminate]. cbn [of_option bind] in *.
      apply (IH p _ _ m); [lia|exact E].
    - destruct (Z.eqb (rcs f) 0); [exact E|]. destruct (env (rcs f)) as [p|]; [|discriminate]. cbn [of_option bind] in *.
      apply (IH p _ _ m); [lia|exact E]. }
  constructor; [exact K1|intros; eapply V; eauto|intros; eapply W; eauto|intros; eapply P; eauto].
Qed.

(* Frames of the three ways to build a Cartesian system. *)
Lemma cord2r_built : forall a b c r, not_aligned a b c ->
  build (cord2r a b c r) = built_frame a (fst (card_axes a b c)) (normalized (snd (card_axes a b c))) (normalized (vsub b a)) r.
Proof.
  intros a b c r H. destruct (card_axes_spec a b c H) as (_ & E & _).
  pose proof (card_axes_ortho a b c H) as O. unfold cord2r, new_cartesian.
  destruct (card_axes a b c) as [e1 e2]. cbn [fst snd] in *. rewrite E. apply build_ortho. exact O.
Qed.

Lemma cross_normalized : forall u v, cross u v <> vzero -> cross (normalized u) (normalized v) <> vzero.
Proof.
  intros u v H E. apply H. rewrite !normalized_scale in E.
  pose proof (norm_pos u (cross_nonzero_l _ _ H)). pose proof (norm_pos v (cross_nonzero_r _ _ H)).
  assert (cross u v = vscale (norm u * norm v) (cross (vscale (/ norm u) u) (vscale (/ norm v) v))) as X.
  { apply vec_eq; vunfold; field; lra. }
  rewrite X, E. vring.
Qed.

Lemma nodes_built : forall o z xz r, not_aligned o z xz ->
  exists a b c, build_from_nodes o z xz r = built_frame o a b c r /\ ortho a b c /\
    c = normalized (vsub z o) /\ a = orthonormalized (normalized (vsub xz o)) c.
Proof.
  intros o z xz r H. apply cross_normalized in H. unfold build_from_nodes.
  set (e3 := normalized (vsub z o)) in *. set (v := normalized (vsub xz o)) in *.
  exists (orthonormalized v e3), (cross e3 (orthonormalized v e3)), e3.
  assert (O : ortho (orthonormalized v e3) (cross e3 (orthonormalized v e3)) e3).
  { apply ortho_rot. apply ortho_of_two.
    - unfold e3. apply normalized_unit. intros E. apply H. unfold e3. rewrite E.
      apply vec_eq; unfold normalized, cross, vzero; cbn; unfold Rdiv; ring.
    - apply orthonormalized_unit; assumption.
    - apply orthonormalized_orth; assumption. }
  split; [apply build_ortho; exact O|]. split; [exact O|]. split; reflexivity.
Qed.

Lemma orientation_built : forall o x v r, cross (vsub x o) v <> vzero ->
  exists a b c, build_orientation o x v r = built_frame o a b c r /\ ortho a b c /\
    a = normalized (vsub x o) /\ b = orthonormalized (normalized v) a.
Proof.
  intros o x v r H. pose proof (cross_nonzero_l _ _ H) as Hx. apply cross_normalized in H. unfold build_orientation.
  set (e1 := normalized (vsub x o)) in *. set (w := normalized v) in *.
  exists e1, (orthonormalized w e1), (cross e1 (orthonormalized w e1)).
  assert (O : ortho e1 (orthonormalized w e1) (cross e1 (orthonormalized w e1))).
  { apply ortho_of_two.
    - unfold e1. apply normalized_unit. exact Hx.
    - apply orthonormalized_unit; assumption.
    - apply orthonormalized_orth; assumption. }
  split; [apply build_ortho; exact O|]. split; [exact O|]. split; reflexivity.
Qed.

(* Coordinates of the points of a card in its own axes. *)
Lemma reject_decomp : forall v u, u <> vzero -> v = vadd (reject v u) (vscale (dot u v / dot u u) u).
Proof. intros; unfold reject; vring. Qed.

Lemma normalized_back : forall u, u <> vzero -> vscale (norm u) (normalized u) = u.
Proof.
  intros u H. rewrite normalized_scale, vscale_vscale. pose proof (norm_pos u H).
  replace (norm u * / norm u) with 1 by (field; lra). apply vscale_one.
Qed.

Lemma card_points : forall a b c, not_aligned a b c ->
  let e1 := fst (card_axes a b c) in let e2 := normalized (snd (card_axes a b c)) in
  let e3 := normalized (vsub b a) in
  vadd a (along e1 e2 e3 (V3 0 0 (norm (vsub b a)))) = b /\
  exists x z, 0 < x /\ vadd a (along e1 e2 e3 (V3 x 0 z)) = c.
Proof.
  intros a b c H. cbn zeta. unfold not_aligned in H.
  unfold card_axes. cbn [fst snd]. rewrite orthonormalized_eq.
  set (u := vsub b a) in *. set (v := vsub c a) in *.
  assert (Hu : u <> vzero) by apply (cross_nonzero_l _ _ H).
  pose proof (reject_nonzero v u H) as Hj.
  set (e2 := normalized (cross u (normalized (reject v u)))). clearbody e2.
  split.
  - pose proof (normalized_back u Hu) as E.
    transitivity (vadd a (vscale (norm u) (normalized u))).
    + set (n := normalized u). clearbody n. set (k := norm u). clearbody k. vring.
    + rewrite E. unfold u. vring.
  - exists (norm (reject v u)), (dot u v / dot u u * norm u). split; [apply norm_pos; exact Hj|].
    pose proof (normalized_back u Hu) as E. pose proof (normalized_back _ Hj) as E2.
    pose proof (reject_decomp v u Hu) as E3.
    set (k := dot u v / dot u u) in *. clearbody k.
    transitivity (vadd a (vadd (vscale (norm (reject v u)) (normalized (reject v u))) (vscale k (vscale (norm u) (normalized u))))).
    + set (n := normalized u). clearbody n. set (m := normalized (reject v u)). clearbody m.
      set (h := norm (reject v u)). clearbody h. set (g := norm u). clearbody g. clear. vring.
    + rewrite E, E2, <- E3. unfold v. vring.
Qed.
