(* The angles computed for a frame rebuild the frame. *)
From Coq Require Import Reals ZArith List Bool Lra Lia.
Require Import Verif.Base Verif.GeomModel Verif.GeomProofs.
Open Scope R_scope.

Lemma hyp_pos : forall x y, (x <> 0 \/ y <> 0) -> 0 < sqrt (x * x + y * y).
Proof.
  intros x y H. apply sqrt_lt_R0. destruct H as [H|H].
  - assert (0 < x * x) by (destruct (Rtotal_order x 0) as [|[|]]; nra). nra.
  - assert (0 < y * y) by (destruct (Rtotal_order y 0) as [|[|]]; nra). nra.
Qed.

Lemma sqrt_slope : forall x y, x <> 0 -> sqrt (1 + Rsqr (y / x)) = sqrt (x * x + y * y) / Rabs x.
Proof.
  intros x y H. pose proof (Rabs_pos_lt x H).
  rewrite <- (sqrt_square (Rabs x)) by lra. rewrite <- sqrt_div_alt; [|nra].
  f_equal. rewrite <- Rabs_mult, (Rabs_pos_eq (x * x)) by nra. unfold Rsqr. field. exact H.
Qed.

Lemma atan2_spec : forall y x, (x <> 0 \/ y <> 0) ->
  cos (atan2 y x) = x / sqrt (x * x + y * y) /\ sin (atan2 y x) = y / sqrt (x * x + y * y).
Proof.
  intros y x H. pose proof (hyp_pos x y H) as P. unfold atan2.
  destruct (Rlt_dec 0 x) as [Hx|Hx].
  { rewrite cos_atan, sin_atan, sqrt_slope by lra. rewrite Rabs_pos_eq by lra. split; field; split; lra. }
  destruct (Rlt_dec x 0) as [Hx'|Hx'].
  { assert (E : cos (atan (y / x) + PI) = x / sqrt (x * x + y * y) /\ sin (atan (y / x) + PI) = y / sqrt (x * x + y * y)).
    { rewrite neg_cos, neg_sin, cos_atan, sin_atan, sqrt_slope by lra. rewrite Rabs_left by lra. split; field; split; lra. }
    destruct (Rle_dec 0 y); [exact E|].
    replace (atan (y / x) - PI) with (atan (y / x) + PI - 2 * PI) by ring.
    rewrite <- (cos_period _ 1), <- (sin_period _ 1).
    replace (atan (y / x) + PI - 2 * PI + 2 * INR 1 * PI) with (atan (y / x) + PI) by (cbn; ring). exact E. }
  assert (x = 0) by lra. subst x. replace (0 * 0 + y * y) with (y * y) in * by ring.
  destruct (Rlt_dec 0 y) as [Hy|Hy].
  { rewrite cos_PI2, sin_PI2, sqrt_square by lra. split; field; lra. }
  destruct (Rlt_dec y 0) as [Hy'|Hy'].
  { rewrite cos_neg, sin_neg, cos_PI2, sin_PI2. replace (y * y) with ((- y) * (- y)) by ring.
    rewrite sqrt_square by lra. split; field; lra. }
  exfalso. destruct H; lra.
Qed.

(* Rotation about the third, second and first axis, one after the other about
   the moving axes: image of the three basis vectors. *)
Definition rebuilt_x (a b c : R) : vec := V3 (cos a * cos b) (sin a * cos b) (- sin b).
Definition rebuilt_y (a b c : R) : vec :=
  V3 (cos a * sin b * sin c - sin a * cos c) (sin a * sin b * sin c + cos a * cos c) (cos b * sin c).
Definition rebuilt_z (a b c : R) : vec :=
  V3 (cos a * sin b * cos c + sin a * sin c) (sin a * sin b * cos c - cos a * sin c) (cos b * cos c).

(* Lines of an orthonormal matrix. *)
Lemma ortho_lines : forall a b c, ortho a b c ->
  vx a * vx a + vx b * vx b + vx c * vx c = 1 /\
  vy a * vy a + vy b * vy b + vy c * vy c = 1 /\
  vz a * vz a + vz b * vz b + vz c * vz c = 1 /\
  vx a * vy a + vx b * vy b + vx c * vy c = 0 /\
  vx a * vz a + vx b * vz b + vx c * vz c = 0 /\
  vy a * vz a + vy b * vz b + vy c * vz c = 0.
Proof.
  intros a b c H.
  pose proof (ortho_rows a b c H (V3 1 0 0)) as E1. pose proof (ortho_rows a b c H (V3 0 1 0)) as E2.
  pose proof (ortho_rows a b c H (V3 0 0 1)) as E3.
  unfold along, dot in *. cbn [vx vy vz] in *.
  injection E1 as A1 A2 A3. injection E2 as B1 B2 B3. injection E3 as C1 C2 C3.
  repeat split; lra.
Qed.

Lemma sq_div : forall x s, s <> 0 -> x / s * (x / s) = x * x / (s * s).
Proof. intros; field; assumption. Qed.

Lemma euler_regular : forall tiny a b c, 0 <= tiny -> ortho a b c ->
  tiny < sqrt (vz c * vz c + vz b * vz b) ->
  let e := euler_angles_of tiny a b c in
  rebuilt_x (vx e) (vy e) (vz e) = a /\ rebuilt_y (vx e) (vy e) (vz e) = b /\ rebuilt_z (vx e) (vy e) (vz e) = c.
Proof.
  intros tiny a b c Ht H Hc. unfold euler_angles_of. cbv zeta.
  destruct (Rlt_dec tiny (sqrt (vz c * vz c + vz b * vz b))) as [_|N]; [|contradiction].
  cbn [vx vy vz]. destruct (ortho_lines a b c H) as (L1 & L2 & L3 & L4 & L5 & L6).
  pose proof (ortho_cross _ _ _ H) as Xa. pose proof (ortho_cross _ _ _ (ortho_rot _ _ _ H)) as Xb.
  pose proof (ortho_cross _ _ _ (ortho_rot _ _ _ (ortho_rot _ _ _ H))) as Xc.
  destruct H as [H11 H22 H33 H12 H13 H23 HD]. unfold dot, cross in *.
  destruct a as [ax ay az], b as [bx by_ bz], c as [cx cy cz]. cbn [vx vy vz] in *.
  injection Xa as Xa1 Xa2 Xa3. injection Xb as Xb1 Xb2 Xb3. injection Xc as Xc1 Xc2 Xc3.
  set (s := sqrt (cz * cz + bz * bz)) in *.
  assert (Ps : 0 < s) by lra.
  assert (S2 : s * s = cz * cz + bz * bz) by (apply sqrt_sqrt; clear; nra).
  assert (S3 : sqrt (ax * ax + ay * ay) = s) by (unfold s; f_equal; lra).
  assert (S4 : sqrt (s * s + - az * - az) = 1) by (rewrite <- sqrt_1; f_equal; lra).
  assert (S5 : sqrt (cz * cz + bz * bz) = s) by reflexivity.
  assert (NA : ax <> 0 \/ ay <> 0).
  { destruct (Req_dec ax 0); [|left; assumption]. destruct (Req_dec ay 0); [|right; assumption].
    exfalso. assert (SA : s * s = ax * ax + ay * ay) by lra. rewrite H, H0 in SA. clear -Ps SA. nra. }
  assert (NC : cz <> 0 \/ bz <> 0).
  { destruct (Req_dec cz 0); [|left; assumption]. destruct (Req_dec bz 0); [|right; assumption].
    exfalso. rewrite H, H0 in S2. clear -Ps S2. nra. }
  destruct (atan2_spec ay ax NA) as [C1 D1]. destruct (atan2_spec (- az) s (or_introl (Rgt_not_eq s 0 Ps))) as [C2 D2].
  destruct (atan2_spec bz cz NC) as [C3 D3].
  rewrite S3 in C1, D1. rewrite S4 in C2, D2. rewrite S5 in C3, D3.
  unfold rebuilt_x, rebuilt_y, rebuilt_z. rewrite C1, D1, C2, D2, C3, D3.
  assert (Ns : s <> 0) by lra. assert (Nss : s * s <> 0) by (apply Rmult_integral_contrapositive_currified; exact Ns).
  clear -Ns Nss S2 L5 L6 Xa1 Xa2.
  assert (M5 : ax * az = - (bx * bz + cx * cz)) by lra.
  assert (M6 : ay * az = - (by_ * bz + cy * cz)) by lra.
  repeat split; apply vec_eq; cbn [vx vy vz].
  - field; assumption.
  - field; assumption.
  - field.
  - transitivity ((- (ax * az) * bz - ay * cz) / (s * s)); [field; assumption|].
    replace (- (ax * az) * bz - ay * cz) with (bx * (s * s)); [field; assumption|].
    rewrite S2, M5, <- Xa2. ring.
  - transitivity ((- (ay * az) * bz + ax * cz) / (s * s)); [field; assumption|].
    replace (- (ay * az) * bz + ax * cz) with (by_ * (s * s)); [field; assumption|].
    rewrite S2, M6, <- Xa1. ring.
  - field; assumption.
  - transitivity ((- (ax * az) * cz + ay * bz) / (s * s)); [field; assumption|].
    replace (- (ax * az) * cz + ay * bz) with (cx * (s * s)); [field; assumption|].
    rewrite S2, M5, <- Xa2. ring.
  - transitivity ((- (ay * az) * cz - ax * bz) / (s * s)); [field; assumption|].
    replace (- (ay * az) * cz - ax * bz) with (cy * (s * s)); [field; assumption|].
    rewrite S2, M6, <- Xa1. ring.
  - field; assumption.
Qed.

(* Near the singular orientation the third angle is taken as zero; the rebuilt
   axes are then those of the frame up to a few times the distance to it. *)
Definition close (t : R) (u v : vec) : Prop := Rabs (vx u - vx v) <= t /\ Rabs (vy u - vy v) <= t /\ Rabs (vz u - vz v) <= t.

Lemma sq_abs_le : forall x s, 0 <= s -> x * x <= s * s -> Rabs x <= s.
Proof. intros x s H K. apply Rabs_le. nra. Qed.
Lemma sq_abs : forall x, x * x <= 1 -> Rabs x <= 1.
Proof. intros x H. apply sq_abs_le; lra. Qed.

Lemma euler_singular : forall tiny a b c, 0 <= tiny <= / 2 -> ortho a b c ->
  sqrt (vz c * vz c + vz b * vz b) <= tiny ->
  let e := euler_angles_of tiny a b c in
  close (2 * tiny) (rebuilt_x (vx e) (vy e) (vz e)) a /\
  close (2 * tiny) (rebuilt_y (vx e) (vy e) (vz e)) b /\
  close (2 * tiny) (rebuilt_z (vx e) (vy e) (vz e)) c.
Proof.
  intros tiny a b c Ht H Hc. unfold euler_angles_of. cbv zeta.
  destruct (Rlt_dec tiny (sqrt (vz c * vz c + vz b * vz b))) as [N|_]; [exfalso; lra|].
  cbn [vx vy vz]. destruct (ortho_lines a b c H) as (L1 & L2 & L3 & L4 & L5 & L6).
  pose proof (ortho_cross _ _ _ (ortho_rot _ _ _ (ortho_rot _ _ _ H))) as Xc.
  destruct H as [H11 H22 H33 H12 H13 H23 HD]. unfold dot, cross in *.
  destruct a as [ax ay az], b as [bx by_ bz], c as [cx cy cz]. cbn [vx vy vz] in *.
  injection Xc as Xc1 Xc2 Xc3.
  set (s := sqrt (cz * cz + bz * bz)) in *.
  assert (Ps : 0 <= s) by apply sqrt_pos.
  assert (S2 : s * s = cz * cz + bz * bz) by (apply sqrt_sqrt; clear; nra).
  assert (S4 : sqrt (s * s + - az * - az) = 1) by (rewrite <- sqrt_1; f_equal; lra).
  set (k := sqrt (by_ * by_ + - bx * - bx)).
  assert (Pk : 0 <= k) by apply sqrt_pos.
  assert (K2 : k * k = 1 - bz * bz) by (unfold k; rewrite sqrt_sqrt by (clear; nra); lra).
  assert (Bz : bz * bz <= s * s) by (rewrite S2; clear; nra).
  assert (Az : az * az = 1 - s * s) by lra.
  assert (Axy : ax * ax + ay * ay = s * s) by lra.
  assert (Hs : s * s <= / 4) by (clear -Hc Ht Ps; nra).
  assert (Kp : 0 < k) by (clear -Pk K2 Bz Hs; nra).
  assert (NB : by_ <> 0 \/ - bx <> 0).
  { destruct (Req_dec by_ 0); [|left; assumption]. destruct (Req_dec (- bx) 0); [|right; assumption].
    exfalso. clear - K2 Kp H H0. unfold k in *. rewrite H, H0 in *. replace (0 * 0 + 0 * 0) with 0 in Kp by ring. rewrite sqrt_0 in Kp. lra. }
  assert (NS : s <> 0 \/ - az <> 0).
  { destruct (Req_dec s 0); [|left; assumption]. right. intros E. assert (az = 0) by lra. subst az.
    clear -Az Hs. nra. }
  destruct (atan2_spec (- bx) by_ NB) as [C1 D1]. destruct (atan2_spec (- az) s NS) as [C2 D2].
  fold k in C1, D1. rewrite S4 in C2, D2.
  unfold rebuilt_x, rebuilt_y, rebuilt_z. rewrite C1, D1, C2, D2, cos_0, sin_0.
  replace (s / 1) with s by field. replace (- az / 1) with (- az) by field.
  set (p := by_ / k) in *. set (q := - bx / k) in *.
  assert (Ep : by_ = p * k) by (unfold p; field; lra).
  assert (Eq : bx = - q * k) by (unfold q; field; lra).
  assert (PQ : p * p + q * q = 1).
  { unfold p, q. replace (by_ / k * (by_ / k) + - bx / k * (- bx / k)) with ((by_ * by_ + bx * bx) / (k * k)) by (field; lra).
    replace (by_ * by_ + bx * bx) with (k * k) by lra. field. lra. }
  assert (Ap : Rabs p <= 1) by (apply sq_abs; clear -PQ; nra).
  assert (Aq : Rabs q <= 1) by (apply sq_abs; clear -PQ; nra).
  assert (Aax : Rabs ax <= s) by (apply sq_abs_le; [exact Ps|clear -Axy; nra]).
  assert (Aay : Rabs ay <= s) by (apply sq_abs_le; [exact Ps|clear -Axy; nra]).
  assert (Abz : Rabs bz <= s) by (apply sq_abs_le; [exact Ps|clear -S2; nra]).
  assert (Acz : Rabs cz <= s) by (apply sq_abs_le; [exact Ps|clear -S2; nra]).
  assert (Aaz : Rabs az <= 1) by (apply sq_abs; clear -Az; nra).
  assert (K1 : 1 - k <= tiny) by (clear -Pk K2 Bz Hs Hc Ht Ps; nra).
  assert (K3 : k <= 1) by (clear -Pk K2; nra).
  assert (SS : s * s <= tiny) by (clear -Hc Ht Ps; nra).
  assert (Ab : forall x y u v, Rabs x <= u -> Rabs y <= v -> Rabs (x * y) <= u * v).
  { clear. intros. rewrite Rabs_mult. apply Rmult_le_compat; try apply Rabs_pos; assumption. }
  assert (Tr : forall x y u v, Rabs x <= u -> Rabs y <= v -> Rabs (x - y) <= u + v).
  { clear. intros. unfold Rminus. eapply Rle_trans; [apply Rabs_triang|]. rewrite Rabs_Ropp. lra. }
  assert (Sa : Rabs s <= s) by (rewrite Rabs_pos_eq by exact Ps; lra).
  assert (Ka : Rabs (1 - k) <= tiny) by (rewrite Rabs_pos_eq by lra; lra).
  unfold close. cbn [vx vy vz].
  repeat split.
  - eapply Rle_trans; [apply (Tr _ _ (1 * s) s); [apply Ab|]; assumption|lra].
  - eapply Rle_trans; [apply (Tr _ _ (1 * s) s); [apply Ab|]; assumption|lra].
  - replace (- - az - az) with 0 by ring. rewrite Rabs_R0. lra.
  - rewrite Eq. replace (p * - az * 0 - q * 1 - - q * k) with (- (q * (1 - k))) by ring. rewrite Rabs_Ropp.
    eapply Rle_trans; [apply (Ab _ _ 1 tiny); assumption|lra].
  - rewrite Ep. replace (q * - az * 0 + p * 1 - p * k) with (p * (1 - k)) by ring.
    eapply Rle_trans; [apply (Ab _ _ 1 tiny); assumption|lra].
  - replace (s * 0 - bz) with (- bz) by ring. rewrite Rabs_Ropp. lra.
  - rewrite <- Xc1, Ep. replace (p * - az * 1 + q * 0 - (ay * bz - az * (p * k))) with (- (az * (p * (1 - k))) - ay * bz) by ring.
    eapply Rle_trans; [apply (Tr _ _ (1 * (1 * tiny)) (s * s)); [rewrite Rabs_Ropp; apply Ab; [assumption|apply Ab]|apply Ab]; assumption|lra].
  - rewrite <- Xc2, Eq. replace (q * - az * 1 - p * 0 - (az * (- q * k) - ax * bz)) with (- (az * (q * (1 - k))) - - (ax * bz)) by ring.
    eapply Rle_trans; [apply (Tr _ _ (1 * (1 * tiny)) (s * s)); [rewrite Rabs_Ropp; apply Ab; [assumption|apply Ab]|rewrite Rabs_Ropp; apply Ab]; assumption|lra].
  - replace (s * 1 - cz) with (s - cz) by ring. eapply Rle_trans; [apply (Tr _ _ s s); assumption|lra].
Qed.
