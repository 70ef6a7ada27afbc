(* Loads: C38, C39, C40, C67. *)
From Coq Require Import Reals ZArith List Bool Lra Lia.
Require Import Verif.Base Verif.DofModel Verif.DofProofs Verif.GeomModel Verif.GeomProofs Verif.PropertiesGeom
  Verif.RigidModel Verif.PropertiesRigid Verif.LoadModel.
Import ListNotations.
Open Scope R_scope.

(* Sum of vectors, and of their moments about the origin. *)
Definition vsum (l : list vec) : vec := fold_right vadd vzero l.
Definition moments (l : list (vec * vec)) : vec := vsum (map (fun e => cross (fst e) (snd e)) l).

(* Vector area of a triangle and of a quadrangle, plane or not. *)
Definition triangle_area (x1 x2 x3 : vec) : vec := vscale (/ 2) (cross (vsub x2 x1) (vsub x3 x1)).
Definition quad_area (x1 x2 x3 x4 : vec) : vec := vscale (/ 2) (cross (vsub x3 x1) (vsub x4 x2)).
Definition centroid (x1 x2 x3 : vec) : vec := vscale (/ 3) (vadd x1 (vadd x2 x3)).

Lemma direction_ok : forall c, c <> vzero -> direction c = Ok (normalized c).
Proof.
  intros c H. unfold direction. destruct (Req_EM_T (norm c) 0) as [E|E]; [|reflexivity].
  pose proof (norm_pos c H). lra.
Qed.
Lemma spread : forall m c, c <> vzero -> vscale (m * (norm c / 2)) (normalized c) = vscale (m / 2) c.
Proof.
  intros m c H. pose proof (norm_pos c H) as P. rewrite normalized_scale, vscale_vscale. f_equal. field. lra.
Qed.
Lemma on_node_in : forall l p, In p (load_nodes l) -> on_node l p = true.
Proof. intros l p H. apply existsb_exists. exists p. split; [exact H|apply Z.eqb_refl]. Qed.

(** C38, C67.  A pressure on a triangle gives forces at its three nodes that
    add up to the pressure times the vector area and have the moment of this
    resultant acting at the centroid. *)
Theorem C38_triangle : forall n tol env at_node n1 n2 n3 m x1 x2 x3,
  at_node n1 = Ok x1 -> at_node n2 = Ok x2 -> at_node n3 = Ok x3 -> triangle_area x1 x2 x3 <> vzero ->
  let f := force_at n tol env at_node (StaticPressure n1 n2 n3 None m) in
  exists f1 f2 f3, f n1 = Ok f1 /\ f n2 = Ok f2 /\ f n3 = Ok f3 /\
    vsum [f1; f2; f3] = vscale m (triangle_area x1 x2 x3) /\
    moments [(x1, f1); (x2, f2); (x3, f3)] = cross (centroid x1 x2 x3) (vscale m (triangle_area x1 x2 x3)).
Proof.
  intros n tol env at_node n1 n2 n3 m x1 x2 x3 E1 E2 E3 A f.
  set (c := cross (vsub x2 x1) (vsub x3 x1)) in *.
  assert (Hc : c <> vzero).
  { intros Z. apply A. unfold triangle_area. fold c. rewrite Z. vring. }
  assert (F : forall p, In p [n1; n2; n3] -> f p = Ok (vscale (m / 3 / 2) c)).
  { intros p Hp. unfold f, force_at. rewrite on_node_in by exact Hp. unfold pressure_force.
    rewrite E1, E2, E3. cbn [bind]. fold c. rewrite direction_ok by exact Hc. cbn [bind]. rewrite spread by exact Hc. reflexivity. }
  exists (vscale (m / 3 / 2) c), (vscale (m / 3 / 2) c), (vscale (m / 3 / 2) c).
  repeat (split; [apply F; cbn; tauto|]). unfold moments, vsum, triangle_area, centroid. fold c.
  cbn [map fold_right fst snd]. clearbody c. clear. split; apply vec_eq; vunfold; field.
Qed.

(** C67.  The same for the moment alone, about any point. *)
Theorem C67_triangle_moment_partial : forall n tol env at_node n1 n2 n3 m x1 x2 x3 o,
  at_node n1 = Ok x1 -> at_node n2 = Ok x2 -> at_node n3 = Ok x3 -> triangle_area x1 x2 x3 <> vzero ->
  let f := force_at n tol env at_node (StaticPressure n1 n2 n3 None m) in
  exists f1 f2 f3, f n1 = Ok f1 /\ f n2 = Ok f2 /\ f n3 = Ok f3 /\
    moments [(vsub x1 o, f1); (vsub x2 o, f2); (vsub x3 o, f3)] =
    cross (vsub (centroid x1 x2 x3) o) (vscale m (triangle_area x1 x2 x3)).
Proof.
  intros n tol env at_node n1 n2 n3 m x1 x2 x3 o E1 E2 E3 A f.
  destruct (C38_triangle n tol env at_node n1 n2 n3 m x1 x2 x3 E1 E2 E3 A) as (f1 & f2 & f3 & F1 & F2 & F3 & S & M).
  exists f1, f2, f3. repeat (split; [assumption|]).
  assert (L : moments [(vsub x1 o, f1); (vsub x2 o, f2); (vsub x3 o, f3)] =
    vsub (moments [(x1, f1); (x2, f2); (x3, f3)]) (cross o (vsum [f1; f2; f3]))).
  { unfold moments, vsum. cbn [map fold_right fst snd]. clear. vring. }
  rewrite L, S, M. set (a := vscale m (triangle_area x1 x2 x3)). set (g := centroid x1 x2 x3). clearbody a g. clear. vring.
Qed.

(* No corner of the quadrangle is flat. *)
Definition no_flat_corner (x1 x2 x3 x4 : vec) : Prop :=
  cross (vsub x2 x1) (vsub x3 x1) <> vzero /\ cross (vsub x3 x1) (vsub x4 x1) <> vzero /\
  cross (vsub x2 x1) (vsub x4 x1) <> vzero /\ cross (vsub x3 x2) (vsub x4 x2) <> vzero.

(** C38.  A pressure on a quadrangle, warped or not, gives forces at its four
    nodes that add up to the pressure times the vector area. *)
Theorem C38_quad_partial : forall n tol env at_node n1 n2 n3 n4 m x1 x2 x3 x4,
  NoDup [n1; n2; n3; n4] ->
  at_node n1 = Ok x1 -> at_node n2 = Ok x2 -> at_node n3 = Ok x3 -> at_node n4 = Ok x4 ->
  no_flat_corner x1 x2 x3 x4 ->
  let f := force_at n tol env at_node (StaticPressure n1 n2 n3 (Some n4) m) in
  exists f1 f2 f3 f4, f n1 = Ok f1 /\ f n2 = Ok f2 /\ f n3 = Ok f3 /\ f n4 = Ok f4 /\
    vsum [f1; f2; f3; f4] = vscale m (quad_area x1 x2 x3 x4).
Proof.
  intros n tol env at_node n1 n2 n3 n4 m x1 x2 x3 x4 ND E1 E2 E3 E4 (H1 & H2 & H3 & H4) f.
  assert (D : (n1 <> n2 /\ n1 <> n3 /\ n1 <> n4 /\ n2 <> n3 /\ n2 <> n4 /\ n3 <> n4)%Z).
  { inversion ND as [|? ? N1 ND1]; subst. inversion ND1 as [|? ? N2 ND2]; subst. inversion ND2 as [|? ? N3 ND3]; subst.
    cbn in N1, N2, N3. repeat split; intros ->; tauto. }
  destruct D as (D12 & D13 & D14 & D23 & D24 & D34).
  apply Z.eqb_neq in D12, D13, D14, D23, D24, D34.
  assert (F : forall p, In p [n1; n2; n3; n4] -> f p = pressure_force at_node n1 n2 n3 (Some n4) m p).
  { intros p Hp. unfold f, force_at. rewrite on_node_in by exact Hp. reflexivity. }
  unfold pressure_force in F. rewrite E1, E2, E3, E4 in F. cbn [bind] in F.
  rewrite !direction_ok in F by assumption. cbn [bind] in F. rewrite !spread in F by assumption.
  pose proof (F n1 (or_introl eq_refl)) as F1.
  pose proof (F n2 (or_intror (or_introl eq_refl))) as F2.
  pose proof (F n3 (or_intror (or_intror (or_introl eq_refl)))) as F3.
  pose proof (F n4 (or_intror (or_intror (or_intror (or_introl eq_refl))))) as F4. clear F.
  rewrite ?Z.eqb_refl in F1, F2, F3, F4.
  rewrite ?D12, ?D13, ?D14 in F1. rewrite ?(Z.eqb_sym n2 n1), ?D12, ?D23, ?D24 in F2.
  rewrite ?(Z.eqb_sym n3 n1), ?(Z.eqb_sym n3 n2), ?D13, ?D23, ?D34 in F3.
  rewrite ?(Z.eqb_sym n4 n1), ?(Z.eqb_sym n4 n2), ?(Z.eqb_sym n4 n3), ?D14, ?D24, ?D34 in F4.
  cbn [orb] in F1, F2, F3, F4. rewrite ?orb_true_r in F1, F2, F3, F4.
  destruct (Rlt_dec (norm (vsub x3 x1)) (norm (vsub x4 x2))).
  - do 4 eexists. split; [exact F1|]. split; [exact F2|]. split; [exact F3|]. split; [exact F4|].
    unfold vsum, quad_area. cbn [fold_right]. clear. apply vec_eq; vunfold; field.
  - do 4 eexists. split; [exact F1|]. split; [exact F2|]. split; [exact F3|]. split; [exact F4|].
    unfold vsum, quad_area. cbn [fold_right]. clear. apply vec_eq; vunfold; field.
Qed.

Definition e38_places (p : Z) : outcome vec :=
  if Z.eqb p 1 then Ok (V3 0 0 0) else if Z.eqb p 2 then Ok (V3 3 0 0)
  else if Z.eqb p 3 then Ok (V3 1 1 0) else if Z.eqb p 4 then Ok (V3 0 1 0) else UB.
Lemma nz : forall v, vz v <> 0 -> v <> vzero.
Proof. intros v H ->. apply H. reflexivity. Qed.
Example C38_example : NoDup [1; 2; 3; 4]%Z /\ no_flat_corner (V3 0 0 0) (V3 3 0 0) (V3 1 1 0) (V3 0 1 0) /\
  triangle_area (V3 0 0 0) (V3 3 0 0) (V3 1 1 0) <> vzero.
Proof.
  split; [repeat constructor; cbn; intuition lia|]. split; [repeat split|]; apply nz; cbn; lra.
Qed.

(** C38 fails when three corners are aligned: the pressure still has a
    resultant but the forces are not numbers. *)
Theorem C38_flat_corner_refuted : exists at_node x1 x2 x3 x4 m,
  at_node 1%Z = Ok x1 /\ at_node 2%Z = Ok x2 /\ at_node 3%Z = Ok x3 /\ at_node 4%Z = Ok x4 /\
  vscale m (quad_area x1 x2 x3 x4) <> vzero /\
  forall n tol env, force_at n tol env at_node (StaticPressure 1 2 3 (Some 4%Z) m) 1 = UB.
Proof.
  pose (pl := fun p : Z => if Z.eqb p 1 then Ok (V3 0 0 0) else if Z.eqb p 2 then Ok (V3 1 0 0)
     else if Z.eqb p 3 then Ok (V3 2 0 0) else Ok (V3 0 3 0)).
  exists pl, (V3 0 0 0), (V3 1 0 0), (V3 2 0 0), (V3 0 3 0), 1.
  repeat (split; [reflexivity|]). split; [apply nz; cbn; lra|].
  intros n tol env. unfold force_at. rewrite on_node_in by (left; reflexivity). unfold pressure_force.
  change (pl 1%Z) with (Ok (V3 0 0 0)). change (pl 2%Z) with (Ok (V3 1 0 0)). change (pl 3%Z) with (Ok (V3 2 0 0)).
  change (pl 4%Z) with (Ok (V3 0 3 0)). cbn [bind].
  destruct (Rlt_dec _ _) as [_|H].
  - replace (direction (cross (vsub (V3 1 0 0) (V3 0 0 0)) (vsub (V3 2 0 0) (V3 0 0 0)))) with (@UB vec); [reflexivity|].
    unfold direction. destruct (Req_EM_T _ 0) as [_|E]; [reflexivity|]. exfalso. apply E. unfold norm.
    rewrite <- sqrt_0. f_equal. vunfold. ring.
  - exfalso. apply H. unfold norm. apply sqrt_lt_1; vunfold; lra.
Qed.

(** C67 fails for quadrangles: the forces have the right resultant but not its
    moment.  The moment of the pressure is that of the two halves cut by a
    diagonal, each acting at its centroid. *)
Theorem C67_quad_moment_refuted : exists at_node x1 x2 x3 x4 m,
  at_node 1%Z = Ok x1 /\ at_node 2%Z = Ok x2 /\ at_node 3%Z = Ok x3 /\ at_node 4%Z = Ok x4 /\
  no_flat_corner x1 x2 x3 x4 /\
  forall n tol env, let f := force_at n tol env at_node (StaticPressure 1 2 3 (Some 4%Z) m) in
  exists f1 f2 f3 f4, f 1%Z = Ok f1 /\ f 2%Z = Ok f2 /\ f 3%Z = Ok f3 /\ f 4%Z = Ok f4 /\
    moments [(x1, f1); (x2, f2); (x3, f3); (x4, f4)] <>
    moments [(centroid x1 x2 x3, vscale m (triangle_area x1 x2 x3)); (centroid x1 x3 x4, vscale m (triangle_area x1 x3 x4))] /\
    moments [(centroid x1 x2 x3, vscale m (triangle_area x1 x2 x3)); (centroid x1 x3 x4, vscale m (triangle_area x1 x3 x4))] =
    moments [(centroid x1 x2 x4, vscale m (triangle_area x1 x2 x4)); (centroid x2 x3 x4, vscale m (triangle_area x2 x3 x4))].
Proof.
  exists e38_places, (V3 0 0 0), (V3 3 0 0), (V3 1 1 0), (V3 0 1 0), 1.
  repeat (split; [reflexivity|]). destruct C38_example as (_ & NF & _). split; [exact NF|].
  intros n tol env f. destruct NF as (H1 & H2 & H3 & H4).
  assert (F : forall p, In p [1; 2; 3; 4]%Z -> f p = pressure_force e38_places 1 2 3 (Some 4%Z) 1 p).
  { intros p Hp. unfold f, force_at. rewrite on_node_in by exact Hp. reflexivity. }
  unfold pressure_force in F.
  change (e38_places 1%Z) with (Ok (V3 0 0 0)) in F. change (e38_places 2%Z) with (Ok (V3 3 0 0)) in F.
  change (e38_places 3%Z) with (Ok (V3 1 1 0)) in F. change (e38_places 4%Z) with (Ok (V3 0 1 0)) in F. cbn [bind] in F.
  rewrite !direction_ok in F by assumption. cbn [bind] in F. rewrite !spread in F by assumption.
  destruct (Rlt_dec (norm (vsub (V3 1 1 0) (V3 0 0 0))) (norm (vsub (V3 0 1 0) (V3 3 0 0)))) as [_|N].
  2: { exfalso. apply N. unfold norm. apply sqrt_lt_1; vunfold; lra. }
  pose proof (F 1%Z (or_introl eq_refl)) as F1.
  pose proof (F 2%Z (or_intror (or_introl eq_refl))) as F2.
  pose proof (F 3%Z (or_intror (or_intror (or_introl eq_refl)))) as F3.
  pose proof (F 4%Z (or_intror (or_intror (or_intror (or_introl eq_refl))))) as F4. clear F.
  cbn [Z.eqb Pos.eqb orb] in F1, F2, F3, F4.
  do 4 eexists. split; [exact F1|]. split; [exact F2|]. split; [exact F3|]. split; [exact F4|]. clear. split.
  - intros E. apply (f_equal vx) in E. unfold moments, vsum, centroid, triangle_area in E. cbn [map fold_right fst snd] in E. vunfold. lra.
  - unfold moments, vsum, centroid, triangle_area. cbn [map fold_right fst snd]. apply vec_eq; vunfold; field.
Qed.

(* ---- C39 ---- *)

(* A rotation at speed [w] about [axis] through [c] gives each unit mass at [x]
   the centrifugal force - w axis x (w axis x (x - c)). *)
Definition centrifugal (w : R) (axis c x : vec) : vec :=
  vscale (-1) (cross (vscale w axis) (cross (vscale w axis) (vsub x c))).

(* The numbers that a load other than a nodal force puts on the structure. *)
Definition ordinates (v : value) : list R := match v with Scalar x => [x] | Table xy => map snd xy end.
Definition abscissas (v : value) : list R := match v with Scalar _ => [] | Table xy => map fst xy end.
Definition comps (v : vec) : list R := [vx v; vy v; vz v].
Definition given (c : dof -> option R) : list R :=
  flat_map (fun d => match c d with Some x => [x] | None => [] end) [DX; DY; DZ; RX; RY; RZ].
Definition intensities (s : values) (l : load) : list R :=
  match l with
  | Gravity a g => comps (acceleration a g)
  | ForceSurface f m _ => comps f ++ comps m
  | ForceLine v _ _ => ordinates (s v)
  | NormalFace p _ | NormalShell p _ => [p]
  | Excitation b => ordinates (s b)
  | InitialTemperature t _ => [t]
  | ImposedDisplacement c _ => given c
  | _ => []
  end.

Definition map_ok {A B} (f : A -> B) (m : outcome A) : outcome B := do x <- m; Ok (f x).

Lemma global_scale : forall n env f k v, vector_to_global n env f (vscale k v) = map_ok (vscale k) (vector_to_global n env f v).
Proof.
  induction n as [|n IH]; intros env f k v; [reflexivity|]. cbn [vector_to_global].
  assert (L : forall a b c, along a b c (vscale k v) = vscale k (along a b c v)) by vring.
  destruct (fkind f) as [|ur ut|]; [| |reflexivity]; rewrite L; destruct (Z.eqb (rcs f) 0); try reflexivity;
    destruct (env (rcs f)) as [g|]; cbn; [apply IH|reflexivity|apply IH|reflexivity].
Qed.
Lemma to_global_scale : forall n tol env at_node cs p k v,
  local_to_global n tol env at_node cs p (vscale k v) = map_ok (vscale k) (local_to_global n tol env at_node cs p v).
Proof.
  intros. unfold local_to_global. destruct cs as [f|]; [|reflexivity].
  destruct (at_node p); try reflexivity. cbn [bind]. apply global_scale.
Qed.

Ltac outs := repeat match goal with
  | |- context [bind ?m _] => destruct m; cbn [bind map_ok]; try reflexivity
  end.

Lemma pressure_scale : forall at_node n1 n2 n3 n4 m k p,
  pressure_force at_node n1 n2 n3 n4 (m * k) p = map_ok (vscale k) (pressure_force at_node n1 n2 n3 n4 m p).
Proof.
  intros. unfold pressure_force, map_ok.
  destruct (at_node n1) as [x1| | |]; cbn [bind]; try reflexivity.
  destruct (at_node n2) as [x2| | |]; cbn [bind]; try reflexivity.
  destruct (at_node n3) as [x3| | |]; cbn [bind]; try reflexivity.
  destruct n4 as [n4|].
  - destruct (at_node n4) as [x4| | |]; cbn [bind]; try reflexivity.
    destruct (Rlt_dec _ _).
    + destruct (direction (cross (vsub x2 x1) (vsub x3 x1))) as [d1| | |]; cbn [bind]; try reflexivity.
      destruct (direction (cross (vsub x3 x1) (vsub x4 x1))) as [d2| | |]; cbn [bind]; try reflexivity.
      set (a := norm (cross (vsub x2 x1) (vsub x3 x1))). set (b := norm (cross (vsub x3 x1) (vsub x4 x1))). clearbody a b.
      destruct (Z.eqb p n1 || Z.eqb p n3); [cbn; f_equal; apply vec_eq; vunfold; field|].
      destruct (Z.eqb p n2); [cbn; f_equal; apply vec_eq; vunfold; field|].
      destruct (Z.eqb p n4); [cbn; f_equal; apply vec_eq; vunfold; field|reflexivity].
    + destruct (direction (cross (vsub x2 x1) (vsub x4 x1))) as [d1| | |]; cbn [bind]; try reflexivity.
      destruct (direction (cross (vsub x3 x2) (vsub x4 x2))) as [d2| | |]; cbn [bind]; try reflexivity.
      set (a := norm (cross (vsub x2 x1) (vsub x4 x1))). set (b := norm (cross (vsub x3 x2) (vsub x4 x2))). clearbody a b.
      destruct (Z.eqb p n2 || Z.eqb p n4); [cbn; f_equal; apply vec_eq; vunfold; field|].
      destruct (Z.eqb p n1); [cbn; f_equal; apply vec_eq; vunfold; field|].
      destruct (Z.eqb p n3); [cbn; f_equal; apply vec_eq; vunfold; field|reflexivity].
  - destruct (direction (cross (vsub x2 x1) (vsub x3 x1))) as [d1| | |]; cbn [bind]; try reflexivity.
    set (a := norm (cross (vsub x2 x1) (vsub x3 x1))). clearbody a.
    f_equal; apply vec_eq; vunfold; field.
Qed.

(** C39.  Scaling a nodal force, given by components, by two or four points or
    by a pressure, multiplies the force and the moment at each node by the
    factor, in every coordinate system. *)
Theorem C39_nodal_forces : forall n tol env at_node k s l p,
  let l' := snd (scale_load k s l) in
  force_at n tol env at_node l' p = map_ok (vscale k) (force_at n tol env at_node l p) /\
  moment_at n tol env at_node l' p = map_ok (vscale k) (moment_at n tol env at_node l p).
Proof.
  intros n tol env at_node k s l p l'. unfold l'. clear l'.
  assert (N : on_node (snd (scale_load k s l)) p = on_node l p) by (destruct l; reflexivity).
  destruct l; cbn [scale_load snd] in *; unfold force_at, moment_at; rewrite ?N; split; try reflexivity.
  - destruct (on_node _ p); [apply to_global_scale|reflexivity].
  - destruct (on_node _ p); [apply to_global_scale|reflexivity].
  - unfold map_ok. destruct (at_node n1); cbn [bind]; try reflexivity. destruct (at_node n2); cbn [bind]; try reflexivity.
    destruct (direction _); cbn [bind]; try reflexivity. f_equal. vring.
  - destruct (on_node _ p); [|reflexivity]. cbn. f_equal. vring.
  - unfold map_ok. destruct (at_node n1); cbn [bind]; try reflexivity. destruct (at_node n2); cbn [bind]; try reflexivity.
    destruct (at_node n3); cbn [bind]; try reflexivity. destruct (at_node n4); cbn [bind]; try reflexivity.
    destruct (direction _); cbn [bind]; try reflexivity. f_equal. vring.
  - destruct (on_node _ p); [|reflexivity]. cbn. f_equal. vring.
  - destruct (on_node _ p); [apply pressure_scale|reflexivity].
  - destruct (on_node _ p); [|reflexivity]. cbn. f_equal. vring.
Qed.

(* The load is one that imposes displacements on more than one degree of freedom. *)
Definition several_displacements (l : load) : Prop :=
  match l with ImposedDisplacement c _ => (1 < length (given c))%nat | _ => False end.

(** C39.  Scaling any other load multiplies each of its intensities by the
    factor and leaves the abscissas of its tables and all other values alone.
    Rotations and displacements imposed on several degrees of freedom at once
    are left out. *)
Theorem C39_intensities_partial : forall k s l, ~ several_displacements l ->
  let s' := fst (scale_load k s l) in
  let l' := snd (scale_load k s l) in
  intensities s' l' = map (Rmult k) (intensities s l) /\
  (forall i, (forall d cells, l <> ForceLine i d cells) -> l <> Excitation i -> s' i = s i) /\
  (forall i, abscissas (s' i) = abscissas (s i)).
Proof.
  intros k s l H s' l'. unfold s', l'. clear s' l'.
  assert (O : forall v, ordinates (scale_value k v) = map (Rmult k) (ordinates v)).
  { intros [x|xy]; cbn; [f_equal; ring|]. rewrite !map_map. apply map_ext. intros [a b]. cbn. ring. }
  assert (A : forall v, abscissas (scale_value k v) = abscissas v).
  { intros [x|xy]; [reflexivity|]. cbn. rewrite !map_map. reflexivity. }
  assert (AS : forall i j, abscissas (set_value s i (scale_value k (s i)) j) = abscissas (s j)).
  { intros i j. unfold set_value. destruct (Z.eqb_spec j i) as [->|_]; [apply A|reflexivity]. }
  destruct l; cbn [scale_load fst snd intensities] in *; (split; [|split; [|try reflexivity]]);
    try (intros i _ _; reflexivity); try (exact (AS _)); try reflexivity.
  - assert (E : forall x, factor * k * x = k * (factor * x)) by (intros; ring). unfold comps, acceleration. cbn. rewrite !E. reflexivity.
  - cbn [several_displacements] in H. unfold scale_displacements, given in *. cbn [fold_left flat_map] in *.
    destruct (coefs DX) as [a|] eqn:E1; destruct (coefs DY) as [b|] eqn:E2; destruct (coefs DZ) as [c|] eqn:E3;
    destruct (coefs RX) as [d|] eqn:E4; destruct (coefs RY) as [e|] eqn:E5; destruct (coefs RZ) as [g|] eqn:E6;
    unfold scale_coefs; rewrite ?E1, ?E2, ?E3, ?E4, ?E5, ?E6; cbn in *; try (exfalso; lia); try reflexivity;
    repeat (rewrite ?E1, ?E2, ?E3, ?E4, ?E5, ?E6; cbn); try reflexivity; f_equal; ring.
  - unfold set_value. rewrite Z.eqb_refl. apply O.
  - intros i Hi _. unfold set_value. destruct (Z.eqb_spec i value) as [->|_]; [|reflexivity]. exfalso. eapply Hi. reflexivity.
  - cbn. f_equal. ring.
  - cbn. f_equal. ring.
  - unfold set_value. rewrite Z.eqb_refl. apply O.
  - intros i _ Hi. unfold set_value. destruct (Z.eqb_spec i tableB) as [->|_]; [|reflexivity]. congruence.
  - cbn. f_equal. ring.
Qed.

Definition e39_displacement := ImposedDisplacement (fun d => match d with DY => Some 2 | _ => None end) [1%Z].
Example C39_example : ~ several_displacements e39_displacement /\
  intensities (fun _ => Scalar 0) (snd (scale_load 3 (fun _ => Scalar 0) e39_displacement)) = [2 * 3] /\
  intensities (fun _ => Table [(0, 1); (1, 5)]) (ForceLine 7 DX []) = [1; 5].
Proof. split; [cbn; lia|]. split; reflexivity. Qed.

(** C39 fails for a displacement imposed on several degrees of freedom: with
    two of them the factor is applied twice. *)
Theorem C39_displacements_refuted : exists k s l, several_displacements l /\
  intensities s (snd (scale_load k s l)) <> map (Rmult k) (intensities s l).
Proof.
  exists 2, (fun _ => Scalar 0), (ImposedDisplacement (fun d => match d with DX | DY => Some 1 | _ => None end) [1%Z]).
  split; [cbn; lia|]. cbn. intros E. injection E as E1 E2. lra.
Qed.

(** C39 fails for rotations: scaling multiplies the speed, so that the forces
    are multiplied by the square of the factor. *)
Theorem C39_rotation_refuted : exists k s w axis c x w',
  snd (scale_load k s (RotationCenter w axis c)) = RotationCenter w' axis c /\
  centrifugal w' axis c x <> vscale k (centrifugal w axis c x).
Proof.
  exists 2, (fun _ => Scalar 0), 1, (V3 0 0 1), (V3 0 0 0), (V3 1 0 0), (1 * 2).
  split; [reflexivity|]. unfold centrifugal. intros E. apply (f_equal vx) in E. vunfold. lra.
Qed.

(* ---- C40 ---- *)

Lemma near_zero_0 : forall x, near_zero 0 x = true <-> x = 0.
Proof.
  intros x. unfold near_zero. destruct (Rle_dec (Rabs x) 0) as [H|H]; split; intros E; try reflexivity; try discriminate.
  - destruct (Req_dec x 0) as [Z|Z]; [exact Z|]. pose proof (Rabs_pos_lt x Z). lra.
  - exfalso. apply H. rewrite E, Rabs_R0. lra.
Qed.
Lemma iszero_0 : forall v, vec_iszero 0 v = true -> v = vzero.
Proof.
  intros v H. unfold vec_iszero in H. apply andb_true_iff in H. destruct H as [H H3]. apply andb_true_iff in H. destruct H as [H1 H2].
  apply near_zero_0 in H1, H2, H3. apply vec_eq; assumption.
Qed.

Lemma global_zero : forall n env f g, vector_to_global n env f vzero = Ok g -> g = vzero.
Proof.
  intros n env f g H. pose proof (global_scale n env f 0 vzero) as S.
  replace (vscale 0 vzero) with vzero in S by (vunfold; apply vec_eq; cbn; ring). rewrite H in S. cbn in S. injection S as Z. rewrite Z. vring.
Qed.
Lemma to_global_zero : forall n tol env at_node cs p g, local_to_global n tol env at_node cs p vzero = Ok g -> g = vzero.
Proof.
  intros n tol env at_node cs p g H. destruct cs as [f|]; cbn in H; [|congruence].
  destruct (at_node p); try discriminate. cbn [bind] in H. eapply global_zero; exact H.
Qed.

(* What a load does, whatever its class. *)
Definition no_effect (env : systems) (at_node : places) (s : values) (l : load) : Prop :=
  (forall n tol p f, force_at n tol env at_node l p = Ok f -> f = vzero) /\
  (forall n tol p m, moment_at n tol env at_node l p = Ok m -> m = vzero) /\
  match l with
  | RotationCenter w axis c => forall x, centrifugal w axis c x = vzero
  | RotationNode w axis q => forall c x, at_node q = Ok c -> centrifugal w axis c x = vzero
  | ImposedDisplacement c on => on = [] \/ given c = []
  | _ => Forall (fun r => r = 0) (intensities s l)
  end.

Lemma pressure_zero : forall at_node n1 n2 n3 n4 p f, pressure_force at_node n1 n2 n3 n4 0 p = Ok f -> f = vzero.
Proof.
  intros at_node n1 n2 n3 n4 p f H. pose proof (pressure_scale at_node n1 n2 n3 n4 0 0 p) as S.
  rewrite Rmult_0_l, H in S. cbn in S. injection S as Z. rewrite Z. vring.
Qed.

Lemma forall3 : forall a b c, a = 0 -> b = 0 -> c = 0 -> Forall (fun r => r = 0) [a; b; c].
Proof. intros. constructor; [assumption|]. constructor; [assumption|]. constructor; [assumption|]. constructor. Qed.

(** C40.  With an exact test of zero, a load classified as ineffective does
    nothing, except for forces directed by two nodes. *)
Theorem C40_ineffective_partial : forall env at_node s l,
  (forall n1 n2 m on, l <> ForceTwoNodes n1 n2 m on) ->
  ineffective 0 s l = true -> no_effect env at_node s l.
Proof.
  intros env at_node s l NT H. unfold no_effect.
  assert (V : forall v, value_iszero 0 v = true -> Forall (fun r => r = 0) (ordinates v)).
  { intros [x|xy] Hv; cbn in *.
    - apply near_zero_0 in Hv. constructor; [exact Hv|constructor].
    - apply Forall_map. apply Forall_forall. intros p Hp. rewrite forallb_forall in Hv. apply near_zero_0, Hv, Hp. }
  destruct l; cbn [ineffective] in H.
  - split; [intros; discriminate|]. split; [intros; discriminate|]. cbn. apply orb_true_iff in H. destruct H as [H|H].
    + apply near_zero_0 in H. subst. apply forall3; cbn; ring.
    + apply iszero_0 in H. subst. apply forall3; cbn; ring.
  - split; [intros; discriminate|]. split; [intros; discriminate|]. intros x. apply orb_true_iff in H. destruct H as [H|H].
    + apply near_zero_0 in H. subst. unfold centrifugal. vring.
    + apply iszero_0 in H. subst. unfold centrifugal. vring.
  - split; [intros; discriminate|]. split; [intros; discriminate|]. intros c x _. apply orb_true_iff in H. destruct H as [H|H].
    + apply near_zero_0 in H. subst. unfold centrifugal. vring.
    + apply iszero_0 in H. subst. unfold centrifugal. vring.
  - split; [intros; discriminate|]. split; [intros; discriminate|]. destruct on as [|q r]; [left; reflexivity|right].
    unfold given. cbn [forallb flat_map] in *.
    destruct (coefs DX), (coefs DY), (coefs DZ), (coefs RX), (coefs RY), (coefs RZ); try discriminate. reflexivity.
  - apply andb_true_iff in H. destruct H as [H1 H2]. apply iszero_0 in H1, H2. subst. split; [|split; [|constructor]].
    + intros n tol p f E. cbn [force_at moment_at] in E. destruct (on_node _ p); [|discriminate]. eapply to_global_zero; exact E.
    + intros n tol p f E. cbn [force_at moment_at] in E. destruct (on_node _ p); [|discriminate]. eapply to_global_zero; exact E.
  - exfalso. eapply NT. reflexivity.
  - apply near_zero_0 in H. subst. split; [|split; [|constructor]].
    + intros n tol p f E. cbn [force_at] in E. destruct (at_node n1); try discriminate. cbn [bind] in E. destruct (at_node n2); try discriminate. cbn [bind] in E.
      destruct (at_node n3); try discriminate. cbn [bind] in E. destruct (at_node n4); try discriminate. cbn [bind] in E.
      destruct (direction _); try discriminate. cbn [bind] in E. injection E as <-. vring.
    + intros n tol p m E. cbn [force_at moment_at] in E. destruct (on_node _ p); [|discriminate]. congruence.
  - apply near_zero_0 in H. subst. split; [|split; [|constructor]].
    + intros n tol p f E. cbn [force_at] in E. destruct (on_node _ p); [|discriminate]. eapply pressure_zero; exact E.
    + intros n tol p m E. cbn [moment_at] in E. destruct (on_node _ p); [|discriminate]. congruence.
  - split; [intros; discriminate|]. split; [intros; discriminate|]. apply andb_true_iff in H. destruct H as [H1 H2].
    apply iszero_0 in H1, H2. subst. cbn. apply Forall_app with (l1 := [0; 0; 0]) (l2 := [0; 0; 0]). split; apply forall3; reflexivity.
  - split; [intros; discriminate|]. split; [intros; discriminate|]. apply V, H.
  - split; [intros; discriminate|]. split; [intros; discriminate|]. apply near_zero_0 in H. constructor; [exact H|constructor].
  - split; [intros; discriminate|]. split; [intros; discriminate|]. apply near_zero_0 in H. constructor; [exact H|constructor].
  - discriminate.
  - split; [intros; discriminate|]. split; [intros; discriminate|]. apply near_zero_0 in H. constructor; [exact H|constructor].
Qed.

(** C40.  A nodal force given by components that is discarded, with any
    tolerance, is below twice that tolerance at each node in the global frame,
    and so is its moment. *)
Theorem C40_nodal_force_bound : forall n tol env at_node s cs f m on p g h, 0 <= tol ->
  (forall q fr x, cs = Some fr -> at_node q = Ok x -> isometric n env (update_local_base tol fr x)) ->
  let l := NodalForce cs f m on in
  ineffective tol s l = true -> force_at n tol env at_node l p = Ok g -> moment_at n tol env at_node l p = Ok h ->
  norm g <= 2 * tol /\ norm h <= 2 * tol.
Proof.
  intros n tol env at_node s cs f m on p g h Ht Iso l H Eg Eh. cbn in H. apply andb_true_iff in H. destruct H as [Hf Hm].
  assert (B : forall v w, vec_iszero tol v = true -> local_to_global n tol env at_node cs p v = Ok w -> norm w <= 2 * tol).
  { intros v w Hv E.
    assert (Bv : norm v <= 2 * tol).
    { unfold vec_iszero in Hv. apply andb_true_iff in Hv. destruct Hv as [Hv V3_]. apply andb_true_iff in Hv. destruct Hv as [V1 V2].
      assert (K : forall x, near_zero tol x = true -> x * x <= tol * tol).
      { intros x Hx. unfold near_zero in Hx. destruct (Rle_dec (Rabs x) tol) as [Hr|]; [|discriminate].
        replace (x * x) with (Rabs x * Rabs x) by (rewrite <- Rabs_mult; apply Rabs_right; apply Rle_ge, Rle_0_sqr).
        pose proof (Rabs_pos x). apply Rmult_le_compat; assumption. }
      apply K in V1, V2, V3_. unfold norm. rewrite <- (sqrt_square (2 * tol)) by lra. apply sqrt_le_1_alt.
      unfold dot. pose proof (Rle_0_sqr tol) as T. unfold Rsqr in T. lra. }
    destruct cs as [fr|]; cbn in E; [|injection E as <-; exact Bv].
    destruct (at_node p) as [x| | |] eqn:Ep; try discriminate. cbn [bind] in E.
    destruct (Iso p fr x eq_refl Ep) as (a & b & c & O & K). rewrite K in E. injection E as <-.
    unfold norm. rewrite along_dot by exact O. exact Bv. }
  unfold l, force_at in Eg. unfold l, moment_at in Eh. destruct (on_node (NodalForce cs f m on) p); [|discriminate].
  split; [exact (B f g Hf Eg)|exact (B m h Hm Eh)].
Qed.

(** C40.  A load that has an effect stays in the model, with its identity, and
    nothing is added. *)
Theorem C40_kept_partial : forall env at_node s ls e, In e ls ->
  (forall n1 n2 m on, snd e <> ForceTwoNodes n1 n2 m on) -> ~ no_effect env at_node s (snd e) ->
  In e (keep_effective 0 s ls) /\ incl (keep_effective 0 s ls) ls.
Proof.
  intros env at_node s ls e H NT NE. split.
  - apply filter_In. split; [exact H|]. apply negb_true_iff, not_true_is_false. intros E. apply NE.
    apply C40_ineffective_partial; assumption.
  - intros x Hx. apply filter_In in Hx. tauto.
Qed.

Definition e40_places (p : Z) : outcome vec := if Z.eqb p 1 then Ok (V3 0 0 0) else Ok (V3 0 0 2).
Example C40_example : ineffective 0 (fun _ => Table [(0, 0); (1, 0)]) (ForceLine 3 DX [1%Z]) = true /\
  ineffective 0 (fun _ => Scalar 0) (ForceFourNodes 1 2 1 2 0 [1%Z]) = true /\
  ineffective 0 (fun _ => Scalar 0) (NodalForce None (V3 0 0 1) vzero [1%Z]) = false.
Proof.
  assert (Z0 : near_zero 0 0 = true) by (apply near_zero_0; reflexivity).
  assert (Z1 : near_zero 0 1 = false).
  { apply not_true_is_false. intros E. apply near_zero_0 in E. lra. }
  cbn. unfold vec_iszero. cbn. rewrite Z0, Z1. auto.
Qed.

(** C40 fails for a force directed by two nodes: it is always classified as
    ineffective, whatever its magnitude. *)
Theorem C40_two_nodes_refuted : exists at_node n1 n2 on, forall m env s n tol, 0 <= tol ->
  ineffective tol s (ForceTwoNodes n1 n2 m on) = true /\
  force_at n tol env at_node (ForceTwoNodes n1 n2 m on) 1 = Ok (V3 0 0 m).
Proof.
  exists e40_places, 1%Z, 2%Z, [1%Z]. intros m env s n tol Ht. split.
  - cbn [ineffective]. apply orb_true_iff. right. unfold vec_iszero, vzero. cbn [vx vy vz].
    assert (Z0 : near_zero tol 0 = true) by (unfold near_zero; destruct (Rle_dec (Rabs 0) tol) as [_|N]; [reflexivity|]; rewrite Rabs_R0 in N; contradiction).
    rewrite Z0. reflexivity.
  - cbn [force_at]. change (e40_places 1%Z) with (Ok (V3 0 0 0)). change (e40_places 2%Z) with (Ok (V3 0 0 2)). cbn [bind].
    assert (N : vsub (V3 0 0 2) (V3 0 0 0) <> vzero) by (apply nz; cbn; lra).
    rewrite direction_ok by exact N. cbn [bind]. f_equal. rewrite normalized_scale.
    assert (E : norm (vsub (V3 0 0 2) (V3 0 0 0)) = 2).
    { unfold norm. replace (dot _ _) with (2 * 2) by (vunfold; ring). apply sqrt_square. lra. }
    rewrite E. apply vec_eq; vunfold; field.
Qed.

(** C40 fails for gravity with a tolerance: a small factor times a large vector
    is discarded. *)
Theorem C40_gravity_refuted : forall tol s, 0 < tol -> exists a g,
  ineffective tol s (Gravity a g) = true /\ acceleration a g = V3 1 0 0.
Proof.
  intros tol s Ht. exists tol, (V3 (/ tol) 0 0). split.
  - cbn. apply orb_true_iff. left. unfold near_zero. rewrite Rabs_right by lra. destruct (Rle_dec tol tol); [reflexivity|lra].
  - unfold acceleration. apply vec_eq; vunfold; field; lra.
Qed.

(** C75.  The card of a force on a face: the pressure times the direction written
    is the force, and the direction is a unit vector.  A null force gives numbers
    that are not numbers. *)
Theorem C75_directed_written : forall f,
  (f <> vzero -> exists p n, surface_force f = Ok (p, n) /\ vscale p n = f /\ dot n n = 1 /\ 0 < p) /\
  (f = vzero -> surface_force f = UB).
Proof.
  intros f. split; intros H.
  - exists (norm f), (normalized f). unfold surface_force. rewrite direction_ok by exact H. split; [reflexivity|].
    pose proof (norm_pos f H) as P. split; [|split; [apply normalized_unit, H|exact P]].
    rewrite normalized_scale, vscale_vscale. replace (norm f * / norm f) with 1 by (field; lra). apply vscale_one.
  - subst. unfold surface_force, direction. destruct (Req_EM_T (norm vzero) 0) as [_|N]; [reflexivity|]. contradiction N.
    unfold norm. replace (dot vzero vzero) with 0 by (vunfold; ring). apply sqrt_0.
Qed.
Example C75_directed_case : surface_force (V3 0 3 4) = Ok (5, V3 (0 / 5) (3 / 5) (4 / 5)).
Proof.
  unfold surface_force. rewrite direction_ok by (apply nz; cbn; lra). cbn [bind].
  assert (norm (V3 0 3 4) = 5) as E. { unfold norm. replace (dot _ _) with (5 * 5) by (vunfold; ring). apply sqrt_square. lra. }
  unfold normalized. rewrite E. reflexivity.
Qed.
Print Assumptions C75_directed_written.

Print Assumptions C38_triangle.
Print Assumptions C38_quad_partial.
Print Assumptions C38_flat_corner_refuted.
Print Assumptions C67_triangle_moment_partial.
Print Assumptions C67_quad_moment_refuted.
Print Assumptions C39_nodal_forces.
Print Assumptions C39_intensities_partial.
Print Assumptions C39_displacements_refuted.
Print Assumptions C39_rotation_refuted.
Print Assumptions C40_ineffective_partial.
Print Assumptions C40_nodal_force_bound.
Print Assumptions C40_kept_partial.
Print Assumptions C40_two_nodes_refuted.
Print Assumptions C40_gravity_refuted.
