(** Sections, materials and additional mass: C45, C46, C70. *)
From Coq Require Import Reals ZArith List Bool Lia Lra.
From Verif Require Import Base SectionModel.
Import ListNotations.
Open Scope R_scope.

(** ** C46 *)
(** The integral of a function with a primitive. *)
Definition integral (f : R -> R) (a b v : R) : Prop :=
  exists F, (forall x, derivable_pt_lim F x (f x)) /\ v = F b - F a.
Lemma integral_unique f a b v w : integral f a b v -> integral f a b w -> v = w.
Proof.
  intros (F & HF & ->) (G & HG & ->).
  assert (D : forall x, derivable_pt_lim (F - G) x 0).
  { intros x. replace 0 with (f x - f x) by ring. apply derivable_pt_lim_minus; auto. }
  assert (pr : derivable (F - G)) by (intros x; exists 0; apply D).
  pose proof (null_derivative_1 (F - G)%F pr) as C.
  assert (constant (F - G)%F) as K.
  { apply C. intros x. apply derive_pt_eq_0, D. }
  specialize (K a b). unfold minus_fct in K. lra.
Qed.

(** A section made of horizontal strips: from the height [lo] to the height [hi],
    of the given width, centred on the vertical axis Y. *)
Record strip := Strip { lo : R; hi : R; breadth : R }.
Inductive strips_integral (f : strip -> R -> R) : list strip -> R -> Prop :=
| si_nil : strips_integral f [] 0
| si_cons s l v w : integral (f s) (lo s) (hi s) v -> strips_integral f l w -> strips_integral f (s :: l) (v + w).
(** Area, first moment along Y, integrals of y^2 and of z^2. *)
Definition area_is (l : list strip) (v : R) := strips_integral (fun s _ => breadth s) l v.
Definition first_moment_is (l : list strip) (v : R) := strips_integral (fun s y => y * breadth s) l v.
Definition y2_is (l : list strip) (v : R) := strips_integral (fun s y => y ^ 2 * breadth s) l v.
Definition z2_is (l : list strip) (v : R) : Prop :=
  exists g : R -> R, (forall w, integral (fun z => z ^ 2) (- w / 2) (w / 2) (g w))
                /\ strips_integral (fun s _ => g (breadth s)) l v.

(** A section made of a ring: polar coordinates. *)
Definition polar_is (f : R -> R -> R) (a b v : R) : Prop :=
  exists g, (forall r, integral (fun t => f r t * r) 0 (2 * PI) (g r)) /\ integral g a b v.

Lemma scaled f F c x l : derivable_pt_lim F x l -> f = (fun t => c * F t) -> derivable_pt_lim f x (c * l).
Proof.
  intros D ->. pose proof (derivable_pt_lim_mult (fct_cte c) F x _ _ (derivable_pt_lim_const _ x) D) as E.
  unfold mult_fct, fct_cte in E. replace (c * l) with (0 * F x + c * l) by ring. exact E.
Qed.
Lemma prim_const c x : derivable_pt_lim (fun y => c * y) x c.
Proof.
  pose proof (scaled (fun y => c * id y) id c x 1 (derivable_pt_lim_id x) eq_refl) as H.
  rewrite Rmult_1_r in H. exact H.
Qed.
Lemma prim_pow n c x : derivable_pt_lim (fun y => c / INR (S n) * y ^ (S n)) x (x ^ n * c).
Proof.
  pose proof (derivable_pt_lim_pow x (S n)) as P. cbn [pred] in P.
  assert (N : INR (S n) <> 0) by (apply not_0_INR; lia).
  replace (x ^ n * c) with (c / INR (S n) * (INR (S n) * x ^ n)) by (field; exact N).
  eapply scaled; [exact P|reflexivity].
Qed.

Lemma int_const c a b : integral (fun _ => c) a b (c * (b - a)).
Proof. exists (fun y => c * y). split; [apply prim_const|ring]. Qed.
Lemma int_pow n c a b : integral (fun y => y ^ n * c) a b (c * (b ^ S n - a ^ S n) / INR (S n)).
Proof.
  exists (fun y => c / INR (S n) * y ^ S n). split; [apply prim_pow|]. field. apply not_0_INR. lia.
Qed.
Lemma int_value f a b v w : integral f a b v -> v = w -> integral f a b w.
Proof. intros H <-. exact H. Qed.
Lemma int_ext f g a b v : (forall x, f x = g x) -> integral f a b v -> integral g a b v.
Proof. intros E (F & D & H). exists F. split; [|exact H]. intros x. rewrite <- E. apply D. Qed.
Lemma si_value f l v w : strips_integral f l v -> v = w -> strips_integral f l w.
Proof. intros H <-. exact H. Qed.

Lemma int_y2 c a b : integral (fun y => y ^ 2 * c) a b (c * (b ^ 3 - a ^ 3) / 3).
Proof. eapply int_value; [apply int_pow|]. cbn [INR]. field. Qed.
Lemma int_y c a b : integral (fun y => y * c) a b (c * (b ^ 2 - a ^ 2) / 2).
Proof.
  eapply int_value; [eapply int_ext; [|apply (int_pow 1 c)]|].
  - intros x. cbv beta. ring.
  - cbn [INR]. field.
Qed.
Lemma int_z2 w : integral (fun z => z ^ 2) (- w / 2) (w / 2) (w ^ 3 / 12).
Proof.
  eapply int_value; [eapply int_ext; [|apply (int_y2 1)]|].
  - intros x. cbv beta. ring.
  - field.
Qed.

Lemma sin2 x : derivable_pt_lim (fun t => 1 / 2 * (t - sin t * cos t)) x (sin x ^ 2).
Proof.
  pose proof (derivable_pt_lim_mult sin cos x _ _ (derivable_pt_lim_sin x) (derivable_pt_lim_cos x)) as M.
  pose proof (derivable_pt_lim_minus id (sin * cos)%F x _ _ (derivable_pt_lim_id x) M) as D.
  replace (sin x ^ 2) with (1 / 2 * (1 - (cos x * cos x + sin x * - sin x))).
  2:{ pose proof (sin2_cos2 x) as S. unfold Rsqr in S. nra. }
  eapply scaled; [exact D|reflexivity].
Qed.
Lemma cos2 x : derivable_pt_lim (fun t => 1 / 2 * (t + sin t * cos t)) x (cos x ^ 2).
Proof.
  pose proof (derivable_pt_lim_mult sin cos x _ _ (derivable_pt_lim_sin x) (derivable_pt_lim_cos x)) as M.
  pose proof (derivable_pt_lim_plus id (sin * cos)%F x _ _ (derivable_pt_lim_id x) M) as D.
  replace (cos x ^ 2) with (1 / 2 * (1 + (cos x * cos x + sin x * - sin x))).
  2:{ pose proof (sin2_cos2 x) as S. unfold Rsqr in S. nra. }
  eapply scaled; [exact D|reflexivity].
Qed.
Lemma int_cos2 r : integral (fun t => (r * cos t) ^ 2 * r) 0 (2 * PI) (r ^ 3 * PI).
Proof.
  exists (fun t => r ^ 3 * (1 / 2 * (t + sin t * cos t))). split.
  - intros x. replace ((r * cos x) ^ 2 * r) with (r ^ 3 * cos x ^ 2) by ring.
    eapply scaled; [apply cos2|reflexivity].
  - rewrite sin_2PI, sin_0. field.
Qed.
Lemma int_sin2 r : integral (fun t => (r * sin t) ^ 2 * r) 0 (2 * PI) (r ^ 3 * PI).
Proof.
  exists (fun t => r ^ 3 * (1 / 2 * (t - sin t * cos t))). split.
  - intros x. replace ((r * sin x) ^ 2 * r) with (r ^ 3 * sin x ^ 2) by ring.
    eapply scaled; [apply sin2|reflexivity].
  - rewrite sin_2PI, sin_0. field.
Qed.

(** The values of a ring of radii [a] and [b]. *)
Lemma ring_values a b :
  polar_is (fun _ _ => 1) a b (PI * (b ^ 2 - a ^ 2))
  /\ polar_is (fun r t => (r * cos t) ^ 2) a b ((b ^ 4 - a ^ 4) * PI / 4)
  /\ polar_is (fun r t => (r * sin t) ^ 2) a b ((b ^ 4 - a ^ 4) * PI / 4)
  /\ polar_is (fun r t => r ^ 2) a b ((b ^ 4 - a ^ 4) * PI / 2).
Proof.
  split; [|split; [|split]].
  - exists (fun r => r * (2 * PI - 0)). split.
    + intros r. eapply int_ext; [|apply (int_const r)]. intros; cbv beta; ring.
    + eapply int_value; [eapply int_ext; [|apply (int_pow 1 (2 * PI))]|].
      * intros; cbv beta; ring.
      * cbn [INR]. field.
  - exists (fun r => r ^ 3 * PI). split; [apply int_cos2|]. eapply int_value; [apply (int_pow 3 PI)|].
    cbn [INR]. field.
  - exists (fun r => r ^ 3 * PI). split; [apply int_sin2|]. eapply int_value; [apply (int_pow 3 PI)|].
    cbn [INR]. field.
  - exists (fun r => (r ^ 2 * r) * (2 * PI - 0)). split.
    + intros r. apply int_const.
    + eapply int_value; [eapply int_ext; [|apply (int_pow 3 (2 * PI))]|].
      * intros; cbv beta; ring.
      * cbn [INR]. field.
Qed.

(** Circular sections: area, second moments, polar moment. *)
Theorem C46_circular tol radius s : section_of ROD [radius] = Some s ->
  polar_is (fun _ _ => 1) 0 radius (area s)
  /\ polar_is (fun r t => (r * sin t) ^ 2) 0 radius (inertia_y s)
  /\ (exists iz, inertia_z tol s = Ok iz /\ polar_is (fun r t => (r * cos t) ^ 2) 0 radius iz)
  /\ polar_is (fun r _ => r ^ 2) 0 radius (torsion s).
Proof.
  intros E. injection E as <-. destruct (ring_values 0 radius) as (A & C & S & J).
  cbn [area inertia_y inertia_z torsion].
  split; [|split; [|split]].
  - replace (PI * radius * radius) with (PI * (radius ^ 2 - 0 ^ 2)) by ring. exact A.
  - replace (radius ^ 4 * PI / 4) with ((radius ^ 4 - 0 ^ 4) * PI / 4) by field. exact S.
  - eexists. split; [reflexivity|].
    replace (radius ^ 4 * PI / 4) with ((radius ^ 4 - 0 ^ 4) * PI / 4) by field. exact C.
  - replace (radius ^ 4 * PI / 2) with ((radius ^ 4 - 0 ^ 4) * PI / 2) by field. exact J.
Qed.

(** Rectangular sections: the width is along Z and the height along Y. *)
Definition rectangle (w h : R) : list strip := [Strip (- h / 2) (h / 2) w].
Theorem C46_rectangular tol w h s : section_of BAR [w; h] = Some s ->
  area_is (rectangle w h) (area s)
  /\ z2_is (rectangle w h) (inertia_y s)
  /\ (exists iz, inertia_z tol s = Ok iz /\ y2_is (rectangle w h) iz)
  /\ first_moment_is (rectangle w h) 0.
Proof.
  intros E. injection E as <-. cbn [area inertia_y inertia_z torsion].
  split; [|split; [|split]].
  - eapply si_value; [constructor; [apply int_const|constructor]|]. cbn. field.
  - exists (fun w => w ^ 3 / 12). split; [apply int_z2|].
    eapply si_value; [constructor; [apply int_const|constructor]|]. cbn. field.
  - eexists. split; [reflexivity|].
    eapply si_value; [constructor; [apply int_y2|constructor]|]. cbn. field.
  - eapply si_value; [constructor; [apply int_y|constructor]|]. cbn. field.
Qed.

(** I sections: upper flange, web, lower flange. *)
Definition ibeam (upper_width lower_width upper_thickness lower_thickness height web : R) : list strip :=
  [Strip (height / 2 - upper_thickness) (height / 2) upper_width;
   Strip (- height / 2 + lower_thickness) (height / 2 - upper_thickness) web;
   Strip (- height / 2) (- height / 2 + lower_thickness) lower_width].
Theorem C46_i_section height lower_width upper_width web lower_thickness upper_thickness s :
  section_of I [height; lower_width; upper_width; web; lower_thickness; upper_thickness] = Some s ->
  let parts := ibeam upper_width lower_width upper_thickness lower_thickness height web in
  area_is parts (area s)
  /\ z2_is parts (inertia_y s)
  /\ forall tol, (0 <= tol) -> lower_width = upper_width -> lower_thickness = upper_thickness ->
     first_moment_is parts 0 /\ exists iz, inertia_z tol s = Ok iz /\ y2_is parts iz.
Proof.
  intros E. injection E as <-. cbn zeta. unfold ibeam. cbn [area inertia_y inertia_z].
  split; [|split].
  - eapply si_value; [repeat (constructor; [apply int_const|]); constructor|]. cbn. unfold i_area. field.
  - exists (fun w => w ^ 3 / 12). split; [apply int_z2|].
    eapply si_value; [repeat (constructor; [apply int_const|]); constructor|]. cbn. field.
  - intros tol T -> ->.
    assert (N : forall x, near tol x x = true).
    { intros x. unfold near. destruct (Rle_dec _ _) as [_|N]; [reflexivity|]. exfalso. apply N.
      replace (x - x) with 0 by ring. rewrite Rabs_R0. apply Rmult_le_pos; [exact T|].
      apply Rle_trans with 1; [lra|]. apply Rle_trans with (Rmax 1 (Rabs x)); apply Rmax_l. }
    rewrite !N. cbn [negb]. split.
    + eapply si_value; [repeat (constructor; [apply int_y|]); constructor|]. cbn. field.
    + eexists. split; [reflexivity|].
      eapply si_value; [repeat (constructor; [apply int_y2|]); constructor|]. cbn. field.
Qed.

(** Tubes: the getters are those of a ring whose outer and inner radii are the
    two constructor arguments, named radius and thickness.
    Left out: the arguments that the cards give, see below. *)
Theorem C46_tube_partial tol outer inner :
  polar_is (fun _ _ => 1) inner outer (area (Tube outer inner))
  /\ polar_is (fun r t => (r * sin t) ^ 2) inner outer (inertia_y (Tube outer inner))
  /\ (exists iz, inertia_z tol (Tube outer inner) = Ok iz /\ polar_is (fun r t => (r * cos t) ^ 2) inner outer iz)
  /\ polar_is (fun r _ => r ^ 2) inner outer (torsion (Tube outer inner)).
Proof.
  destruct (ring_values inner outer) as (A & C & S & J). cbn [area inertia_y inertia_z torsion].
  split; [exact A|]. split; [exact S|]. split; [eexists; split; [reflexivity|exact C]|exact J].
Qed.

(** C46 fails for tubes: the card gives the outer and the inner radius, the
    section is built with the inner radius and the thickness, and its area may
    be negative. *)
Theorem C46_tube_refuted : exists outer inner s v,
  0 < inner < outer /\ section_of TUBE [outer; inner] = Some s
  /\ polar_is (fun _ _ => 1) inner outer v /\ 0 < v /\ area s < 0.
Proof.
  exists 3, 1, (Tube 1 (3 - 1)), (PI * (3 ^ 2 - 1 ^ 2)).
  split; [lra|]. split; [reflexivity|]. split; [apply ring_values|].
  pose proof PI_RGT_0. cbn [area]. split; nra.
Qed.

(** Torsion of rectangles: at most the polar moment, and positive, when the
    width is at least the height. *)
Theorem C46_torsion_partial w h : 0 < h <= w ->
  0 < torsion (Rectangular w h)
  /\ exists y2 z2, y2_is (rectangle w h) y2 /\ z2_is (rectangle w h) z2 /\ torsion (Rectangular w h) <= y2 + z2.
Proof.
  intros (H & L). destruct (C46_rectangular 0 w h (Rectangular w h) eq_refl) as (_ & Z2 & (iz & Ez & Y2) & _).
  cbn in Ez. injection Ez as <-.
  assert (W : 0 < w) by lra.
  set (x := h / w). assert (X : 0 < x <= 1).
  { unfold x. split; [apply Rdiv_lt_0_compat; lra|]. apply (Rmult_le_reg_r w); [lra|].
    unfold Rdiv. rewrite Rmult_assoc, Rinv_l by lra. lra. }
  assert (Eh : h = x * w) by (unfold x; field; lra).
  assert (T : torsion (Rectangular w h) = w ^ 4 * (x ^ 3 * (1 / 3 - 21 / 100 * x * (1 - x ^ 4 / 12)))).
  { rewrite Eh. cbn [torsion]. field. lra. }
  assert (W4 : 0 < w ^ 4) by (apply pow_lt; exact W).
  assert (X2 : 0 < x ^ 2 <= 1) by (split; [apply pow_lt; lra|nra]).
  assert (X3 : 0 < x ^ 3 <= x) by (split; [apply pow_lt; lra|nra]).
  assert (X4 : 0 < x ^ 4 <= x ^ 2) by (split; [apply pow_lt; lra|nra]).
  split.
  - rewrite T. apply Rmult_lt_0_compat; [exact W4|]. apply Rmult_lt_0_compat; [apply X3|].
    assert (x * (1 - x ^ 4 / 12) <= 1) by nra. nra.
  - exists (h ^ 3 * w / 12), (inertia_y (Rectangular w h)). split; [exact Y2|]. split; [exact Z2|].
    rewrite T. cbn [inertia_y]. rewrite Eh.
    replace ((x * w) ^ 3 * w / 12 + x * w * w ^ 3 / 12) with (w ^ 4 * (x ^ 3 / 12 + x / 12)) by field.
    apply Rmult_le_compat_l; [lra|].
    apply Rle_trans with (x * (x ^ 2 * (1 / 3 - 21 / 100 * x * (1 - x ^ 4 / 12)))); [right; ring|].
    apply Rle_trans with (x * (x ^ 2 / 12 + 1 / 12)); [|right; field].
    apply Rmult_le_compat_l; [lra|].
    (* x^2/4 - 21/100 x^3 + 21/1200 x^7 <= 1/12 *)
    assert (x ^ 7 <= x ^ 3) by (replace (x ^ 7) with (x ^ 3 * x ^ 4) by ring; nra).
    assert (x ^ 2 / 4 - 21 / 100 * x ^ 3 + 21 / 1200 * x ^ 3 <= 1 / 12); [|nra].
    assert (0 <= (x - 1) ^ 2) by nra. assert (0 <= x * (x - 1) ^ 2) by nra.
    nra.
Qed.

(** C46 fails for the torsion of a rectangle higher than wide: the constant is
    above the polar moment, which bounds it for every section, and changes when
    the section is turned by a right angle. *)
Theorem C46_torsion_refuted : exists w h y2 z2,
  0 < w < h /\ y2_is (rectangle w h) y2 /\ z2_is (rectangle w h) z2
  /\ y2 + z2 < torsion (Rectangular w h) /\ torsion (Rectangular w h) <> torsion (Rectangular h w).
Proof.
  exists 1, 10, (10 ^ 3 * 1 / 12), (inertia_y (Rectangular 1 10)).
  destruct (C46_rectangular 0 1 10 (Rectangular 1 10) eq_refl) as (_ & Z2 & (iz & Ez & Y2) & _).
  cbn in Ez. injection Ez as <-.
  split; [lra|]. split; [|split; [exact Z2|]].
  - replace (10 ^ 3 * 1 / 12) with (10 * (10 * (10 * 1)) * 1 / 12) by field. exact Y2.
  - cbn [inertia_y torsion]. split; lra.
Qed.

Example C46_example : section_of BAR [2; 3] = Some (Rectangular 2 3)
  /\ section_of I [10; 4; 4; 1; 2; 2] = Some (ISection 4 4 2 2 10 1)
  /\ area (ISection 4 4 2 2 10 1) = 22 /\ 0 < 1 <= 2.
Proof. repeat split; try reflexivity; cbn [area]; unfold i_area; lra. Qed.

(** ** C45 *)
(** When two of the three constants are given, they are kept and the third one
    follows from E = 2 (1 + nu) G; the excluded values are those for which no
    third constant exists. *)
Theorem C45_consistent e g nu :
  match e, g, nu with
  | Some e, Some g, None => g <> 0
  | Some e, None, Some nu => nu <> -1
  | None, Some g, Some nu => True
  | _, _, _ => False
  end ->
  exists e' g' nu', mat1_constants e g nu = Ok (e', g', nu')
  /\ e' = 2 * (1 + nu') * g'
  /\ (forall x, e = Some x -> e' = x) /\ (forall x, g = Some x -> g' = x) /\ (forall x, nu = Some x -> nu' = x).
Proof.
  unfold mat1_constants, mat1, divide.
  destruct e as [e|], g as [g|], nu as [nu|]; intros H; try contradiction; cbn [bind new_nature get_e get_g get_nu].
  - destruct (Req_EM_T (2 * g) 0) as [X|X]; [lra|]. cbn [bind new_nature get_e get_g get_nu].
    do 3 eexists. split; [reflexivity|]. split; [field; lra|].
    split; [|split]; intros x E; [injection E; auto|injection E; auto|discriminate].
  - destruct (Req_EM_T (2 * (1 + nu)) 0) as [X|X]; [lra|]. cbn [bind new_nature get_e get_g get_nu].
    do 3 eexists. split; [reflexivity|]. split; [field; lra|].
    split; [|split]; intros x E; [injection E; auto|discriminate|injection E; auto].
  - do 3 eexists. split; [reflexivity|]. split; [ring|].
    split; [|split]; intros x E; [discriminate|injection E; auto|injection E; auto].
Qed.

(** The same for a material built from the constants alone. *)
Theorem C45_material c n : new_nature c = Ok n ->
  match c with
  | (Some e, Some g, None) => g <> 0
  | (Some e, None, Some nu) => nu <> -1
  | (None, Some g, Some nu) => True
  | _ => False
  end ->
  exists e g nu, get_e n = Ok e /\ get_g n = Ok g /\ get_nu n = Ok nu /\ e = 2 * (1 + nu) * g.
Proof.
  destruct c as [[[e|] [g|]] [nu|]]; cbn; intros H; try contradiction; injection H as <-; intros X; cbn; unfold divide.
  - destruct (Req_EM_T (2 * g) 0) as [Y|Y]; [lra|]. cbn. do 3 eexists. repeat split. field. lra.
  - destruct (Req_EM_T (2 * (1 + nu)) 0) as [Y|Y]; [lra|]. do 3 eexists. repeat split. field. lra.
  - do 3 eexists. repeat split.
Qed.

(** With one constant, or none, the card leaves the others zero (as the Nastran
    guide says), so that the law does not hold: a Young modulus alone gives a
    zero shear modulus.  Three constants are kept as given. *)
Theorem C45_others :
  (forall e, mat1_constants (Some e) None None = Ok (e, 0, 0))
  /\ (forall g, mat1_constants None (Some g) None = Ok (0, g, 0))
  /\ (forall e g nu, mat1_constants (Some e) (Some g) (Some nu) = Ok (e, g, nu))
  /\ mat1_constants None None None = Ok (2 * (1 + 0) * 0, 0, 0).
Proof. repeat split. Qed.

Example C45_example : mat1_constants (Some 210) None (Some (1 / 4)) = Ok (210, 84, 1 / 4).
Proof.
  destruct (C45_consistent (Some 210) None (Some (1 / 4))) as (e & g & nu & H & E & H1 & _ & H3); [lra|].
  rewrite H. rewrite (H1 210 eq_refl) in *. rewrite (H3 (1 / 4) eq_refl) in *.
  repeat f_equal. lra.
Qed.

(** ** C70 *)
(** The density gives back the mass per unit of length or of area. *)
Theorem C70_density smallest mass size : 0 < smallest <= size -> additional_rho smallest mass size * size = mass.
Proof.
  intros (A & B). unfold additional_rho. rewrite Rmax_left by exact B. field. lra.
Qed.

(** The element set of a cell: the last one that lists it (Model.cpp:2516-2522
    assignElementsToCells). *)
Definition owner (sets : list eset) (c : nat) : option eset :=
  fold_left (fun cur s => if existsb (Nat.eqb c) (set_cells s) then Some s else cur) sets None.

Lemma owner_acc c sets : forall cur,
  fold_left (fun cur s => if existsb (Nat.eqb c) (set_cells s) then Some s else cur) sets cur
  = match owner sets c with Some s => Some s | None => cur end.
Proof.
  unfold owner. induction sets as [|s l IH]; intros cur; cbn; [reflexivity|].
  rewrite IH. rewrite (IH (if existsb _ _ then _ else _)).
  destruct (fold_left _ l None); [reflexivity|]. destruct (existsb _ _); reflexivity.
Qed.
Lemma owner_app l r c : owner (l ++ r) c = match owner r c with Some s => Some s | None => owner l c end.
Proof. unfold owner at 1. rewrite fold_left_app. apply owner_acc. Qed.
Lemma owner_one s c : owner [s] c = if existsb (Nat.eqb c) (set_cells s) then Some s else None.
Proof. reflexivity. Qed.
Lemma owner_none l c : (forall s, In s l -> ~ In c (set_cells s)) -> owner l c = None.
Proof.
  induction l as [|s l IH] using rev_ind; intros H; [reflexivity|].
  rewrite owner_app, owner_one. destruct (existsb _ _) eqn:E.
  - exfalso. apply existsb_exists in E. destruct E as (x & Ix & Ex). apply Nat.eqb_eq in Ex. subst x.
    apply (H s); [apply in_or_app; right; left; reflexivity|exact Ix].
  - apply IH. intros t It. apply H, in_or_app. left. exact It.
Qed.
Lemma member c l : existsb (Nat.eqb c) l = true <-> In c l.
Proof.
  rewrite existsb_exists. split.
  - intros (x & I & E). apply Nat.eqb_eq in E. subst. exact I.
  - intros I. exists c. split; [exact I|apply Nat.eqb_refl].
Qed.
Lemma not_member c l : existsb (Nat.eqb c) l = false <-> ~ In c l.
Proof. rewrite <- member. destruct (existsb _ _); split; intros; congruence. Qed.
Lemma owner_some l c s : owner l c = Some s -> In s l /\ In c (set_cells s).
Proof.
  induction l as [|t l IH] using rev_ind; [discriminate|]. rewrite owner_app, owner_one.
  destruct (existsb _ _) eqn:E.
  - intros X. injection X as ->. apply member in E. split; [apply in_or_app; right; left; reflexivity|exact E].
  - intros X. destruct (IH X) as (A & B). split; [apply in_or_app; left; exact A|exact B].
Qed.

(** The sets have no common cell. *)
Fixpoint disjoint (sets : list eset) : Prop :=
  match sets with
  | [] => True
  | s :: l => (forall c t, In c (set_cells s) -> In t l -> ~ In c (set_cells t)) /\ disjoint l
  end.
Lemma disjoint_snoc l s : disjoint (l ++ [s]) ->
  disjoint l /\ forall c t, In c (set_cells s) -> In t l -> ~ In c (set_cells t).
Proof.
  induction l as [|t l IH]; cbn; [intros _; split; [exact Logic.I|intros c t _ []]|].
  intros (A & B). destruct (IH B) as (C & D). split.
  - split; [|exact C]. intros c u Ic Iu. apply A; [exact Ic|]. apply in_or_app. left. exact Iu.
  - intros c u Ic [<-|Iu]; [|apply D; assumption]. intros X. apply (A c s X); [|exact Ic].
    apply in_or_app. right. left. reflexivity.
Qed.

Section Emulate.
  Variables (tol : R) (cells : list (list Z)).
  Let n := length cells.
  Definition copies_of (s : eset) : list (list Z * option Z) :=
    if is_zero tol (extra s) then [] else map (fun c => (nth c cells [], Some (mat s))) (set_cells s).

  Record inv (pre : list eset) (st : list (list Z) * list eset * list eset) : Prop := {
    i_old : exists tail, fst (fst st) = cells ++ tail;
    i_new : map (fun p => (nth p (fst (fst st)) [], option_map mat (owner (snd (fst st)) p)))
                (seq n (length (fst (fst st)) - n)) = flat_map copies_of pre;
    i_kept : forall c, (c < n)%nat ->
      option_map (fun s => (mat s, extra s)) (owner (snd (fst st)) c)
      = option_map (fun s => (mat s, extra s)) (owner pre c);
    i_added : forall c, (c < n)%nat ->
      match owner (snd st) c with
      | None => forall s, owner pre c = Some s -> is_zero tol (extra s) = true
      | Some a => (mat a < 0)%Z /\ exists s, owner pre c = Some s /\ extra a = extra s /\ is_zero tol (extra s) = false
      end;
    i_range : forall s c, In s (snd (fst st)) -> In c (set_cells s) -> (c < length (fst (fst st)))%nat;
    i_range' : forall s c, In s (snd st) -> In c (set_cells s) -> (c < n)%nat
  }.

  Lemma inv_start : inv [] (cells, [], []).
  Proof.
    constructor; cbn [fst snd].
    - exists []. rewrite app_nil_r. reflexivity.
    - unfold n. rewrite Nat.sub_diag. reflexivity.
    - intros c L. reflexivity.
    - intros c L. cbn. intros s X. discriminate.
    - intros s c [].
    - intros s c [].
  Qed.

  Lemma inv_step pre st s : disjoint (pre ++ [s]) -> (forall c, In c (set_cells s) -> (c < n)%nat) ->
    inv pre st -> inv (pre ++ [s]) (emulate_set tol st s).
  Proof.
    intros D V [Io In_ Ik Ia Ir Ir']. destruct st as [[cs ss] ad]. cbn [fst snd] in *.
    destruct Io as (tail & Et). apply disjoint_snoc in D. destruct D as (_ & D).
    assert (Ln : length cs = (n + length tail)%nat) by (rewrite Et, app_length; reflexivity).
    assert (Dp : forall c, In c (set_cells s) -> owner pre c = None).
    { intros c Ic. apply owner_none. intros t It. apply (D c t Ic It). }
    unfold emulate_set. destruct (is_zero tol (extra s)) eqn:Z.
    - (* nothing to add *)
      constructor; cbn [fst snd].
      + exists tail. exact Et.
      + rewrite flat_map_app. cbn. unfold copies_of at 2. rewrite Z, !app_nil_r. rewrite <- In_.
        apply map_ext_in. intros p Ip. apply in_seq in Ip. f_equal. rewrite owner_app, owner_one.
        destruct (existsb _ _) eqn:E; [|reflexivity]. apply member in E. apply V in E. lia.
      + intros c L. rewrite !owner_app, !owner_one. destruct (existsb _ _); [reflexivity|]. apply Ik, L.
      + intros c L. specialize (Ia c L). rewrite owner_app, owner_one.
        destruct (existsb _ _) eqn:E.
        * apply member in E. rewrite (Dp c E) in Ia.
          destruct (owner ad c); [destruct Ia as (_ & x & X & _); discriminate|].
          intros x X. injection X as <-. exact Z.
        * exact Ia.
      + intros t c It Ic. apply in_app_or in It. destruct It as [It|[<-|[]]]; [apply (Ir t c It Ic)|].
        apply V in Ic. lia.
      + exact Ir'.
    - (* the cells are copied *)
      cbv zeta. set (k := length (map (fun c => nth c cs []) (set_cells s))).
      assert (Ek : k = length (set_cells s)) by (unfold k; apply map_length).
      set (new := mkSet (mat s) (extra s) (set_cells s ++ seq (length cs) k)).
      assert (M : forall c, In c (set_cells new) <-> In c (set_cells s) \/ (length cs <= c < length cs + k)%nat).
      { intros c. cbn. rewrite in_app_iff, in_seq. reflexivity. }
      constructor; cbn [fst snd].
      + exists (tail ++ map (fun c => nth c cs []) (set_cells s)). rewrite Et, app_assoc. reflexivity.
      + rewrite app_length. fold k. rewrite flat_map_app. cbn [flat_map]. unfold copies_of at 2. rewrite Z, app_nil_r.
        replace (length cs + k - n)%nat with ((length cs - n) + k)%nat by lia.
        rewrite seq_app, map_app. f_equal.
        * rewrite <- In_. apply map_ext_in. intros p Ip. apply in_seq in Ip. f_equal.
          -- rewrite app_nth1 by lia. reflexivity.
          -- rewrite owner_app, owner_one. destruct (existsb _ _) eqn:E; [|reflexivity].
             apply member, M in E. destruct E as [E|E]; [apply V in E|]; lia.
        * replace (n + (length cs - n))%nat with (length cs) by lia.
          apply (nth_ext _ _ ([], None) ([], None)).
          { rewrite !map_length, seq_length. exact Ek. }
          intros i Li. rewrite map_length, seq_length in Li.
          assert (N1 : nth i (map (fun p => (nth p (cs ++ map (fun c => nth c cs []) (set_cells s)) [],
                                          option_map mat (owner (ss ++ [new]) p))) (seq (length cs) k)) ([], None)
                     = (nth (nth i (set_cells s) 0%nat) cs [], Some (mat s))).
          { set (f := fun p => _). transitivity (f (length cs + i)%nat).
            - rewrite (nth_indep _ _ (f 0%nat)) by (rewrite map_length, seq_length; exact Li).
              rewrite map_nth, seq_nth by exact Li. reflexivity.
            - unfold f. f_equal.
              + rewrite app_nth2 by lia. replace (length cs + i - length cs)%nat with i by lia.
                rewrite (nth_indep _ _ ((fun c => nth c cs []) 0%nat)) by (fold k; exact Li).
                rewrite (map_nth (fun c => nth c cs [])). reflexivity.
              + rewrite owner_app, owner_one.
                assert (E : existsb (Nat.eqb (length cs + i)) (set_cells new) = true) by (apply member, M; right; lia).
                rewrite E. reflexivity. }
          rewrite N1. set (g := fun c => (nth c cells [], Some (mat s))).
          rewrite (nth_indep _ _ (g 0%nat)) by (rewrite map_length; lia).
          rewrite map_nth. unfold g. f_equal. rewrite Et, app_nth1; [reflexivity|].
          apply V, nth_In. lia.
      + intros c L. rewrite !owner_app, !owner_one.
        assert (E : existsb (Nat.eqb c) (set_cells new) = existsb (Nat.eqb c) (set_cells s)).
        { apply eq_true_iff_eq. rewrite !member, M. split; [intros [H|H]; [exact H|lia]|auto]. }
        rewrite E. destruct (existsb (Nat.eqb c) (set_cells s)); [reflexivity|]. apply Ik, L.
      + intros c L. specialize (Ia c L). rewrite !owner_app, !owner_one. cbn [set_cells].
        destruct (existsb _ _) eqn:E.
        * split; [cbn [mat]; lia|]. exists s. split; [reflexivity|]. split; [reflexivity|exact Z].
        * exact Ia.
      + intros t c It Ic. rewrite app_length. fold k. apply in_app_or in It. destruct It as [It|[<-|[]]].
        * specialize (Ir t c It Ic). lia.
        * apply M in Ic. destruct Ic as [Ic|Ic]; [apply V in Ic|]; lia.
      + intros t c It Ic. apply in_app_or in It. destruct It as [It|[<-|[]]]; [apply (Ir' t c It Ic)|].
        apply V. exact Ic.
  Qed.

  Lemma inv_all sets : disjoint sets -> (forall s c, In s sets -> In c (set_cells s) -> (c < n)%nat) ->
    inv sets (fold_left (emulate_set tol) sets (cells, [], [])).
  Proof.
    induction sets as [|s l IH] using rev_ind; intros D V; [apply inv_start|].
    rewrite fold_left_app. cbn [fold_left]. apply inv_step; [exact D| |].
    - intros c. apply V, in_or_app. right. left. reflexivity.
    - apply IH; [apply disjoint_snoc in D; apply D|]. intros t c It. apply V, in_or_app. left. exact It.
  Qed.
End Emulate.

(** After the emulation: the cells of before are still there; the new ones are
    exactly one copy of each cell of a set with additional mass, in order, with
    the nodes of the cell and the material of its set; and each cell of before is
    that of a material which has only the density of additional mass of its set,
    or, without additional mass, keeps its material. *)
Theorem C70_mass_added_once tol cells sets cells' sets' :
  disjoint sets -> (forall s c, In s sets -> In c (set_cells s) -> (c < length cells)%nat) ->
  emulate_mass tol cells sets = (cells', sets') ->
  firstn (length cells) cells' = cells
  /\ map (fun p => (nth p cells' [], option_map mat (owner sets' p)))
         (seq (length cells) (length cells' - length cells))
     = flat_map (fun s => if is_zero tol (extra s) then []
                          else map (fun c => (nth c cells [], Some (mat s))) (set_cells s)) sets
  /\ (forall s c, In s sets -> In c (set_cells s) ->
      exists t, owner sets' c = Some t /\ extra t = extra s
        /\ if is_zero tol (extra s) then mat t = mat s else (mat t < 0)%Z)
  /\ (forall c, (c < length cells)%nat -> (forall s, In s sets -> ~ In c (set_cells s)) -> owner sets' c = None).
Proof.
  intros D V E. unfold emulate_mass in E. pose proof (inv_all tol cells sets D V) as I.
  destruct (fold_left _ _ _) as [[cs ss] ad]. injection E as <- <-. destruct I as [Io In_ Ik Ia Ir Ir'].
  cbn [fst snd] in *. destruct Io as (tail & Et). split; [|split; [|split]].
  - rewrite Et, firstn_app, Nat.sub_diag, firstn_all, firstn_O, app_nil_r. reflexivity.
  - transitivity (flat_map (copies_of tol cells) sets); [|reflexivity]. rewrite <- In_. apply map_ext_in. intros p Ip. apply in_seq in Ip. f_equal. rewrite owner_app.
    rewrite (owner_none ad); [reflexivity|]. intros t It Ic. specialize (Ir' t p It Ic). lia.
  - intros s c Is Ic. specialize (V s c Is Ic). specialize (Ia c V). specialize (Ik c V). rewrite owner_app.
    assert (O : owner sets c = Some s).
    { clear - D Is Ic. induction sets as [|t l IH] using rev_ind; [destruct Is|].
      apply disjoint_snoc in D. destruct D as (D & D'). rewrite owner_app, owner_one.
      apply in_app_or in Is. destruct Is as [Is|[<-|[]]].
      - destruct (existsb _ _) eqn:E; [|apply IH; assumption].
        exfalso. apply member in E. apply (D' c s E Is Ic).
      - apply member in Ic. rewrite Ic. reflexivity. }
    destruct (owner ad c) as [a|] eqn:Oa.
    + destruct Ia as (N & x & Ox & Ex & Zx). assert (x = s) by congruence. subst x.
      exists a. split; [reflexivity|]. split; [exact Ex|]. rewrite Zx. exact N.
    + specialize (Ia s O). rewrite O in Ik. cbn in Ik. destruct (owner ss c) as [t|]; [|discriminate].
      cbn in Ik. injection Ik as E1 E2. exists t. split; [reflexivity|]. split; [exact E2|]. rewrite Ia. exact E1.
  - intros c L N. specialize (Ia c L). specialize (Ik c L). rewrite (owner_none sets c N) in Ia, Ik.
    rewrite owner_app. destruct (owner ad c); [destruct Ia as (_ & x & X & _); discriminate|].
    destruct (owner ss c); [discriminate|reflexivity].
Qed.

Example C70_example :
  let sets := [mkSet 7 (1 / 2) [0; 2]%nat; mkSet 8 0 [1]%nat] in
  disjoint sets /\ (forall s c, In s sets -> In c (set_cells s) -> (c < 3)%nat)
  /\ emulate_mass 0 [[1; 2]; [2; 3]; [3; 4]]%Z sets
     = ([[1; 2]; [2; 3]; [3; 4]; [1; 2]; [3; 4]]%Z,
        [mkSet 7 (1 / 2) [0; 2; 3; 4]%nat; mkSet 8 0 [1]%nat; mkSet (-1) (1 / 2) [0; 2]%nat]).
Proof.
  split; [|split].
  - cbn. split; [|split; [|exact Logic.I]].
    + intros c t [<-|[<-|[]]] [<-|[]]; cbn; lia.
    + intros c t _ [].
  - intros s c [<-|[<-|[]]]; cbn; lia.
  - unfold emulate_mass, emulate_set, is_zero. cbn.
    destruct (Rle_dec (Rabs (1 / 2)) 0) as [X|X].
    + exfalso. rewrite Rabs_right in X; lra.
    + destruct (Rle_dec (Rabs 0) 0) as [Y|Y]; [reflexivity|]. exfalso. apply Y. rewrite Rabs_R0. lra.
Qed.

Print Assumptions C45_consistent.
Print Assumptions C46_circular.
Print Assumptions C46_i_section.
Print Assumptions C46_torsion_partial.
Print Assumptions C70_mass_added_once.

(** Torsion of I sections with slender walls: between the sum of the torsion
    constants of the three walls taken as rectangles and the sum of their polar
    moments about their own centres. *)
Definition slender (w : R * R) : Prop := 0 < snd w /\ 2 * snd w <= fst w.
Definition wall_polar (w : R * R) (p : R) : Prop :=
  exists y2 z2, y2_is (rectangle (fst w) (snd w)) y2 /\ z2_is (rectangle (fst w) (snd w)) z2 /\ p = y2 + z2.
Definition wall_torsion (w : R * R) : R := torsion (Rectangular (fst w) (snd w)).
Lemma wall_bounds w : slender w -> exists p, wall_polar w p /\ wall_torsion w <= fst w * snd w ^ 3 / 3 <= p.
Proof.
  destruct w as [b t]. intros (T & B). cbn [fst snd] in *.
  destruct (C46_rectangular 0 b t (Rectangular b t) eq_refl) as (_ & Z2 & (iz & Ez & Y2) & _). cbn in Ez. injection Ez as <-.
  exists (t ^ 3 * b / 12 + inertia_y (Rectangular b t)). split.
  - exists (t ^ 3 * b / 12), (inertia_y (Rectangular b t)). split; [exact Y2|]. split; [exact Z2|reflexivity].
  - unfold wall_torsion. cbn [torsion inertia_y fst snd]. assert (P : 0 < b * t ^ 3) by (apply Rmult_lt_0_compat; [lra|apply pow_lt; exact T]). split.
    + assert (N : 0 <= 21 / 100 * t * (1 - t ^ 4 / (12 * b ^ 4)) / b).
      { assert (t ^ 4 / (12 * b ^ 4) <= 1).
        { assert (0 < b ^ 4) by (apply pow_lt; lra). apply (Rmult_le_reg_r (12 * b ^ 4)); [lra|]. unfold Rdiv. rewrite Rmult_assoc, Rinv_l by lra.
          assert (t ^ 4 <= b ^ 4) by (apply pow_incr; lra). lra. }
        unfold Rdiv at 1. apply Rmult_le_pos; [|left; apply Rinv_0_lt_compat; lra]. apply Rmult_le_pos; lra. }
      nra.
    + assert (0 <= (b ^ 2 - 3 * t ^ 2)) by nra. assert (0 <= b * t * (b ^ 2 - 3 * t ^ 2)) by (apply Rmult_le_pos; [apply Rmult_le_pos; lra|assumption]). nra.
Qed.
Theorem C46_i_torsion height lower_width upper_width web lower_thickness upper_thickness s :
  section_of I [height; lower_width; upper_width; web; lower_thickness; upper_thickness] = Some s ->
  let w1 := (lower_width, lower_thickness) in let w2 := (upper_width, upper_thickness) in
  let w3 := (height - lower_thickness - upper_thickness, web) in
  slender w1 -> slender w2 -> slender w3 ->
  exists p1 p2 p3, wall_polar w1 p1 /\ wall_polar w2 p2 /\ wall_polar w3 p3 /\
    wall_torsion w1 + wall_torsion w2 + wall_torsion w3 <= torsion s <= p1 + p2 + p3.
Proof.
  intros E w1 w2 w3 H1 H2 H3. injection E as <-. destruct (wall_bounds _ H1) as (p1 & A1 & B1), (wall_bounds _ H2) as (p2 & A2 & B2), (wall_bounds _ H3) as (p3 & A3 & B3).
  exists p1, p2, p3. split; [exact A1|]. split; [exact A2|]. split; [exact A3|]. unfold w1, w2, w3 in *. cbn [torsion fst snd] in *. lra.
Qed.
Example C46_i_torsion_case : section_of I [10; 4; 4; 1; 2; 2] = Some (ISection 4 4 2 2 10 1) /\ slender (4, 2) /\ slender (10 - 2 - 2, 1)
  /\ torsion (ISection 4 4 2 2 10 1) = 70 / 3.
Proof. split; [reflexivity|]. unfold slender. cbn [fst snd torsion]. repeat split; lra. Qed.
Print Assumptions C46_i_torsion.

(** Each set with additional mass has a material of its own. *)
Theorem C70_own_material tol cells sets cells' sets' : (forall s, In s sets -> (0 <= mat s)%Z) ->
  emulate_mass tol cells sets = (cells', sets') ->
  forall i j s t, nth_error sets' i = Some s -> nth_error sets' j = Some t -> (mat s < 0)%Z -> mat s = mat t -> i = j.
Proof.
  intros P E. unfold emulate_mass in E.
  assert (G : forall l cs ss ad, fold_left (emulate_set tol) l (cells, [], []) = (cs, ss, ad) -> (forall s, In s l -> (0 <= mat s)%Z) ->
     (forall s, In s ss -> (0 <= mat s)%Z) /\ forall k a, nth_error ad k = Some a -> mat a = (-1 - Z.of_nat k)%Z).
  { induction l as [|s l IH] using rev_ind; intros cs ss ad H Q.
    - cbn in H. injection H as <- <- <-. split; [intros s []|]. intros [|k] a X; discriminate X.
    - rewrite fold_left_app in H. cbn [fold_left] in H. destruct (fold_left (emulate_set tol) l (cells, [], [])) as [[cs0 ss0] ad0] eqn:F0.
      destruct (IH _ _ _ eq_refl) as [I1 I2]; [intros x Hx; apply Q, in_or_app; now left|].
      assert (Qs : (0 <= mat s)%Z) by (apply Q, in_or_app; right; now left).
      unfold emulate_set in H. destruct (is_zero tol (extra s)); injection H as <- <- <-.
      + split; [|exact I2]. intros x Hx. apply in_app_or in Hx as [Hx|[<-|[]]]; auto.
      + split; [intros x Hx; apply in_app_or in Hx as [Hx|[<-|[]]]; auto|].
        intros k a X. destruct (Nat.ltb_spec k (length ad0)) as [L|L].
        * rewrite nth_error_app1 in X by exact L. auto.
        * rewrite nth_error_app2 in X by exact L. destruct (k - length ad0)%nat eqn:K; [|destruct n; discriminate X]. cbn [nth_error] in X. injection X as <-. cbn [mat]. assert (k = length ad0) as -> by lia. reflexivity. }
  destruct (fold_left _ _ _) as [[cs ss] ad] eqn:F. injection E as <- <-. destruct (G _ _ _ _ F P) as [G1 G2].
  intros i j s t Hi Hj N Em.
  assert (K : forall i s, nth_error (ss ++ ad) i = Some s -> (mat s < 0)%Z -> (Z.of_nat i = Z.of_nat (length ss) + (-1 - mat s))%Z).
  { intros i0 s0 H0 N0. destruct (Nat.ltb_spec i0 (length ss)) as [L|L].
    - rewrite nth_error_app1 in H0 by exact L. apply nth_error_In in H0. apply G1 in H0. lia.
    - rewrite nth_error_app2 in H0 by exact L. apply G2 in H0. lia. }
  pose proof (K _ _ Hi N). pose proof (K _ _ Hj ltac:(lia)). lia.
Qed.
Print Assumptions C70_own_material.
