(** C112: gap elements. *)
From Coq Require Import Ascii String Reals Lra ZArith List Bool Arith Lia.
From Verif Require Import Base ZMap TextModel TextProofs DofModel TokenizerModel NextIntsProofs RealModel CardModel LoadCardModel FieldProofs PropCardModel PropertiesPropCards OrientModel PropertiesOrient GeomModel GeomProofs GapModel.
Import ListNotations.
Open Scope nat_scope.
Open Scope list_scope.

(** ** The specification *)

(** What a command file says: constants by name (the last definition counts), and the
    unilateral relations: the sum of coefficients times displacements is at most the bound. *)
Definition gkey_eq (a b : gkey) : bool := match a, b with KI, KI => true | KX, KX => true | KY, KY => true | KZ, KZ => true | _, _ => false end.
Definition key_eq (a b : key) : bool := gkey_eq (fst a) (fst b) && Nat.eqb (snd a) (snd b).
Definition value (defs : list (key * R)) (k : key) : option R :=
  match find (fun d => key_eq (fst d) k) (rev defs) with Some d => Some (snd d) | None => None end.
Record relation := mkRelation { r_node : Z; r_bound : R; r_terms : list (dof * R) }.
Definition values (defs : list (key * R)) (l : list key) : option (list R) :=
  fold_right (fun k r => match value defs k, r with Some v, Some l => Some (v :: l) | _, _ => None end) (Some []) l.
(** None: a constant is used that nobody defined. *)
Definition read_zone (defs : list (key * R)) (z : zone) : option relation :=
  match value defs (z_impo z), values defs (z_mult z) with
  | Some b, Some l => Some (mkRelation (z_node z) b (combine (z_cmp z) l))
  | _, _ => None
  end.
Definition component (v : vec) (d : dof) : R := match d with DX => vx v | DY => vy v | DZ => vz v | _ => 0%R end.
(** A displacement of the nodes satisfies a relation. *)
Definition satisfies (u : Z -> vec) (r : relation) : Prop :=
  (fold_right (fun t s => snd t * component (u (r_node r)) (fst t) + s) 0 (r_terms r) <= r_bound r)%R.
(** The unit vector from a point to another. *)
Definition unit_vector (a b d : vec) : Prop := dot d d = 1%R /\ exists k, (0 < k)%R /\ vsub b a = vscale k d.
(** The gap between two nodes is closed by no more than it is open. *)
Definition gap_respected (u : Z -> vec) (a b : Z) (d : vec) (o : R) : Prop := (dot (vsub (u a) (u b)) d <= o)%R.

(** ** Cards *)
Theorem C112_cgap : forall vec eid pid ga gb d, int_at vec 1 eid -> int_or eid vec 2 pid -> int_at vec 3 ga -> int_at vec 4 gb -> plane_at vec d -> (exists c, int_or 0 vec 8 c) ->
  parseCGAP (at_field vec 1) = Ok (Cgap pid ga gb).
Proof.
  intros vec eid pid ga gb d H1 H2 H3 H4 H5 [c H6]. unfold parseCGAP. rewrite (f_int _ _ _ H1). cbn [bind]. rewrite (f_intdef eid _ _ _ H2). cbn [bind]. rewrite (f_int _ _ _ H3). cbn [bind].
  rewrite (f_int _ _ _ H4). cbn [bind]. rewrite (plane_read _ _ H5). cbn [bind]. rewrite (f_intdef 0%Z _ _ _ H6). reflexivity.
Qed.
(** A gap oriented by a coordinate system alone is refused. *)
Theorem C112_cid_refuted : forall vec eid pid ga gb c, int_at vec 1 eid -> int_or eid vec 2 pid -> int_at vec 3 ga -> int_at vec 4 gb ->
  field vec 5 = [] -> field vec 6 = [] -> field vec 7 = [] -> int_at vec 8 c -> parseCGAP (at_field vec 1) = Throw.
Proof.
  intros vec eid pid ga gb c H1 H2 H3 H4 B5 B6 B7 H8. unfold parseCGAP. rewrite (f_int _ _ _ H1). cbn [bind]. rewrite (f_intdef eid _ _ _ H2). cbn [bind]. rewrite (f_int _ _ _ H3). cbn [bind].
  rewrite (f_int _ _ _ H4). cbn [bind]. unfold parse_orientation. cbv zeta. rewrite cvec_at. change (nth 6 vec []) with (field vec 6). rewrite B6. cbn [null]. rewrite orb_true_r. cbn [orb].
  unfold nextInt. rewrite next_field, B5. reflexivity.
Qed.
Theorem C112_pgap : forall vec pid u0 ka, int_at vec 1 pid -> real_or (0, 0)%Z vec 2 u0 -> real_at vec 4 ka ->
  (exists v, real_or (0, 0)%Z vec 3 v) -> (forall i, i = 5 \/ i = 7 \/ i = 8 \/ i = 10 \/ i = 11 \/ i = 12 -> exists v, real_or (0, 0)%Z vec i v) -> (exists v, real_opt vec 6 v) ->
  parsePGAP (at_field vec 1) = Ok (Pgap pid u0).
Proof.
  intros vec pid u0 ka H1 H2 H4 [v3 H3] H [v6 H6].
  destruct (H 5 ltac:(tauto)) as [v5 H5]. destruct (H 7 ltac:(tauto)) as [v7 H7]. destruct (H 8 ltac:(tauto)) as [v8 H8]. destruct (H 10 ltac:(tauto)) as [v10 H10]. destruct (H 11 ltac:(tauto)) as [v11 H11]. destruct (H 12 ltac:(tauto)) as [v12 H12].
  unfold parsePGAP. rewrite (f_int _ _ _ H1). cbn [bind]. rewrite (f_doubledef _ _ _ _ H2). cbn [bind]. rewrite (f_doubledef _ _ _ _ H3). cbn [bind]. rewrite (f_double _ _ _ H4). cbn [bind].
  rewrite (f_doubledef _ _ _ _ H5). cbn [bind]. rewrite (f_optdouble _ _ _ H6). cbn [bind]. rewrite (f_doubledef _ _ _ _ H7). cbn [bind]. rewrite (f_doubledef _ _ _ _ H8). cbn [bind].
  rewrite f_skipn. cbn [bind]. change (9 + 1) with 10. rewrite (f_doubledef _ _ _ _ H10). cbn [bind]. rewrite (f_doubledef _ _ _ _ H11). cbn [bind]. rewrite (f_doubledef _ _ _ _ H12). reflexivity.
Qed.

(** The last card that says something of a property, or of a node of a property. *)
Definition last_of {A B} (f : A -> option B) (l : list A) : option B := fold_left (fun r c => match f c with Some x => Some x | None => r end) l None.
Definition opens (pid : Z) (c : gcard) : option decimal := match c with Pgap p u => if (p =? pid)%Z then Some u else None | _ => None end.
Definition faces (pid a : Z) (c : gcard) : option Z := match c with Cgap p x y => if (p =? pid)%Z && (x =? a)%Z then Some y else None | _ => None end.
Definition gwf (gs : gaps) : Prop := zmap_wf gs /\ forall p g, zfind gs p = Some g -> zmap_wf (g_nodes g).
Lemma gap_of_wf gs p : gwf gs -> zmap_wf (g_nodes (gap_of gs p)).
Proof. intros [_ W]. unfold gap_of. destruct (zfind gs p) eqn:E; [exact (W _ _ E)|apply zmap_wf_nil]. Qed.
Lemma gadd_wf gs c : gwf gs -> gwf (gadd gs c).
Proof.
  intros G. pose proof G as [W N]. destruct c as [p a b|p u]; cbn [gadd]; (split; [now apply zinsert_wf|]); intros q g H; rewrite zfind_insert in H by exact W; destruct (Z.eqb_spec p q); try exact (N _ _ H); injection H as <-; cbn [g_nodes]; [apply zinsert_wf|]; now apply gap_of_wf.
Qed.
Lemma gap_of_insert gs p g q : gwf gs -> gap_of (zinsert gs p g) q = if (p =? q)%Z then g else gap_of gs q.
Proof. intros [W _]. unfold gap_of. rewrite zfind_insert by exact W. destruct (Z.eqb_spec p q); reflexivity. Qed.
Lemma fold_snoc {A B} (f : A -> B -> A) l x a : fold_left f (l ++ [x]) a = f (fold_left f l a) x.
Proof. now rewrite fold_left_app. Qed.
Lemma last_snoc {A B} (f : A -> option B) l x : last_of f (l ++ [x]) = match f x with Some y => Some y | None => last_of f l end.
Proof. unfold last_of. now rewrite fold_snoc. Qed.
(** Whatever the order of the cards: the opening is that of the last PGAP, zero without
    one, and the second node that of the last CGAP with that first node. *)
Theorem C112_cards : forall l pid,
  g_open (gap_of (gadds l) pid) = match last_of (opens pid) l with Some u => u | None => (0, 0)%Z end /\
  (forall a, zfind (g_nodes (gap_of (gadds l) pid)) a = last_of (faces pid a) l) /\ zmap_wf (g_nodes (gap_of (gadds l) pid)).
Proof.
  intros l pid.
  enough (H : gwf (gadds l) /\ g_open (gap_of (gadds l) pid) = match last_of (opens pid) l with Some u => u | None => (0, 0)%Z end /\ (forall a, zfind (g_nodes (gap_of (gadds l) pid)) a = last_of (faces pid a) l)).
  { destruct H as (W & A & B). split; [exact A|]. split; [exact B|]. now apply gap_of_wf. }
  induction l as [|c l (W & A & B)] using rev_ind.
  - split; [split; [apply zmap_wf_nil|intros p g H; discriminate H]|]. now split.
  - unfold gadds in *. rewrite fold_snoc. set (gs := fold_left gadd l []) in *. split; [now apply gadd_wf|].
    split; [|intros a]; rewrite last_snoc; destruct c as [p x y|p u]; cbn [gadd opens faces]; rewrite gap_of_insert by exact W; destruct (Z.eqb_spec p pid) as [E|E]; cbn [andb g_open g_nodes]; try exact A; try apply B; try (rewrite E; exact A); try reflexivity.
    + rewrite E. rewrite zfind_insert by now apply gap_of_wf. destruct (x =? a)%Z; [reflexivity|apply B].
    + rewrite E. apply B.
Qed.
(** Two gap elements with the same property and the same first node: the first is lost. *)
Theorem C112_shared_refuted : forall l pid a b b', b <> b' ->
  zfind (g_nodes (gap_of (gadds (l ++ [Cgap pid a b; Cgap pid a b'])) pid)) a = Some b'.
Proof.
  intros l pid a b b' _. rewrite (proj1 (proj2 (C112_cards _ pid))). change [Cgap pid a b; Cgap pid a b'] with ([Cgap pid a b] ++ [Cgap pid a b']). rewrite app_assoc, last_snoc. cbn [faces]. rewrite !Z.eqb_refl. reflexivity.
Qed.

(** ** What is written *)
Lemma key_eq_spec a b : key_eq a b = true <-> a = b.
Proof.
  destruct a as [x i], b as [y j]. unfold key_eq. cbn [fst snd]. rewrite andb_true_iff, Nat.eqb_eq. split; [|intros [= <- <-]; split; [now destruct x|reflexivity]].
  intros [H <-]. destruct x, y; (reflexivity || discriminate).
Qed.
Lemma find_unique (l : list (key * R)) k v : In (k, v) l -> (forall v', In (k, v') l -> v' = v) -> value l k = Some v.
Proof.
  intros H U. unfold value. destruct (find _ (rev l)) as [[k' v']|] eqn:E.
  - apply find_some in E as [I Q]. apply key_eq_spec in Q. cbn [fst] in Q. subst k'. rewrite <- in_rev in I. now rewrite (U v' I).
  - assert (X := find_none _ _ E (k, v)). rewrite <- in_rev in X. specialize (X H). cbn [fst] in X. assert (T : key_eq k k = true) by now apply key_eq_spec. congruence.
Qed.
Lemma value_none (l : list (key * R)) k : (forall v, ~ In (k, v) l) -> value l k = None.
Proof.
  intros H. unfold value. destruct (find _ (rev l)) as [[k' v']|] eqn:E; [|reflexivity]. apply find_some in E as [I Q]. apply key_eq_spec in Q. cbn [fst] in Q. subst k'. rewrite <- in_rev in I. destruct (H v' I).
Qed.
Lemma in_unless {A} b (l : list A) x : In x (unless b l) <-> b = false /\ In x l.
Proof. destruct b; cbn; [split; [intros []|intros [H _]; discriminate]|tauto]. Qed.
(** The constants of the parts numbered from [i]. *)
Lemma in_counted {A B} (f : nat -> A -> B) : forall l i x, In x (counted f i l) <-> exists j a, nth_error l j = Some a /\ x = f (i + j) a.
Proof.
  induction l as [|a l IH]; intros i x; cbn [counted In].
  - split; [intros []|intros ([|j] & y & H & _); discriminate H].
  - rewrite IH. split.
    + intros [<- |(j & y & H & ->)]; [exists 0, a; now rewrite Nat.add_0_r|exists (S j), y; split; [exact H|]; now rewrite Nat.add_succ_r].
    + intros ([|j] & y & H & ->); cbn [nth_error] in H; [injection H as ->; left; now rewrite Nat.add_0_r|right; exists j, y; split; [exact H|]; now rewrite Nat.add_succ_r].
Qed.
Lemma nth_counted {A B} (f : nat -> A -> B) : forall l i j, nth_error (counted f i l) j = match nth_error l j with Some a => Some (f (i + j) a) | None => None end.
Proof. induction l as [|a l IH]; intros i [|j]; cbn [counted nth_error]; try reflexivity; [now rewrite Nat.add_0_r|]. rewrite IH. now rewrite Nat.add_succ_r. Qed.
Lemma in_constants k o d x v : In (x, v) (constants k o d) <->
  (x = (KI, k) /\ v = o) \/ (x = (KX, k) /\ v = vx d /\ is_zero (vx d) = false) \/ (x = (KY, k) /\ v = vy d /\ is_zero (vy d) = false) \/ (x = (KZ, k) /\ v = vz d /\ is_zero (vy d) = false).
Proof.
  unfold constants. cbn [In]. rewrite !in_app_iff, !in_unless. cbn [In].
  split.
  - intros [H|[[Z [H|[]]]|[[Z [H|[]]]|[Z [H|[]]]]]]; injection H as <- <-; tauto.
  - intros [[-> ->]|[(-> & -> & H)|[(-> & -> & H)|(-> & -> & H)]]]; tauto.
Qed.
Lemma in_gap_constants at_ g x v : In (x, v) (gap_constants at_ g) <-> exists j p, nth_error (getGaps at_ g) j = Some p /\ In (x, v) (constants (S j) (dec_R (g_open g)) (snd p)).
Proof.
  unfold gap_constants. rewrite in_concat. split.
  - intros (l & H & I). apply in_counted in H as (j & p & H & ->). now exists j, p.
  - intros (j & p & H & I). eexists. split; [|exact I]. apply in_counted. now exists j, p.
Qed.
Lemma key_index k o d x v : In (x, v) (constants k o d) -> snd x = k.
Proof. intros H. apply in_constants in H. destruct H as [[-> _]|[[-> _]|[[-> _]|[-> _]]]]; reflexivity. Qed.
Lemma constant_value at_ g j p x v : nth_error (getGaps at_ g) j = Some p -> In (x, v) (constants (S j) (dec_R (g_open g)) (snd p)) -> value (gap_constants at_ g) x = Some v.
Proof.
  intros H I. apply find_unique; [apply in_gap_constants; eauto|]. intros v' H'. apply in_gap_constants in H' as (j' & p' & E' & I').
  assert (Q : S j' = S j) by (rewrite <- (key_index _ _ _ _ _ I), <- (key_index _ _ _ _ _ I'); reflexivity). injection Q as ->. rewrite H in E'. injection E' as <-.
  apply in_constants in I. apply in_constants in I'. destruct I as [[-> ->]|[(-> & -> & _)|[(-> & -> & _)|(-> & -> & _)]]]; destruct I' as [[E ->]|[(E & -> & _)|[(E & -> & _)|(E & -> & _)]]]; (reflexivity || discriminate E).
Qed.

(** Along z the direction has a component along y too. *)
Definition leans (d : vec) : Prop := is_zero (vy d) = true -> is_zero (vz d) = true.
(** The components kept. *)
Definition terms (d : vec) : list (dof * R) := unless (is_zero (vx d)) [(DX, vx d)] ++ unless (is_zero (vy d)) [(DY, vy d)] ++ unless (is_zero (vz d)) [(DZ, vz d)].
Lemma zone_read at_ g j p : nth_error (getGaps at_ g) j = Some p -> leans (snd p) ->
  read_zone (gap_constants at_ g) (zone_of (S j) (fst p) (snd p)) = Some (mkRelation (fst p) (dec_R (g_open g)) (terms (snd p))).
Proof.
  intros H L. unfold read_zone. cbn [z_impo z_mult z_cmp z_node zone_of]. set (d := snd p) in *.
  assert (C : forall x v, In (x, v) (constants (S j) (dec_R (g_open g)) d) -> value (gap_constants at_ g) x = Some v) by (intros x v; now apply constant_value).
  rewrite (C (KI, S j) (dec_R (g_open g))) by (apply in_constants; now left).
  assert (X : is_zero (vx d) = false -> value (gap_constants at_ g) (KX, S j) = Some (vx d)) by (intros; apply C, in_constants; tauto).
  assert (Y : is_zero (vy d) = false -> value (gap_constants at_ g) (KY, S j) = Some (vy d)) by (intros; apply C, in_constants; tauto).
  assert (Z : is_zero (vy d) = false -> value (gap_constants at_ g) (KZ, S j) = Some (vz d)) by (intros; apply C, in_constants; tauto).
  unfold terms, leans in *.
  destruct (is_zero (vx d)), (is_zero (vy d)), (is_zero (vz d)); cbn [unless app values fold_right combine]; try (discriminate (L eq_refl)); try rewrite (X eq_refl); try rewrite (Y eq_refl); try rewrite (Z eq_refl); reflexivity.
Qed.
Lemma zones_nth at_ g j : nth_error (gap_zones at_ g) j = match nth_error (getGaps at_ g) j with Some p => Some (zone_of (S j) (fst p) (snd p)) | None => None end.
Proof. unfold gap_zones. apply nth_counted. Qed.
Lemma getGaps_nth at_ g j : nth_error (getGaps at_ g) j = match nth_error (g_nodes g) j with Some ab => Some (fst ab, normalized (vsub (at_ (snd ab)) (at_ (fst ab)))) | None => None end.
Proof. unfold getGaps. rewrite nth_error_map. destruct (nth_error (g_nodes g) j); reflexivity. Qed.
Lemma unit_direction a b : a <> b -> unit_vector a b (normalized (vsub b a)).
Proof.
  intros N. assert (H : vsub b a <> vzero).
  { intros E. apply N. destruct a as [a1 a2 a3], b as [b1 b2 b3]. unfold vsub, vzero in E. cbn in E. injection E as E1 E2 E3. f_equal; lra. }
  split; [now apply normalized_unit|]. exists (norm (vsub b a)). split; [now apply norm_pos|]. now rewrite normalized_back.
Qed.

(** A set with one gap: every pair of nodes has its line, with the opening of the gap and
    the components of the unit vector from the first node to the second. *)
Theorem C112_written_partial : forall at_ g j a b, nth_error (g_nodes g) j = Some (a, b) -> at_ a <> at_ b ->
  (forall d, unit_vector (at_ a) (at_ b) d -> leans d) ->
  let '(defs, zones) := writeGaps at_ [g] in length zones = length (g_nodes g) /\
  exists z d, nth_error zones j = Some z /\ unit_vector (at_ a) (at_ b) d /\ read_zone defs z = Some (mkRelation a (dec_R (g_open g)) (terms d)).
Proof.
  intros at_ g j a b H N L. unfold writeGaps. cbn [flat_map]. rewrite !app_nil_r. split.
  { unfold gap_zones, getGaps. assert (C : forall (A B : Type) (f : nat -> A -> B) l i, length (counted f i l) = length l) by (intros A B f; induction l as [|x l IH]; intros i; cbn [counted length]; [reflexivity|now rewrite IH]). now rewrite C, map_length. }
  pose proof (getGaps_nth at_ g j) as G. rewrite H in G. cbn [fst snd] in G. pose proof (unit_direction _ _ N) as U.
  eexists _, _. split; [rewrite zones_nth, G; reflexivity|]. cbn [fst snd]. split; [exact U|]. exact (zone_read at_ g j _ G (L _ U)).
Qed.

(** No component so small that it is dropped. *)
Definition sharp (d : vec) : Prop := forall c, In c [vx d; vy d; vz d] -> c = 0%R \/ (5 * / 2 ^ 52 < Rabs c)%R.
Lemma sharp_zero c : c = 0%R \/ (5 * / 2 ^ 52 < Rabs c)%R -> (is_zero c = true /\ c = 0%R) \/ is_zero c = false.
Proof.
  intros H. unfold is_zero. destruct (Rle_dec (Rabs c) (5 * / 2 ^ 52)) as [L|L]; [left|now right]. split; [reflexivity|]. destruct H as [H|H]; [exact H|]. apply Rlt_not_le in H. contradiction.
Qed.
Lemma satisfies_terms u n o d : sharp d -> satisfies u (mkRelation n o (terms d)) <-> (dot (u n) d <= o)%R.
Proof.
  intros S. unfold satisfies. cbn [r_node r_bound r_terms].
  assert (E : fold_right (fun t s => (snd t * component (u n) (fst t) + s)%R) 0%R (terms d) = dot (u n) d).
  { unfold terms, dot. destruct (sharp_zero _ (S (vx d) ltac:(cbn; tauto))) as [[-> X]| ->]; destruct (sharp_zero _ (S (vy d) ltac:(cbn; tauto))) as [[-> Y]| ->]; destruct (sharp_zero _ (S (vz d) ltac:(cbn; tauto))) as [[-> Z]| ->];
    cbn [unless app fold_right fst snd component]; try rewrite X; try rewrite Y; try rewrite Z; ring. }
  rewrite E. reflexivity.
Qed.
(** What the line means: the displacement of the first node along the gap is at most the
    opening; this is the gap if the second node does not move. *)
Theorem C112_meaning_partial : forall u a b d o, sharp d -> u b = vzero -> satisfies u (mkRelation a o (terms d)) <-> gap_respected u a b d o.
Proof.
  intros u a b d o S B. rewrite (satisfies_terms u a o d S). unfold gap_respected. rewrite B.
  assert (E : dot (vsub (u a) vzero) d = dot (u a) d) by (unfold dot, vsub, vzero; cbn; ring). now rewrite E.
Qed.
(** ... and it is not if the second node moves: the bodies go through one another. *)
Theorem C112_second_node_refuted : forall a b d o, a <> b -> dot d d = 1%R -> sharp d -> (0 <= o)%R ->
  exists u, satisfies u (mkRelation a o (terms d)) /\ ~ gap_respected u a b d o.
Proof.
  intros a b d o N U S O. exists (fun n => if (n =? b)%Z then vscale (- (o + 1)) d else vzero). split.
  - rewrite (satisfies_terms _ a o d S). apply Z.eqb_neq in N. rewrite N. unfold dot, vzero. cbn. lra.
  - unfold gap_respected. rewrite Z.eqb_refl. apply Z.eqb_neq in N. rewrite N.
    assert (E : dot (vsub vzero (vscale (- (o + 1)) d)) d = ((o + 1) * dot d d)%R) by (unfold dot, vsub, vzero, vscale; cbn; ring). rewrite E, U. lra.
Qed.
(** A gap along z: the coefficient is a constant that is not defined. *)
Theorem C112_z_refuted : forall at_ g a b, g_nodes g = [(a, b)] -> at_ a <> at_ b -> (forall d, unit_vector (at_ a) (at_ b) d -> ~ leans d) ->
  let '(defs, zones) := writeGaps at_ [g] in exists z, zones = [z] /\ z_node z = a /\ read_zone defs z = None.
Proof.
  intros at_ g a b H N L. unfold writeGaps. cbn [flat_map]. rewrite !app_nil_r. specialize (L _ (unit_direction _ _ N)). set (d := normalized (vsub (at_ b) (at_ a))) in *.
  assert (G : getGaps at_ g = [(a, d)]) by (unfold getGaps; rewrite H; reflexivity).
  assert (Y : is_zero (vy d) = true) by (destruct (is_zero (vy d)) eqn:Y; [reflexivity|elim L; intros X; congruence]).
  assert (Z : is_zero (vz d) = false) by (destruct (is_zero (vz d)) eqn:Z; [elim L; intros _; exact Z|reflexivity]).
  exists (zone_of 1 a d). unfold gap_zones. rewrite G. split; [reflexivity|]. split; [reflexivity|].
  assert (V : value (gap_constants at_ g) (KZ, 1) = None).
  { apply value_none. intros v I. apply in_gap_constants in I as (j & p & E & I). rewrite G in E. destruct j as [|j]; [|destruct j; discriminate E]. injection E as <-. cbn [snd] in I.
    apply in_constants in I. destruct I as [[I _]|[[I _]|[[I _]|(_ & _ & I)]]]; try discriminate I. congruence. }
  unfold read_zone. destruct (value _ (z_impo _)); [|reflexivity]. cbn [z_mult zone_of]. rewrite Z, Y. cbn [unless app]. destruct (is_zero (vx d)); cbn [unless app values fold_right]; rewrite V; [reflexivity|]. now destruct (value _ (KX, 1)).
Qed.
(** Two gaps in the set: the first lines of the first gap take the opening of the second. *)
Theorem C112_openings_refuted : forall at_ g h j p q, nth_error (getGaps at_ g) j = Some p -> nth_error (getGaps at_ h) j = Some q ->
  let '(defs, zones) := writeGaps at_ [g; h] in exists z, nth_error zones j = Some z /\ z_node z = fst p /\ value defs (z_impo z) = Some (dec_R (g_open h)).
Proof.
  intros at_ g h j p q P Q. unfold writeGaps. cbn [flat_map]. rewrite !app_nil_r. exists (zone_of (S j) (fst p) (snd p)). split; [|split; [reflexivity|]].
  - assert (X := zones_nth at_ g j). rewrite P in X. rewrite nth_error_app1; [exact X|]. apply nth_error_Some. congruence.
  - cbn [z_impo zone_of]. assert (V : value (gap_constants at_ h) (KI, S j) = Some (dec_R (g_open h))) by (eapply constant_value; [exact Q|apply in_constants; now left]).
    unfold value in *. rewrite rev_app_distr. clear - V. induction (rev (gap_constants at_ h)) as [|x l IH]; cbn [find app] in *; [discriminate V|]. destruct (key_eq (fst x) (KI, S j)); [exact V|now apply IH].
Qed.

(** ** Examples *)
Example C112_case :
  parseCGAP (at_field (map txt ["CGAP"; "100"; "2"; "6"; "12"; "1."; "0."; "0."]%string) 1) = Ok (Cgap 2 6 12) /\
  parsePGAP (at_field (map txt ["PGAP"; "2"; ".2"; ""; "1.+7"]%string) 1) = Ok (Pgap 2 (2, -1)%Z) /\
  gap_of (gadds [Cgap 2 6 12; Pgap 2 (2, -1)%Z; Cgap 2 3 9]) 2 = mkGap (2, -1)%Z [(3, 9); (6, 12)]%Z.
Proof. split; [vm_compute; reflexivity|]. split; vm_compute; reflexivity. Qed.
Definition sample_at (n : Z) : vec := if (n =? 6)%Z then V3 1 1 1 else if (n =? 12)%Z then V3 4 5 1 else if (n =? 3)%Z then V3 0 0 0 else V3 0 0 2.
Example C112_written_case : sample_at 6 <> sample_at 12 /\ (forall d, unit_vector (sample_at 6) (sample_at 12) d -> leans d /\ sharp d) /\
  sample_at 3 <> sample_at 9 /\ (forall d, unit_vector (sample_at 3) (sample_at 9) d -> ~ leans d).
Proof.
  assert (T : (0 < 5 * / 2 ^ 52 < / 5)%R).
  { assert (P : (25 < 2 ^ 52)%R) by (replace 52%nat with (5 + 47)%nat by reflexivity; rewrite pow_add; assert (1 <= 2 ^ 47)%R by (apply pow_R1_Rle; lra); lra).
    assert (I : (0 < / 2 ^ 52)%R) by (apply Rinv_0_lt_compat; lra). split; [lra|]. apply (Rmult_lt_reg_r (2 ^ 52)); [lra|]. rewrite Rmult_assoc, Rinv_l by lra. lra. }
  split; [intros E; injection E; lra|]. split.
  - intros [x y z] [U (k & K & E)]. unfold vsub, vscale, dot in *. cbn in U, E. injection E as E1 E2 E3.
    assert (Kn : k = 5%R) by (assert (Q : (k * k * (x * x + y * y + z * z) = 25)%R) by (replace (k * k * (x * x + y * y + z * z))%R with (k * x * (k * x) + k * y * (k * y) + k * z * (k * z))%R by ring; rewrite <- E1, <- E2, <- E3; ring); rewrite U in Q; nra). subst k.
    assert (x = 3 / 5 /\ y = 4 / 5 /\ z = 0)%R as (-> & -> & ->) by (repeat split; lra). split.
    + intros Y. unfold is_zero in Y. cbn [vy] in Y. rewrite Rabs_right in Y by lra. destruct (Rle_dec (4 / 5) _) as [L|]; [lra|discriminate].
    + intros c [<- |[<- |[<- |[]]]]; cbn [vx vy vz]; [right; rewrite Rabs_right; lra|right; rewrite Rabs_right; lra|now left].
  - split; [intros E; injection E; lra|]. intros [x y z] [U (k & K & E)] L. unfold vsub, vscale, dot in *. cbn in U, E. injection E as E1 E2 E3.
    assert (x = 0)%R by nra. assert (y = 0)%R by nra. subst x y. assert (Z : (z = 1)%R) by nra. subst z.
    unfold leans, is_zero in L. cbn [vy vz] in L. rewrite Rabs_R0, Rabs_R1 in L. destruct (Rle_dec 0 _) as [_|X]; [|lra]. destruct (Rle_dec 1 _) as [X|_]; [lra|]. discriminate (L eq_refl).
Qed.

Print Assumptions C112_cgap.
Print Assumptions C112_cid_refuted.
Print Assumptions C112_pgap.
Print Assumptions C112_cards.
Print Assumptions C112_shared_refuted.
Print Assumptions C112_written_partial.
Print Assumptions C112_meaning_partial.
Print Assumptions C112_second_node_refuted.
Print Assumptions C112_z_refuted.
Print Assumptions C112_openings_refuted.
