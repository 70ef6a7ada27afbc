(** Proofs about the cells of a sliding contact. *)
From Coq Require Import Reals ZArith List Bool Lra Lia.
From Verif Require Import Base GeomModel MeshStatsModel SlideCellModel.
Import ListNotations.
Open Scope R_scope.

Definition nonempty (f : face) : bool := match f with [] => false | _ => true end.

Lemma fill_spec masters : forall faces tree,
  (forall i, In i tree <-> (i < length faces)%nat) ->
  fst (fill masters faces tree) = faces ++ filter nonempty masters /\
  (forall i, In i (snd (fill masters faces tree)) <-> (i < length (faces ++ filter nonempty masters))%nat).
Proof.
  induction masters as [|f r IH]; intros faces tree H; cbn [fill filter].
  - rewrite app_nil_r. auto.
  - destruct f as [|n f]; [apply IH; assumption|]. cbn [nonempty].
    change (faces ++ (n :: f) :: filter nonempty r) with (faces ++ [n :: f] ++ filter nonempty r). rewrite app_assoc. apply IH.
    intros i. unfold face in *. rewrite in_app_iff, in_seq, H, !app_length. cbn [length]. lia.
Qed.
Lemma fill_masters masters : let ft := fill masters [] [] in
  fst ft = filter nonempty masters /\ forall i, In i (snd ft) <-> (i < length (filter nonempty masters))%nat.
Proof. apply fill_spec. intros i. cbn. lia. Qed.

(** ** Bounds *)
Lemma fold_min {A} (g : A -> R) l : forall m, let r := fold_left (fun m q => Rmin m (g q)) l m in
  r <= m /\ (forall q, In q l -> r <= g q) /\ (r = m \/ exists q, In q l /\ r = g q).
Proof.
  induction l as [|a l IH]; intros m; cbn; [repeat split; [lra|now intros q []|now left]|].
  destruct (IH (Rmin m (g a))) as (H1 & H2 & H3). pose proof (Rmin_l m (g a)). pose proof (Rmin_r m (g a)).
  repeat split; [lra| |].
  - intros q [<-|I]; [lra|auto].
  - destruct H3 as [H3|(q & I & H3)]; [|right; exists q; auto].
    destruct (Rle_dec m (g a)); [left; rewrite H3; apply Rmin_left; lra|right; exists a; split; [now left|rewrite H3; apply Rmin_right; lra]].
Qed.
Lemma fold_max {A} (g : A -> R) l : forall m, let r := fold_left (fun m q => Rmax m (g q)) l m in
  m <= r /\ (forall q, In q l -> g q <= r) /\ (r = m \/ exists q, In q l /\ r = g q).
Proof.
  induction l as [|a l IH]; intros m; cbn; [repeat split; [lra|now intros q []|now left]|].
  destruct (IH (Rmax m (g a))) as (H1 & H2 & H3). pose proof (Rmax_l m (g a)). pose proof (Rmax_r m (g a)).
  repeat split; [lra| |].
  - intros q [<-|I]; [lra|auto].
  - destruct H3 as [H3|(q & I & H3)]; [|right; exists q; auto].
    destruct (Rle_dec m (g a)); [right; exists a; split; [now left|rewrite H3; apply Rmax_right; lra]|left; rewrite H3; apply Rmax_left; lra].
Qed.
Lemma low_le ax f n : In n f -> low ax f <= ax (snd n).
Proof.
  destruct f as [|m f]; [intros []|]. unfold low. destruct (fold_min (fun q : pnode => ax (snd q)) f (ax (snd m))) as (H1 & H2 & _).
  intros [<-|I]; [assumption|]. now apply H2.
Qed.
Lemma high_ge ax f n : In n f -> ax (snd n) <= high ax f.
Proof.
  destruct f as [|m f]; [intros []|]. unfold high. destruct (fold_max (fun q : pnode => ax (snd q)) f (ax (snd m))) as (H1 & H2 & _).
  intros [<-|I]; [assumption|]. now apply H2.
Qed.
Lemma low_high ax f : low ax f <= high ax f.
Proof.
  destruct f as [|n f]; [cbn; lra|]. pose proof (low_le ax (n :: f) n (or_introl eq_refl)). pose proof (high_ge ax (n :: f) n (or_introl eq_refl)). lra.
Qed.

(** A point in a box: between the coordinates of nodes, along each axis. *)
Definition in_box (f : face) (q : vec) : Prop :=
  low vx f <= vx q <= high vx f /\ low vy f <= vy q <= high vy f /\ low vz f <= vz q <= high vz f.

Lemma gap_sq lo hi x y : lo <= y <= hi -> gap lo hi x * gap lo hi x <= (x - y) * (x - y).
Proof.
  intros [L H]. unfold gap. pose proof (Rmax_l 0 (Rmax (lo - x) (x - hi))).
  destruct (Rle_dec (lo - x) (x - hi)) as [A|A].
  - rewrite (Rmax_right (lo - x)) by assumption. destruct (Rle_dec 0 (x - hi)) as [B|B].
    + rewrite Rmax_right by assumption. apply Rmult_le_compat; lra.
    + rewrite Rmax_left by lra. pose proof (Rle_0_sqr (x - y)) as Q. unfold Rsqr in Q. lra.
  - rewrite (Rmax_left (lo - x)) by lra. replace ((x - y) * (x - y)) with ((y - x) * (y - x)) by ring.
    destruct (Rle_dec 0 (lo - x)) as [B|B].
    + rewrite Rmax_right by assumption. apply Rmult_le_compat; lra.
    + rewrite Rmax_left by lra. pose proof (Rle_0_sqr (y - x)) as Q. unfold Rsqr in Q. lra.
Qed.
Lemma box_below f p q : in_box f q -> box_d2 f p <= sqd p q.
Proof.
  intros (H1 & H2 & H3). unfold box_d2, sqd.
  pose proof (gap_sq _ _ (vx p) _ H1). pose proof (gap_sq _ _ (vy p) _ H2). pose proof (gap_sq _ _ (vz p) _ H3). lra.
Qed.
Lemma gap_reached lo hi x : lo <= hi -> exists y, lo <= y <= hi /\ gap lo hi x * gap lo hi x = (x - y) * (x - y).
Proof.
  intros H. unfold gap. destruct (Rle_dec x lo) as [A|A]; [|destruct (Rle_dec hi x) as [B|B]].
  - exists lo. split; [lra|]. rewrite (Rmax_left (lo - x)) by lra. rewrite Rmax_right by lra. ring.
  - exists hi. split; [lra|]. rewrite (Rmax_right (lo - x)) by lra. rewrite Rmax_right by lra. ring.
  - exists x. split; [lra|]. rewrite Rmax_left; [ring|]. apply Rmax_lub; lra.
Qed.
Lemma box_reached f p : exists q, in_box f q /\ box_d2 f p = sqd p q.
Proof.
  destruct (gap_reached _ _ (vx p) (low_high vx f)) as (x & Bx & Ex).
  destruct (gap_reached _ _ (vy p) (low_high vy f)) as (y & By & Ey).
  destruct (gap_reached _ _ (vz p) (low_high vz f)) as (z & Bz & Ez).
  exists (V3 x y z). split; [repeat split; cbn; lra|]. unfold box_d2, sqd. cbn. lra.
Qed.

(** ** The nearest entry *)
Lemma least_exists (g : nat -> R) l : l <> [] -> exists i, In i l /\ forall j, In j l -> g i <= g j.
Proof.
  induction l as [|a l IH]; [congruence|]. intros _. destruct l as [|b l].
  - exists a. split; [now left|]. intros j [<-|[]]. lra.
  - destruct IH as (i & I & M); [discriminate|]. destruct (Rle_dec (g a) (g i)) as [L|L].
    + exists a. split; [now left|]. intros j [<-|J]; [lra|]. specialize (M j J). lra.
    + exists i. split; [now right|]. intros j [<-|J]; [lra|]. now apply M.
Qed.

(** ** Spec: boxes and faces as sets of points *)

(** A point whose coordinate along each axis is between those of two nodes. *)
Definition boxed (f : face) (q : vec) : Prop :=
  forall ax, In ax [vx; vy; vz] ->
  (exists n, In n f /\ ax (snd n) <= ax q) /\ (exists n, In n f /\ ax q <= ax (snd n)).
(** A point of a face (the convex hull of its nodes): in no direction is it beyond all
    the nodes. *)
Definition of_face (f : face) (q : vec) : Prop :=
  forall a b c, exists n, In n f /\ a * vx q + b * vy q + c * vz q <= a * vx (snd n) + b * vy (snd n) + c * vz (snd n).

Lemma low_in ax f : f <> [] -> exists n, In n f /\ low ax f = ax (snd n).
Proof.
  destruct f as [|m f]; [congruence|]. intros _. unfold low. destruct (fold_min (fun q : pnode => ax (snd q)) f (ax (snd m))) as (_ & _ & [H|(q & I & H)]).
  - exists m. split; [now left|exact H].
  - exists q. split; [now right|exact H].
Qed.
Lemma high_in ax f : f <> [] -> exists n, In n f /\ high ax f = ax (snd n).
Proof.
  destruct f as [|m f]; [congruence|]. intros _. unfold high. destruct (fold_max (fun q : pnode => ax (snd q)) f (ax (snd m))) as (_ & _ & [H|(q & I & H)]).
  - exists m. split; [now left|exact H].
  - exists q. split; [now right|exact H].
Qed.
Lemma boxed_in f q : boxed f q -> in_box f q.
Proof.
  intros H. unfold in_box.
  assert (K : forall ax, In ax [vx; vy; vz] -> low ax f <= ax q <= high ax f).
  { intros ax I. destruct (H ax I) as [(n & In1 & L) (m & In2 & G)]. pose proof (low_le ax f n In1). pose proof (high_ge ax f m In2). lra. }
  repeat split; apply K; cbn; tauto.
Qed.
Lemma in_boxed f q : f <> [] -> in_box f q -> boxed f q.
Proof.
  intros N (H1 & H2 & H3) ax I.
  assert (low ax f <= ax q <= high ax f) as H by (cbn in I; repeat (destruct I as [<-|I]; [assumption|]); destruct I).
  destruct (low_in ax f N) as (n & In1 & E1). destruct (high_in ax f N) as (m & In2 & E2).
  split; [exists n|exists m]; split; try assumption; lra.
Qed.
Lemma face_boxed f q : of_face f q -> boxed f q.
Proof.
  intros H ax I. cbn in I. destruct I as [<-|[<-|[<-|[]]]].
  - split; [destruct (H (-1) 0 0) as (n & J & L)|destruct (H 1 0 0) as (n & J & L)]; exists n; (split; [assumption|lra]).
  - split; [destruct (H 0 (-1) 0) as (n & J & L)|destruct (H 0 1 0) as (n & J & L)]; exists n; (split; [assumption|lra]).
  - split; [destruct (H 0 0 (-1)) as (n & J & L)|destruct (H 0 0 1) as (n & J & L)]; exists n; (split; [assumption|lra]).
Qed.
Lemma node_of_face f n : In n f -> of_face f (snd n).
Proof. intros I a b c. exists n. split; [assumption|lra]. Qed.

Lemma nonempty_in f masters : In f (filter nonempty masters) <-> In f masters /\ f <> [].
Proof. rewrite filter_In. destruct f; cbn; intuition congruence. Qed.

(** The face found for a point, among those of the master surface. *)
Lemma nearest_face masters p i : let ft := fill masters [] [] in nearest (fst ft) (snd ft) p i ->
  let f := nth i (fst ft) [] in In f masters /\ f <> [] /\
  exists q, boxed f q /\ forall g q', In g masters -> boxed g q' -> sqd p q <= sqd p q'.
Proof.
  cbn zeta. destruct (fill_masters masters) as [E T]. rewrite E. intros [I M]. apply T in I.
  assert (J : In (nth i (filter nonempty masters) []) (filter nonempty masters)) by (apply nth_In; exact I).
  pose proof J as J0. apply nonempty_in in J0 as [Jm Jn]. split; [assumption|]. split; [assumption|].
  destruct (box_reached (nth i (filter nonempty masters) []) p) as (q & B & D). exists q. split; [now apply in_boxed|].
  intros g q' G Bg. rewrite <- D.
  assert (Ng : g <> []). { intros ->. destruct (Bg vx (or_introl eq_refl)) as [(n & [] & _) _]. }
  destruct (In_nth (filter nonempty masters) g []) as (j & Lj & Ej); [now apply nonempty_in|].
  pose proof (M j (proj2 (T j) Lj)) as Mj. rewrite Ej in Mj. pose proof (box_below g p q' (boxed_in g q' Bg)). lra.
Qed.
