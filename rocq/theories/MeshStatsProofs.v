(** Folds behind the statistics of a mesh. *)
From Coq Require Import Reals List Bool Lra Lia.
From Verif Require Import Base GeomModel MeshStatsModel.
Import ListNotations.
Open Scope R_scope.

Lemma sqd_nonneg a b : 0 <= sqd a b.
Proof. unfold sqd. assert (H : forall x, 0 <= x * x) by (intros x; apply Rle_0_sqr). pose proof (H (vx a - vx b)). pose proof (H (vy a - vy b)). pose proof (H (vz a - vz b)). lra. Qed.
Lemma sqd_self a : sqd a a = 0.
Proof. unfold sqd. lra. Qed.
Lemma sqd_sym a b : sqd a b = sqd b a.
Proof. unfold sqd. lra. Qed.

(** ** Minimum and maximum of lists *)
Lemma max_ge : forall l a, a <= fold_left Rmax l a.
Proof. induction l as [|x l IH]; intros a; cbn; [lra|]. pose proof (IH (Rmax a x)). pose proof (Rmax_l a x). lra. Qed.
Lemma max_in : forall l a x, In x l -> x <= fold_left Rmax l a.
Proof. induction l as [|y l IH]; intros a x; cbn; [intros []|]. intros [->|H]; [|auto]. pose proof (max_ge l (Rmax a x)). pose proof (Rmax_r a x). lra. Qed.
Lemma max_attained : forall l a, fold_left Rmax l a = a \/ In (fold_left Rmax l a) l.
Proof.
  induction l as [|x l IH]; intros a; cbn; [auto|]. destruct (IH (Rmax a x)) as [E|H]; [|auto]. rewrite E.
  unfold Rmax. destruct (Rle_dec a x); auto.
Qed.
Lemma max_cons : forall l a d, Rmax a (fold_left Rmax l d) = fold_left Rmax l (Rmax a d).
Proof. induction l as [|x l IH]; intros a d; cbn; [reflexivity|]. rewrite IH, Rmax_assoc. reflexivity. Qed.
Lemma min_le : forall l a, fold_left Rmin l a <= a.
Proof. induction l as [|x l IH]; intros a; cbn; [lra|]. pose proof (IH (Rmin a x)). pose proof (Rmin_l a x). lra. Qed.
Lemma min_in : forall l a x, In x l -> fold_left Rmin l a <= x.
Proof. induction l as [|y l IH]; intros a x; cbn; [intros []|]. intros [->|H]; [|auto]. pose proof (min_le l (Rmin a x)). pose proof (Rmin_r a x). lra. Qed.
Lemma min_attained : forall l a, fold_left Rmin l a = a \/ In (fold_left Rmin l a) l.
Proof.
  induction l as [|x l IH]; intros a; cbn; [auto|]. destruct (IH (Rmin a x)) as [E|H]; [|auto]. rewrite E.
  unfold Rmin. destruct (Rle_dec a x); auto.
Qed.
Lemma min_cons : forall l a d, Rmin a (fold_left Rmin l d) = fold_left Rmin l (Rmin a d).
Proof. induction l as [|x l IH]; intros a d; cbn; [reflexivity|]. rewrite IH, Rmin_assoc. reflexivity. Qed.
Lemma sum_from : forall l a, fold_left Rplus l a = a + fold_left Rplus l 0.
Proof. induction l as [|x l IH]; intros a; cbn; [lra|]. rewrite IH, (IH (0 + x)). lra. Qed.
Lemma sum_app l l' : fold_left Rplus (l ++ l') 0 = fold_left Rplus l 0 + fold_left Rplus l' 0.
Proof. rewrite fold_left_app, sum_from. reflexivity. Qed.

(** ** The whole fold *)
Definition long (t : nat * list (list vec)) : bool := negb (Nat.ltb (fst t) 2).
Definition distances (t : nat * list (list vec)) : list R := if long t then flat_map pair_distances (snd t) else [].
Definition kept (tol : R) (l : list R) : list R := filter (fun x => negb (near_zero tol x)) l.

Lemma kept_app tol l l' : kept tol (l ++ l') = kept tol l ++ kept tol l'.
Proof. apply filter_app. Qed.

Lemma step_cases tol st t : 
  (long t = false /\ type_step tol st t = Ok st) \/
  (long t = true /\ kept tol (distances t) = [] /\ type_step tol st t = UB) \/
  (long t = true /\ kept tol (distances t) <> [] /\
   exists mn, type_step tol st t = Ok (mkAcc mn (fold_left Rmin (kept tol (distances t)) (a_minnz st)) (fold_left Rmax (distances t) (a_max st))
     (a_sum st + fold_left Rplus (kept tol (distances t)) 0) (a_count st + length (kept tol (distances t)))%nat) /\
     exists d r, distances t = d :: r /\ mn = if Rlt_dec 0 (a_min st) then Rmin (a_min st) (fold_left Rmin r d) else a_min st).
Proof.
  unfold distances, type_step, long. destruct (Nat.ltb (fst t) 2); cbn [negb]; [auto|]. right.
  destruct (flat_map pair_distances (snd t)) as [|d r]; [left; auto|].
  change (filter (fun x => negb (near_zero tol x)) (d :: r)) with (kept tol (d :: r)).
  destruct (kept tol (d :: r)) as [|e s]; [left; auto|]. right. split; [reflexivity|]. split; [discriminate|].
  eexists. split; [|exists d, r; split; [reflexivity|reflexivity]]. rewrite (max_cons r), (min_cons s). reflexivity.
Qed.

Lemma fold_acc tol : forall ts st st', foldM (type_step tol) ts st = Ok st' ->
  a_max st' = fold_left Rmax (flat_map distances ts) (a_max st) /\
  a_minnz st' = fold_left Rmin (kept tol (flat_map distances ts)) (a_minnz st) /\
  a_sum st' = a_sum st + fold_left Rplus (kept tol (flat_map distances ts)) 0 /\
  a_count st' = (a_count st + length (kept tol (flat_map distances ts)))%nat.
Proof.
  induction ts as [|t ts IH]; intros st st' F; cbn [foldM] in F.
  - injection F as <-. cbn. repeat split; try lra. lia.
  - destruct (type_step tol st t) as [s1| | |] eqn:E; try discriminate F. cbn [bind] in F. destruct (IH _ _ F) as (A & B & C & D).
    cbn [flat_map]. rewrite kept_app, sum_app, app_length, !fold_left_app.
    destruct (step_cases tol st t) as [[L X]|[[L [K X]]|[L [K (mn & X & _)]]]]; rewrite X in E; try discriminate E; injection E as <-.
    + assert (Dn : distances t = []) by (unfold distances; rewrite L; reflexivity). rewrite Dn. cbn [kept filter fold_left length Nat.add]. rewrite A, B, C, D. repeat split. lra.
    + cbn [a_max a_minnz a_sum a_count] in A, B, C, D. rewrite A, B, C, D. repeat split; [lra|lia].
Qed.

Lemma fold_fails tol : forall ts st t, In t ts -> long t = true -> kept tol (distances t) = [] -> foldM (type_step tol) ts st = UB.
Proof.
  induction ts as [|u ts IH]; [intros st t []|]. intros st t [->|It] L K; cbn [foldM].
  - destruct (step_cases tol st t) as [[L' X]|[[L' [K' X]]|[L' [K' _]]]]; [congruence|rewrite X; reflexivity|contradiction].
  - destruct (step_cases tol st u) as [[_ X]|[[_ [_ X]]|[_ [_ (mn & X & _)]]]]; rewrite X; cbn [bind]; eauto.
Qed.
Lemma fold_succeeds tol : forall ts st, (forall t, In t ts -> long t = true -> kept tol (distances t) <> []) -> exists st', foldM (type_step tol) ts st = Ok st'.
Proof.
  induction ts as [|u ts IH]; intros st H; cbn [foldM]; [eexists; reflexivity|].
  assert (H' : forall t, In t ts -> long t = true -> kept tol (distances t) <> []) by (intros t It; apply H; right; exact It).
  destruct (step_cases tol st u) as [[_ X]|[[L [K X]]|[_ [_ (mn & X & _)]]]]; [| |]; try (rewrite X; cbn [bind]; apply IH; exact H').
  elim (H u (or_introl eq_refl) L K).
Qed.
Lemma fold_nonempty tol : forall ts st st' t, foldM (type_step tol) ts st = Ok st' -> In t ts -> long t = true -> kept tol (distances t) <> [].
Proof. intros ts st st' t F It L K. rewrite (fold_fails tol ts st t It L K) in F. discriminate F. Qed.

(** ** One cell *)
Lemma pair_in : forall l x, In x (pair_distances l) -> exists i j p q, (i <= j)%nat /\ nth_error l i = Some p /\ nth_error l j = Some q /\ x = sqd p q.
Proof.
  induction l as [|a [|b l] IH]; intros x H; [destruct H|destruct H|].
  change (pair_distances (a :: b :: l)) with (map (sqd a) (a :: b :: l) ++ pair_distances (b :: l)) in H.
  apply in_app_or in H as [H|H].
  - apply in_map_iff in H as (q & <- & Iq). apply In_nth_error in Iq as (j & Ej). exists 0%nat, j, a, q. repeat split; auto. lia.
  - destruct (IH x H) as (i & j & p & q & L & Ei & Ej & E). exists (S i), (S j), p, q. repeat split; auto. lia.
Qed.
Lemma pair_all : forall l i j p q, (i < j)%nat -> nth_error l i = Some p -> nth_error l j = Some q -> In (sqd p q) (pair_distances l).
Proof.
  induction l as [|a [|b l] IH]; intros i j p q L Ei Ej; [destruct i; discriminate Ei|destruct j as [|[|j]]; try discriminate Ej; lia|].
  change (pair_distances (a :: b :: l)) with (map (sqd a) (a :: b :: l) ++ pair_distances (b :: l)). apply in_or_app.
  destruct i as [|i].
  - left. cbn in Ei. injection Ei as <-. apply in_map. eapply nth_error_In. exact Ej.
  - right. destruct j as [|j]; [lia|]. eapply (IH i j); eauto. lia.
Qed.
(** Pairs of different nodes. *)
Fixpoint strict_pairs (l : list vec) : list R :=
  match l with [] => [] | a :: r => map (sqd a) r ++ strict_pairs r end.
Lemma kept_pairs tol : 0 <= tol -> forall l, kept tol (pair_distances l) = kept tol (strict_pairs l).
Proof.
  intros T. induction l as [|a [|b l] IH]; [reflexivity|reflexivity|].
  change (pair_distances (a :: b :: l)) with (map (sqd a) (a :: b :: l) ++ pair_distances (b :: l)).
  change (strict_pairs (a :: b :: l)) with (map (sqd a) (b :: l) ++ strict_pairs (b :: l)). rewrite !kept_app, IH. f_equal.
  cbn [map kept filter]. rewrite sqd_self. unfold near_zero at 1. rewrite Rabs_R0. destruct (Rle_dec 0 tol) as [_|N]; [reflexivity|contradiction].
Qed.
Lemma kept_in tol x l : In x (kept tol l) <-> In x l /\ tol < Rabs x.
Proof.
  unfold kept. rewrite filter_In. unfold near_zero. destruct (Rle_dec (Rabs x) tol); cbn; split; intros [A B]; split; auto; try discriminate; lra.
Qed.
Lemma sum_bounds : forall l lo hi, (forall x, In x l -> lo <= x <= hi) -> INR (length l) * lo <= fold_left Rplus l 0 <= INR (length l) * hi.
Proof.
  induction l as [|x l IH]; intros lo hi H; [cbn; lra|]. pose proof (IH lo hi (fun y Hy => H y (or_intror Hy))) as [A B]. pose proof (H x (or_introl eq_refl)).
  cbn [fold_left length]. rewrite sum_from, S_INR. split; nra.
Qed.
Lemma min_fold tol : forall ts st st', 0 <= a_min st -> foldM (type_step tol) ts st = Ok st' ->
  0 <= a_min st' /\ (a_min st = 0 -> a_min st' = 0) /\ (existsb long ts = true -> a_min st' = 0).
Proof.
  induction ts as [|t ts IH]; intros st st' P F; cbn [foldM] in F.
  - injection F as <-. cbn. repeat split; auto. discriminate.
  - destruct (type_step tol st t) as [s1| | |] eqn:E; try discriminate F. cbn [bind] in F.
    destruct (step_cases tol st t) as [[L X]|[[L [K X]]|[L [K (mn & X & d & r & Ed & Em)]]]]; rewrite X in E; try discriminate E; injection E as <-.
    + cbn [existsb]. rewrite L. exact (IH st st' P F).
    + assert (Z : mn = 0).
      { assert (In 0 (d :: r) /\ forall x, In x (d :: r) -> 0 <= x) as [I0 Pos].
        { rewrite <- Ed. unfold distances in *. rewrite L in *. split.
          - destruct (flat_map pair_distances (snd t)) as [|y ys] eqn:Fm; [discriminate Ed|].
            assert (Iy : In y (flat_map pair_distances (snd t))) by (rewrite Fm; left; reflexivity). rewrite <- Fm.
            apply in_flat_map in Iy as (c & Ic & Iy). apply in_flat_map. exists c. split; [exact Ic|].
            destruct c as [|a [|b c]]; try destruct Iy. 
            + left. apply sqd_self.
            + left. apply sqd_self.
          - intros x Ix. apply in_flat_map in Ix as (c & Ic & Ix). apply pair_in in Ix as (i & j & p & q & _ & _ & _ & ->). apply sqd_nonneg. }
        rewrite Em. destruct (Rlt_dec 0 (a_min st)) as [Lt|Ge]; [|lra]. rewrite min_cons. apply Rle_antisym.
        - destruct I0 as [->|I0]; [eapply Rle_trans; [apply min_le|apply Rmin_r]|apply min_in; exact I0].
        - destruct (min_attained r (Rmin (a_min st) d)) as [-> |H].
          + apply Rmin_glb; [lra|]. apply Pos. left. reflexivity.
          + apply Pos. right. exact H. }
      subst mn. rewrite Z in F, X. 
      destruct (IH (mkAcc 0 (fold_left Rmin (kept tol (distances t)) (a_minnz st)) (fold_left Rmax (distances t) (a_max st))
        (a_sum st + fold_left Rplus (kept tol (distances t)) 0) (a_count st + length (kept tol (distances t)))) st') as (A & B & C); cbn [a_min] in *; [lra|exact F|].
      split; [exact A|]. split; intros _; apply B; reflexivity.
Qed.
