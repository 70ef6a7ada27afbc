(** Properties C86 and C87: linear relations, rigid bodies and averages turned
    into elements. *)
From Coq Require Import ZArith List Bool Arith Lia Permutation.
From Verif Require Import Base RelationCellsModel.
Import ListNotations.

(** ** Lists *)
Lemma all2_F2 {B} (f : B -> B -> bool) a b : all2 f a b = true <-> Forall2 (fun x y => f x y = true) a b.
Proof.
  revert b. induction a as [|x a IH]; intros [|y b]; cbn; split; intros H; try discriminate; try constructor; try (now inversion H).
  - apply andb_true_iff in H. tauto.
  - apply andb_true_iff in H. apply IH. tauto.
  - inversion H; subst. apply andb_true_iff. split; [assumption|now apply IH].
Qed.
Lemma F2_nth {A B} (R : A -> B -> Prop) a b : Forall2 R a b -> forall i x, nth_error a i = Some x -> exists y, nth_error b i = Some y /\ R x y.
Proof.
  induction 1 as [|x y a b H F IH]; intros i z E; [destruct i; discriminate|]. destruct i; cbn in *; [inversion E; subst; eauto|eauto].
Qed.
Lemma F2_nth' {A B} (R : A -> B -> Prop) a b : Forall2 R a b -> forall i y, nth_error b i = Some y -> exists x, nth_error a i = Some x /\ R x y.
Proof.
  induction 1 as [|x y a b H F IH]; intros i z E; [destruct i; discriminate|]. destruct i; cbn in *; [inversion E; subst; eauto|eauto].
Qed.
Lemma F2_len {A B} (R : A -> B -> Prop) a b : Forall2 R a b -> length a = length b.
Proof. induction 1; cbn; congruence. Qed.
Lemma all2_refl {B} (f : B -> B -> bool) a : (forall x, f x x = true) -> all2 f a a = true.
Proof. intros H. induction a; cbn; [reflexivity|now rewrite H]. Qed.
Lemma pos_eqb_iff a b : pos_eqb a b = true <-> a = b.
Proof.
  unfold pos_eqb. rewrite all2_F2. split.
  - induction 1 as [|x y a b H F IH]; [reflexivity|]. apply Z.eqb_eq in H. congruence.
  - intros ->. induction b; constructor; auto. apply Z.eqb_refl.
Qed.
(** Blocks of the same length. *)
Lemma nth_blocks {A B} (f : A -> list B) c : forall l k r, (forall x, In x l -> length (f x) = c) -> (r < c)%nat ->
  nth_error (flat_map f l) (k * c + r) = match nth_error l k with Some x => nth_error (f x) r | None => None end.
Proof.
  induction l as [|x l IH]; intros k r H R; cbn [flat_map].
  - destruct (k * c + r)%nat, k; reflexivity.
  - pose proof (H x (or_introl eq_refl)) as Hx. destruct k; cbn [nth_error Nat.mul Nat.add].
    + apply nth_error_app1. lia.
    + rewrite nth_error_app2 by lia. replace (c + k * c + r - length (f x))%nat with (k * c + r)%nat by lia. apply IH; [|exact R]. intros y Y. apply H. now right.
Qed.
Lemma length_blocks {A B} (f : A -> list B) c l : (forall x, In x l -> length (f x) = c) -> length (flat_map f l) = (length l * c)%nat.
Proof. induction l as [|x l IH]; intros H; [reflexivity|]. cbn. rewrite app_length, H by now left. rewrite IH; [lia|]. intros y Y. apply H. now right. Qed.

Lemma foldM_app_ok {A B} (f : B -> A -> outcome B) l l' b b1 : foldM f l b = Ok b1 -> foldM f (l ++ l') b = foldM f l' b1.
Proof. revert b. induction l as [|x l IH]; cbn; intros b; [now intros [= ->]|]. destruct (f b x); cbn; try discriminate. apply IH. Qed.

(** ** C86 *)
Section Relations.
Context {A : Type}.
Variable zero : A.
Variable same : A -> A -> bool.
Hypothesis same_refl : forall a, same a a = true.
Notation lmpc := (lmpc A).
Notation elements := (elements A).

(** A relation the elements can take: one to twenty nodes, each once, with six
    coefficients. *)
Definition well (l : lmpc) : Prop :=
  (1 <= length (parts l) <= 20)%nat /\ NoDup (map fst (parts l)) /\ forall p c, In (p, c) (parts l) -> length c = 6%nat.
(** Relations between exactly these nodes. *)
Definition between (ns : list Z) (ls : list lmpc) : list lmpc := filter (fun l => if list_eq_dec Z.eq_dec (nodes l) ns then true else false) ls.

(** Relation [k] of a cell, read in the table written for its element set: for
    each node in turn, the coefficients of its [nb] degrees of freedom. *)
Definition expresses (nb : nat) (e : elements) (cell : list Z) (k : nat) (l : lmpc) : Prop :=
  nodes l = cell /\ (k < length (rows e))%nat /\
  forall j p c i, nth_error (parts l) j = Some (p, c) -> (i < nb)%nat ->
    exists a b, nth_error (table A nb e) (k * (length cell * nb) + (j * nb + i)) = Some a /\ nth_error c i = Some b /\ same a b = true.

(** *** Groups *)
Definition grouped (ls : list lmpc) (g : list (list Z * list lmpc)) : Prop :=
  (forall ns k, In (ns, k) g -> k <> [] /\ k = between ns ls) /\ NoDup (map fst g) /\ (forall l, In l ls -> exists k, In (nodes l, k) g).

Lemma insert_keys k l g : map fst (insert_group A k l g) = if existsb (fun x => pos_eqb (fst x) k) g then map fst g else map fst g ++ [k].
Proof.
  induction g as [|[k' ls] g IH]; [reflexivity|]. cbn. destruct (pos_eqb k' k) eqn:E; [reflexivity|]. cbn. rewrite IH. destruct (existsb _ g); reflexivity.
Qed.
Lemma insert_in k l g ns x : NoDup (map fst g) -> In (ns, x) (insert_group A k l g) ->
  (ns <> k /\ In (ns, x) g) \/ (ns = k /\ exists y, In (ns, y) g /\ x = y ++ [l]) \/ (ns = k /\ x = [l] /\ ~ In k (map fst g)).
Proof.
  induction g as [|[k' ls] g IH]; cbn; intros N H.
  - destruct H as [H|[]]. inversion H; subst. right. right. auto.
  - inversion N as [|? ? N1 N2]; subst. destruct (pos_eqb k' k) eqn:E.
    + apply pos_eqb_iff in E. subst k'. destruct H as [H|H].
      * inversion H; subst. right. left. eauto.
      * left. split; [|now right]. intros ->. apply N1. apply in_map_iff. exists (k, x). auto.
    + destruct H as [H|H].
      * inversion H; subst. left. split; [|now left]. intros ->. rewrite (proj2 (pos_eqb_iff k k) eq_refl) in E. discriminate.
      * destruct (IH N2 H) as [[P Q]|[[P (y & Q & R)]|(P & Q & R)]].
        -- left. auto.
        -- right. left. split; [exact P|]. exists y. auto.
        -- right. right. split; [exact P|]. split; [exact Q|]. intros [S|S]; [|contradiction]. subst k'. rewrite (proj2 (pos_eqb_iff k k) eq_refl) in E. discriminate.
Qed.
Lemma between_snoc ns ls l : between ns (ls ++ [l]) = between ns ls ++ (if list_eq_dec Z.eq_dec (nodes l) ns then [l] else []).
Proof. unfold between. rewrite filter_app. cbn. destruct (list_eq_dec Z.eq_dec (nodes l) ns); reflexivity. Qed.
Lemma between_in ns ls l : In l (between ns ls) <-> In l ls /\ nodes l = ns.
Proof. unfold between. rewrite filter_In. destruct (list_eq_dec Z.eq_dec (nodes l) ns); intuition (try discriminate). Qed.
Lemma group_ok ls : grouped ls (group A ls).
Proof.
  induction ls as [|l ls IH] using rev_ind.
  - split; [intros ns k []|]. split; [constructor|]. intros l [].
  - unfold group. rewrite fold_left_app. cbn [fold_left]. fold (group A ls). destruct IH as (H1 & H2 & H3). split; [|split].
    + intros ns x I. apply insert_in in I; [|exact H2]. rewrite between_snoc. destruct (list_eq_dec Z.eq_dec (nodes l) ns) as [E|E].
      * destruct I as [[P _]|[[_ (y & Q & ->)]|(_ & -> & Q)]]; [congruence| |].
        -- destruct (H1 _ _ Q) as [_ <-]. split; [destruct y; discriminate|reflexivity].
        -- split; [discriminate|]. destruct (between ns ls) as [|z k] eqn:B; [reflexivity|]. exfalso. assert (In z (between ns ls)) as J by (rewrite B; now left).
           apply between_in in J. destruct J as [J1 J2]. destruct (H3 z J1) as [k' K]. apply Q. apply in_map_iff. exists (nodes z, k'). split; [cbn; congruence|exact K].
      * rewrite app_nil_r. destruct I as [[_ P]|[[P _]|(P & _)]]; [now apply H1|congruence|congruence].
    + rewrite insert_keys. destruct (existsb _ _) eqn:E; [exact H2|]. apply (Permutation_NoDup (Permutation_cons_append _ _)). constructor; [|exact H2].
      intros I. apply in_map_iff in I. destruct I as ([k y] & E1 & I). cbn in E1. subst k. assert (existsb (fun x => pos_eqb (fst x) (nodes l)) (group A ls) = true) as X; [|congruence].
      apply existsb_exists. exists (nodes l, y). split; [exact I|now apply pos_eqb_iff].
    + intros l' I. assert (K : forall ns, In ns (map fst (insert_group A (nodes l) l (group A ls))) <-> In ns (map fst (group A ls)) \/ ns = nodes l).
      { intros ns. rewrite insert_keys. destruct (existsb _ _) eqn:E.
        - apply existsb_exists in E. destruct E as ([k y] & E1 & E2). apply pos_eqb_iff in E2. cbn in E2. subst k. split; [tauto|]. intros [J| ->]; [exact J|]. apply in_map_iff. exists (nodes l, y). auto.
        - rewrite in_app_iff. cbn. intuition. }
      assert (J : In (nodes l') (map fst (insert_group A (nodes l) l (group A ls)))).
      { apply K. apply in_app_or in I. destruct I as [I|[<- |[]]]; [left|now right]. destruct (H3 l' I) as [k Hk]. apply in_map_iff. exists (nodes l', k). auto. }
      apply in_map_iff in J. destruct J as ([k y] & E1 & J). cbn in E1. subst k. eauto.
Qed.
Lemma group_total ls : forall g, list_sum (map (fun x => length (snd x)) (fold_left (fun g l => insert_group A (nodes l) l g) ls g)) = (list_sum (map (fun x => length (snd x)) g) + length ls)%nat.
Proof.
  induction ls as [|l ls IH]; intros g; cbn [fold_left length]; [lia|]. rewrite IH. assert (K : list_sum (map (fun x : list Z * list lmpc => length (snd x)) (insert_group A (nodes l) l g)) = S (list_sum (map (fun x => length (snd x)) g))); [|lia].
  induction g as [|[k x] g IHg]; [reflexivity|]. cbn [insert_group]. destruct (pos_eqb k (nodes l)); cbn; [rewrite app_length; cbn; lia|]. unfold list_sum in IHg. rewrite IHg. lia.
Qed.

(** *** Element sets *)
Definition total (m : by_coefs A) : nat := list_sum (map (fun x => length (cells (snd x)) * length (rows (snd x)))%nat m).
Definition served (m : by_coefs A) (ns : list Z) (r : list (row A)) : Prop := exists k e, In (k, e) m /\ In ns (cells e) /\ key_eqb A same (rows e) r = true.
Record fine (done : list (list Z * list lmpc)) (m : by_coefs A) : Prop := {
  f_rows : forall k e, In (k, e) m -> rows e = k;
  f_served : forall ns ls, In (ns, ls) done -> served m ns (rows_of A zero ns ls);
  f_sound : forall k e ns, In (k, e) m -> In ns (cells e) -> exists ls, In (ns, ls) done /\ key_eqb A same (rows e) (rows_of A zero ns ls) = true;
  f_total : total m = list_sum (map (fun x => length (snd x)) done) }.

Lemma key_refl k : key_eqb A same k k = true.
Proof. apply all2_refl. intros r. apply all2_refl. intros c. now apply all2_refl. Qed.
Lemma key_len k k' : key_eqb A same k k' = true -> length k = length k'.
Proof. intros H. apply all2_F2 in H. now apply F2_len in H. Qed.

Lemma add_to_spec k cell m m' : add_to A same k cell m = Some m' ->
  exists m1 k' e m2, m = m1 ++ (k', e) :: m2 /\ key_eqb A same k' k = true /\ m' = m1 ++ (k', mkElements (rows e) (cells e ++ [cell])) :: m2.
Proof.
  revert m'. induction m as [|[k0 e] m IH]; intros m'; cbn; [discriminate|]. destruct (key_eqb A same k0 k) eqn:E.
  - intros H. inversion H; subst. exists [], k0, e, m. auto.
  - destruct (add_to A same k cell m) as [m0|]; [|discriminate]. intros H. inversion H; subst. destruct (IH m0 eq_refl) as (m1 & k' & e' & m2 & -> & Q & ->).
    exists ((k0, e) :: m1), k', e', m2. auto.
Qed.
Lemma slices_one (r : list (row A)) : r <> [] -> (length r <= 6)%nat -> slices A (length r) r = [r].
Proof.
  intros N L. destruct r as [|x r]; [contradiction|]. cbn [length slices]. unfold LMPCCELL_DOFNUM. rewrite firstn_all2 by exact L. rewrite skipn_all2 by exact L. destruct (length r); reflexivity.
Qed.
Lemma total_app m m' : total (m ++ m') = (total m + total m')%nat.
Proof. unfold total. rewrite map_app, list_sum_app. reflexivity. Qed.

Lemma step_fine done m ns ls : fine done m -> ls <> [] -> (length ls <= 6)%nat -> (1 <= length ns <= 20)%nat ->
  exists m', add_nodes A zero same m (ns, ls) = Ok m' /\ fine (done ++ [(ns, ls)]) m'.
Proof.
  intros F NE L6 L20. unfold add_nodes. cbn [fst snd]. set (r := rows_of A zero ns ls). assert (Lr : length r = length ls) by apply map_length.
  assert (Nr : r <> []) by (intros E; apply (f_equal (@length _)) in E; rewrite Lr in E; destruct ls; [contradiction|discriminate]).
  rewrite slices_one by (try exact Nr; rewrite Lr; exact L6).
  cbn [foldM]. unfold add_slice, poly_type. replace ((1 <=? length ns) && (length ns <=? 20)) with true by (symmetry; apply andb_true_iff; split; apply Nat.leb_le; lia). cbn [bind].
  destruct (add_to A same r ns m) as [m'|] eqn:E.
  - exists m'. split; [reflexivity|]. apply add_to_spec in E. destruct E as (m1 & k & e & m2 & -> & Ek & ->).
    assert (Re : rows e = k) by (apply (f_rows _ _ F); apply in_or_app; right; now left).
    constructor.
    + intros k' e' I. apply in_app_or in I. destruct I as [I|[I|I]]; [apply (f_rows _ _ F), in_or_app; now left| |apply (f_rows _ _ F), in_or_app; right; now right].
      inversion I; subst. reflexivity.
    + intros ns' ls' I. apply in_app_or in I. destruct I as [I|[I|[]]].
      * destruct (f_served _ _ F _ _ I) as (k' & e' & J & C & K). apply in_app_or in J. destruct J as [J|[J|J]].
        -- exists k', e'. split; [apply in_or_app; now left|auto].
        -- inversion J; subst k' e'. exists k, (mkElements (rows e) (cells e ++ [ns])). split; [apply in_or_app; right; now left|]. split; [apply in_or_app; now left|exact K].
        -- exists k', e'. split; [apply in_or_app; right; now right|auto].
      * inversion I; subst ns' ls'. exists k, (mkElements (rows e) (cells e ++ [ns])). split; [apply in_or_app; right; now left|]. split; [apply in_or_app; right; now left|]. cbn [rows]. rewrite Re. exact Ek.
    + intros k' e' c I C. assert (Q : (exists e0, In (k', e0) (m1 ++ (k, e) :: m2) /\ In c (cells e0) /\ rows e' = rows e0) \/ (rows e' = k /\ c = ns)).
      { apply in_app_or in I. destruct I as [I|[I|I]]; [left; exists e'; split; [apply in_or_app; now left|auto]| |left; exists e'; split; [apply in_or_app; right; now right|auto]].
        inversion I; subst k' e'. cbn [cells rows] in *. apply in_app_or in C. destruct C as [C|[<- |[]]]; [|right; auto]. left. exists e. split; [apply in_or_app; right; now left|auto]. }
      destruct Q as [(e0 & J & D & Er)|[Rk ->]].
      * destruct (f_sound _ _ F _ _ _ J D) as (ls' & P & K). exists ls'. split; [apply in_or_app; now left|]. now rewrite Er.
      * exists ls. split; [apply in_or_app; right; now left|]. rewrite Rk. exact Ek.
    + rewrite map_app, list_sum_app. cbn. rewrite <- (f_total _ _ F), !total_app. unfold total. cbn. rewrite app_length, Re. pose proof (key_len _ _ Ek) as Lk. cbn. rewrite Lr in Lk. nia.
  - unfold append_all, LMPCCELL_DOFNUM. rewrite Lr. rewrite (proj2 (Nat.leb_le _ _) L6). cbn [bind rows]. eexists. split; [reflexivity|]. constructor.
    + intros k' e' I. apply in_app_or in I. destruct I as [I|[I|[]]]; [now apply (f_rows _ _ F)|]. inversion I; subst. reflexivity.
    + intros ns' ls' I. apply in_app_or in I. destruct I as [I|[I|[]]].
      * destruct (f_served _ _ F _ _ I) as (k' & e' & J & C). exists k', e'. split; [apply in_or_app; now left|exact C].
      * inversion I; subst ns' ls'. exists r, (mkElements r [ns]). split; [apply in_or_app; right; now left|]. split; [now left|apply key_refl].
    + intros k' e' c I C. apply in_app_or in I. destruct I as [I|[I|[]]].
      * destruct (f_sound _ _ F _ _ _ I C) as (ls' & P & K). exists ls'. split; [apply in_or_app; now left|exact K].
      * inversion I; subst k' e'. cbn in C. destruct C as [<- |[]]. exists ls. split; [apply in_or_app; right; now left|apply key_refl].
    + rewrite map_app, list_sum_app, total_app, (f_total _ _ F). unfold total. cbn. rewrite Lr. lia.
Qed.
Lemma all_fine gs : forall done m, fine done m -> (forall ns ls, In (ns, ls) gs -> ls <> [] /\ (length ls <= 6)%nat /\ (1 <= length ns <= 20)%nat) ->
  exists m', foldM (add_nodes A zero same) gs m = Ok m' /\ fine (done ++ gs) m'.
Proof.
  induction gs as [|[ns ls] gs IH]; intros done m F H; cbn [foldM].
  - exists m. rewrite app_nil_r. auto.
  - destruct (H ns ls (or_introl eq_refl)) as (A1 & A2 & A3). destruct (step_fine done m ns ls F A1 A2 A3) as (m1 & E & F1). rewrite E. cbn [bind].
    destruct (IH (done ++ [(ns, ls)]) m1 F1) as (m' & E' & F'); [intros; apply H; now right|]. exists m'. split; [exact E'|]. now rewrite <- app_assoc in F'.
Qed.

(** *** Tables *)
Lemma find_part l p c : NoDup (map fst (parts l)) -> In (p, c) (parts l) -> coefs_for A zero l p = c.
Proof.
  unfold coefs_for. induction (parts l) as [|[q d] ps IH]; cbn; intros N I; [contradiction|]. inversion N as [|? ? N1 N2]; subst. destruct I as [I|I].
  - inversion I; subst. now rewrite Z.eqb_refl.
  - destruct (Z.eqb_spec q p) as [-> |]; [|auto]. exfalso. apply N1. apply in_map_iff. exists (p, c). auto.
Qed.
Lemma row_of_well l : well l -> map (coefs_for A zero l) (nodes l) = map snd (parts l).
Proof.
  intros (_ & N & _). unfold nodes. rewrite map_map. apply map_ext_in. intros [p c] I. cbn. now apply find_part.
Qed.
Lemma express nb e cell ls k l : (nb <= 6)%nat -> (forall x, In x ls -> well x /\ nodes x = cell) -> key_eqb A same (rows e) (rows_of A zero cell ls) = true ->
  nth_error ls k = Some l -> expresses nb e cell k l.
Proof.
  intros Nb W K E. apply all2_F2 in K. pose proof (F2_len _ _ _ K) as L. unfold rows_of in L. rewrite map_length in L.
  assert (Kl : (k < length ls)%nat) by (apply nth_error_Some; congruence).
  assert (S : forall r : list (list A), In r (rows e) -> length r = length cell /\ forall c : list A, In c r -> length c = 6%nat).
  { intros r I. apply In_nth_error in I. destruct I as [i I]. destruct (F2_nth _ _ _ K i r I) as (y & Y & Q). unfold rows_of in Y. rewrite nth_error_map in Y.
    destruct (nth_error ls i) as [x|] eqn:X; [|discriminate]. cbn in Y. inversion Y; subst y. destruct (W x (nth_error_In _ _ X)) as [Wx Nx]. subst cell. rewrite row_of_well in Q by exact Wx.
    apply all2_F2 in Q. split; [etransitivity; [exact (F2_len _ _ _ Q)|]; unfold nodes; now rewrite !map_length|]. intros c J. apply In_nth_error in J. destruct J as [j J].
    destruct (F2_nth _ _ _ Q j c J) as (d & D & S). rewrite nth_error_map in D. destruct (nth_error (parts x) j) as [[p c']|] eqn:P; [|discriminate]. cbn in D. inversion D; subst d.
    destruct Wx as (_ & _ & W6). apply all2_F2 in S. etransitivity; [exact (F2_len _ _ _ S)|]. apply (W6 p). now apply nth_error_In in P. }
  assert (Bl : forall r : list (list A), In r (rows e) -> length (flat_map (firstn nb) r) = (length cell * nb)%nat).
  { intros r I. destruct (S r I) as [S1 S2]. rewrite (length_blocks _ nb); [now rewrite S1|]. intros c J. rewrite firstn_length, (S2 c J). lia. }
  destruct (W l (nth_error_In _ _ E)) as [Wl Nl]. split; [exact Nl|]. split; [eapply Nat.lt_le_trans; [exact Kl|]; apply Nat.eq_le_incl; symmetry; exact L|]. intros j p c i P I.
  destruct (F2_nth' _ _ _ K k (map (coefs_for A zero l) cell)) as (r & R & Q). { unfold rows_of. rewrite nth_error_map, E. reflexivity. }
  apply all2_F2 in Q. rewrite <- Nl, row_of_well in Q by exact Wl. destruct (F2_nth' _ _ _ Q j c) as (c' & C & Sc). { rewrite nth_error_map, P. reflexivity. }
  apply all2_F2 in Sc. destruct Wl as (_ & _ & W6). pose proof (W6 p c (nth_error_In _ _ P)) as L6. destruct (nth_error c i) as [b|] eqn:Eb; [|apply nth_error_None in Eb; lia].
  destruct (F2_nth' _ _ _ Sc i b Eb) as (a & Ea & Sa). exists a, b. split; [|auto]. unfold table.
  assert (Jl : (j < length cell)%nat). { rewrite <- Nl. unfold nodes. rewrite map_length. apply nth_error_Some. congruence. }
  rewrite nth_blocks; [|exact Bl|nia]. rewrite R. destruct (S r (nth_error_In _ _ R)) as [S1 S2]. rewrite nth_blocks; [|intros d D; rewrite firstn_length, (S2 d D); lia|exact I].
  rewrite C. rewrite <- Ea. rewrite <- (firstn_skipn nb c') at 2. rewrite nth_error_app1; [reflexivity|]. rewrite firstn_length, (S2 c' (nth_error_In _ _ C)). lia.
Qed.

(** C86: with at most six relations between the same nodes, the elements express
    every relation, each once, and nothing else: the coefficients read in the table
    are those given, within the comparison of the code. *)
Theorem C86_relations_partial : forall nb ls, (nb <= 6)%nat -> (forall l, In l ls -> well l) -> (forall ns, length (between ns ls) <= 6)%nat ->
  exists es, makeCellsFromLMPC A zero same ls = Ok es /\
    (forall l, In l ls -> exists e cell k, In e es /\ In cell (cells e) /\ expresses nb e cell k l) /\
    (forall e cell k, In e es -> In cell (cells e) -> (k < length (rows e))%nat -> exists l, In l ls /\ expresses nb e cell k l) /\
    list_sum (map (fun e => length (cells e) * length (rows e))%nat es) = length ls.
Proof.
  intros nb ls Nb W S6. destruct (group_ok ls) as (G1 & G2 & G3).
  assert (G : forall ns k x, In (ns, k) (group A ls) -> In x k -> well x /\ nodes x = ns /\ In x ls).
  { intros ns k x I J. destruct (G1 _ _ I) as [_ ->]. apply between_in in J. destruct J as [J1 J2]. auto. }
  destruct (all_fine (group A ls) [] []) as (m & E & F).
  - constructor; try (intros; contradiction). reflexivity.
  - intros ns k I. destruct (G1 _ _ I) as [N B]. split; [exact N|]. split; [rewrite B; apply S6|]. destruct k as [|x k]; [contradiction|]. destruct (G ns (x :: k) x I (or_introl eq_refl)) as ((Wx & _) & <- & _).
    unfold nodes. rewrite map_length. exact Wx.
  - unfold makeCellsFromLMPC. rewrite E. cbn [bind app] in *. exists (map snd m). split; [reflexivity|]. split; [|split].
    + intros l I. destruct (G3 l I) as [k K]. destruct (f_served _ _ F _ _ K) as (key & e & J & C & Q). destruct (G1 _ _ K) as [_ B].
      assert (Il : In l k) by (rewrite B; now apply between_in). apply In_nth_error in Il. destruct Il as [i Ei]. exists e, (nodes l), i.
      split; [apply in_map_iff; exists (key, e); auto|]. split; [exact C|]. eapply express; [exact Nb| |exact Q|exact Ei]. intros x X. destruct (G _ _ x K X) as (X1 & X2 & _). auto.
    + intros e cell k I C L. apply in_map_iff in I. destruct I as ([key e'] & Ee & I). cbn in Ee. subst e'. destruct (f_sound _ _ F _ _ _ I C) as (k' & K & Q).
      pose proof (key_len _ _ Q) as Lk. unfold rows_of in Lk. rewrite map_length in Lk. destruct (nth_error k' k) as [l|] eqn:El; [|apply nth_error_None in El; lia].
      exists l. split; [apply (G _ _ l K (nth_error_In _ _ El))|]. eapply express; [exact Nb| |exact Q|exact El]. intros x X. destruct (G _ _ x K X) as (X1 & X2 & _). auto.
    + pose proof (f_total _ _ F) as T. unfold total in T. rewrite map_map. rewrite T. unfold group. rewrite group_total. reflexivity.
Qed.
End Relations.

(** Example: three relations, two of them between the same nodes, the third one
    with the same coefficients elsewhere; table of the element set of two rows. *)
Definition rel (b : Z) (ps : list (Z * list Z)) : lmpc Z := mkLmpc b ps.
Definition two_rows : list (lmpc Z) :=
  [rel 0 [(1, [1; 0; 0; 0; 0; 0]); (2, [-1; 0; 0; 0; 0; 0])]; rel 0 [(1, [0; 2; 0; 0; 0; 0]); (2, [0; 0; 0; 0; 0; -3])];
   rel 0 [(4, [1; 0; 0; 0; 0; 0]); (7, [-1; 0; 0; 0; 0; 0])]]%Z.
Example ex_C86 : (forall l, In l two_rows -> well l) /\ (forall ns, (length (between ns two_rows) <= 6)%nat) /\
  exists e e', makeCellsFromLMPC Z 0%Z Z.eqb two_rows = Ok [e; e'] /\ cells e = [[1; 2]]%Z /\ cells e' = [[4; 7]]%Z /\
    table Z 6 e = [1; 0; 0; 0; 0; 0; -1; 0; 0; 0; 0; 0; 0; 2; 0; 0; 0; 0; 0; 0; 0; 0; 0; -3]%Z.
Proof.
  split; [|split].
  - intros l I. repeat (destruct I as [<- |I]; [split; [cbn; lia|]; split; [repeat constructor; cbn; intuition discriminate|];
      intros p c J; repeat (destruct J as [J|J]; [inversion J; reflexivity|]); destruct J|]). destruct I.
  - intros ns. unfold between, two_rows. cbn [filter]. repeat (destruct list_eq_dec; cbn [length]; try lia).
  - eexists _, _. repeat split; reflexivity.
Qed.
(** Cells sharing coefficients share the element set. *)
Example ex_C86_shared : exists e, makeCellsFromLMPC Z 0%Z Z.eqb [rel 0 [(1, [1; 0; 0; 0; 0; 0])]; rel 0 [(5, [1; 0; 0; 0; 0; 0])]]%Z = Ok [e] /\ cells e = [[1]; [5]]%Z.
Proof. eexists. split; reflexivity. Qed.

(** Seven relations between the same nodes are refused, although cut in slices of
    six: each element set is given all of them. *)
Definition seven : list (lmpc Z) := map (fun k => rel 0 [(1, [k; 0; 0; 0; 0; 0]); (2, [1; k; 0; 0; 0; 0])]%Z) [1; 2; 3; 4; 5; 6; 7]%Z.
Theorem C86_seven_relations_refuted : exists ls : list (lmpc Z), (forall l, In l ls -> well l) /\ length ls = 7%nat /\ makeCellsFromLMPC Z 0%Z Z.eqb ls = Throw.
Proof.
  exists seven. split; [|split; reflexivity]. intros l I. repeat (destruct I as [<- |I]; [split; [cbn; lia|]; split; [repeat constructor; cbn; intuition discriminate|];
      intros p c J; repeat (destruct J as [J|J]; [inversion J; reflexivity|]); destruct J|]). destruct I.
Qed.
(** The imposed value is not in the elements. *)
Theorem C86_imposed_value_refuted : exists l l' : lmpc Z, well l /\ well l' /\ parts l = parts l' /\ impo l <> impo l' /\
  exists es, makeCellsFromLMPC Z 0%Z Z.eqb [l] = Ok es /\ makeCellsFromLMPC Z 0%Z Z.eqb [l'] = Ok es.
Proof.
  exists (rel 0 [(1, [1; 0; 0; 0; 0; 0])]%Z), (rel 5 [(1, [1; 0; 0; 0; 0; 0])]%Z).
  assert (W : forall b, well (rel b [(1, [1; 0; 0; 0; 0; 0])]%Z)). { intros b. split; [cbn; lia|]. split; [repeat constructor; cbn; intuition|]. intros p c [J|[]]. inversion J. reflexivity. }
  repeat split; try apply W; [discriminate|]. eexists. split; reflexivity.
Qed.
(** A relation between twenty-one nodes is refused. *)
Definition wide : lmpc Z := rel 0 (map (fun k => (Z.of_nat k, [1; 0; 0; 0; 0; 0]%Z)) (seq 1 21)).
Theorem C86_wide_relation_refuted : exists l : lmpc Z, NoDup (map fst (parts l)) /\ (forall p c, In (p, c) (parts l) -> length c = 6%nat) /\ makeCellsFromLMPC Z 0%Z Z.eqb [l] = Throw.
Proof.
  exists wide. split; [|split; [|reflexivity]].
  - unfold wide, rel. cbn [parts]. rewrite map_map. cbn [fst]. apply FinFun.Injective_map_NoDup; [intros a b; apply Nat2Z.inj|apply seq_NoDup].
  - intros p c I. apply in_map_iff in I. destruct I as (k & E & _). inversion E. reflexivity.
Qed.
(** With three degrees of freedom per node the coefficients of the rotations are
    not written. *)
Theorem C86_rotations_three_refuted : exists l l' : lmpc Z, well l /\ well l' /\ l <> l' /\
  exists e e', makeCellsFromLMPC Z 0%Z Z.eqb [l] = Ok [e] /\ makeCellsFromLMPC Z 0%Z Z.eqb [l'] = Ok [e'] /\ table Z 3 e = table Z 3 e' /\ table Z 6 e <> table Z 6 e'.
Proof.
  exists (rel 0 [(1, [1; 0; 0; 0; 0; 0])]%Z), (rel 0 [(1, [1; 0; 0; 0; 0; 4])]%Z).
  split; [|split; [|split; [discriminate|]]].
  1,2: split; [cbn; lia|]; split; [repeat constructor; cbn; intuition|]; intros p c [J|[]]; inversion J; reflexivity.
  eexists _, _. split; [reflexivity|]. split; [reflexivity|]. split; [reflexivity|discriminate].
Qed.

(** ** C87 *)
Section Rigid.
Context {W : Type}.
Variable weight_eqb : W -> W -> bool.
Hypothesis weight_spec : forall a b, weight_eqb a b = true <-> a = b.
Notation link := (link W).
Notation element_set := (element_set W).

(** What is to be linked: master, slave and, for an average, DOFs of the master,
    DOFs and weight of the slave. *)
Definition tie := (Z * Z * option (Z * Z * W))%type.
Definition wanted1 (l : link) : list tie :=
  match l with
  | Rigid _ m ss => map (fun s => (m, s, None)) ss
  | QuasiRigid _ (Some m) _ ss => map (fun s => (m, s, None)) ss
  | QuasiRigid _ None _ [] => []
  | QuasiRigid _ None _ (m :: ss) => map (fun s => (m, s, None)) (filter (fun s => negb (s =? m)%Z) ss)
  | Average _ m md ss => map (fun x => (m, fst x, Some (md, fst (snd x), snd (snd x)))) ss
  end.
Definition made1 (e : element_set) : list tie :=
  match e with
  | Rbar m segs => map (fun s => (s, None)) segs
  | Rbe3 _ m md d w segs => map (fun s => (s, Some (md, d, w))) segs
  end.
(** The segments of an element set start from its master. *)
Definition from_master (e : element_set) : Prop := match e with Rbar m segs | Rbe3 _ m _ _ _ segs => forall s, In s segs -> fst s = m end.

Definition ident (l : link) : list Z := match l with Average i _ _ _ => [i] | _ => [] end.
Definition has_node (l : link) : Prop := match l with QuasiRigid _ None _ ss => ss <> [] | _ => True end.

Definition made_parts (md : Z) (g : list (group_key W * list (Z * Z))) : list tie := flat_map (fun x => map (fun s => (s, Some (md, fst (fst x), snd (fst x)))) (snd x)) g.
Lemma add_segment_made md k s g : Permutation (made_parts md (match add_segment W weight_eqb k s g with Some g => g | None => g ++ [(k, [s])] end)) (made_parts md g ++ [(s, Some (md, fst k, snd k))]).
Proof.
  destruct (add_segment W weight_eqb k s g) as [g'|] eqn:E.
  - revert g' E. induction g as [|[k' l] g IH]; cbn; intros g' E; [discriminate|]. destruct ((fst k' =? fst k)%Z && weight_eqb (snd k') (snd k)) eqn:B.
    + inversion E; subst. apply andb_true_iff in B. destruct B as [B1 B2]. apply Z.eqb_eq in B1. apply weight_spec in B2. cbn. rewrite map_app. cbn. rewrite B1, B2, <- !app_assoc. apply Permutation_app_head. apply Permutation_app_comm.
    + destruct (add_segment W weight_eqb k s g) as [g0|]; [|discriminate]. inversion E; subst. cbn. rewrite <- app_assoc. apply Permutation_app_head. now apply IH.
  - unfold made_parts. rewrite flat_map_app. cbn. reflexivity.
Qed.
Lemma parts_made md m ss : Permutation (made_parts md (parts_of W weight_eqb m ss)) (map (fun x => (m, fst x, Some (md, fst (snd x), snd (snd x)))) ss).
Proof.
  unfold parts_of. enough (K : forall g, Permutation (made_parts md (fold_left (fun g x => let k := snd x in let s := (m, fst x) in match add_segment W weight_eqb k s g with Some g => g | None => g ++ [(k, [s])] end) ss g)) (made_parts md g ++ map (fun x => (m, fst x, Some (md, fst (snd x), snd (snd x)))) ss)) by apply (K []).
  induction ss as [|x ss IH]; intros g; cbn [fold_left map]; [now rewrite app_nil_r|]. rewrite IH. cbv zeta. rewrite add_segment_made, <- app_assoc. reflexivity.
Qed.
Lemma numbered_made i id m md g : flat_map made1 (numbered W i id m md g) = made_parts md g.
Proof. revert i. induction g as [|[k l] g IH]; intros i; cbn; [reflexivity|]. now rewrite IH. Qed.
Lemma parts_from md m ss i id e : In e (numbered W i id m md (parts_of W weight_eqb m ss)) -> from_master e.
Proof.
  intros I. assert (K : exists n k l, e = Rbe3 n m md (fst k) (snd k) l /\ In (k, l) (parts_of W weight_eqb m ss)).
  { revert i I. generalize (parts_of W weight_eqb m ss). intros g. induction g as [|[k l] g IH]; intros i; cbn; [contradiction|]. intros [<- |I]; [exists (i, id), k, l; auto|]. destruct (IH _ I) as (n & k' & l' & -> & J). exists n, k', l'. auto. }
  destruct K as (n & k & l & -> & J). cbn. intros s S. assert (T : In (s, Some (md, fst k, snd k)) (made_parts md (parts_of W weight_eqb m ss))).
  { apply in_flat_map. exists (k, l). split; [exact J|]. apply in_map_iff. exists s. auto. }
  apply (Permutation_in _ (parts_made md m ss)) in T. apply in_map_iff in T. destruct T as ([a b] & T & _). inversion T. reflexivity.
Qed.
Lemma cells_made l : has_node l -> exists es, cells_of W weight_eqb l = Ok es /\ Permutation (flat_map made1 es) (wanted1 l) /\ (forall e, In e es -> from_master e).
Proof.
  assert (B : forall m ss (f : Z -> bool), Permutation (flat_map made1 [Rbar (W := W) m (map (fun s => (m, s)) ss)]) (map (fun s => (m, s, None)) ss) /\ (forall e, In e [Rbar (W := W) m (map (fun s => (m, s)) ss)] -> from_master e)).
  { intros m ss _. split; [cbn; rewrite app_nil_r, map_map; reflexivity|]. intros e [<- |[]]. cbn. intros s I. apply in_map_iff in I. destruct I as (x & <- & _). reflexivity. }
  destruct l as [i m ss|i [m|] d ss|i m md ss]; cbn [cells_of wanted1 has_node]; intros H.
  - eexists. split; [reflexivity|]. apply (B m ss (fun _ => true)).
  - eexists. split; [reflexivity|]. apply (B m ss (fun _ => true)).
  - destruct ss as [|m ss]; [contradiction|]. eexists. split; [reflexivity|]. cbn [filter]. rewrite Z.eqb_refl. cbn [negb]. apply (B m _ (fun _ => true)).
  - eexists. split; [reflexivity|]. rewrite numbered_made. split; [apply parts_made|]. intros e. apply parts_from.
Qed.

(** *** Names *)
Lemma name_eqb_iff a b : name_eqb a b = true <-> a = b.
Proof. destruct a as [i p], b as [j q]. unfold name_eqb. cbn. rewrite andb_true_iff, Nat.eqb_eq, Z.eqb_eq. split; [intros [-> ->]; reflexivity|intros E; inversion E; auto]. Qed.
Lemma names_free_iff new : forall used, NoDup used -> names_free used new = true <-> NoDup (used ++ new).
Proof.
  induction new as [|n new IH]; intros used N; cbn; [rewrite app_nil_r; tauto|]. rewrite andb_true_iff, negb_true_iff.
  assert (X : existsb (name_eqb n) used = false <-> ~ In n used).
  { split; intros H.
    - intros I. rewrite <- not_true_iff_false in H. apply H. apply existsb_exists. exists n. split; [exact I|now apply name_eqb_iff].
    - apply not_true_iff_false. intros E. apply existsb_exists in E. destruct E as (x & I & E). apply name_eqb_iff in E. subst. contradiction. }
  rewrite X. replace (used ++ n :: new) with ((used ++ [n]) ++ new) by now rewrite <- app_assoc. split.
  - intros [H F]. apply IH; [|exact F]. apply (Permutation_NoDup (Permutation_cons_append _ _)). now constructor.
  - intros H. assert (H1 : NoDup (used ++ [n])).
    { clear -H. generalize dependent (used ++ [n]). intros l. clear. induction l as [|x l IHl]; intros H; [constructor|]. inversion H; subst. constructor; [|auto]. intros I. apply H2. apply in_or_app. now left. }
    split; [|now apply IH]. intros I. apply (Permutation_NoDup (Permutation_sym (Permutation_cons_append _ _))) in H1. inversion H1; contradiction.
Qed.
Lemma numbered_names i id m md g n : In n (flat_map (name_of W) (numbered W i id m md g)) -> snd n = id /\ (i <= fst n)%nat.
Proof. revert i. induction g as [|[k l] g IH]; intros i; cbn; [contradiction|]. intros [<- |I]; [auto|]. destruct (IH _ I). split; [assumption|lia]. Qed.
Lemma numbered_nodup i id m md g : NoDup (flat_map (name_of W) (numbered W i id m md g)).
Proof. revert i. induction g as [|[k l] g IH]; intros i; cbn; constructor; [|apply IH]. intros I. apply numbered_names in I. cbn in I. lia. Qed.
Lemma cells_names l es : cells_of W weight_eqb l = Ok es -> NoDup (flat_map (name_of W) es) /\ forall n, In n (flat_map (name_of W) es) -> In (snd n) (ident l).
Proof.
  destruct l as [i m ss|i [m|] d ss|i m md ss]; cbn [cells_of ident].
  - intros E. inversion E; subst. cbn. split; [constructor|contradiction].
  - intros E. inversion E; subst. cbn. split; [constructor|contradiction].
  - destruct ss; [discriminate|]. intros E. inversion E; subst. cbn. split; [constructor|contradiction].
  - intros E. inversion E; subst. split; [apply numbered_nodup|]. intros n I. apply numbered_names in I. left. symmetry. apply I.
Qed.
Lemma NoDup_disjoint {B} (a b : list B) : NoDup a -> NoDup b -> (forall x, In x a -> ~ In x b) -> NoDup (a ++ b).
Proof. induction a as [|x a IH]; cbn; intros Na Nb D; [exact Nb|]. inversion Na; subst. constructor; [|auto]. rewrite in_app_iff. intros [I|I]; [contradiction|]. apply (D x); auto. Qed.

(** C87: when the averages have different numbers, the elements link exactly the
    pairs of nodes asked for, each as often as it is asked for; a slave of an average
    is in an element set with its own DOFs and weight; element sets of averages have
    different names. *)
Theorem C87_links_partial : forall ls, (forall l, In l ls -> has_node l) -> NoDup (flat_map ident ls) ->
  exists es, makeCellsFromRBE W weight_eqb ls = Ok es /\ Permutation (flat_map made1 es) (flat_map wanted1 ls) /\ (forall e, In e es -> from_master e) /\ NoDup (flat_map (name_of W) es).
Proof.
  intros ls H N. enough (K : exists es, makeCellsFromRBE W weight_eqb ls = Ok es /\ Permutation (flat_map made1 es) (flat_map wanted1 ls) /\ (forall e, In e es -> from_master e) /\ NoDup (flat_map (name_of W) es) /\
    forall n, In n (flat_map (name_of W) es) -> In (snd n) (flat_map ident ls)). { destruct K as (es & K1 & K2 & K3 & K4 & _). eauto 8. }
  revert H N. unfold makeCellsFromRBE. induction ls as [|l ls IH] using rev_ind; intros H N.
  - exists []. cbn. repeat split; auto; try constructor; intros; contradiction.
  - rewrite flat_map_app in N. cbn in N. rewrite app_nil_r in N.
    assert (N1 : NoDup (flat_map ident ls)). { clear -N. revert N. generalize (flat_map ident ls). intros a. induction a as [|x a IHa]; cbn; intros H; [constructor|]. inversion H; subst. constructor; [|auto]. intros I. apply H2. apply in_or_app. now left. }
    destruct IH as (es & E & P & F & Nn & Id); [intros; apply H; apply in_or_app; now left|exact N1|].
    destruct (cells_made l) as (es' & E' & P' & F'); [apply H; apply in_or_app; right; now left|]. destruct (cells_names l es' E') as [N2 Id2].
    assert (ND : NoDup (flat_map (name_of W) es ++ flat_map (name_of W) es')).
    { apply NoDup_disjoint; [exact Nn|exact N2|]. intros n I J. apply Id in I. apply Id2 in J. clear -N I J. revert N I. generalize (flat_map ident ls). intros a. induction a as [|x a IHa]; cbn; intros N I; [contradiction|]. inversion N; subst. destruct I as [-> |I]; [|auto]. apply H1. apply in_or_app. now right. }
    exists (es ++ es'). split; [|split; [|split; [|split]]].
    + rewrite foldM_app_ok with (b1 := es) by exact E. cbn [foldM]. cbn [bind]. rewrite E'. cbn [bind]. rewrite (proj2 (names_free_iff _ _ Nn) ND). reflexivity.
    + rewrite !flat_map_app. cbn. rewrite app_nil_r. now apply Permutation_app.
    + intros e I. apply in_app_or in I. destruct I; auto.
    + now rewrite flat_map_app.
    + intros n I. rewrite flat_map_app in I |- *. cbn. rewrite app_nil_r. apply in_app_or in I. apply in_or_app. destruct I; auto.
Qed.
End Rigid.

(** Example: a body with two slaves, and an average of four nodes in two parts. *)
Definition mixed : list (link Z) :=
  [Rigid 1 10 [11; 12]; QuasiRigid 2 None 123 [20; 21; 22]; Average 5 30 123456 [(31, (123, 1)); (32, (123, 2)); (33, (123, 1)); (34, (12, 1))]]%Z.
Example ex_C87 : (forall l, In l mixed -> has_node l) /\ NoDup (flat_map ident mixed) /\
  makeCellsFromRBE Z Z.eqb mixed = Ok [Rbar 10 [(10, 11); (10, 12)]; Rbar 20 [(20, 21); (20, 22)]; Rbe3 (1%nat, 5) 30 123456 123 1 [(30, 31); (30, 33)];
    Rbe3 (2%nat, 5) 30 123456 123 2 [(30, 32)]; Rbe3 (3%nat, 5) 30 123456 12 1 [(30, 34)]]%Z.
Proof.
  split; [|split].
  - intros l I. repeat (destruct I as [<- |I]; [cbn; try discriminate; auto|]). destruct I.
  - repeat constructor; cbn; intuition discriminate.
  - reflexivity.
Qed.

(** The DOFs of a partially rigid body are not in its elements. *)
Theorem C87_partial_body_dofs_refuted : exists (l l' : link Z) es, l <> l' /\ l = QuasiRigid 1 (Some 10%Z) 123 [11%Z] /\ l' = QuasiRigid 1 (Some 10%Z) 456 [11%Z] /\
  makeCellsFromRBE Z Z.eqb [l] = Ok es /\ makeCellsFromRBE Z Z.eqb [l'] = Ok es.
Proof. exists (QuasiRigid 1 (Some 10%Z) 123 [11%Z]), (QuasiRigid 1 (Some 10%Z) 456 [11%Z]). eexists. split; [discriminate|]. repeat split; reflexivity. Qed.
(** Two averages with the same number are refused. *)
Theorem C87_same_number_refuted : exists ls : list (link Z), (forall l, In l ls -> has_node l) /\ makeCellsFromRBE Z Z.eqb ls = Throw.
Proof. exists [Average 5 30 123 [(31, (123, 1))]; Average 5 40 123 [(41, (123, 1))]]%Z. split; [|reflexivity]. intros l [<- |[<- |[]]]; exact I. Qed.

Print Assumptions C86_relations_partial.
Print Assumptions C86_seven_relations_refuted.
Print Assumptions C86_imposed_value_refuted.
Print Assumptions C86_wide_relation_refuted.
Print Assumptions C86_rotations_three_refuted.
Print Assumptions C87_links_partial.
Print Assumptions C87_partial_body_dofs_refuted.
Print Assumptions C87_same_number_refuted.
