(** C98: materials and point masses of the Systus file. *)
From Coq Require Import Reals ZArith List Bool Lia Lra.
Require Import Verif.Base Verif.DofModel Verif.SectionModel Verif.SystusMaterialModel Verif.SystusMaterialProofs Verif.MeshCellProofs.
Import ListNotations.
Open Scope R_scope.
Open Scope list_scope.

(** ** One material per set *)
(** The fields of each kind of set: [fields_of] in SystusMaterialProofs. *)
Section All.
Context (M tol : R) (lagrangian file : bool) (active : list Z) (table reduction : Z -> option Z) (ids0 : Z -> option Z).
Definition skinless (s : mset) : Prop := m_effective s = true /\ m_props s = SkinSet.
(** The material found under the number of a set. *)
Definition under (mats : list material) (ids : Z -> option Z) (s : mset) (i : nat) (m : material) : Prop :=
  ids (m_id s) = Some (Z.of_nat i + 1)%Z /\ nth_error mats i = Some m.
Record sound (done : list mset) (st : state) : Prop := mkSound {
  s_own : forall s, In s done -> own active s -> exists i m, under (fst (fst st)) (snd (fst st)) s i m /\
            describes M tol lagrangian file table reduction s (Z.of_nat i + 1)%Z m;
  s_skin : forall s, In s done -> skinless s -> exists i m, under (fst (fst st)) (snd (fst st)) s i m /\ bare (Z.of_nat i + 1)%Z m /\
             snd st = Some (Z.of_nat i + 1)%Z;
  s_all : forall i m, nth_error (fst (fst st)) i = Some m -> exists s, In s done /\ (own active s \/ skinless s) /\ under (fst (fst st)) (snd (fst st)) s i m;
  s_sep : forall s t, In s done -> In t done -> own active s -> own active t \/ skinless t -> snd (fst st) (m_id s) = snd (fst st) (m_id t) -> s = t;
  s_none : forall s, In s done -> ~ own active s -> ~ skinless s -> snd (fst st) (m_id s) = ids0 (m_id s);
  s_fresh : forall x, ~ In x (map m_id done) -> snd (fst st) x = ids0 x;
  s_live : forall k, snd st = Some k -> exists s, In s done /\ skinless s
}.
Lemma bind_same ids s n : bind_id ids s n s = Some n.
Proof. unfold bind_id. now rewrite Z.eqb_refl. Qed.
Lemma bind_other ids s n x : x <> s -> bind_id ids s n x = ids x.
Proof. intros N. unfold bind_id. now apply Z.eqb_neq in N as ->. Qed.
Lemma own_not_skin s : own active s -> skinless s -> False.
Proof. intros [_ O] [_ S]. rewrite S in O. exact O. Qed.

Ltac split_in := let I := fresh "I" in intros I; apply in_app_or in I; destruct I as [I|[I|[]]]; [revert I|symmetry in I; revert I].
Lemma sound_step done st s st' : ~ In (m_id s) (map m_id done) -> sound done st ->
  fill_one M tol lagrangian file active table reduction st s = Ok st' -> sound (done ++ [s]) st'.
Proof.
  intros F S H. destruct st as [[mats ids] skin]. destruct S as [S1 S2 S3 S4 S5 S6 S7]. cbn [fst snd] in *.
  assert (NF : forall t, In t done -> m_id t <> m_id s) by (intros t I E; apply F; rewrite <- E; now apply in_map).
  assert (UP : forall m n t i x, In t done -> under mats ids t i x -> under (mats ++ [m]) (bind_id ids (m_id s) n) t i x).
  { intros m n t i x I [A B]. split; [now rewrite bind_other by auto|]. rewrite nth_error_app1; [assumption|]. apply nth_error_Some. congruence. }
  assert (UB : forall n t i x, In t done -> under mats ids t i x -> under mats (bind_id ids (m_id s) n) t i x).
  { intros n t i x I [A B]. split; [now rewrite bind_other by auto|assumption]. }
  assert (LT : forall t i x, under mats ids t i x -> (i < length mats)%nat) by (intros t i x [_ B]; apply nth_error_Some; congruence).
  assert (OLD : forall t, In t done -> own active t \/ skinless t -> exists i x, under mats ids t i x).
  { intros t I [O|O]; [destruct (S1 t I O) as (i & x & U & _)|destruct (S2 t I O) as (i & x & U & _)]; eauto. }
  assert (NEW : forall m n, n = (Z.of_nat (length mats) + 1)%Z -> under (mats ++ [m]) (bind_id ids (m_id s) n) s (length mats) m).
  { intros m n ->. split; [apply bind_same|]. rewrite nth_error_app2, Nat.sub_diag by lia. reflexivity. }
  assert (FR : forall n x, ~ In x (map m_id (done ++ [s])) -> bind_id ids (m_id s) n x = ids0 x).
  { intros n x N. rewrite map_app, in_app_iff in N. cbn in N. rewrite bind_other by (intros ->; tauto). apply S6. tauto. }
  apply fill_one_spec in H. cbv zeta in H. destruct H as [[O (m & -> & DS)]|[O [[SK ->]|(EF & PS & H)]]].
  - constructor; cbn [fst snd].
    + intros t; split_in; [intros I Ot; destruct (S1 t I Ot) as (i & x & U & DX); exists i, x; split; [now apply UP|assumption]|].
      intros -> _. exists (length mats), m. split; [now apply NEW|assumption].
    + intros t; split_in; [intros I Ot; destruct (S2 t I Ot) as (i & x & U & BX & K); exists i, x; split; [now apply UP|split; assumption]|].
      intros -> X. exfalso. eapply own_not_skin; eassumption.
    + intros i x N. destruct (Nat.lt_ge_cases i (length mats)) as [L|L].
      * rewrite nth_error_app1 in N by assumption. destruct (S3 i x N) as (t & I & Ot & U). exists t. split; [apply in_or_app; now left|]. split; [assumption|now apply UP].
      * assert (i = length mats) as ->. { assert (i < length (mats ++ [m]))%nat by (apply nth_error_Some; congruence). rewrite app_length in *. cbn in *. lia. }
        rewrite nth_error_app2, Nat.sub_diag in N by lia. cbn in N. injection N as <-. exists s. split; [apply in_or_app; right; now left|]. split; [now left|now apply NEW].
    + intros t u It Iu Ot Ou E. revert Iu; revert It; split_in; intros It; split_in; intros Iu.
      * rewrite !bind_other in E by auto. apply S4; assumption.
      * subst u. rewrite bind_same, bind_other in E by auto. destruct (OLD t It (or_introl Ot)) as (i & x & U). pose proof (LT _ _ _ U). destruct U as [U _]. rewrite U in E. injection E as E. lia.
      * subst t. rewrite bind_same, bind_other in E by auto. destruct (OLD u Iu Ou) as (i & x & U). pose proof (LT _ _ _ U). destruct U as [U _]. rewrite U in E. injection E as E. lia.
      * congruence.
    + intros t; split_in; [intros I N1 N2; rewrite bind_other by auto; apply S5; assumption|]. intros -> N1. contradiction.
    + apply FR.
    + intros k K. destruct (S7 k K) as (t & I & X). exists t. split; [apply in_or_app; now left|assumption].
  - assert (NS : ~ skinless s) by (intros [A B]; destruct SK; congruence). constructor; cbn [fst snd].
    + intros t; split_in; [auto|]. intros ->. contradiction.
    + intros t; split_in; [auto|]. intros ->. contradiction.
    + intros i x N. destruct (S3 i x N) as (t & I & Ot & U). exists t. split; [apply in_or_app; now left|]. split; assumption.
    + intros t u It Iu Ot Ou E. revert Iu; revert It; split_in; intros It; split_in; intros Iu; [apply S4; assumption| | |]; subst; tauto.
    + intros t; split_in; [auto|]. intros -> _ _. apply S6. assumption.
    + intros x N. apply S6. rewrite map_app, in_app_iff in N. tauto.
    + intros k K. destruct (S7 k K) as (t & I & X). exists t. split; [apply in_or_app; now left|assumption].
  - assert (SL : skinless s) by (split; assumption). destruct skin as [k|].
    + subst st'. destruct (S7 k eq_refl) as (t0 & I0 & X0). destruct (S2 t0 I0 X0) as (i0 & x0 & U0 & B0 & K0). injection K0 as ->. constructor; cbn [fst snd].
      * intros t; split_in; [intros I Ot; destruct (S1 t I Ot) as (i & x & U & DX); exists i, x; split; [now apply UB|assumption]|]. intros ->. contradiction.
      * intros t; split_in; [intros I Ot; destruct (S2 t I Ot) as (i & x & U & BX & K); exists i, x; split; [now apply UB|split; assumption]|].
        intros -> _. exists i0, x0. split; [split; [apply bind_same|apply U0]|split; [assumption|reflexivity]].
      * intros i x N. destruct (S3 i x N) as (t & I & Ot & U). exists t. split; [apply in_or_app; now left|]. split; [assumption|now apply UB].
      * intros t u It Iu Ot Ou E. revert Iu; revert It; split_in; intros It; split_in; intros Iu; [rewrite !bind_other in E by auto; apply S4; assumption| |subst; contradiction|subst; contradiction].
        subst u. rewrite bind_same, bind_other in E by auto. assert (t = t0) as ->; [|exfalso; eapply own_not_skin; eassumption].
        apply S4; try assumption; [now right|]. destruct U0 as [U0 _]. congruence.
      * intros t; split_in; [intros I N1 N2; rewrite bind_other by auto; apply S5; assumption|]. intros -> _ N. contradiction.
      * apply FR.
      * intros k K. exists s. split; [apply in_or_app; right; now left|assumption].
    + destruct H as (m & -> & BM). constructor; cbn [fst snd].
      * intros t; split_in; [intros I Ot; destruct (S1 t I Ot) as (i & x & U & DX); exists i, x; split; [now apply UP|assumption]|]. intros ->. contradiction.
      * intros t; split_in; [intros I Ot; destruct (S2 t I Ot) as (i & x & U & BX & K); discriminate|].
        intros -> _. exists (length mats), m. split; [now apply NEW|split; [assumption|reflexivity]].
      * intros i x N. destruct (Nat.lt_ge_cases i (length mats)) as [L|L].
        -- rewrite nth_error_app1 in N by assumption. destruct (S3 i x N) as (t & I & Ot & U). exists t. split; [apply in_or_app; now left|]. split; [assumption|now apply UP].
        -- assert (i = length mats) as ->. { assert (i < length (mats ++ [m]))%nat by (apply nth_error_Some; congruence). rewrite app_length in *. cbn in *. lia. }
           rewrite nth_error_app2, Nat.sub_diag in N by lia. cbn in N. injection N as <-. exists s. split; [apply in_or_app; right; now left|]. split; [now right|now apply NEW].
      * intros t u It Iu Ot Ou E. revert Iu; revert It; split_in; intros It; split_in; intros Iu; [rewrite !bind_other in E by auto; apply S4; assumption| |subst; contradiction|subst; contradiction].
        subst u. rewrite bind_same, bind_other in E by auto. destruct (OLD t It (or_introl Ot)) as (i & x & U). pose proof (LT _ _ _ U). destruct U as [U _]. rewrite U in E. injection E as E. lia.
      * intros t; split_in; [intros I N1 N2; rewrite bind_other by auto; apply S5; assumption|]. intros -> _ N. contradiction.
      * apply FR.
      * intros k K. exists s. split; [apply in_or_app; right; now left|assumption].
Qed.
Lemma sound_all sets : forall done st st', NoDup (map m_id (done ++ sets)) -> sound done st ->
  foldM (fill_one M tol lagrangian file active table reduction) sets st = Ok st' -> sound (done ++ sets) st'.
Proof.
  induction sets as [|s sets IH]; intros done st st' ND S H; cbn in H.
  - injection H as <-. now rewrite app_nil_r.
  - destruct (fill_one M tol lagrangian file active table reduction st s) as [st1| | |] eqn:E; try discriminate. cbn in H.
    replace (done ++ s :: sets) with ((done ++ [s]) ++ sets) in * by (rewrite <- app_assoc; reflexivity).
    apply (IH _ st1); [assumption| |assumption]. eapply sound_step; [|eassumption|eassumption].
    rewrite !map_app in ND. cbn in ND. rewrite <- app_assoc in ND. apply NoDup_remove_2 in ND. intros I. apply ND. apply in_or_app. now left.
Qed.

Theorem C98_materials : forall sets mats ids skin, NoDup (map m_id sets) ->
  fill_materials M tol lagrangian file active table reduction ids0 sets = Ok (mats, ids, skin) ->
  (forall s, In s sets -> own active s -> exists i m, under mats ids s i m /\ describes M tol lagrangian file table reduction s (Z.of_nat i + 1)%Z m) /\
  (forall s, In s sets -> skinless s -> exists i m, under mats ids s i m /\ bare (Z.of_nat i + 1)%Z m) /\
  (forall s t, In s sets -> In t sets -> own active s \/ skinless s -> own active t \/ skinless t ->
     (ids (m_id s) = ids (m_id t) <-> s = t \/ (skinless s /\ skinless t))) /\
  (forall i m, nth_error mats i = Some m -> exists s, In s sets /\ (own active s \/ skinless s) /\ under mats ids s i m) /\
  (forall s, In s sets -> ~ own active s -> ~ skinless s -> ids (m_id s) = ids0 (m_id s)).
Proof.
  intros sets mats ids skin ND H. unfold fill_materials in H.
  assert (S0 : sound [] ([], ids0, None)).
  { constructor; cbn [fst snd]; [intros s []|intros s []|intros [|i]; discriminate|intros s t []|intros s []|reflexivity|discriminate]. }
  destruct (sound_all sets [] _ _ ND S0 H) as [S1 S2 S3 S4 S5 S6 S7]. cbn [fst snd app] in *.
  split; [assumption|]. split; [intros s I X; destruct (S2 s I X) as (i & m & U & B & _); eauto|]. split; [|split; assumption].
  intros s t Is It [Os|Os] Ot.
  - split; [intros E; left; apply S4; assumption|]. intros [->|[X _]]; [reflexivity|]. exfalso. eapply own_not_skin; eassumption.
  - destruct Ot as [Ot|Ot].
    + split; [intros E; left; symmetry; apply S4; try assumption; [now right|congruence]|]. intros [->|[_ X]]; [reflexivity|]. exfalso. eapply own_not_skin; eassumption.
    + split; [intros _; right; split; assumption|]. intros _. destruct (S2 s Is Os) as (i & m & [U _] & _ & K1), (S2 t It Ot) as (j & m' & [U' _] & _ & K2). congruence.
Qed.

(** Nothing stops the filling but a section whose numbers are not defined. *)
Theorem C98_accepted : forall sets,
  (forall s, In s sets -> match m_props s with
     | Elastic _ (MBeam false (Of x)) => (exists f, shear_factor x = Ok f) /\ (exists iz, inertia_z tol x = Ok iz)
     | Spring ps _ => ps <> []
     | _ => True
     end) -> exists st, fill_materials M tol lagrangian file active table reduction ids0 sets = Ok st.
Proof.
  unfold fill_materials. intros sets. generalize (@nil material, ids0, @None Z). induction sets as [|s sets IH]; intros st H; [eexists; reflexivity|].
  cbn [foldM]. assert (exists st', fill_one M tol lagrangian file active table reduction st s = Ok st') as [st' ->]; [|cbn [bind]; apply IH; intros; apply H; now right].
  specialize (H s (or_introl eq_refl)). destruct st as [[mats ids] skin]. unfold fill_one. destruct (m_effective s); [cbn [negb]|eexists; reflexivity]. cbv zeta.
  destruct (m_props s) as [e mb|r mb| |k|ps x| | | |]; try (eexists; reflexivity).
  - destruct mb as [[|] [a iy iz it fy fz|x]|h| |]; try (eexists; reflexivity). destruct H as [[f F] [iz Z0]].
    unfold put_elastic. cbv zeta. unfold numbers. rewrite F. cbn [bind]. rewrite Z0. eexists; reflexivity.
  - destruct (put_rigid _ _ _ _ _ _ _); eexists; reflexivity.
  - destruct ps as [|[a b] ps]; [congruence|eexists; reflexivity].
  - destruct skin; eexists; reflexivity.
Qed.
End All.

(** ** What the fields are worth *)
(** Numbers of the cards and of the sections reach the file: area, torsion and
    bending inertias of a beam, elastic constants when positive. *)
Theorem C98_beam_partial : forall M tol lagrangian file table reduction s n m e b x,
  describes M tol lagrangian file table reduction s n m -> m_props s = Elastic e (MBeam false b) -> numbers tol b = Ok x ->
  get kS m = Some (D (b_area x)) /\ get kIX m = Some (D (b_it x)) /\ get kIY m = Some (D (b_iy x)) /\ get kIZ m = Some (D (b_iz x)) /\
  (0 < el_rho e -> get kRHO m = Some (D (el_rho e))) /\ (0 < el_e e -> get kE m = Some (D (el_e e))) /\ (0 < el_nu e -> get kNU m = Some (D (el_nu e))).
Proof.
  intros M tol lagrangian file table reduction s n m e b x H P N. unfold describes in H. rewrite !H. unfold fields_of. rewrite P. cbn [member_fields]. rewrite N.
  cbn. unfold positive. repeat split; try reflexivity; intros Q; destruct (Rlt_dec 0 _); try reflexivity; contradiction.
Qed.
Theorem C98_elastic_partial : forall M tol lagrangian file table reduction s n m e mb,
  describes M tol lagrangian file table reduction s n m -> m_props s = Elastic e mb ->
  (0 < el_rho e -> get kRHO m = Some (D (el_rho e))) /\ (0 < el_e e -> get kE m = Some (D (el_e e))) /\
  (0 < el_nu e -> get kNU m = Some (D (el_nu e))) /\ (forall g, el_ge e = Some g -> get kALPHA m = Some (D (2 * g))) /\
  (forall h, mb = MShell h -> get kH m = Some (D h)).
Proof.
  intros M tol lagrangian file table reduction s n m e mb H P. unfold describes in H. rewrite !H. unfold fields_of. rewrite P. cbn. unfold positive.
  repeat split; try (intros Q; destruct (Rlt_dec 0 _); try reflexivity; contradiction); [intros g ->; reflexivity|intros h ->; reflexivity].
Qed.
(** A bush, a spring between components of one name. *)
Theorem C98_stiffness : forall M tol lagrangian file table reduction s n m, describes M tol lagrangian file table reduction s n m ->
  (forall k d, m_props s = Bush k -> get (stiffness_key d) m = Some (D (k d))) /\
  (forall d r k, m_props s = Spring ((d, d) :: r) (Some k) ->
     get (stiffness_key d) m = Some (D k) /\ forall d', d' <> d -> get (stiffness_key d') m = None).
Proof.
  intros M tol lagrangian file table reduction s n m H. split.
  - intros k d P. rewrite H. unfold fields_of. rewrite P. destruct d; reflexivity.
  - intros d r k P. unfold describes in H. unfold fields_of in H. rewrite P in H. destruct (dof_eq_dec d d); [|congruence]. split.
    + rewrite H. destruct d; reflexivity.
    + intros d' N. rewrite H. destruct d, d'; try congruence; reflexivity.
Qed.

(** ** The block of the file *)
Definition tidy (m : material) : Prop := forall l1 k v l2 k' v' l3, m = l1 ++ (k, v) :: l2 ++ (k', v') :: l3 -> (k < k')%Z.
Inductive ascending : material -> Prop :=
| asc_nil : ascending []
| asc_cons k v m : ascending m -> (forall k' v', In (k', v') m -> (k < k')%Z) -> ascending ((k, v) :: m).
Lemma ascending_put k v m : ascending m -> ascending (put k v m).
Proof.
  induction 1 as [|a w m A IH L]; cbn; [constructor; [constructor|intros ? ? []]|].
  destruct (k <? a)%Z eqn:E1; [|destruct (k =? a)%Z eqn:E2].
  - apply Z.ltb_lt in E1. constructor; [constructor; assumption|]. intros k' v' [X|X]; [injection X as <- <-; assumption|]. specialize (L k' v' X). lia.
  - apply Z.eqb_eq in E2. subst a. constructor; assumption.
  - apply Z.ltb_ge in E1. apply Z.eqb_neq in E2. constructor; [assumption|]. intros k' v' X.
    assert (I : In (k', v') m \/ k' = k).
    { clear - X. induction m as [|[b u] m IH]; cbn in X.
      - destruct X as [X|[]]. injection X as -> ->. now right.
      - destruct (k <? b)%Z; [|destruct (k =? b)%Z]; cbn in X.
        + destruct X as [X|X]; [injection X as -> ->; now right|left; exact X].
        + destruct X as [X|X]; [injection X as -> ->; now right|left; now right].
        + destruct X as [X|X]; [left; left; exact X|]. destruct (IH X) as [Y|Y]; [left; now right|now right]. }
    destruct I as [I| ->]; [eauto|lia].
Qed.
Lemma ascending_tidy m : ascending m -> tidy m.
Proof.
  induction 1 as [|a w m A IH L]; intros l1 k v l2 k' v' l3 E; [destruct l1; discriminate|].
  destruct l1 as [|x l1]; injection E.
  - intros E2 _ <-. apply (L k' v'). rewrite E2. apply in_or_app. right. now left.
  - intros E2 _. eapply IH; eassumption.
Qed.
Section Order.
Context (M tol : R) (lagrangian file : bool) (active : list Z) (table reduction : Z -> option Z).
Lemma asc_positive k x m : ascending m -> ascending (put_positive k x m).
Proof. unfold put_positive. destruct (Rlt_dec 0 x); [apply ascending_put|auto]. Qed.
Lemma asc_known k x m : ascending m -> ascending (put_known k x m).
Proof. destruct x; [apply ascending_put|auto]. Qed.
Ltac asc := repeat first [assumption|apply ascending_put|apply asc_positive|apply asc_known|apply asc_nil].
Lemma asc_dofs s m : ascending m -> ascending (put_dofs s m).
Proof.
  unfold put_dofs. generalize [(DX, kKX); (DY, kKY); (DZ, kKZ); (RX, kIX); (RY, kIY); (RZ, kIZ)]. intros l. revert m.
  induction l as [|[d k] l IH]; cbn; intros m A; [assumption|]. apply IH. destruct (contains s d); asc.
Qed.
Lemma asc_table id m : ascending m -> ascending (put_table file table reduction id m).
Proof. intros A. unfold put_table. destruct (table id); [|assumption]. cbv zeta. destruct file; [destruct (reduction id)|]; unfold put_int; asc. Qed.
Lemma fill_ascending sets : forall st mats ids skin, Forall ascending (fst (fst st)) ->
  foldM (fill_one M tol lagrangian file active table reduction) sets st = Ok (mats, ids, skin) -> Forall ascending mats.
Proof.
  induction sets as [|s sets IH]; intros st mats ids skin A H; cbn in H; [injection H as ->; exact A|].
  destruct (fill_one M tol lagrangian file active table reduction st s) as [st'| | |] eqn:E; try discriminate. cbn in H. apply (IH st' mats ids skin); [|assumption].
  clear H IH sets mats ids skin. destruct st as [[mats ids] skin]. cbn [fst] in A. unfold fill_one in E. destruct (m_effective s); cbn [negb] in E; [|injection E as <-; exact A].
  cbv zeta in E. set (m0 := put_int kMID _ _) in E. assert (B : ascending m0) by (unfold m0, put_int; asc). clearbody m0.
  assert (ADD : forall m, ascending m -> Forall ascending (mats ++ [m])) by (intros m X; apply Forall_app; split; [exact A|repeat constructor; exact X]).
  destruct (m_props s) as [e mb|r mb| |k|ps x| | | |].
  - destruct (put_elastic M tol e mb m0) as [m| | |] eqn:Q; cbn [bind] in E; try discriminate. injection E as <-. cbn [fst]. apply ADD.
    unfold put_elastic in Q. cbv zeta in Q. destruct mb as [[|] b|h| |].
    + injection Q as <-. destruct (rectangular b); unfold put_real; asc.
    + destruct (numbers tol b); try discriminate. cbn [bind] in Q. injection Q as <-. unfold put_real. asc.
    + injection Q as <-. unfold put_real. asc.
    + injection Q as <-. asc.
    + injection Q as <-. asc.
  - destruct (put_rigid lagrangian active table (m_id s) r mb m0) as [m|] eqn:Q; injection E as <-; [|exact A]. cbn [fst]. apply ADD.
    unfold put_rigid in Q. destruct mb as [|md sd|a|]; try (injection Q as <-).
    + unfold put_mode, put_int. destruct lagrangian; asc.
    + unfold put_int, put_real. do 2 apply ascending_put. apply asc_dofs. asc.
    + destruct (existsb (Z.eqb a) active); [|discriminate]. injection Q as <-. destruct (table (m_id s)); [|assumption]. unfold put_mode, put_int. destruct lagrangian; asc.
    + assumption.
  - injection E as <-. exact A.
  - injection E as <-. cbn [fst]. apply ADD. unfold put_real. asc.
  - destruct ps as [|[a b] ps]; [discriminate|]. injection E as <-. cbn [fst]. apply ADD. destruct (dof_eqb a b); [unfold put_real; asc|apply asc_table; assumption].
  - injection E as <-. cbn [fst]. apply ADD. apply asc_table. assumption.
  - destruct skin; injection E as <-; [exact A|]. cbn [fst]. apply ADD. assumption.
  - injection E as <-. exact A.
  - injection E as <-. exact A.
Qed.
End Order.

(** The block: the counts, and for each material, in order, its rank and its
    fields, one of each, by ascending key. *)
Theorem C98_block : forall M tol lagrangian file active table reduction ids0 sets mats ids skin nm nf ls, NoDup (map m_id sets) ->
  fill_materials M tol lagrangian file active table reduction ids0 sets = Ok (mats, ids, skin) -> write_materials mats = (nm, nf, ls) ->
  nm = Z.of_nat (length ls) /\ nf = fold_right (fun l n => Z.of_nat (length (snd l)) + n)%Z 0%Z ls /\ length ls = length mats /\
  forall i l m, nth_error ls i = Some l -> nth_error mats i = Some m ->
    fst l = Some (I (Z.of_nat i + 1)%Z) /\ tidy (snd l) /\ get 0 (snd l) = None /\ forall k, k <> 0%Z -> get k (snd l) = get k m.
Proof.
  intros M tol lagrangian file active table reduction ids0 sets mats ids skin nm nf ls ND H W. unfold write_materials in W. injection W as <- <- <-.
  rewrite map_length. split; [reflexivity|]. split.
  { clear. induction mats as [|m r IH]; [reflexivity|]. cbn [map flat_map fold_right]. rewrite app_length, Nat2Z.inj_add, IH. reflexivity. }
  split; [reflexivity|]. intros i l m L N. rewrite nth_error_map, N in L. injection L as <-. unfold write_material. cbn [fst snd].
  destruct (C98_materials _ _ _ _ _ _ _ _ _ _ _ _ ND H) as (A & B & _ & C & _). split; [|split; [|split]].
  - destruct (C i m N) as (s & J & [O|O] & U).
    + destruct (A s J O) as (i' & m' & U' & DS). destruct U as [U1 U2], U' as [V1 V2]. assert (i' = i) by (rewrite U1 in V1; injection V1; lia). subst i'.
      assert (m' = m) by congruence. subst. rewrite (DS kID). reflexivity.
    + destruct (B s J O) as (i' & m' & U' & DS). destruct U as [U1 U2], U' as [V1 V2]. assert (i' = i) by (rewrite U1 in V1; injection V1; lia). subst i'.
      assert (m' = m) by congruence. subst. rewrite (DS kID). reflexivity.
  - unfold fill_materials in H. apply fill_ascending in H; [|constructor]. apply ascending_tidy. rewrite Forall_forall in H. specialize (H m (nth_error_In _ _ N)).
    clear - H. induction H as [|k v m A IH L]; cbn; [constructor|]. destruct (negb _); [|assumption]. constructor; [assumption|]. intros k' v' X. apply filter_In in X. apply (L k' v'), X.
  - clear. unfold get, kID. induction m as [|[k v] m IH]; cbn; [reflexivity|]. destruct (k =? 0)%Z eqn:E; cbn; [assumption|]. rewrite E. exact IH.
  - clear. intros k K. unfold get, kID. induction m as [|[k' v] m IH]; cbn; [reflexivity|]. destruct (Z.eqb_spec k' 0) as [->|E]; cbn.
    + destruct k; [congruence|exact IH|exact IH].
    + destruct (k' =? k)%Z; [reflexivity|exact IH].
Qed.

(** ** What fails *)
(** A negative Poisson ratio is lost. *)
Theorem C98_poisson_refuted : forall M tol lagrangian file table reduction s n m e mb,
  describes M tol lagrangian file table reduction s n m -> m_props s = Elastic e mb -> el_nu e < 0 -> get kNU m = None.
Proof.
  intros M tol lagrangian file table reduction s n m e mb H P N. rewrite H. unfold fields_of. rewrite P. cbn. unfold positive. destruct (Rlt_dec 0 (el_nu e)); [lra|reflexivity].
Qed.
(** A bar of rectangular section without bending has no area. *)
Theorem C98_rectangular_bar_refuted : forall M tol lagrangian file table reduction s n m e w h,
  describes M tol lagrangian file table reduction s n m -> m_props s = Elastic e (MBeam true (Of (Rectangular w h))) -> get kS m = None.
Proof. intros M tol lagrangian file table reduction s n m e w h H P. rewrite H. unfold fields_of. rewrite P. reflexivity. Qed.
(** A beam given by the numbers of a card: each in its field, the shear areas as
    the area times the factors kept. *)
Theorem C98_card : forall M tol lagrangian file table reduction s n m e a iy iz it fy fz,
  describes M tol lagrangian file table reduction s n m -> m_props s = Elastic e (MBeam false (Given a iy iz it (Some fy) (Some fz))) ->
  get kS m = Some (D a) /\ get kIX m = Some (D it) /\ get kIY m = Some (D iy) /\ get kIZ m = Some (D iz) /\
  get kAY m = Some (D (a * fy)) /\ get kAZ m = Some (D (a * fz)).
Proof.
  intros M tol lagrangian file table reduction s n m e a iy iz it fy fz H P. unfold describes in H. rewrite !H. unfold fields_of. rewrite P. cbn. repeat split.
Qed.
(** An I: the shear area is to the area as the area to that of the web. *)
Theorem C98_web : forall M tol lagrangian file table reduction s n m e wl wu e1 e3 h e2 x,
  describes M tol lagrangian file table reduction s n m -> m_props s = Elastic e (MBeam false (Of (ISection wl wu e1 e3 h e2))) ->
  numbers tol (Of (ISection wl wu e1 e3 h e2)) = Ok x ->
  let web := e2 * (h - e1 - e3) in web <> 0 /\ exists ay, get kAY m = Some (D ay) /\ get kAZ m = Some (D ay) /\ ay * web = b_area x * b_area x.
Proof.
  intros M tol lagrangian file table reduction s n m e wl wu e1 e3 h e2 x H P N web. unfold describes in H. rewrite !H. unfold fields_of. rewrite P. cbn [member_fields]. rewrite N.
  unfold numbers, shear_factor, divide in N. fold web in N. destruct (Req_EM_T web 0) as [|W]; [discriminate|]. cbn [bind] in N.
  destruct (inertia_z tol (ISection wl wu e1 e3 h e2)) as [iz| | |]; try discriminate. cbn [bind] in N. injection N as <-. split; [exact W|].
  eexists. split; [reflexivity|]. split; [reflexivity|]. cbn [b_area]. field. exact W.
Qed.
(** The shear areas of round and rectangular sections, and those of cards with
    factors K below 1 (kept as 1/K), exceed the area. *)
Theorem C98_shear_refuted : forall M tol lagrangian file table reduction s n m e b x f,
  describes M tol lagrangian file table reduction s n m -> m_props s = Elastic e (MBeam false b) -> numbers tol b = Ok x -> 0 < b_area x ->
  (exists r, b = Of (Circular r)) \/ (exists w h, b = Of (Rectangular w h)) \/ (exists a iy iz it fz k, 0 < k < 1 /\ f = / k /\ b = Given a iy iz it (Some f) fz) ->
  exists ay, get kAY m = Some (D ay) /\ b_area x < ay.
Proof.
  intros M tol lagrangian file table reduction s n m e b x f H P N A C. rewrite H. unfold fields_of. rewrite P. cbn [member_fields]. rewrite N. cbn.
  destruct C as [[r ->]|[(w & h & ->)|(a & iy & iz & it & fz & k & K & -> & ->)]]; cbn in N; injection N as <-; cbn in *; eexists; (split; [reflexivity|]); try lra.
  assert (1 < / k) by (rewrite <- Rinv_1; apply Rinv_lt_contravar; lra). nra.
Qed.
(** A factor K of 0 gives an enormous negative shear area when the area is below 1. *)
Theorem C98_no_shear_refuted : forall M tol lagrangian file table reduction s n m e a iy iz it fz,
  describes M tol lagrangian file table reduction s n m -> m_props s = Elastic e (MBeam false (Given a iy iz it None fz)) ->
  0 < a < 1 - tol -> get kAY m = Some (D (- (a * M))).
Proof.
  intros M tol lagrangian file table reduction s n m e a iy iz it fz H P A. rewrite H. unfold fields_of. rewrite P. cbn. unfold shear_area.
  destruct (Rlt_dec (Rabs a) (1 - tol)) as [|X]; [reflexivity|]. rewrite Rabs_pos_eq in X by lra. lra.
Qed.
(** A damper (no stiffness) between components of one name is written with a
    stiffness of -M. *)
Theorem C98_damper_refuted : forall M tol lagrangian file table reduction s n m d r,
  describes M tol lagrangian file table reduction s n m -> m_props s = Spring ((d, d) :: r) None -> get (stiffness_key d) m = Some (D (- M)).
Proof.
  intros M tol lagrangian file table reduction s n m d r H P. rewrite H. unfold fields_of. rewrite P. destruct (dof_eq_dec d d); [|congruence]. destruct d; reflexivity.
Qed.

(** ** Springs in matrix files *)
(** With only one of stiffness and damping, a spring between different components
    finds its own value under its number, in the file its table tells. *)
Definition crossed (p : spring) : Prop := fst (p_pair p) <> snd (p_pair p).
Lemma crossed_eqb p : crossed p -> dof_eqb (fst (p_pair p)) (snd (p_pair p)) = false.
Proof. unfold crossed. destruct (fst (p_pair p)), (snd (p_pair p)); intros H; try reflexivity; congruence. Qed.
Definition filed (f : matrix_files) (p : spring) : Prop :=
  match p_stiffness p, p_damping p with
  | Some k, None => f_table f (p_id p) = Some (-43)%Z /\ exists i, f_reduction f (p_id p) = Some (Z.of_nat i + 1)%Z /\ nth_error (f_stiff f) i = Some k
  | None, Some c => f_table f (p_id p) = Some (-410000)%Z /\ exists i, f_reduction f (p_id p) = Some (Z.of_nat i + 1)%Z /\ nth_error (f_damp f) i = Some c
  | _, _ => True
  end.
Lemma bind_here ids s n : bind_id ids s n s = Some n.
Proof. unfold bind_id. now rewrite Z.eqb_refl. Qed.
Lemma bind_there ids s n x : x <> s -> bind_id ids s n x = ids x.
Proof. intros N. unfold bind_id. now apply Z.eqb_neq in N as ->. Qed.
Lemma nth_snoc' {A} (l : list A) x i y : nth_error l i = Some y -> nth_error (l ++ [x]) i = Some y.
Proof. intros H. rewrite nth_error_app1; [assumption|]. apply nth_error_Some. congruence. Qed.
Lemma nth_new {A} (l : list A) x : nth_error (l ++ [x]) (length l) = Some x.
Proof. rewrite nth_error_app2, Nat.sub_diag by lia. reflexivity. Qed.
Lemma fill_spring_new f p : crossed p -> filed (fill_spring f p) p.
Proof.
  intros C. unfold fill_spring, filed. rewrite (crossed_eqb p C). destruct (p_stiffness p) as [k|], (p_damping p) as [c|]; cbn [fst snd f_stiff f_damp f_table f_reduction]; try exact Logic.I;
    rewrite !bind_here; (split; [reflexivity|]).
  - exists (length (f_stiff f)). split; [reflexivity|apply nth_new].
  - exists (length (f_damp f)). split; [reflexivity|apply nth_new].
Qed.
Lemma fill_spring_old f p q : p_id p <> p_id q -> filed f p -> filed (fill_spring f q) p.
Proof.
  intros N F. unfold fill_spring. destruct (dof_eqb _ _); [exact F|]. unfold filed in *.
  destruct (p_stiffness p) as [k|], (p_damping p) as [c|]; try exact Logic.I; destruct F as (T & i & E & X);
    destruct (p_stiffness q) as [k'|], (p_damping q) as [c'|]; cbn [fst snd f_stiff f_damp f_table f_reduction]; rewrite !bind_there by assumption;
    (split; [exact T|]); exists i; (split; [exact E|]); try exact X; apply nth_snoc'; exact X.
Qed.
Theorem C98_reduction_partial : forall ps p, NoDup (map p_id ps) -> In p ps -> crossed p -> filed (fill_springs ps) p.
Proof.
  intros ps p ND I C. unfold fill_springs. generalize (mkFiles [] [] (fun _ => None) (fun _ => None)).
  assert (OLD : forall l f, ~ In (p_id p) (map p_id l) -> filed f p -> filed (fold_left fill_spring l f) p).
  { induction l as [|q l IH]; cbn; intros f N F; [exact F|]. apply IH; [tauto|]. apply fill_spring_old; [intros X; apply N; now left|exact F]. }
  induction ps as [|q ps IH]; [contradiction|]. intros f. cbn in *. inversion ND as [|? ? N ND']; subst. destruct I as [->|I].
  - apply OLD; [assumption|]. apply fill_spring_new. assumption.
  - apply IH; assumption.
Qed.
(** With both, the number is that of the damping, whichever number the stiffness
    has: here the second spring uses the stiffness of the first. *)
Theorem C98_reduction_refuted : exists p q, crossed p /\ crossed q /\ p_id p <> p_id q /\
  f_table (fill_springs [p; q]) (p_id q) = Some (-410043)%Z /\ f_reduction (fill_springs [p; q]) (p_id q) = Some 1%Z /\
  nth_error (f_stiff (fill_springs [p; q])) 0 = p_stiffness p /\ p_stiffness p <> p_stiffness q.
Proof.
  exists (mkSpring 1 (DX, DY) (Some 100) None), (mkSpring 2 (DX, DY) (Some 7) (Some 3)).
  repeat split; try discriminate. intros E. injection E as E. lra.
Qed.

(** ** Masses *)
Definition pointlike (tol : R) (q : mass) : Prop := is_zero tol (q_xx q) = true /\ is_zero tol (q_yy q) = true /\ is_zero tol (q_zz q) = true.
Definition symmetric (tol : R) (q : mass) : Prop := is_zero tol (q_xy q) = true /\ is_zero tol (q_yz q) = true /\ is_zero tol (q_xz q) = true.
(** Masses are written in three directions on their nodes, followed by the inertias
    if one of them matters. *)
Theorem C98_masses_partial : forall strict tol mult qs n ls, write_masses strict tol mult qs = Ok (n, ls) ->
  n = Z.of_nat (length qs) /\
  Forall2 (fun q l => snd l = q_nodes q /\ firstn 3 (fst l) = repeat (q_m q * mult) 3 /\
     (pointlike tol q -> length (fst l) = 3%nat) /\ (~ pointlike tol q -> skipn 3 (fst l) = [q_xx q; q_yy q; q_zz q]) /\
     (strict = true -> symmetric tol q)) (filter q_effective qs) ls.
Proof.
  intros strict tol mult qs n ls H. unfold write_masses in H. destruct (mapM _ _) as [r| | |] eqn:E; try discriminate. cbn in H. injection H as <- <-. split; [reflexivity|].
  revert r E. induction qs as [|q qs IH]; cbn; intros r E; [injection E as <-; constructor|].
  destruct (mass_line strict tol mult q) as [l| | |] eqn:L; try discriminate. cbn in E. destruct (mapM _ qs) as [r'| | |]; try discriminate. cbn in E. injection E as <-.
  specialize (IH r' eq_refl). unfold mass_line in L. destruct (q_effective q); cbn [negb] in L; [|injection L as <-; exact IH].
  destruct (strict && _) eqn:S; [discriminate|]. injection L as <-. cbn. constructor; [|exact IH]. cbn [fst snd].
  split; [reflexivity|]. unfold pointlike, symmetric. split; [|split; [|split]].
  - destruct (is_zero tol (q_xx q) && _ && _); reflexivity.
  - intros (-> & -> & ->). reflexivity.
  - intros N. destruct (is_zero tol (q_xx q)), (is_zero tol (q_yy q)), (is_zero tol (q_zz q)); cbn; try reflexivity. exfalso. apply N. auto.
  - intros ->. cbn in S. apply negb_false_iff in S. apply andb_prop in S. destruct S as [S S3]. apply andb_prop in S. destruct S. auto.
Qed.
(** The masses are scaled to the unit of the model, the inertias are not. *)
Theorem C98_inertia_refuted : forall tol mult q, q_effective q = true -> symmetric tol q -> ~ pointlike tol q -> mult <> 1 -> q_m q <> 0 ->
  exists l, write_masses false tol mult [q] = Ok (1%Z, [l]) /\ nth_error (fst l) 0 = Some (q_m q * mult) /\ nth_error (fst l) 3 = Some (q_xx q) /\ q_m q * mult <> q_m q.
Proof.
  intros tol mult q E S N M1 M0. unfold write_masses. cbn. unfold mass_line. rewrite E. cbn. unfold pointlike in N.
  destruct (is_zero tol (q_xx q)), (is_zero tol (q_yy q)), (is_zero tol (q_zz q)); cbn; try (exfalso; apply N; auto; fail);
    (eexists; split; [reflexivity|]; cbn; split; [reflexivity|]; split; [reflexivity|]; nra).
Qed.
(** Products of inertia are lost when errors do not stop the translation; the
    count takes in the masses that are not written. *)
Theorem C98_masses_refuted : forall tol, 0 <= tol < 1 ->
  (exists q q' r, q_xy q <> q_xy q' /\ write_masses false tol 1 [q] = r /\ write_masses false tol 1 [q'] = r) /\
  (exists qs, write_masses true tol 1 qs = Ok (1%Z, [])).
Proof.
  intros tol T. split; [exists (mkMass true 1 1 1 1 0 0 0 [4%Z]), (mkMass true 1 1 1 1 5 0 0 [4%Z]); eexists; repeat split; cbn; lra|].
  exists [mkMass false 1 0 0 0 0 0 0 []]. reflexivity.
Qed.

(** ** A case *)
Definition case_sets : list mset :=
  [mkMSet 10 true (Elastic (mkElastic 7800 210 (3 / 10) (Some (1 / 100))) (MBeam false (Of (Rectangular 2 3))));
   mkMSet 11 true (RigidBody (mkRigid 1 1000) RBar); mkMSet 12 true MassSet; mkMSet 13 false SkinSet;
   mkMSet 14 true SkinSet; mkMSet 15 true (Spring [(DY, DY)] (Some 40)); mkMSet 16 true SkinSet].
Example C98_case : exists mats ids skin,
  fill_materials 1000 (1 / 1000) true false [] (fun _ => None) (fun _ => None) (fun _ => None) case_sets = Ok (mats, ids, skin) /\
  length mats = 4%nat /\ map ids [10; 11; 12; 13; 14; 15; 16]%Z = [Some 1; Some 2; None; None; Some 3; Some 4; Some 3]%Z /\
  nth_error mats 0 = Some [(0, I 1); (4, D 7800); (5, D 210); (6, D (3 / 10)); (11, D (2 * 3)); (12, D (2 * 3 * (6 / 5))); (13, D (2 * 3 * (6 / 5)));
     (14, D (torsion (Rectangular 2 3))); (15, D (inertia_y (Rectangular 2 3))); (16, D (3 ^ 3 * 2 / 12)); (35, D (2 * (1 / 100))); (182, I 1)]%Z /\
  nth_error mats 1 = Some [(0, I 2); (5, D 1); (61, I 19); (182, I 2); (197, I 1); (200, I 9)]%Z /\
  nth_error mats 3 = Some [(0, I 4); (32, D 40); (182, I 4)]%Z.
Proof.
  unfold fill_materials, case_sets. cbn. unfold put_elastic, put_positive. cbn.
  destruct (Rlt_dec 0 7800); [|lra]. destruct (Rlt_dec 0 210); [|lra]. destruct (Rlt_dec 0 (3 / 10)); [|lra]. destruct (Rlt_dec 0 1); [|lra]. cbn.
  do 3 eexists. split; [reflexivity|]. repeat split.
Qed.
Example C98_case_spring : filed (fill_springs [mkSpring 1 (DX, DY) (Some 100) None; mkSpring 2 (DX, RY) None (Some 3); mkSpring 3 (DY, DZ) (Some 5) None]) (mkSpring 3 (DY, DZ) (Some 5) None).
Proof. apply C98_reduction_partial; [cbn; repeat constructor; cbn; intuition discriminate|cbn; tauto|discriminate]. Qed.

Example C98_case_web : exists x, numbers (1 / 1000) (Of (ISection 2 2 1 1 4 1)) = Ok x /\ b_area x = 6 /\ b_fy x = Some (6 / 2).
Proof.
  assert (E : forall y, near (1 / 1000) y y = true).
  { intros y. unfold near. rewrite Rminus_eq_0, Rabs_R0. destruct (Rle_dec _ _) as [|X]; [reflexivity|]. exfalso. apply X.
    pose proof (Rmax_l (Rmax 1 (Rabs y)) (Rabs y)). pose proof (Rmax_l 1 (Rabs y)). lra. }
  unfold numbers, shear_factor, divide. destruct (Req_EM_T _ 0) as [|N]; [lra|]. cbn. rewrite !E. cbn.
  eexists. split; [reflexivity|]. cbn. unfold i_area. split; [lra|f_equal; field; lra].
Qed.

Print Assumptions C98_materials. Print Assumptions C98_accepted. Print Assumptions C98_block. Print Assumptions C98_beam_partial.
Print Assumptions C98_elastic_partial. Print Assumptions C98_stiffness. Print Assumptions C98_reduction_partial. Print Assumptions C98_masses_partial.
Print Assumptions C98_poisson_refuted. Print Assumptions C98_rectangular_bar_refuted. Print Assumptions C98_shear_refuted.
Print Assumptions C98_no_shear_refuted. Print Assumptions C98_damper_refuted. Print Assumptions C98_reduction_refuted.
Print Assumptions C98_card. Print Assumptions C98_web. Print Assumptions C98_inertia_refuted. Print Assumptions C98_masses_refuted.
