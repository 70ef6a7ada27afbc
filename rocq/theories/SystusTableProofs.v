(** Invariant of the tables of a Systus file. *)
From Coq Require Import ZArith QArith List Bool Lia.
From Verif Require Import Base DofModel DofProofs MatrixElementModel SystusTableModel.
Import ListNotations.
Open Scope Z_scope.

Lemma distinct_ids : forall (l : list tset), NoDup (map t_id l) -> forall s s', In s l -> In s' l -> t_id s = t_id s' -> s = s'.
Proof.
  induction l as [|a l IH]; intros N s s'; [intros []|]. cbn [map] in N. inversion N as [|? ? Na Nl]; subst.
  intros [A|A] [B|B] E.
  - congruence.
  - subst a. exfalso. apply Na. rewrite E. apply in_map; exact B.
  - subst a. exfalso. apply Na. rewrite <- E. apply in_map; exact A.
  - exact (IH Nl s s' A B E).
Qed.

Section Tables.
Variables (nb : nat) (sets : list tset).
Hypothesis ids : NoDup (map t_id sets).

Lemma same_set s s' : In s sets -> In s' sets -> t_id s = t_id s' -> s = s'.
Proof. apply distinct_ids. exact ids. Qed.

(** Table number [n] holds [vals], and was made for the set [id]. *)
Definition entry (own : list (option Z)) (ts : list table) (id n : Z) (vals : list Q) : Prop :=
  1 <= n /\ nth_error ts (Z.to_nat (n - 1)) = Some (mkTable n 0 vals) /\ nth_error own (Z.to_nat (n - 1)) = Some (Some id).
Definition role own ts id a b (x : option Q) n : Prop :=
  match x with Some v => entry own ts id n (spring_values a b v) | None => n = 0 end.
Definition held own ts id m n : Prop := exists t, table_fill m (Z.of_nat nb) = Ok t /\ entry own ts id n (alternate t).
Definition described own ts (s : tset) (r : Z) : Prop :=
  match t_source s with
  | TSpring [] _ _ => False
  | TSpring ((a, b) :: _) k c => exists rk rc, r = rk + 10000 * rc /\ role own ts (t_id s) a b k rk /\ role own ts (t_id s) a b c rc
  | TStiffness m => held own ts (t_id s) m r
  | TMass m => exists n, r = 100 * n /\ held own ts (t_id s) m n
  | TDamping m => exists n, r = 10000 * n /\ held own ts (t_id s) m n
  | TRelation _ coefs => entry own ts (t_id s) r (relation_values nb coefs)
  | TOther => False
  end.

Lemma nth_grow {A} (l l' : list A) n x : nth_error l n = Some x -> nth_error (l ++ l') n = Some x.
Proof. intros E. rewrite nth_error_app1; [exact E|]. apply nth_error_Some. congruence. Qed.
Lemma entry_grow own ts o t id n v : entry own ts id n v -> entry (own ++ o) (ts ++ t) id n v.
Proof. intros (A & B & C). repeat split; auto using @nth_grow. Qed.
Lemma role_grow own ts o t id a b x n : role own ts id a b x n -> role (own ++ o) (ts ++ t) id a b x n.
Proof. destruct x; cbn [role]; auto using entry_grow. Qed.
Lemma held_grow own ts o t id m n : held own ts id m n -> held (own ++ o) (ts ++ t) id m n.
Proof. intros (v & E & H). exists v. auto using entry_grow. Qed.
Lemma described_grow own ts o t s r : described own ts s r -> described (own ++ o) (ts ++ t) s r.
Proof.
  unfold described. destruct (t_source s) as [[|[a b] l] k c|m|m|m|an cs|]; auto.
  - intros (rk & rc & E & K & C). exists rk, rc. auto using role_grow.
  - apply held_grow.
  - intros (n & E & H). exists n. auto using held_grow.
  - intros (n & E & H). exists n. auto using held_grow.
  - apply entry_grow.
Qed.

Definition numbered (ts : list table) := map b_id ts = map (fun i => Z.of_nat i + 1) (seq 0 (length ts)).
Lemma numbered_push ts ty v : numbered ts -> numbered (ts ++ [mkTable (Z.of_nat (length ts) + 1) ty v]).
Proof. unfold numbered. intros E. rewrite map_app, E, app_length. cbn [length map]. rewrite Nat.add_1_r, seq_S, map_app. reflexivity. Qed.

(** [D]: the sets that have been given their tables. *)
Record Inv (D : tset -> Prop) (st : tstate) (own : list (option Z)) : Prop := mkInv {
  i_len : length own = length (st_tables st);
  i_num : numbered (st_tables st);
  i_set : forall s, In s sets -> D s -> exists r, st_set st (t_id s) = Some r /\ described own (st_tables st) s r;
  i_only : forall x r, st_set st x = Some r -> exists s, In s sets /\ D s /\ t_id s = x;
  i_own : forall n x, nth_error own n = Some (Some x) -> exists s, In s sets /\ D s /\ t_id s = x }.

Lemma inv_iff (D D' : tset -> Prop) st own : (forall s, In s sets -> (D s <-> D' s)) -> Inv D st own -> Inv D' st own.
Proof.
  intros E [L N S O W]. split; auto.
  - intros s Is Ds. apply S; [exact Is|]. apply E; assumption.
  - intros x r F. destruct (O x r F) as (s & Is & Ds & X). exists s. split; [exact Is|]. split; [apply E; assumption|exact X].
  - intros n x F. destruct (W n x F) as (s & Is & Ds & X). exists s. split; [exact Is|]. split; [apply E; assumption|exact X].
Qed.

Lemma inv_init : Inv (fun _ => False) no_table [].
Proof.
  split; cbn; auto.
  - reflexivity.
  - intros s _ [].
  - intros x r E. discriminate E.
  - intros [|n] x E; discriminate E.
Qed.

(** A push for the set [s], then the reference of [s]. *)
Definition pushes (ts : list table) (vs : list (list Q)) : list table :=
  fold_left (fun ts v => ts ++ [mkTable (Z.of_nat (length ts) + 1) 0 v]) vs ts.
Lemma pushes_grow vs : forall ts, exists t, pushes ts vs = ts ++ t /\ length t = length vs.
Proof.
  induction vs as [|v vs IH]; intros ts; cbn [pushes fold_left].
  - exists []. rewrite app_nil_r. auto.
  - destruct (IH (ts ++ [mkTable (Z.of_nat (length ts) + 1) 0 v])) as (t & E & L). unfold pushes in E. rewrite E.
    exists (mkTable (Z.of_nat (length ts) + 1) 0 v :: t). rewrite <- app_assoc. split; [reflexivity|]. cbn. lia.
Qed.
Lemma pushes_numbered vs : forall ts, numbered ts -> numbered (pushes ts vs).
Proof. induction vs as [|v vs IH]; intros ts N; [exact N|]. cbn [pushes fold_left]. apply IH. apply numbered_push. exact N. Qed.

Lemma inv_bind D st own s vs r st' :
  Inv D st own -> In s sets -> st_tables st' = pushes (st_tables st) vs ->
  (forall x, st_set st' x = if x =? t_id s then Some r else st_set st x) ->
  described (own ++ repeat (Some (t_id s)) (length vs)) (st_tables st') s r ->
  Inv (fun x => D x \/ x = s) st' (own ++ repeat (Some (t_id s)) (length vs)).
Proof.
  intros [L N S O W] Is T Se De. destruct (pushes_grow vs (st_tables st)) as (t & E & Lt). split.
  - rewrite T, E, !app_length, repeat_length. lia.
  - rewrite T. apply pushes_numbered. exact N.
  - intros s' Is' Ds'. rewrite Se. destruct (t_id s' =? t_id s) eqn:X.
    + apply Z.eqb_eq in X. rewrite (same_set s' s Is' Is X). exists r. auto.
    + destruct Ds' as [Ds'|Ds']; [|subst s'; rewrite Z.eqb_refl in X; discriminate X].
      destruct (S s' Is' Ds') as (r' & F & G). exists r'. split; [exact F|]. rewrite T, E. apply described_grow. exact G.
  - intros x r' F. rewrite Se in F. destruct (x =? t_id s) eqn:X.
    + apply Z.eqb_eq in X. exists s. auto.
    + destruct (O x r' F) as (s' & I' & D' & X'). exists s'. auto.
  - intros n x F. destruct (lt_dec n (length own)) as [Ll|Ge].
    + rewrite nth_error_app1 in F by exact Ll. destruct (W n x F) as (s' & I' & D' & X'). exists s'. auto.
    + rewrite nth_error_app2 in F by lia. apply nth_error_In in F. apply repeat_spec in F. injection F as ->. exists s. auto.
Qed.

Lemma entry_last own ts id v : length own = length ts ->
  entry (own ++ [Some id]) (ts ++ [mkTable (Z.of_nat (length ts) + 1) 0 v]) id (Z.of_nat (length ts) + 1) v.
Proof.
  intros L. replace (Z.of_nat (length ts) + 1) with (Z.of_nat (length ts) + 1) by lia.
  unfold entry. replace (Z.to_nat (Z.of_nat (length ts) + 1 - 1)) with (length ts) by lia. split; [lia|]. split.
  - rewrite nth_error_app2, Nat.sub_diag by lia. reflexivity.
  - rewrite nth_error_app2, L, Nat.sub_diag by lia. reflexivity.
Qed.

(** ** The passes *)
Definition crossed_spring (s : tset) : Prop := match t_source s with TSpring ((a, b) :: _) _ _ => a <> b | _ => False end.
Definition is_stiffness (s : tset) : Prop := match t_source s with TStiffness _ => True | _ => False end.
Definition is_mass (s : tset) : Prop := match t_source s with TMass _ => True | _ => False end.
Definition is_damping (s : tset) : Prop := match t_source s with TDamping _ => True | _ => False end.
Definition active_relation (active : list Z) (s : tset) : Prop := match t_source s with TRelation an _ => In an active | _ => False end.

Definition steps_for (K : tset -> Prop) (step : tstate -> tset -> outcome tstate) : Prop :=
  forall D st own s st', Inv D st own -> In s sets -> step st s = Ok st' ->
    st_load st' = st_load st /\
    ((K s /\ exists own', Inv (fun x => D x \/ x = s) st' own') \/ (~ K s /\ st' = st)).

Lemma pass K step : steps_for K step -> forall l, incl l sets -> forall D st own st', Inv D st own -> foldM step l st = Ok st' ->
  st_load st' = st_load st /\ exists own', Inv (fun x => D x \/ (In x l /\ K x)) st' own'.
Proof.
  intros H. induction l as [|s l IH]; intros Sub D st own st' I F.
  - cbn in F. injection F as <-. split; [reflexivity|]. exists own. eapply inv_iff; [|exact I]. intros x _. cbn. tauto.
  - cbn [foldM] in F. destruct (step st s) as [st1| | |] eqn:E; try discriminate F. cbn [bind] in F.
    destruct (H D st own s st1 I (Sub s (or_introl eq_refl)) E) as (Lo & [(Ks & own1 & I1)|(Ks & ->)]).
    + destruct (IH (fun x Hx => Sub x (or_intror Hx)) _ _ _ _ I1 F) as (Lo' & own' & I'). split; [congruence|].
      exists own'. eapply inv_iff; [|exact I']. intros x _. cbn [In].
      split; [intros [[A| ->]|[A B]]; auto|]. intros [A|[[A|A] B]]; auto.
    + destruct (IH (fun x Hx => Sub x (or_intror Hx)) _ _ _ _ I F) as (Lo' & own' & I'). split; [exact Lo'|].
      exists own'. eapply inv_iff; [|exact I']. intros x _. cbn [In].
      split; [intros [A|[A B]]; auto|]. intros [A|[[A|A] B]]; auto. subst x. contradiction.
Qed.

Lemma spring_steps : steps_for crossed_spring spring_step.
Proof.
  intros D st own s st' I Is E. pose proof (i_len _ _ _ I) as L. unfold spring_step in E. unfold crossed_spring.
  destruct (t_source s) as [[|[a b] l] k c|m|m|m|an cs|] eqn:Src; try discriminate E;
    try (injection E as <-; split; [reflexivity|]; right; tauto).
  destruct (dof_eqb a b) eqn:Eq.
  - injection E as <-. apply dof_eqb_spec in Eq. split; [reflexivity|]. right. tauto.
  - assert (Ne : a <> b) by (intros ->; rewrite (proj2 (dof_eqb_spec b b) eq_refl) in Eq; discriminate Eq).
    pose (vs := (match k with Some x => [spring_values a b x] | None => [] end) ++ match c with Some x => [spring_values a b x] | None => [] end).
    assert (X : st_load st' = st_load st /\ st_tables st' = pushes (st_tables st) vs /\
                exists r, (forall x, st_set st' x = if x =? t_id s then Some r else st_set st x) /\
                          described (own ++ repeat (Some (t_id s)) (length vs)) (st_tables st') s r).
    { destruct k as [k|], c as [c|]; cbn [bind] in E; injection E as <-; cbn; (split; [reflexivity|]); (split; [reflexivity|]);
        eexists; (split; [intros x; reflexivity|]); unfold described; rewrite Src.
      - exists (next st), (next (push 0 (spring_values a b k) st)).
        split; [lia|]. split; cbn [role].
        + change [Some (t_id s); Some (t_id s)] with ([Some (t_id s)] ++ [Some (t_id s)]). rewrite app_assoc.
          apply entry_grow. apply entry_last. exact L.
        + change [Some (t_id s); Some (t_id s)] with ([Some (t_id s)] ++ [Some (t_id s)]). rewrite app_assoc.
          apply (entry_last (own ++ [Some (t_id s)]) (st_tables (push 0 (spring_values a b k) st))). cbn [st_tables push]. rewrite !app_length. cbn. lia.
      - exists (next st), 0. split; [lia|]. split; cbn [role]; [|reflexivity]. apply entry_last. exact L.
      - exists 0, (next st). split; [lia|]. split; cbn [role]; [reflexivity|]. apply entry_last. exact L.
      - exists 0, 0. cbn. auto. }
    destruct X as (Lo & T & r & Se & De). split; [exact Lo|]. left. split; [exact Ne|].
    eexists. eapply inv_bind; eassumption.
Qed.

Lemma matrix_inv D st own s m f st' : Inv D st own -> In s sets -> matrix_table nb f (t_id s) m st = Ok st' ->
  (forall own' ts n, held own' ts (t_id s) m n -> described own' ts s (n * f)) ->
  st_load st' = st_load st /\ exists own', Inv (fun x => D x \/ x = s) st' own'.
Proof.
  intros I Is E H. pose proof (i_len _ _ _ I) as L. unfold matrix_table in E. destruct (table_fill m (Z.of_nat nb)) as [t| | |] eqn:F; try discriminate E.
  cbn [bind] in E. injection E as <-. split; [reflexivity|].
  exists (own ++ repeat (Some (t_id s)) 1).
  apply (inv_bind D st own s [alternate t] (next st * f)); auto. apply H. exists t. split; [exact F|]. apply entry_last. exact L.
Qed.

Ltac matrix_tac Src I Is E :=
  destruct (t_source _) as [[|[a b] l] k c|m|m|m|an cs|] eqn:Src;
  try (injection E as <-; split; [reflexivity|]; right; tauto).

Lemma stiffness_steps : steps_for is_stiffness (stiffness_step nb).
Proof.
  intros D st own s st' I Is E. unfold stiffness_step in E. unfold is_stiffness. matrix_tac Src I Is E.
  apply (matrix_inv D st own s m) in E as (Lo & own' & I'); [|exact I|exact Is|].
  - split; [exact Lo|]. left. split; [exact Logic.I|]. exists own'. exact I'.
  - intros o ts n H. unfold described. rewrite Src, Z.mul_1_r. exact H.
Qed.
Lemma mass_steps : steps_for is_mass (mass_step nb).
Proof.
  intros D st own s st' I Is E. unfold mass_step in E. unfold is_mass. matrix_tac Src I Is E.
  apply (matrix_inv D st own s m) in E as (Lo & own' & I'); [|exact I|exact Is|].
  - split; [exact Lo|]. left. split; [exact Logic.I|]. exists own'. exact I'.
  - intros o ts n H. unfold described. rewrite Src. exists n. split; [lia|exact H].
Qed.
Lemma damping_steps : steps_for is_damping (damping_step nb).
Proof.
  intros D st own s st' I Is E. unfold damping_step in E. unfold is_damping. matrix_tac Src I Is E.
  apply (matrix_inv D st own s m) in E as (Lo & own' & I'); [|exact I|exact Is|].
  - split; [exact Lo|]. left. split; [exact Logic.I|]. exists own'. exact I'.
  - intros o ts n H. unfold described. rewrite Src. exists n. split; [lia|exact H].
Qed.
Lemma relation_steps active : steps_for (active_relation active) (relation_step active nb).
Proof.
  intros D st own s st' I Is E. pose proof (i_len _ _ _ I) as L. unfold relation_step in E. unfold active_relation. matrix_tac Src I Is E.
  destruct (existsb (Z.eqb an) active) eqn:Ex.
  - injection E as <-. split; [reflexivity|]. left. split.
    + apply existsb_exists in Ex as (x & Ix & X). apply Z.eqb_eq in X. subst x. exact Ix.
    + exists (own ++ repeat (Some (t_id s)) 1). apply (inv_bind D st own s [relation_values nb cs] (next st)); auto.
      unfold described. rewrite Src. apply entry_last. exact L.
  - injection E as <-. split; [reflexivity|]. right. split; [|reflexivity]. intros A.
    assert (existsb (Z.eqb an) active = true) by (apply existsb_exists; exists an; split; [exact A|apply Z.eqb_refl]). congruence.
Qed.

(** ** The excitations: tables at the end, no reference of a set changed. *)
Definition tail_of (st st' : tstate) : Prop := exists t, st_tables st' = st_tables st ++ t /\ st_set st' = st_set st /\ numbered (st_tables st').
Lemma tail_inv D st own st' : Inv D st own -> tail_of st st' -> exists own', Inv D st' own'.
Proof.
  intros [L N S O W] (t & T & Se & Nu). exists (own ++ repeat None (length t)). split.
  - rewrite T, !app_length, repeat_length. lia.
  - exact Nu.
  - intros s Is Ds. destruct (S s Is Ds) as (r & F & G). exists r. rewrite Se, T. auto using described_grow.
  - rewrite Se. exact O.
  - intros n x F. destruct (lt_dec n (length own)) as [Lt|Ge].
    + rewrite nth_error_app1 in F by exact Lt. exact (W n x F).
    + rewrite nth_error_app2 in F by lia. apply nth_error_In in F. apply repeat_spec in F. discriminate F.
Qed.
End Tables.

(** The excitations in the order of the load cases. *)
Definition pairs_of (c : Z) (l : tloading) : list (Z * list (Q * Q)) :=
  match l with TExcitation true (Some ps) => [(c, ps)] | _ => [] end.
Definition excited (cs : list (Z * list tloading)) : list (Z * list (Q * Q)) :=
  flat_map (fun cl => flat_map (pairs_of (fst cl)) (snd cl)) cs.
Definition excite (st : tstate) (cp : Z * list (Q * Q)) : tstate :=
  mkTState (st_tables st ++ [mkTable (next st) 1 (points_values (snd cp))]) (st_set st) ((fst cp, next st) :: st_load st).

Lemma loading_fold c : forall ls st st', foldM (loading_step c) ls st = Ok st' -> st' = fold_left excite (flat_map (pairs_of c) ls) st.
Proof.
  induction ls as [|l ls IH]; intros st st' F; cbn [foldM] in F.
  - injection F as <-. reflexivity.
  - destruct (loading_step c st l) as [s1| | |] eqn:E; try discriminate F. cbn [bind] in F. apply IH in F.
    cbn [flat_map]. rewrite fold_left_app. rewrite F. f_equal.
    destruct l as [[|] [ps|]|]; cbn in E; try discriminate E; injection E as <-; reflexivity.
Qed.
Lemma case_fold : forall cs st st', foldM case_step cs st = Ok st' -> st' = fold_left excite (excited cs) st.
Proof.
  induction cs as [|cl cs IH]; intros st st' F; cbn [foldM] in F.
  - injection F as <-. reflexivity.
  - destruct (case_step st cl) as [s1| | |] eqn:E; try discriminate F. cbn [bind] in F. apply IH in F.
    unfold excited. cbn [flat_map]. rewrite fold_left_app. unfold case_step in E. apply loading_fold in E. rewrite <- E. exact F.
Qed.
(** The analyses before the first unknown one. *)
Fixpoint known (l : list (option (list (Z * list tloading)))) : list (Z * list tloading) :=
  match l with Some cs :: r => cs ++ known r | _ => [] end.
Lemma excitations_fold : forall l st st', excitations l st = Ok st' -> st' = fold_left excite (excited (known l)) st.
Proof.
  induction l as [|[cs|] l IH]; intros st st' F; cbn [excitations] in F; try (injection F as <-; reflexivity).
  destruct (foldM case_step cs st) as [s1| | |] eqn:E; try discriminate F. cbn [bind] in F. apply IH in F. apply case_fold in E.
  cbn [known]. unfold excited. rewrite flat_map_app, fold_left_app. unfold excited in E, F. rewrite <- E. exact F.
Qed.
Lemma excite_tail : forall l st, numbered (st_tables st) -> tail_of st (fold_left excite l st).
Proof.
  induction l as [|cp l IH]; intros st N; cbn [fold_left].
  - exists []. rewrite app_nil_r. auto.
  - destruct (IH (excite st cp)) as (t & T & Se & Nu); [apply numbered_push; exact N|].
    exists (mkTable (next st) 1 (points_values (snd cp)) :: t). rewrite T. cbn [excite st_tables]. rewrite <- app_assoc.
    split; [reflexivity|]. split; [exact Se|]. rewrite T in Nu. cbn [excite st_tables] in Nu. rewrite <- app_assoc in Nu. exact Nu.
Qed.
Lemma excite_load : forall l st c, ~ In c (map fst l) -> load_table (fold_left excite l st) c = load_table st c.
Proof.
  induction l as [|cp l IH]; intros st c N; cbn [fold_left]; [reflexivity|]. rewrite IH by (intros H; apply N; right; exact H).
  unfold load_table. cbn [excite st_load find fst]. destruct (fst cp =? c) eqn:E; [|reflexivity].
  apply Z.eqb_eq in E. exfalso. apply N. left. exact E.
Qed.
Lemma excite_cons cp st : load_table (excite st cp) (fst cp) = Some (next st).
Proof. unfold load_table. cbn. rewrite Z.eqb_refl. reflexivity. Qed.

(** ** The whole *)
Definition wanted (q : tcase) (s : tset) : Prop :=
  (q_table q = true /\ (crossed_spring s \/ is_stiffness s \/ is_mass s \/ is_damping s)) \/ active_relation (q_active q) s.

Lemma fill_inv q sets st : NoDup (map t_id sets) -> fillTables q sets = Ok st ->
  exists own st1, Inv (q_nb q) sets (wanted q) st own /\ st_load st1 = [] /\ numbered (st_tables st1) /\
    st = fold_left excite (if q_modal q then excited (known (q_loads q)) else []) st1.
Proof.
  intros Nd F. unfold fillTables in F.
  set (first := if q_table q then _ else Ok no_table) in F.
  destruct first as [s4| | |] eqn:F4; try discriminate F. cbn [bind] in F.
  assert (A4 : st_load s4 = [] /\ exists own, Inv (q_nb q) sets (fun s => q_table q = true /\ (crossed_spring s \/ is_stiffness s \/ is_mass s \/ is_damping s)) s4 own).
  { subst first. destruct (q_table q) eqn:Qt.
    - destruct (foldM spring_step sets no_table) as [s1| | |] eqn:F1; try discriminate F4. cbn [bind] in F4.
      destruct (foldM (stiffness_step (q_nb q)) sets s1) as [s2| | |] eqn:F2; try discriminate F4. cbn [bind] in F4.
      destruct (foldM (mass_step (q_nb q)) sets s2) as [s3| | |] eqn:F3; try discriminate F4. cbn [bind] in F4.
      destruct (pass (q_nb q) sets _ _ (spring_steps (q_nb q) sets Nd) sets (incl_refl _) _ _ _ _ (inv_init _ _) F1) as (L1 & o1 & I1).
      destruct (pass (q_nb q) sets _ _ (stiffness_steps (q_nb q) sets Nd) sets (incl_refl _) _ _ _ _ I1 F2) as (L2 & o2 & I2).
      destruct (pass (q_nb q) sets _ _ (mass_steps (q_nb q) sets Nd) sets (incl_refl _) _ _ _ _ I2 F3) as (L3 & o3 & I3).
      destruct (pass (q_nb q) sets _ _ (damping_steps (q_nb q) sets Nd) sets (incl_refl _) _ _ _ _ I3 F4) as (L4 & o4 & I4).
      split; [rewrite L4, L3, L2, L1; reflexivity|]. exists o4. eapply inv_iff; [|exact I4]. intros s Is. cbn. tauto.
    - injection F4 as <-. split; [reflexivity|]. exists []. eapply inv_iff; [|apply inv_init]. intros s Is. cbn. intuition discriminate. }
  destruct A4 as (L4 & o4 & I4).
  destruct (foldM (relation_step (q_active q) (q_nb q)) sets s4) as [s5| | |] eqn:F5; try discriminate F. cbn [bind] in F.
  destruct (pass (q_nb q) sets _ _ (relation_steps (q_nb q) sets Nd (q_active q)) sets (incl_refl _) _ _ _ _ I4 F5) as (L5 & o5 & I5).
  assert (I6 : Inv (q_nb q) sets (wanted q) s5 o5).
  { eapply inv_iff; [|exact I5]. intros s Is. unfold wanted. cbn. tauto. }
  pose proof (i_num _ _ _ _ _ I6) as N5.
  destruct (q_modal q).
  - apply excitations_fold in F. pose proof (excite_tail (excited (known (q_loads q))) s5 N5) as Ta. rewrite <- F in Ta.
    destruct (tail_inv _ _ _ _ _ _ I6 Ta) as (own & I7). exists own, s5. split; [exact I7|]. split; [congruence|]. auto.
  - injection F as <-. exists o5, s5. split; [exact I6|]. split; [congruence|]. auto.
Qed.
