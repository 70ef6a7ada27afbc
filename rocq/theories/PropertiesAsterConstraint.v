(** Property C92: constraint sets written for Code_Aster. *)
From Coq Require Import Ascii String Reals ZArith List Bool Lia Lra.
From Verif Require Import Base TextModel DofModel DofProofs GeomModel GeomProofs PropertiesRigid AsterConstraintModel.
Import ListNotations.
Open Scope Z_scope.
Open Scope list_scope.

(** ** How Code_Aster reads the command *)
(** Names of components. *)
Definition dof_named (s : str) : option dof :=
  if str_eqb s (txt "DX") then Some DX else if str_eqb s (txt "DY") then Some DY else if str_eqb s (txt "DZ") then Some DZ
  else if str_eqb s (txt "DRX") then Some RX else if str_eqb s (txt "DRY") then Some RY else if str_eqb s (txt "DRZ") then Some RZ else None.
(** A dash separates the components of a slave. *)
Fixpoint split_dash (s : str) : list str :=
  match s with
  | [] => [[]]
  | c :: r => if Ascii.eqb c "-" then [] :: split_dash r
              else match split_dash r with w :: ws => (c :: w) :: ws | [] => [[c]] end
  end.
Fixpoint all_some {A} (l : list (option A)) : option (list A) :=
  match l with
  | [] => Some []
  | Some a :: r => match all_some r with Some s => Some (a :: s) | None => None end
  | None :: _ => None
  end.
(** The nodes of a target: those named, those of the groups, those of the cells
    and of the groups of cells. *)
Definition on_target (m : cmesh) (t : target) (p : Z) : Prop :=
  In p (k_noeud t) \/
  (exists g l, In g (k_group_no t) /\ node_group m g = Some l /\ In p l) \/
  (exists g l c, In g (k_group_ma t) /\ cell_group m g = Some l /\ In c l /\ In p (cell_nodes m c)) \/
  (exists c, In c (k_maille t) /\ In p (cell_nodes m c)).
(** DDL_IMPO: the last occurrence about a component of a node counts. *)
Definition says (m : cmesh) (o : ddl_impo) (p : Z) (d : dof) (v : R) : Prop :=
  match o with
  | Impo t l => on_target m t p /\ exists name, In (name, v) l /\ dof_named name = Some d
  | Unreadable => False
  end.
Fixpoint ddl_holds (m : cmesh) (l : list ddl_impo) (u : field) : Prop :=
  match l with
  | [] => True
  | o :: r =>
    (forall p d v, says m o p d v -> u p d = v \/ exists o' v', In o' r /\ says m o' p d v') /\ ddl_holds m r u
  end.
(** LIAISON_SOLIDE: the components that the nodes have are those of one rigid motion. *)
Definition one_body (x : Z -> vec) (has : Z -> dof -> Prop) (u : field) (nodes : list Z) : Prop :=
  exists t w, forall p d, In p nodes -> has p d -> u p d = rigid (V3 0 0 0) (x p) t w d.
(** LIAISON_DDL: three lists of one length, and a weighted sum. *)
Definition read_liaison (k : liaison_ddl) : option (list (Z * dof * R)) :=
  match all_some (map dof_named (l_ddl k)) with
  | None => None
  | Some ds => if Nat.eqb (length (l_noeud k)) (length ds) && Nat.eqb (length (l_coef k)) (length ds)
               then Some (combine (combine (l_noeud k) ds) (l_coef k)) else None
  end.
Fixpoint weighted (l : list (Z * dof * R)) (u : field) : R :=
  match l with [] => 0%R | (p, d, c) :: r => (c * u p d + weighted r u)%R end.
Definition liaison_holds (u : field) (k : liaison_ddl) : Prop :=
  exists l, read_liaison k = Some l /\ weighted l u = l_impo k.
(** LIAISON_RBE3: master, its components, and for each slave its components and
    its weight.  [P] is what they mean. *)
Definition average := Z -> list dof -> list (Z * list dof * R) -> field -> Prop.
Definition read_rbe3 (k : liaison_rbe3) : option (Z * list dof * list (Z * list dof * R)) :=
  match all_some (map dof_named (k_ddl_mait k)), all_some (map (fun t => all_some (map dof_named (split_dash t))) (k_ddl_escl k)) with
  | Some dm, Some ds =>
      if Nat.eqb (length (k_escl k)) (length ds) && Nat.eqb (length (k_coef_escl k)) (length ds)
      then Some (k_mait k, dm, combine (combine (k_escl k) ds) (k_coef_escl k)) else None
  | _, _ => None
  end.
Definition rbe3_holds (P : average) (u : field) (k : liaison_rbe3) : Prop :=
  exists r, read_rbe3 k = Some r /\ let '(m, dm, sl) := r in P m dm sl u.
(** The command can be read, and each keyword holds. *)
Definition charge_holds (m : cmesh) x has P (c : charge) (u : field) : Prop :=
  (~ In Unreadable (ch_ddl c)) /\ ddl_holds m (ch_ddl c) u /\ Forall (one_body x has u) (ch_solide c) /\
  Forall (rbe3_holds P u) (ch_rbe3 c) /\ Forall (liaison_holds u) (ch_liaison c).

(** ** What the constraints mean *)
Definition on_container (m : cmesh) (c : ncont) (p : Z) : Prop :=
  In p (nc_nodes c) \/
  (exists g l, In g (nc_groups c) /\ node_group m g = Some l /\ In p l) \/
  (exists g l k, In g (nc_cell_groups c) /\ cell_group m g = Some l /\ In k l /\ In p (cell_nodes m k)) \/
  (exists k, In k (nc_cells c) /\ In p (cell_nodes m k)).
Definition components (s : dofs) : list dof := filter (fun d => Z.testbit s (dof_rank d)) [DX; DY; DZ; RX; RY; RZ].
Definition constraint_holds (m : cmesh) x has (P : average) (u : field) (c : member_of_set) : Prop :=
  match c with
  | CSpc s => forall p d v, on_container m (sp_where s) p -> sp_entry s d = Fixed v -> u p d = v
  | CRigid n | CQuasi _ n => one_body x has u n
  | CMpc l => total (lm_coefs l) u = lm_impo l
  | CRbe3 r => P (r3_master r) (components (r3_dofs r)) (map (fun s => (fst (fst s), components (snd (fst s)), snd s)) (r3_slaves r)) u
  | CContact => True
  end.

(** ** Small facts *)
Lemma named d : dof_named (ddl_name d) = Some d.
Proof. destruct d; reflexivity. Qed.
Lemma all_some_map {A B} (f : A -> option B) g : forall l, (forall a, In a l -> f a = Some (g a)) -> all_some (map f l) = Some (map g l).
Proof. induction l as [|a l IH]; intros H; [reflexivity|]. cbn [map all_some]. rewrite (H a (or_introl eq_refl)), IH by (intros; apply H; now right). reflexivity. Qed.
Lemma all_some_names : forall l, all_some (map dof_named (map ddl_name l)) = Some l.
Proof. intros l. rewrite map_map, (all_some_map _ (fun d => d)); [now rewrite map_id|]. intros a _. apply named. Qed.
Lemma contains_components s : filter (contains s) all_dofs = components s.
Proof. unfold components, all_dofs. apply filter_ext. intros d. apply contains_testbit. Qed.

(** ** Targets *)
Lemma groups_spec find l gs : groups_of find l = Ok gs ->
  map fst gs = l /\ forall g m, In (g, m) gs -> find g = Some m.
Proof.
  unfold groups_of. revert gs. induction l as [|g l IH]; intros gs E; cbn [mapM] in E.
  - injection E as <-. split; [reflexivity|intros g m []].
  - destruct (find g) as [m|] eqn:F; [|discriminate]. cbn [bind] in E. destruct (mapM _ l) as [r| | |] eqn:Er; try discriminate. cbn [bind] in E. injection E as <-.
    destruct (IH r eq_refl) as [A B]. split; [cbn; now rewrite A|]. intros g' m' [E|I]; [injection E as <- <-; exact F|now apply B].
Qed.
Lemma groups_known find l : (forall g, In g l -> exists m, find g = Some m) -> exists gs, groups_of find l = Ok gs.
Proof.
  unfold groups_of. induction l as [|g l IH]; intros H; cbn [mapM]; [eauto|]. destruct (H g (or_introl eq_refl)) as [m ->]. cbn [bind].
  destruct IH as [gs ->]; [intros g' I; apply H; now right|]. cbn [bind]. eauto.
Qed.
Lemma groups_nodes (find : Z -> option (list Z)) l gs (Q : Z -> Prop) : groups_of find l = Ok gs ->
  (exists g m q, In g (map fst (filter (fun g => negb (is_nil (snd g))) gs)) /\ find g = Some m /\ In q m /\ Q q) <->
  (exists g m q, In g l /\ find g = Some m /\ In q m /\ Q q).
Proof.
  intros E. destruct (groups_spec _ _ _ E) as [A B]. split.
  - intros (g & m & q & I & F & J & K). exists g, m, q. repeat split; auto. rewrite <- A. apply in_map_iff in I. destruct I as ((g' & m') & X & I). cbn in X. subst g'.
    apply filter_In in I. apply in_map_iff. exists (g, m'). tauto.
  - intros (g & m & q & I & F & J & K). exists g, m, q. repeat split; auto. rewrite <- A in I. apply in_map_iff in I. destruct I as ((g' & m') & X & I). cbn in X. subst g'.
    apply in_map_iff. exists (g, m'). split; [reflexivity|]. apply filter_In. split; [exact I|]. rewrite (B _ _ I) in F. injection F as ->. cbn [snd]. destruct m; [contradiction|reflexivity].
Qed.
(** The keywords of the target name exactly the nodes of the support. *)
Theorem C92_targets : forall m c t, write_target m c = Ok t -> forall p, on_target m t p <-> on_container m c p.
Proof.
  intros m c t E p. unfold write_target in E. destruct (groups_of _ (nc_groups c)) as [gs| | |] eqn:G; try discriminate. cbn [bind] in E.
  destruct (groups_of _ (nc_cell_groups c)) as [cs| | |] eqn:K; try discriminate. cbn [bind] in E. injection E as <-.
  unfold on_target, on_container. cbn [k_noeud k_group_no k_group_ma k_maille].
  pose proof (groups_nodes _ _ _ (fun q => q = p) G) as X. pose proof (groups_nodes _ _ _ (fun q => In p (cell_nodes m q)) K) as Y.
  assert (X' : (exists g l, In g (map fst (filter (fun g => negb (is_nil (snd g))) gs)) /\ node_group m g = Some l /\ In p l) <-> exists g l, In g (nc_groups c) /\ node_group m g = Some l /\ In p l).
  { split; intros (g & l & A & B & D).
    - destruct (proj1 X) as (g' & l' & q & A' & B' & D' & Q); [exists g, l, p; auto|]. subst q. eauto.
    - destruct (proj2 X) as (g' & l' & q & A' & B' & D' & Q); [exists g, l, p; auto|]. subst q. eauto. }
  rewrite X', Y.
  assert (N : (In p (if is_nil (nc_nodes c) then [] else nc_nodes c ++ flat_map (cell_nodes m) (nc_cells c)) \/ exists k, In k (nc_cells c) /\ In p (cell_nodes m k))
           <-> In p (nc_nodes c) \/ exists k, In k (nc_cells c) /\ In p (cell_nodes m k)).
  { destruct (nc_nodes c) as [|n r]; [cbn [is_nil]; tauto|]. cbn [is_nil]. rewrite in_app_iff, in_flat_map. tauto. }
  tauto.
Qed.
Theorem C92_targets_written : forall m c,
  (forall g, In g (nc_groups c) -> exists l, node_group m g = Some l) -> (forall g, In g (nc_cell_groups c) -> exists l, cell_group m g = Some l) ->
  exists t, write_target m c = Ok t.
Proof.
  intros m c A B. unfold write_target. destruct (groups_known _ _ A) as [gs ->]. destruct (groups_known _ _ B) as [cs ->]. cbn [bind]. eauto.
Qed.

(** ** Supports *)
Lemma spc_dofs_in s d : contains (spc_dofs s) d = true <-> sp_entry s d <> Free.
Proof.
  rewrite contains_iff. unfold spc_dofs.
  assert (G : forall l acc, member d (fold_left (fun acc d => match sp_entry s d with Free => acc | _ => dofs_add_dof acc d end) l acc) <-> member d acc \/ (In d l /\ sp_entry s d <> Free)).
  { induction l as [|e l IH]; intros acc; cbn [fold_left In]; [tauto|]. rewrite IH. destruct (sp_entry s e) eqn:E; rewrite ?member_add_dof; split.
    - tauto.
    - intros [H|[[<-|H] K]]; [tauto|congruence|tauto].
    - intros [[H| ->]|H]; [tauto|right; split; [tauto|congruence]|tauto].
    - intros [H|[[<-|H] K]]; tauto.
    - intros [[H| ->]|H]; [tauto|right; split; [tauto|congruence]|tauto].
    - intros [H|[[<-|H] K]]; tauto. }
  rewrite G. pose proof (all_dofs_in d). unfold all_dofs. assert (~ member d NO_DOFS) by (destruct d; discriminate). tauto.
Qed.
Lemma no_function s : spc_has_references s = false -> forall d f, sp_entry s d <> Function f.
Proof.
  unfold spc_has_references. intros H d f E. assert (X : existsb (fun d => match sp_entry s d with Function _ => true | _ => false end) all_dofs = true); [|congruence].
  apply existsb_exists. exists d. split; [apply all_dofs_in|now rewrite E].
Qed.
Lemma mapM_values s : forall l, (forall d, In d l -> exists v, sp_entry s d = Fixed v) ->
  exists r, mapM (fun d => do v <- double_for s d; Ok (ddl_name d, v)) l = Ok r /\
  forall name v, In (name, v) r <-> exists d, In d l /\ name = ddl_name d /\ sp_entry s d = Fixed v.
Proof.
  induction l as [|d l IH]; intros H; cbn [mapM]; [exists []; split; [reflexivity|]; intros; split; [intros []|intros (d & [] & _)]|].
  destruct (H d (or_introl eq_refl)) as [v E]. unfold double_for at 1. rewrite E. cbn [bind]. destruct IH as (r & -> & K); [intros d' I; apply H; now right|]. cbn [bind].
  eexists. split; [reflexivity|]. intros name w. cbn [In]. rewrite K. split.
  - intros [X|(d' & A & B)]; [injection X as <- <-; exists d; auto|exists d'; tauto].
  - intros (d' & [<-|A] & -> & C); [left; congruence|right; eauto].
Qed.
Lemma write_spc_says m s : spc_has_references s = false -> (exists t, write_target m (sp_where s) = Ok t) ->
  exists o, write_spc m s = Ok o /\ o <> Unreadable /\
  forall p d v, says m o p d v <-> on_container m (sp_where s) p /\ sp_entry s d = Fixed v.
Proof.
  intros Hr [t Et]. unfold write_spc. rewrite Hr, Et. cbn [bind]. rewrite iterate_spec. cbn [bind].
  destruct (mapM_values s (filter (contains (spc_dofs s)) [DX; DY; DZ; RX; RY; RZ])) as (r & -> & K).
  { intros d I. apply filter_In in I. destruct I as [_ I]. apply spc_dofs_in in I. pose proof (no_function s Hr d) as N. destruct (sp_entry s d) as [|v|f] eqn:E; [congruence|eauto|elim (N f); reflexivity]. }
  cbn [bind]. eexists. split; [reflexivity|]. split; [discriminate|]. intros p d v. cbn [says]. rewrite (C92_targets _ _ _ Et p). split.
  - intros (A & name & B & C). split; [exact A|]. apply K in B. destruct B as (d' & _ & -> & B). rewrite named in C. congruence.
  - intros (A & B). split; [exact A|]. exists (ddl_name d). split; [|apply named]. apply K. exists d. split; [|auto]. apply filter_In. split; [apply all_dofs_in|].
    apply spc_dofs_in. congruence.
Qed.
Lemma ddl_all m l u : (forall o1 o2 p d v1 v2, In o1 l -> In o2 l -> says m o1 p d v1 -> says m o2 p d v2 -> v1 = v2) ->
  ddl_holds m l u <-> forall o p d v, In o l -> says m o p d v -> u p d = v.
Proof.
  induction l as [|o l IH]; intros C; cbn [ddl_holds]; [split; [intros _ o p d v []|auto]|].
  assert (IH' := IH (fun o1 o2 p d v1 v2 I1 I2 => C o1 o2 p d v1 v2 (or_intror I1) (or_intror I2))). rewrite IH'. split.
  - intros [A B] o' p d v [<-|I] S; [|now apply (B o')]. destruct (A p d v S) as [E|(o2 & v2 & I2 & S2)]; [exact E|].
    rewrite (C o o2 p d v v2 (or_introl eq_refl) (or_intror I2) S S2). now apply (B o2).
  - intros A. split; [intros p d v S; left; apply (A o); [now left|exact S]|]. intros o' p d v I S. apply (A o'); [now right|exact S].
Qed.

(** ** Relations *)
Lemma coef_dofs_in tol c d : contains (coef_dofs tol c) d = negb (near_zero tol (c d)).
Proof.
  apply eq_true_iff_eq. rewrite contains_iff. unfold coef_dofs.
  assert (G : forall l acc, member d (fold_left (fun acc d => if near_zero tol (c d) then acc else dofs_add_dof acc d) l acc) <-> member d acc \/ (In d l /\ near_zero tol (c d) = false)).
  { induction l as [|e l IH]; intros acc; cbn [fold_left In]; [tauto|]. rewrite IH. destruct (near_zero tol (c e)) eqn:E; rewrite ?member_add_dof; split.
    - tauto.
    - intros [H|[[<-|H] K]]; [tauto|congruence|tauto].
    - intros [[H| ->]|H]; [tauto|right; split; [tauto|congruence]|tauto].
    - intros [H|[[<-|H] K]]; tauto. }
  rewrite G, negb_true_iff. pose proof (all_dofs_in d). unfold all_dofs. assert (~ member d NO_DOFS) by (destruct d; discriminate). tauto.
Qed.
Definition kept_terms (tol : R) (l : list (Z * (dof -> R))) : list (Z * dof * R) :=
  flat_map (fun t => map (fun d => (fst t, d, snd t d)) (filter (fun d => negb (near_zero tol (snd t d))) all_dofs)) l.
Lemma size_count s : Z.to_nat (dofs_size s) = length (filter (contains s) all_dofs).
Proof. destruct (iterate_full s) as (l & E & _ & _ & K). rewrite iterate_spec in E. injection E as <-. unfold all_dofs. rewrite <- K. apply Nat2Z.id. Qed.
Lemma read_written tol l : read_liaison (write_lmpc tol l) = Some (kept_terms tol (lm_coefs l)).
Proof.
  unfold read_liaison, write_lmpc. cbn [l_ddl l_noeud l_coef].
  assert (D : forall t : Z * (dof -> R), filter (contains (coef_dofs tol (snd t))) all_dofs = filter (fun d => negb (near_zero tol (snd t d))) all_dofs).
  { intros t. apply filter_ext. intros d. apply coef_dofs_in. }
  set (ds := flat_map (fun t => filter (fun d => negb (near_zero tol (snd t d))) all_dofs) (lm_coefs l)).
  assert (E : flat_map (fun t => map ddl_name (filter (contains (coef_dofs tol (snd t))) all_dofs)) (lm_coefs l) = map ddl_name ds).
  { unfold ds. induction (lm_coefs l) as [|t r IH]; [reflexivity|]. cbn [flat_map]. now rewrite map_app, IH, D. }
  rewrite E, all_some_names.
  assert (N : length (flat_map (fun t : Z * (dof -> R) => repeat (fst t) (Z.to_nat (dofs_size (coef_dofs tol (snd t))))) (lm_coefs l)) = length ds).
  { unfold ds. clear - D. induction (lm_coefs l) as [|t r IH]; [reflexivity|]. cbn [flat_map]. now rewrite !app_length, IH, repeat_length, size_count, D. }
  assert (M : length (flat_map (fun t : Z * (dof -> R) => map (snd t) (filter (fun d => negb (near_zero tol (snd t d))) all_dofs)) (lm_coefs l)) = length ds).
  { unfold ds. clear - D. induction (lm_coefs l) as [|t r IH]; [reflexivity|]. cbn [flat_map]. now rewrite !app_length, IH, map_length. }
  rewrite N, M, !Nat.eqb_refl. cbn [andb]. f_equal. clear E N M. unfold ds, kept_terms.
  assert (CA : forall (A B : Type) (a a' : list A) (b b' : list B), length a = length b -> combine (a ++ a') (b ++ b') = combine a b ++ combine a' b').
  { induction a as [|x a IHa]; intros a' [|y b] b' H; try discriminate; [reflexivity|]. cbn [app combine]. now rewrite IHa by (injection H; auto). }
  induction (lm_coefs l) as [|t r IH]; [reflexivity|]. cbn [flat_map]. rewrite <- IH. clear IH.
  rewrite CA by now rewrite repeat_length, size_count, D.
  rewrite CA by (rewrite combine_length, map_length, repeat_length, size_count, D; lia). f_equal. rewrite size_count, D.
  induction (filter (fun d => negb (near_zero tol (snd t d))) all_dofs) as [|d q IHq]; [reflexivity|]. cbn [length repeat combine map]. now rewrite IHq.
Qed.
Definition exact_coefs (tol : R) (l : lmpc) : Prop := forall p c d, In (p, c) (lm_coefs l) -> c d = 0%R \/ (tol < Rabs (c d))%R.
Lemma weighted_app a b u : weighted (a ++ b) u = (weighted a u + weighted b u)%R.
Proof. induction a as [|[[p d] c] a IH]; cbn [app weighted]; [ring|rewrite IH; ring]. Qed.
Lemma weighted_filter (f : dof -> bool) (c : dof -> R) p u ds : (forall d, In d ds -> f d = false -> c d = 0%R) ->
  weighted (map (fun d => (p, d, c d)) (filter f ds)) u = weighted (map (fun d => (p, d, c d)) ds) u.
Proof.
  induction ds as [|d ds IH]; intros H; [reflexivity|]. cbn [filter map weighted]. destruct (f d) eqn:E; cbn [map weighted]; rewrite IH by (intros; apply H; [now right|assumption]); [reflexivity|].
  rewrite (H d (or_introl eq_refl) E). ring.
Qed.
Lemma weighted_all c p u : weighted (map (fun d => (p, d, c d)) all_dofs) u = work c (u p).
Proof. unfold all_dofs, work. cbn [map weighted]. ring. Qed.
(** A relation whose coefficients are zero or larger than the tolerance is
    written as it is. *)
Theorem C92_relation_partial : forall tol l u, exact_coefs tol l -> liaison_holds u (write_lmpc tol l) <-> total (lm_coefs l) u = lm_impo l.
Proof.
  intros tol l u H.
  assert (E : weighted (kept_terms tol (lm_coefs l)) u = total (lm_coefs l) u).
  { unfold exact_coefs in H. induction (lm_coefs l) as [|[p c] r IH]; [reflexivity|]. unfold kept_terms in *. cbn [flat_map total fst snd]. rewrite weighted_app, IH by (intros p' c' d I; apply (H p'); now right).
    f_equal. rewrite weighted_filter; [apply weighted_all|]. intros d _ N. apply negb_false_iff in N. destruct (H p c d (or_introl eq_refl)) as [Z0|F]; [exact Z0|].
    apply near_zero_false in F. congruence. }
  unfold liaison_holds. rewrite read_written. change (l_impo (write_lmpc tol l)) with (lm_impo l). split.
  - intros (t & X & Y). injection X as <-. congruence.
  - intros X. eexists. split; [reflexivity|]. congruence.
Qed.
(** In general the left-hand side moves by at most the tolerance times the sum of the
    displacements. *)
Fixpoint sizes (l : list (Z * (dof -> R))) (u : field) : R :=
  match l with [] => 0%R | (p, _) :: r => (Rabs (u p DX) + Rabs (u p DY) + Rabs (u p DZ) + Rabs (u p RX) + Rabs (u p RY) + Rabs (u p RZ) + sizes r u)%R end.
Theorem C92_relation_close : forall tol l u, (0 <= tol)%R -> exists t, read_liaison (write_lmpc tol l) = Some t /\
  (Rabs (weighted t u - total (lm_coefs l) u) <= tol * sizes (lm_coefs l) u)%R.
Proof.
  intros tol l u T. rewrite read_written. eexists. split; [reflexivity|]. induction (lm_coefs l) as [|[p c] r IH].
  { cbn. rewrite Rminus_diag_eq by reflexivity. rewrite Rabs_R0. lra. }
  unfold kept_terms in *. cbn [flat_map total sizes fst snd]. rewrite weighted_app. rewrite <- (weighted_all c p u).
  assert (K : forall ds, (Rabs (weighted (map (fun d => (p, d, c d)) (filter (fun d => negb (near_zero tol (c d))) ds)) u - weighted (map (fun d => (p, d, c d)) ds) u) <= tol * fold_right (fun d acc => Rabs (u p d) + acc) 0 ds)%R).
  { induction ds as [|d ds IHd]; [cbn; rewrite Rminus_diag_eq by reflexivity; rewrite Rabs_R0; lra|].
    cbn [filter map weighted fold_right]. unfold near_zero at 1. destruct (Rle_dec (Rabs (c d)) tol) as [L|L]; cbn [negb map weighted].
    - set (a := weighted (map _ (filter _ ds)) u) in *. set (b := weighted (map _ ds) u) in *.
      replace (a - (c d * u p d + b))%R with ((a - b) + - (c d * u p d))%R by ring. eapply Rle_trans; [apply Rabs_triang|].
      rewrite Rabs_Ropp, Rabs_mult. pose proof (Rabs_pos (u p d)). nra.
    - set (a := weighted (map _ (filter _ ds)) u) in *. set (b := weighted (map _ ds) u) in *.
      replace (c d * u p d + a - (c d * u p d + b))%R with (a - b)%R by ring. pose proof (Rabs_pos (u p d)).
      nra. }
  specialize (K all_dofs).
  set (a := weighted (map _ (filter _ all_dofs)) u) in *. set (b := weighted (map _ all_dofs) u) in *. set (a' := weighted (flat_map _ r) u) in *. set (b' := total r u) in *. unfold all_dofs in K. cbn [fold_right] in K.
  replace (a + a' - (b + b'))%R with ((a - b) + (a' - b'))%R by ring. eapply Rle_trans; [apply Rabs_triang|]. nra.
Qed.
(** C92 fails for small coefficients: a relation between two nodes whose
    coefficients do not exceed the tolerance is written without any term, which
    every displacement field satisfies. *)
Theorem C92_small_refuted : forall tol, (0 < tol)%R -> exists l u, liaison_holds u (write_lmpc tol l) /\ total (lm_coefs l) u <> lm_impo l /\
  l_noeud (write_lmpc tol l) = [].
Proof.
  intros tol H. set (c := (fun d => match d with DX => tol | _ => 0%R end) : dof -> R). set (c' := (fun d => match d with DX => (- tol)%R | _ => 0%R end) : dof -> R).
  exists (Lmpc [(1, c); (2, c')] 0%R), (fun p d => if Z.eqb p 1 then 1%R else 0%R).
  assert (Z1 : forall d, near_zero tol (c d) = true).
  { intros d. unfold near_zero. destruct (Rle_dec (Rabs (c d)) tol) as [|N]; [reflexivity|]. elim N. unfold c. destruct d; rewrite ?Rabs_R0, ?Rabs_right; lra. }
  assert (Z2 : forall d, near_zero tol (c' d) = true).
  { intros d. unfold near_zero. destruct (Rle_dec (Rabs (c' d)) tol) as [|N]; [reflexivity|]. elim N. unfold c'. destruct d; rewrite ?Rabs_R0, ?Rabs_Ropp, ?Rabs_right; lra. }
  split; [|split].
  - exists (kept_terms tol [(1, c); (2, c')]). split; [apply read_written|]. unfold kept_terms, all_dofs. cbn [flat_map fst snd filter]. rewrite !Z1, !Z2. reflexivity.
  - cbn [lm_coefs lm_impo total]. unfold work, c, c'. cbn. lra.
  - unfold write_lmpc, coef_dofs, all_dofs. cbn [l_noeud lm_coefs flat_map fst snd fold_left]. rewrite !Z1, !Z2. reflexivity.
Qed.

(** ** Averages *)
Lemma escl_components s : is_set s -> s <> 0 -> all_some (map dof_named (split_dash (escl_text s all_dofs 0))) = Some (components s).
Proof.
  intros H N.
  set (ok := fun k : Z => match all_some (map dof_named (split_dash (escl_text k all_dofs 0))) with
                          | Some l => if list_eq_dec dof_eq_dec l (components k) then true else false | None => false end || (k =? 0)).
  assert (A : forallb ok (map Z.of_nat (seq 0 64)) = true) by (vm_compute; reflexivity).
  rewrite forallb_forall in A. assert (B : ok s = true).
  { apply A. apply in_map_iff. exists (Z.to_nat s). destruct H. split; [apply Z2Nat.id; lia|]. apply in_seq. lia. }
  unfold ok in B. apply orb_true_iff in B. destruct B as [B|B]; [|apply Z.eqb_eq in B; congruence].
  destruct (all_some _) as [l|]; [|discriminate]. destruct (list_eq_dec _ _ _); [congruence|discriminate].
Qed.
(** An RBE3 keeps its master, its components, and every slave with its own components and weight. *)
Theorem C92_average_read : forall r, (forall n s w, In (n, s, w) (r3_slaves r) -> is_set s /\ s <> NO_DOFS) ->
  read_rbe3 (write_rbe3 r) = Some (r3_master r, components (r3_dofs r), map (fun s => (fst (fst s), components (snd (fst s)), snd s)) (r3_slaves r)).
Proof.
  intros r H. unfold read_rbe3, write_rbe3. cbn [k_ddl_mait k_ddl_escl k_escl k_coef_escl k_mait]. rewrite all_some_names, contains_components.
  rewrite map_map. rewrite (all_some_map _ (fun s => components (snd (fst s)))).
  2: { intros [[n s] w] I. destruct (H n s w I) as [A B]. apply escl_components; assumption. }
  rewrite !map_length, !Nat.eqb_refl. cbn [andb]. f_equal. f_equal. clear H. induction (r3_slaves r) as [|[[n s] w] q IH]; [reflexivity|]. cbn [map combine fst snd]. now rewrite IH.
Qed.

(** ** The whole set *)
Definition good_member (tol : R) (m : cmesh) (c : member_of_set) : Prop :=
  match c with
  | CSpc s => spc_has_references s = false /\
      (forall g, In g (nc_groups (sp_where s)) -> exists l, node_group m g = Some l) /\
      (forall g, In g (nc_cell_groups (sp_where s)) -> exists l, cell_group m g = Some l)
  | CQuasi complete _ => complete = true
  | CMpc l => exact_coefs tol l
  | CRbe3 r => forall n s w, In (n, s, w) (r3_slaves r) -> is_set s /\ s <> NO_DOFS
  | _ => True
  end.
(** No two supports give different values to one component of one node. *)
Definition supports_agree (m : cmesh) (l : list member_of_set) : Prop :=
  forall s1 s2 p d v1 v2, In (CSpc s1) l -> In (CSpc s2) l -> on_container m (sp_where s1) p -> on_container m (sp_where s2) p ->
    sp_entry s1 d = Fixed v1 -> sp_entry s2 d = Fixed v2 -> v1 = v2.
Lemma in_kind {A} (f : member_of_set -> list A) l a : In a (flat_map f l) <-> exists c, In c l /\ In a (f c).
Proof. apply in_flat_map. Qed.
(** The displacements allowed by the command written are those that the constraints of
    the set allow. *)
Theorem C92_set_partial : forall tol m l x has P, Forall (good_member tol m) l -> supports_agree m l ->
  (exists c, In c l /\ c <> CContact) ->
  exists c, write_set tol m l = Ok (Some c) /\
  forall u, charge_holds m x has P c u <-> Forall (constraint_holds m x has P u) l.
Proof.
  intros tol m l x has P G S (c0 & I0 & N0). rewrite Forall_forall in G. unfold write_set.
  assert (F : forallb (fun c => match c with CContact => true | _ => false end) l = false).
  { apply not_true_iff_false. intros F. rewrite forallb_forall in F. specialize (F c0 I0). destruct c0; congruence. }
  rewrite F. set (ss := flat_map (fun c => match c with CSpc s => [s] | _ => [] end) l).
  assert (HS : forall s, In s ss <-> In (CSpc s) l).
  { intros s. unfold ss. rewrite in_flat_map. split; [intros (c & I & J); destruct c; cbn in J; destruct J as [<-|[]] || contradiction; exact I|intros I; exists (CSpc s); split; [exact I|now left]]. }
  assert (K : forall q, (forall s, In s q -> In s ss) -> exists os, mapM (write_spc m) q = Ok os /\ ~ In Unreadable os /\
    forall p d v, (exists o, In o os /\ says m o p d v) <-> exists s, In s q /\ on_container m (sp_where s) p /\ sp_entry s d = Fixed v).
  { induction q as [|s q IH]; intros Q; cbn [mapM].
    - exists []. split; [reflexivity|]. split; [intros []|]. intros p d v. split; [intros (o & [] & _)|intros (s & [] & _)].
    - destruct (IH (fun s' I => Q s' (or_intror I))) as (os & -> & A & B). pose proof (G _ (proj1 (HS s) (Q s (or_introl eq_refl)))) as (R1 & R2 & R3).
      destruct (write_spc_says m s R1 (C92_targets_written m _ R2 R3)) as (o & -> & U & T). cbn [bind]. eexists. split; [reflexivity|]. split; [intros [X|X]; [congruence|auto]|].
      intros p d v. split.
      + intros (o' & [<-|I] & Y); [apply T in Y; exists s; split; [now left|tauto]|]. destruct (proj1 (B p d v)) as (s' & I' & Y'); [eauto|]. exists s'. split; [now right|exact Y'].
      + intros (s' & [<-|I] & Y); [exists o; split; [now left|now apply T]|]. destruct (proj2 (B p d v)) as (o' & I' & Y'); [eauto|]. exists o'. split; [now right|exact Y']. }
  destruct (K ss (fun s I => I)) as (os & Eo & U & T). rewrite Eo. cbn [bind]. eexists. split; [reflexivity|]. intros u.
  unfold charge_holds. cbn [ch_ddl ch_solide ch_rbe3 ch_liaison].
  rewrite ddl_all.
  2: { intros o1 o2 p d v1 v2 I1 I2 S1 S2. destruct (proj1 (T p d v1)) as (s1 & J1 & C1 & E1); [eauto|]. destruct (proj1 (T p d v2)) as (s2 & J2 & C2 & E2); [eauto|].
       apply (S s1 s2 p d); try assumption; now apply HS. }
  rewrite !Forall_forall. split.
  - intros (_ & D & B & A & L) c I. pose proof (G c I) as Gc. destruct c as [s|n|k n|q|r|]; cbn [constraint_holds good_member] in *.
    + intros p d v C E. destruct (proj2 (T p d v)) as (o & Io & So); [exists s; split; [now apply HS|auto]|]. now apply (D o).
    + apply B. apply in_or_app. left. apply in_kind. exists (CRigid n). split; [exact I|now left].
    + subst k. apply B. apply in_or_app. right. apply in_kind. exists (CQuasi true n). split; [exact I|now left].
    + apply (C92_relation_partial tol q u Gc). apply L. apply in_map. apply in_kind. exists (CMpc q). split; [exact I|now left].
    + destruct (A (write_rbe3 r)) as (z & Z1 & Z2); [apply in_map; apply in_kind; exists (CRbe3 r); split; [exact I|now left]|].
      rewrite (C92_average_read r Gc) in Z1. injection Z1 as <-. exact Z2.
    + exact Logic.I.
  - intros H. split; [exact U|]. split.
    { intros o p d v I Y. destruct (proj1 (T p d v)) as (s & J & C & E); [eauto|]. apply (H (CSpc s)); [now apply HS|exact C|exact E]. }
    split; [|split].
    + intros n I. apply in_app_or in I. destruct I as [I|I]; apply in_kind in I; destruct I as (c & I & J).
      * destruct c; try contradiction. destruct J as [<-|[]]. apply (H _ I).
      * destruct c as [| |[]| | |]; try contradiction. destruct J as [<-|[]]. apply (H _ I).
    + intros k I. apply in_map_iff in I. destruct I as (r & <- & I). apply in_kind in I. destruct I as (c & I & J). destruct c; try contradiction. destruct J as [<-|[]].
      eexists. split; [apply (C92_average_read _ (G _ I))|]. apply (H _ I).
    + intros k I. apply in_map_iff in I. destruct I as (q & <- & I). apply in_kind in I. destruct I as (c & I & J). destruct c; try contradiction. destruct J as [<-|[]].
      apply (C92_relation_partial tol _ u (G _ I)). apply (H _ I).
Qed.

(** C92 fails for a support with a function: whatever else the set holds, the
    command cannot be read. *)
Theorem C92_function_refuted : forall tol m l s x has P u c, In (CSpc s) l -> spc_has_references s = true ->
  write_set tol m l = Ok (Some c) -> ~ charge_holds m x has P c u.
Proof.
  intros tol m l s x has P u c I R E H. unfold write_set in E. destruct (forallb _ l); [discriminate|].
  destruct (mapM _ _) as [os| | |] eqn:Eo; try discriminate. cbn [bind] in E. injection E as <-. destruct H as [U _]. apply U. cbn [ch_ddl].
  assert (J : In s (flat_map (fun c => match c with CSpc s => [s] | _ => [] end) l)) by (apply in_flat_map; exists (CSpc s); split; [exact I|now left]).
  revert os Eo U. generalize dependent (flat_map (fun c => match c with CSpc s => [s] | _ => [] end) l). clear - R.
  induction l0 as [|s' q IH]; intros J os Eo U; [contradiction|]. cbn [mapM] in Eo. destruct (write_spc m s') as [o| | |] eqn:Es; try discriminate. cbn [bind] in Eo.
  destruct (mapM _ q) as [r| | |] eqn:Er; try discriminate. cbn [bind] in Eo. injection Eo as <-. destruct J as [<-|J].
  - unfold write_spc in Es. rewrite R in Es. injection Es as <-. now left.
  - right. eapply IH; [exact J|reflexivity|]. intros X. apply U. now right.
Qed.
Definition one_node (n : Z) : ncont := NCont [] [n] [] [].
Definition support_of (n : Z) (v : R) : spc := Spc (one_node n) (fun d => match d with DX => Fixed v | _ => Free end).
Definition no_groups : cmesh := CMesh (fun _ => None) (fun _ => None) (fun _ => []).
(** ... and such a set is written. *)
Example C92_function_case : exists l s c, In (CSpc s) l /\ spc_has_references s = true /\ write_set 0 no_groups l = Ok (Some c).
Proof. exists [CSpc (support_of 1 0); CSpc (Spc (one_node 2) (fun _ => Function 5))]. eexists _, _. split; [right; left; reflexivity|]. split; reflexivity. Qed.

(** C92 fails for supports that disagree: two supports give 0 and 1 to one
    component, which nothing satisfies; the file means the second. *)
Theorem C92_conflict_refuted : forall tol x has P, exists l c u, write_set tol no_groups l = Ok (Some c) /\ Forall (good_member tol no_groups) l /\
  charge_holds no_groups x has P c u /\ forall u', ~ Forall (constraint_holds no_groups x has P u') l.
Proof.
  intros tol x has P. exists [CSpc (support_of 1 0); CSpc (support_of 1 1)]. eexists. exists (fun _ _ => 1%R). split; [reflexivity|]. split; [|split].
  - apply Forall_cons; [|apply Forall_cons; [|apply Forall_nil]]; (split; [reflexivity|]; split; intros g []).
  - unfold charge_holds. cbn [ch_ddl ch_solide ch_rbe3 ch_liaison]. split; [intros [X|[X|[]]]; discriminate|]. split; [|repeat split; apply Forall_nil].
    split; [|split; [|exact Logic.I]].
    + intros p d v (A & name & [B|[]] & C). injection B as <- <-. right. eexists _, _. split; [left; reflexivity|]. split; [exact A|]. exists (txt "DX"). split; [left; reflexivity|exact C].
    + intros p d v (A & name & [B|[]] & C). injection B as <- <-. left. reflexivity.
  - intros u' H. inversion H as [|? ? H1 H2]; subst. inversion H2 as [|? ? H3 _]; subst.
    assert (A : u' 1 DX = 0%R) by (apply H1; [left; left; reflexivity|reflexivity]). assert (B : u' 1 DX = 1%R) by (apply H3; [left; left; reflexivity|reflexivity]). lra.
Qed.

(** A support on a group and a node, a relation, a rigid body and an average: the command exists and means them. *)
Definition a_mesh : cmesh := CMesh (fun g => if Z.eqb g 7 then Some [4; 5] else if Z.eqb g 8 then Some [] else None) (fun _ => None) (fun _ => []).
Definition a_set : list member_of_set :=
  [CSpc (Spc (NCont [7; 8] [3] [] []) (fun d => match d with DX => Fixed 0 | RZ => Fixed 2 | _ => Free end));
   CMpc (Lmpc [(1, fun d => match d with DX => 1%R | _ => 0%R end); (2, fun d => match d with DY => (-2)%R | _ => 0%R end)] 5);
   CRigid [1; 6]; CContact; CRbe3 (Rbe3 9 63 [(1, 7, 1%R); (2, 33, 2%R)])].
Example C92_case : exists c, write_set 0 a_mesh a_set = Ok (Some c) /\
  (forall x has P u, charge_holds a_mesh x has P c u <-> Forall (constraint_holds a_mesh x has P u) a_set) /\
  map k_ddl_escl (ch_rbe3 c) = [[txt "DX-DY-DZ"; txt "DX-DRZ"]].
Proof.
  assert (G : Forall (good_member 0 a_mesh) a_set).
  { unfold a_set. apply Forall_cons; [|apply Forall_cons; [|apply Forall_cons; [exact Logic.I|apply Forall_cons; [exact Logic.I|apply Forall_cons; [|apply Forall_nil]]]]].
    - split; [reflexivity|]. split; [intros g [<-|[<-|[]]]; cbn; eauto|intros g []].
    - intros p c d [E|[E|[]]]; injection E as <- <-; destruct d; cbn; (left; reflexivity) || (right; unfold Rabs; destruct (Rcase_abs _); lra).
    - intros n s w [E|[E|[]]]; injection E as <- <- <-; (split; [vm_compute; split; congruence|discriminate]). }
  assert (S : supports_agree a_mesh a_set).
  { intros s1 s2 p d v1 v2 I1 I2 _ _ E1 E2. unfold a_set in I1, I2. cbn in I1, I2.
    destruct I1 as [I1|[I1|[I1|[I1|[I1|[]]]]]]; try discriminate. destruct I2 as [I2|[I2|[I2|[I2|[I2|[]]]]]]; try discriminate.
    injection I1 as <-. injection I2 as <-. congruence. }
  assert (N : exists c, In c a_set /\ c <> CContact) by (exists (CRigid [1; 6]); split; [right; right; left; reflexivity|discriminate]).
  assert (K := fun x has P => C92_set_partial 0 a_mesh a_set x has P G S N).
  destruct (K (fun _ => V3 0 0 0) (fun _ _ => True) (fun _ _ _ _ => True)) as (c & E & _). exists c. split; [exact E|]. split.
  - intros x has P u. destruct (K x has P) as (c' & E' & H). rewrite E in E'. injection E' as <-. apply H.
  - unfold write_set in E. cbn [a_set forallb andb] in E. destruct (mapM _ _); try discriminate. cbn [bind] in E. injection E as <-. reflexivity.
Qed.
Print Assumptions C92_targets.
Print Assumptions C92_targets_written.
Print Assumptions C92_relation_partial.
Print Assumptions C92_relation_close.
Print Assumptions C92_small_refuted.
Print Assumptions C92_average_read.
Print Assumptions C92_set_partial.
Print Assumptions C92_function_refuted.
Print Assumptions C92_conflict_refuted.
