(** C32: combined load sets. *)
From Coq Require Import Reals ZArith List Bool Lia Lra.
From Verif Require Import Base GeomModel GeomProofs PropertiesGeom DofModel LoadModel PropertiesLoads SupportModel
  SupportProofs CombineModel.
Import ListNotations.
Open Scope Z_scope.

(** An effect of loads that scaling multiplies: the force or the moment at a
    node, counted as zero where the load does not act. *)
Definition linear (eff : load -> vec) : Prop :=
  forall k s l, eff (snd (scale_load k s l)) = vscale k (eff l).
Definition or_zero (o : outcome vec) : vec := match o with Ok v => v | _ => vzero end.

Lemma force_linear n tol env at_node p : linear (fun l => or_zero (force_at n tol env at_node l p)).
Proof.
  intros k s l. rewrite (proj1 (C39_nodal_forces n tol env at_node k s l p)). unfold map_ok.
  destruct (force_at n tol env at_node l p); cbn [bind or_zero]; [reflexivity| | |]; apply vec_eq; vunfold; ring.
Qed.
Lemma moment_linear n tol env at_node p : linear (fun l => or_zero (moment_at n tol env at_node l p)).
Proof.
  intros k s l. rewrite (proj2 (C39_nodal_forces n tol env at_node k s l p)). unfold map_ok.
  destruct (moment_at n tol env at_node l p); cbn [bind or_zero]; [reflexivity| | |]; apply vec_eq; vunfold; ring.
Qed.

(** The total effect of a load set. *)
Definition effect_of (eff : load -> vec) (m : lmodel) (i : Z) : vec :=
  match loads m i with Some l => eff l | None => vzero end.
Definition total (eff : load -> vec) (m : lmodel) (x : Z) : vec :=
  vsum (map (effect_of eff m) (lmembers m x)).

(** The factor applied to an embedded set: one when the given factor is within
    the tolerance of one. *)
Definition applied (tol k : R) : R := if near_one tol k then 1%R else k.

(** Models as the readers build them: the loads of the sets exist, numbers are
    below the counter, sets are listed once. *)
Record lwf (m : lmodel) : Prop := {
  lw_mem : forall x i, In i (lmembers m x) -> loads m i <> None;
  lw_low : forall i, loads m i <> None -> i < next_l m;
  lw_sets : NoDup (map fst (lsets m))
}.
Definition known (m : lmodel) (x : Z) : Prop := In x (map fst (lsets m)).
(** The sets that [x] takes with the factor one bring loads that are not counted
    elsewhere in [x]. *)
Definition counted_once (tol : R) (m : lmodel) (x : Z) : Prop :=
  NoDup (lmembers m x ++ flat_map (fun yk => if near_one tol (snd yk) then lmembers m (fst yk) else [])
                           (embedded m x)).

Lemma vsum_ins f i l : ~ In i l -> vsum (map f (ins i l)) = vadd (f i) (vsum (map f l)).
Proof.
  induction l as [|z l IH]; intros N; cbn [ins]; [reflexivity|].
  destruct (i <? z); [reflexivity|]. destruct (Z.eqb_spec i z); [exfalso; apply N; now left|].
  cbn [map vsum fold_right]. fold (vsum (map f (ins i l))). fold (vsum (map f l)).
  rewrite IH by (intros X; apply N; now right).
  apply vec_eq; vunfold; ring.
Qed.

Section Combine.
Variables (eff : load -> vec) (tol : R).
Hypothesis Lin : linear eff.

(** What adding loads to the set [x] keeps. *)
Record step (x : Z) (m m' : lmodel) : Prop := {
  s_wf : lwf m';
  s_next : next_l m <= next_l m';
  s_loads : forall i, i < next_l m -> loads m' i = loads m i;
  s_sets : lsets m' = lsets m;
  s_mem : forall z, z <> x -> lmembers m' z = lmembers m z
}.

Lemma step_trans x a b c : step x a b -> step x b c -> step x a c.
Proof.
  intros [A1 A2 A3 A4 A5] [B1 B2 B3 B4 B5]. constructor; auto; try lia; try congruence.
  - intros i L. rewrite B3 by lia. auto.
  - intros z N. rewrite B5 by exact N. auto.
Qed.

Lemma total_keep m m' z : lwf m -> (forall i, i < next_l m -> loads m' i = loads m i) ->
  lmembers m' z = lmembers m z -> total eff m' z = total eff m z.
Proof.
  intros W L E. unfold total. rewrite E. f_equal. apply map_ext_in. intros i Hi.
  unfold effect_of. rewrite L; [reflexivity|]. apply (lw_low m W), (lw_mem m W z), Hi.
Qed.

Lemma combine_load_spec k x m i m' : lwf m -> loads m i <> None ->
  (near_one tol k = true -> ~ In i (lmembers m x)) ->
  combine_load tol k x m i = Ok m' ->
  step x m m'
  /\ total eff m' x = vadd (vscale (applied tol k) (effect_of eff m i)) (total eff m x)
  /\ (forall j, In j (lmembers m' x) -> In j (lmembers m x) \/ (near_one tol k = true /\ j = i) \/ next_l m <= j).
Proof.
  intros W Li N. unfold combine_load, applied. destruct (near_one tol k) eqn:E.
  - intros H. injection H as <-. split; [|split].
    + constructor; cbn; try reflexivity; try lia.
      * constructor; cbn.
        -- intros z j. unfold upd. destruct (z =? x).
           ++ intros Hj. apply in_ins in Hj. destruct Hj as [->|Hj]; [exact Li|eapply (lw_mem m W); eauto].
           ++ apply (lw_mem m W).
        -- apply (lw_low m W).
        -- apply (lw_sets m W).
      * intros z Nz. unfold upd. destruct (Z.eqb_spec z x); [contradiction|reflexivity].
    + unfold total. cbn. unfold upd. rewrite Z.eqb_refl.
      rewrite (vsum_ins (effect_of eff _)) by auto.
      match goal with |- vadd (effect_of eff ?mm i) _ = _ =>
        change (effect_of eff mm) with (effect_of eff m) end.
      set (a := effect_of eff m i). set (b := vsum _). clearbody a b.
      apply vec_eq; vunfold; ring.
    + cbn. unfold upd. rewrite Z.eqb_refl. intros j Hj. apply in_ins in Hj. tauto.
  - destruct (loads m i) as [l|] eqn:El; [|congruence]. cbn [of_option bind].
    assert (Nl : loads m (next_l m) = None).
    { destruct (loads m (next_l m)) eqn:X; [|reflexivity].
      assert (next_l m < next_l m) by (apply (lw_low m W); congruence). lia. }
    assert (Nx : ~ In (next_l m) (lmembers m x)).
    { intros X. apply (lw_mem m W) in X. contradiction. }
    intros H. injection H as <-. split; [|split].
    + constructor; cbn; try reflexivity; try lia.
      * constructor; cbn.
        -- intros z j. unfold upd. destruct (z =? x); destruct (Z.eqb_spec j (next_l m)); try discriminate.
           ++ intros Hj. apply in_ins in Hj. destruct Hj as [Hj|Hj]; [contradiction|eapply (lw_mem m W); eauto].
           ++ apply (lw_mem m W).
        -- intros j. unfold upd. destruct (Z.eqb_spec j (next_l m)); [lia|]. intros X. apply (lw_low m W) in X. lia.
        -- apply (lw_sets m W).
      * intros j L. unfold upd. destruct (Z.eqb_spec j (next_l m)); [lia|reflexivity].
      * intros z Nz. unfold upd. destruct (Z.eqb_spec z x); [contradiction|reflexivity].
    + unfold total at 1. cbn [lmembers].
      replace (upd (lmembers m) x (ins (next_l m) (lmembers m x)) x) with (ins (next_l m) (lmembers m x))
        by (unfold upd; rewrite Z.eqb_refl; reflexivity).
      rewrite vsum_ins by exact Nx. f_equal.
      * unfold effect_of. cbn [loads]. unfold upd. rewrite Z.eqb_refl, El. apply Lin.
      * unfold total. f_equal. apply map_ext_in. intros j Hj. unfold effect_of. cbn [loads]. unfold upd.
        destruct (Z.eqb_spec j (next_l m)); [subst; contradiction|reflexivity].
    + cbn. unfold upd. rewrite Z.eqb_refl. intros j Hj. apply in_ins in Hj. destruct Hj as [->|Hj]; [right; right; lia|auto].
Qed.

Lemma combine_loads_spec k x : forall l m m', lwf m ->
  (forall i, In i l -> loads m i <> None) -> NoDup l ->
  (near_one tol k = true -> forall i, In i l -> ~ In i (lmembers m x)) ->
  foldM (combine_load tol k x) l m = Ok m' ->
  step x m m'
  /\ total eff m' x = vadd (vscale (applied tol k) (vsum (map (effect_of eff m) l))) (total eff m x)
  /\ (forall j, In j (lmembers m' x) -> In j (lmembers m x) \/ (near_one tol k = true /\ In j l) \/ next_l m <= j).
Proof.
  induction l as [|i l IH]; intros m m' W Hl N Hn H; cbn in H.
  - injection H as <-. split; [constructor; auto; lia|]. split; [|auto].
    cbn. apply vec_eq; vunfold; ring.
  - inversion N as [|? ? Ni Nl]; subst.
    destruct (combine_load tol k x m i) as [m1| | |] eqn:E; cbn in H; try discriminate.
    destruct (combine_load_spec k x m i m1) as (S1 & T1 & M1); auto.
    { apply Hl. now left. } { intros X. apply Hn; [exact X|now left]. }
    assert (Low : forall j, In j l -> j < next_l m).
    { intros j Hj. apply (lw_low m W), Hl. now right. }
    destruct (IH m1 m') as (S2 & T2 & M2); auto.
    + apply S1.
    + intros j Hj. rewrite (s_loads _ _ _ S1) by auto. apply Hl. now right.
    + intros X j Hj Y. apply M1 in Y. destruct Y as [Y|[[_ ->]|Y]].
      * apply (Hn X j); [now right|exact Y].
      * contradiction.
      * apply Low in Hj. lia.
    + split; [eapply step_trans; eauto|]. split.
      * rewrite T2, T1. cbn [map vsum fold_right]. fold (vsum (map (effect_of eff m) l)).
        replace (map (effect_of eff m1) l) with (map (effect_of eff m) l).
        2:{ apply map_ext_in. intros j Hj. unfold effect_of. rewrite (s_loads _ _ _ S1) by auto. reflexivity. }
        apply vec_eq; vunfold; ring.
      * intros j Hj. apply M2 in Hj. pose proof (s_next _ _ _ S1). destruct Hj as [Hj|[[X Hj]|Hj]].
        -- apply M1 in Hj. destruct Hj as [Hj|[[X ->]|Hj]]; cbn; auto.
        -- cbn. auto.
        -- right; right. lia.
Qed.

Definition bring (m : lmodel) (yk : Z * R) : list Z :=
  if near_one tol (snd yk) then lmembers m (fst yk) else [].
Definition weighted (m : lmodel) (E : list (Z * R)) : vec :=
  vsum (map (fun yk => vscale (applied tol (snd yk)) (total eff m (fst yk))) E).

Lemma nodup_app_in {A} (l r : list A) x : NoDup (l ++ r) -> In x l -> In x r -> False.
Proof.
  induction l as [|y l IH]; intros N; [contradiction|]. cbn in N. inversion N; subst.
  intros [->|H] Hr; [apply H1, in_app_iff; auto|eauto].
Qed.
Lemma nodup_app_l {A} (l r : list A) : NoDup (l ++ r) -> NoDup l.
Proof.
  induction l as [|y l IH]; intros N; [constructor|]. cbn in N. inversion N; subst.
  constructor; [intros X; apply H1, in_app_iff; auto|auto].
Qed.
Lemma nodup_app_r {A} (l r : list A) : NoDup (l ++ r) -> NoDup r.
Proof. induction l as [|y l IH]; intros N; [exact N|]. cbn in N. inversion N; subst. auto. Qed.

Lemma combine_sets_spec m0 x : forall E m m', lwf m0 -> step x m0 m ->
  (forall yk, In yk E -> fst yk <> x /\ NoDup (lmembers m0 (fst yk))) ->
  NoDup (flat_map (bring m0) E) ->
  (forall i, In i (flat_map (bring m0) E) -> ~ In i (lmembers m x)) ->
  foldM (combine_set tol x) E m = Ok m' ->
  step x m0 m' /\ total eff m' x = vadd (weighted m0 E) (total eff m x).
Proof.
  induction E as [|[y k] E IH]; intros m m' W0 S HE NE Hd H; cbn in H.
  - injection H as <-. split; [exact S|]. unfold weighted. cbn. apply vec_eq; vunfold; ring.
  - destruct (combine_set tol x m (y, k)) as [m1| | |] eqn:E1; cbn in H; try discriminate.
    unfold combine_set in E1. cbn [fst snd] in E1.
    destruct (existsb _ _); [|discriminate]. destruct (forallb _ _); [|discriminate].
    destruct (HE (y, k) (or_introl eq_refl)) as [Ny Nd]. cbn [fst] in Ny, Nd.
    assert (Ey : lmembers m y = lmembers m0 y) by (apply (s_mem _ _ _ S); exact Ny).
    rewrite Ey in E1.
    cbn [flat_map] in NE, Hd.
    destruct (combine_loads_spec k x (lmembers m0 y) m m1) as (S1 & T1 & M1); auto.
    + apply S.
    + intros i Hi. apply (lw_mem m (s_wf _ _ _ S) y). rewrite Ey. exact Hi.
    + intros X i Hi. apply Hd. apply in_app_iff. left. unfold bring. cbn [fst snd]. rewrite X. exact Hi.
    + assert (S01 : step x m0 m1) by (eapply step_trans; eauto).
      destruct (IH m1 m') as (S' & T'); auto.
      * intros yk Hy. apply HE. now right.
      * eapply nodup_app_r; eauto.
      * intros i Hi Y. apply M1 in Y. destruct Y as [Y|[[X Y]|Y]].
        -- apply (Hd i); [apply in_app_iff; auto|exact Y].
        -- apply (nodup_app_in _ _ i NE); [|exact Hi]. unfold bring. cbn [fst snd]. rewrite X. exact Y.
        -- assert (i < next_l m0).
           { apply in_flat_map in Hi. destruct Hi as (yk & _ & Hi). unfold bring in Hi.
             destruct (near_one tol (snd yk)); [|contradiction].
             apply (lw_low m0 W0), (lw_mem m0 W0 (fst yk)), Hi. }
           pose proof (s_next _ _ _ S). lia.
      * split; [exact S'|]. rewrite T', T1. unfold weighted. cbn [map vsum fold_right fst snd].
        match goal with |- context [fold_right vadd vzero ?l] => fold (vsum l) end.
        replace (vsum (map (effect_of eff m) (lmembers m0 y))) with (total eff m0 y).
        2:{ unfold total. f_equal. apply map_ext_in. intros i Hi. unfold effect_of.
            rewrite (s_loads _ _ _ S); [reflexivity|]. apply (lw_low m0 W0), (lw_mem m0 W0 y), Hi. }
        apply vec_eq; vunfold; ring.
Qed.

(** ** All the sets *)
Lemma clear_fst x l : map fst (clear_set x l) = map fst l.
Proof.
  unfold clear_set. induction l as [|[y e] l IH]; cbn; [reflexivity|].
  destruct (Z.eqb_spec y x); cbn; [subst|]; f_equal; exact IH.
Qed.
Lemma find_clear x z l :
  match find (fun s : Z * list (Z * R) => fst s =? z) (clear_set x l) with Some s => snd s | None => [] end
  = if z =? x then [] else match find (fun s => fst s =? z) l with Some s => snd s | None => [] end.
Proof.
  unfold clear_set. induction l as [|[y e] l IH]; cbn; [destruct (z =? x); reflexivity|].
  destruct (Z.eqb_spec y x) as [->|N]; cbn.
  - rewrite (Z.eqb_sym z x). rewrite (Z.eqb_sym z x) in IH. destruct (Z.eqb_spec x z); [reflexivity|exact IH].
  - destruct (Z.eqb_spec y z) as [->|N']; [|exact IH].
    destruct (Z.eqb_spec z x); [contradiction|reflexivity].
Qed.

Section All.
Variable m0 : lmodel.
Hypothesis W0 : lwf m0.
Hypothesis Flat : forall x yk, In yk (embedded m0 x) -> embedded m0 (fst yk) = [].
Hypothesis Once : forall x, known m0 x -> counted_once tol m0 x.
Hypothesis Sets : forall x, NoDup (lmembers m0 x).

Record CInv (todo : list Z) (m : lmodel) : Prop := {
  c_wf : lwf m;
  c_next : next_l m0 <= next_l m;
  c_loads : forall i, i < next_l m0 -> loads m i = loads m0 i;
  c_fst : map fst (lsets m) = map fst (lsets m0);
  c_todo : forall x, In x todo -> lmembers m x = lmembers m0 x /\ embedded m x = embedded m0 x;
  c_done : forall x, known m0 x -> ~ In x todo ->
    embedded m x = [] /\ total eff m x = vadd (weighted m0 (embedded m0 x)) (total eff m0 x);
  c_plain : forall x, embedded m0 x = [] -> lmembers m x = lmembers m0 x
}.

Lemma combine_one_spec x todo m m' : NoDup (x :: todo) -> known m0 x -> CInv (x :: todo) m ->
  combine_one tol m x = Ok m' -> CInv todo m'.
Proof.
  intros N Kx I H. inversion N as [|? ? Nx Nt]; subst. unfold combine_one in H.
  destruct (c_todo _ _ I x (or_introl eq_refl)) as [Em Ee]. rewrite Ee in H.
  destruct (foldM (combine_set tol x) (embedded m0 x) m) as [m1| | |] eqn:EF; cbn [bind] in H; try discriminate.
  injection H as <-.
  pose proof (Once x Kx) as O. unfold counted_once in O.
  assert (Same : forall yk, In yk (embedded m0 x) -> lmembers m (fst yk) = lmembers m0 (fst yk)).
  { intros yk Hy. apply (c_plain _ _ I), (Flat x), Hy. }
  assert (Eb : flat_map (bring m) (embedded m0 x) = flat_map (bring m0) (embedded m0 x)).
  { revert Same. generalize (embedded m0 x). induction l as [|yk l IH]; intros Same; [reflexivity|]. cbn.
    f_equal; [|apply IH; intros; apply Same; now right].
    unfold bring. rewrite Same by now left. reflexivity. }
  destruct (combine_sets_spec m x (embedded m0 x) m m1) as (S & T); auto.
  - apply I.
  - constructor; auto; try lia. apply I.
  - intros yk Hy. split.
    + intros Eq. pose proof (Flat x yk Hy) as F. rewrite Eq in F. rewrite F in Hy. contradiction.
    + rewrite Same by exact Hy. apply Sets.
  - rewrite Eb. eapply nodup_app_r; eauto.
  - rewrite Eb, Em. intros i Hi Y. eapply nodup_app_in; eauto.
  - assert (Ew : weighted m (embedded m0 x) = weighted m0 (embedded m0 x)).
    { unfold weighted. f_equal. apply map_ext_in. intros yk Hy. f_equal.
      apply total_keep; [exact W0| |apply Same; exact Hy]. apply (c_loads _ _ I). }
    assert (Et : total eff m x = total eff m0 x).
    { apply total_keep; [exact W0|apply (c_loads _ _ I)|exact Em]. }
    constructor; cbn.
    + constructor; cbn.
      * apply (lw_mem m1 (s_wf _ _ _ S)).
      * apply (lw_low m1 (s_wf _ _ _ S)).
      * rewrite clear_fst. apply (lw_sets m1 (s_wf _ _ _ S)).
    + pose proof (s_next _ _ _ S). pose proof (c_next _ _ I). lia.
    + intros i L. pose proof (c_next _ _ I). rewrite (s_loads _ _ _ S) by lia. apply (c_loads _ _ I), L.
    + rewrite clear_fst, (s_sets _ _ _ S). apply (c_fst _ _ I).
    + intros z Hz. assert (z <> x) by (intros ->; contradiction).
      destruct (c_todo _ _ I z (or_intror Hz)) as [E1 E2]. split.
      * rewrite (s_mem _ _ _ S) by assumption. exact E1.
      * unfold embedded. cbn [lsets]. rewrite find_clear, (s_sets _ _ _ S).
        destruct (Z.eqb_spec z x); [contradiction|]. exact E2.
    + intros z Kz Nz. unfold embedded at 1. cbn [lsets]. rewrite find_clear, (s_sets _ _ _ S).
      destruct (Z.eqb_spec z x) as [->|Nzx].
      * split; [reflexivity|].
        transitivity (total eff m1 x); [reflexivity|].
        rewrite T, Ew, Et. reflexivity.
      * destruct (c_done _ _ I z Kz) as [E1 E2]; [intros [X|X]; [congruence|contradiction]|].
        split; [exact E1|]. rewrite <- E2.
        transitivity (total eff m1 z); [reflexivity|].
        apply total_keep; [apply I|apply (s_loads _ _ _ S)|apply (s_mem _ _ _ S); exact Nzx].
    + intros z Ez. destruct (Z.eq_dec z x) as [->|Nzx].
      * rewrite Ez in EF. cbn in EF. injection EF as <-. apply (c_plain _ _ I), Ez.
      * rewrite (s_mem _ _ _ S) by exact Nzx. apply (c_plain _ _ I), Ez.
Qed.

Lemma combine_loop : forall todo m m', NoDup todo -> (forall x, In x todo -> known m0 x) -> CInv todo m ->
  foldM (combine_one tol) todo m = Ok m' -> CInv [] m'.
Proof.
  induction todo as [|x todo IH]; intros m m' N K I H; cbn in H; [injection H as <-; exact I|].
  destruct (combine_one tol m x) as [m1| | |] eqn:E; cbn in H; try discriminate.
  apply (IH m1); auto.
  - inversion N; auto.
  - intros y Hy. apply K. now right.
  - eapply combine_one_spec; eauto. apply K. now left.
Qed.
End All.
End Combine.

(** After the replacement the effect of each load set is its own plus the sum of
    the effects of the sets it embeds, each with its factor, and nothing else
    has changed: the loads themselves and the other sets.
    Left out: sets that embed sets that embed others, and sets counting the same
    load several times with the factor one. *)
Theorem C32_weighted_sum_partial eff tol m m' :
  linear eff -> lwf m -> (forall x, NoDup (lmembers m x)) ->
  (forall x yk, In yk (embedded m x) -> embedded m (fst yk) = []) ->
  (forall x, known m x -> counted_once tol m x) ->
  combine_all tol m = Ok m' ->
  (forall x, known m x ->
     embedded m' x = [] /\
     total eff m' x = vadd (total eff m x)
       (vsum (map (fun yk => vscale (applied tol (snd yk)) (total eff m (fst yk))) (embedded m x))))
  /\ (forall x, embedded m x = [] -> lmembers m' x = lmembers m x)
  /\ (forall i, loads m i <> None -> loads m' i = loads m i).
Proof.
  intros Lin W Nd Fl On H. unfold combine_all in H.
  assert (I : CInv eff tol m [] m').
  { eapply (combine_loop eff tol Lin m W Fl On Nd (map fst (lsets m)) m m'); auto.
    - apply (lw_sets m W).
    - constructor; auto; try lia.
      intros x K N. contradiction. }
  split; [|split].
  - intros x K. destruct (c_done _ _ _ _ _ I x K) as [E T]; [intros []|]. split; [exact E|].
    rewrite T. unfold weighted. apply vec_eq; vunfold; ring.
  - intros x E. apply (c_plain _ _ _ _ _ I), E.
  - intros i Hi. apply (c_loads _ _ _ _ _ I), (lw_low m W), Hi.
Qed.

(** The factor one replaces a factor only within the tolerance. *)
Theorem C32_applied_factor tol k : (0 <= tol)%R ->
  (Rabs (applied tol k - k) <= tol * Rmax 1 (Rabs k))%R.
Proof.
  intros T. unfold applied, near_one. pose proof (Rmax_l 1 (Rabs k)) as M.
  destruct (Rle_dec _ _) as [H|_].
  - rewrite (Rmax_left _ 1) in H by exact M. rewrite Rabs_minus_sym. exact H.
  - replace (k - k)%R with 0%R by ring. rewrite Rabs_R0. apply Rmult_le_pos; lra.
Qed.

(** The LOAD card multiplies the factor of each set by the overall factor. *)
Theorem C32_card eff m overall pairs :
  vsum (map (fun yk => vscale (snd yk) (total eff m (fst yk))) (load_card overall pairs))
  = vscale overall (vsum (map (fun p => vscale (fst p) (total eff m (snd p))) pairs)).
Proof.
  induction pairs as [|[f y] l IH]; cbn [load_card map vsum fold_right fst snd]; [apply vec_eq; vunfold; ring|].
  fold (load_card overall l).
  change (fold_right vadd vzero ?l) with (vsum l) in *.
  rewrite IH. apply vec_eq; vunfold; ring.
Qed.

(** ** Acceptance *)
Definition grown (m m' : lmodel) : Prop :=
  lwf m' /\ (forall i, loads m i <> None -> loads m' i <> None) /\ lsets m' = lsets m.

Lemma combine_load_ok tol k x m i : lwf m -> loads m i <> None ->
  exists m', combine_load tol k x m i = Ok m' /\ grown m m'.
Proof.
  intros W Li. unfold combine_load. destruct (near_one tol k).
  - eexists. split; [reflexivity|]. split; [|split; auto].
    constructor; cbn; [|apply W..].
    intros z j. unfold upd. destruct (z =? x); [|apply W].
    intros Hj. apply in_ins in Hj. destruct Hj as [->|Hj]; [exact Li|eapply (lw_mem m W); eauto].
  - destruct (loads m i) as [l|]; [|congruence]. cbn [of_option bind]. eexists. split; [reflexivity|].
    split; [|split; [cbn; intros j; unfold upd; destruct (j =? next_l m); [discriminate|auto]|reflexivity]].
    constructor; cbn; [| |apply W].
    + intros z j. unfold upd. destruct (z =? x); destruct (Z.eqb_spec j (next_l m)); try discriminate.
      * intros Hj. apply in_ins in Hj. destruct Hj as [Hj|Hj]; [contradiction|eapply (lw_mem m W); eauto].
      * apply (lw_mem m W).
    + intros j. unfold upd. destruct (Z.eqb_spec j (next_l m)); [lia|]. intros X. apply (lw_low m W) in X. lia.
Qed.

Lemma combine_loads_ok tol k x : forall l m, lwf m -> (forall i, In i l -> loads m i <> None) ->
  exists m', foldM (combine_load tol k x) l m = Ok m' /\ grown m m'.
Proof.
  induction l as [|i l IH]; intros m W H; cbn; [exists m; repeat split; auto; apply W|].
  destruct (combine_load_ok tol k x m i W) as (m1 & E & W1 & L1 & S1); [apply H; now left|].
  rewrite E. cbn. destruct (IH m1 W1) as (m2 & E2 & W2 & L2 & S2).
  - intros j Hj. apply L1, H. now right.
  - exists m2. split; [exact E2|]. split; [exact W2|]. split; [auto|congruence].
Qed.

Lemma combine_sets_ok tol x : forall E m, lwf m -> (forall yk, In yk E -> known m (fst yk)) ->
  exists m', foldM (combine_set tol x) E m = Ok m' /\ grown m m'.
Proof.
  induction E as [|[y k] E IH]; intros m W H; cbn; [exists m; repeat split; auto; apply W|].
  assert (Eq : combine_set tol x m (y, k) = foldM (combine_load tol k x) (lmembers m y) m).
  { unfold combine_set. cbn [fst snd].
    replace (existsb _ _) with true.
    2:{ symmetry. apply existsb_exists. specialize (H (y, k) (or_introl eq_refl)). unfold known in H.
        apply in_map_iff in H. destruct H as (s & Es & Hs). exists s. split; [exact Hs|]. cbn in Es.
        rewrite Es. apply Z.eqb_refl. }
    replace (forallb _ _) with true; [reflexivity|].
    symmetry. apply forallb_forall. intros i Hi. apply (lw_mem m W) in Hi.
    destruct (loads m i); [reflexivity|congruence]. }
  rewrite Eq. destruct (combine_loads_ok tol k x (lmembers m y) m W) as (m1 & E1 & W1 & L1 & S1).
  { intros i. apply (lw_mem m W). }
  rewrite E1. cbn. destruct (IH m1 W1) as (m2 & E2 & W2 & L2 & S2).
  { intros yk Hy. unfold known. rewrite S1. apply H. now right. }
  exists m2. split; [exact E2|]. split; [exact W2|]. split; [auto|congruence].
Qed.

(** The replacement succeeds when the sets that the combinations name exist. *)
Theorem C32_accepted tol m : lwf m -> (forall x yk, In yk (embedded m x) -> known m (fst yk)) ->
  exists m', combine_all tol m = Ok m'.
Proof.
  intros W H. unfold combine_all. generalize (map fst (lsets m)) as todo.
  revert m W H. intros m W H todo. revert m W H.
  induction todo as [|x todo IH]; intros m W H; cbn; [eauto|].
  unfold combine_one at 1. destruct (combine_sets_ok tol x (embedded m x) m W) as (m1 & E1 & W1 & L1 & S1).
  { apply H. }
  rewrite E1. cbn. apply IH.
  - constructor; cbn; [apply W1|apply W1|]. rewrite clear_fst. apply W1.
  - intros z yk. unfold embedded, known. cbn [lsets]. rewrite find_clear, clear_fst, S1.
    destruct (z =? x); [intros []|]. apply H.
Qed.

(** ** Witnesses *)
Open Scope R_scope.
Lemma near_self : near_one 0 1 = true.
Proof.
  unfold near_one. destruct (Rle_dec _ _) as [_|N]; [reflexivity|]. exfalso. apply N.
  replace (1 - 1) with 0 by ring. rewrite Rabs_R0. lra.
Qed.
Lemma near_far k : k <> 1 -> near_one 0 k = false.
Proof.
  intros N. unfold near_one. destruct (Rle_dec _ _) as [H|_]; [|reflexivity]. exfalso.
  rewrite Rmult_0_l in H. pose proof (Rabs_pos (k - 1)). apply N.
  assert (Rabs (k - 1) = 0) as Z by lra. destruct (Req_dec (k - 1) 0) as [E|E]; [lra|].
  apply Rabs_no_R0 in E. contradiction.
Qed.
Close Scope R_scope.

Definition force_of (l : load) : vec := match l with NodalForce _ f _ _ => f | _ => vzero end.
Lemma force_of_linear : linear force_of.
Proof.
  intros k s l. destruct l; cbn [scale_load snd force_of]; try reflexivity; apply vec_eq; vunfold; ring.
Qed.

Definition e32_one : load := NodalForce None (V3 1 0 0) vzero [7].
Definition e32_two : load := NodalForce None (V3 0 1 0) vzero [7].
Definition e32_loads (i : Z) : option load :=
  if i =? 1 then Some e32_one else if i =? 2 then Some e32_two else None.
Definition e32_members (x : Z) : list Z := if x =? 20 then [1] else if x =? 30 then [1; 2] else [].
Definition e32 (sets : list (Z * list (Z * R))) : lmodel :=
  mkLModel (fun _ => Scalar 0) e32_loads sets e32_members 3.

Lemma e32_wf sets : NoDup (map fst sets) -> lwf (e32 sets).
Proof.
  intros N. constructor; cbn; [| |exact N].
  - intros x i. unfold e32_members, e32_loads. destruct (x =? 20); [|destruct (x =? 30)].
    + intros [<-|[]]; discriminate.
    + intros [<-|[<-|[]]]; discriminate.
    + intros [].
  - intros i. unfold e32_loads. destruct (Z.eqb_spec i 1); [lia|]. destruct (Z.eqb_spec i 2); [lia|congruence].
Qed.
Lemma e32_nodup sets x : NoDup (lmembers (e32 sets) x).
Proof.
  cbn. unfold e32_members. destruct (x =? 20); [|destruct (x =? 30)]; repeat constructor; cbn; lia.
Qed.

(** The set 10 is set 20 + 3 x set 30. *)
Definition e32_card : list (Z * list (Z * R)) := [(10, load_card 1 [(1%R, 20); (3%R, 30)]); (20, []); (30, [])].
Example C32_example :
  lwf (e32 e32_card) /\ (forall x, NoDup (lmembers (e32 e32_card) x))
  /\ (forall x yk, In yk (embedded (e32 e32_card) x) -> embedded (e32 e32_card) (fst yk) = [] /\ known (e32 e32_card) (fst yk))
  /\ (forall x, known (e32 e32_card) x -> counted_once 0 (e32 e32_card) x)
  /\ exists m', combine_all 0 (e32 e32_card) = Ok m' /\ total force_of m' 10 = V3 4 3 0
                /\ total force_of m' 30 = V3 1 1 0.
Proof.
  assert (W : lwf (e32 e32_card)).
  { apply e32_wf. cbn. repeat constructor; cbn; lia. }
  assert (Em : forall x yk, In yk (embedded (e32 e32_card) x) ->
             embedded (e32 e32_card) (fst yk) = [] /\ known (e32 e32_card) (fst yk)).
  { intros x yk. unfold embedded at 1. cbn -[Z.eqb]. destruct (10 =? x); cbn -[Z.eqb].
    - intros [<-|[<-|[]]]; cbn; auto.
    - destruct (20 =? x); [intros []|]. destruct (30 =? x); intros []. }
  assert (O : forall x, known (e32 e32_card) x -> counted_once 0 (e32 e32_card) x).
  { intros x [<-|[<-|[<-|[]]]]; unfold counted_once; cbn -[near_one Rmult].
    - rewrite !Rmult_1_l, near_self, near_far by lra. cbn. repeat constructor; cbn; lia.
    - repeat constructor; cbn; lia.
    - repeat constructor; cbn; lia. }
  split; [exact W|]. split; [intros; apply e32_nodup|]. split; [exact Em|]. split; [exact O|].
  destruct (C32_accepted 0 _ W) as (m' & E); [intros x yk H; apply (Em x yk H)|].
  exists m'. split; [exact E|].
  destruct (C32_weighted_sum_partial force_of 0 _ m' force_of_linear W (fun x => e32_nodup _ x)
              (fun x yk H => proj1 (Em x yk H)) O E) as (T & _ & _).
  split.
  - rewrite (proj2 (T 10 (or_introl eq_refl))). cbn -[applied Rmult]. unfold applied.
    rewrite !Rmult_1_l, near_self, near_far by lra. apply vec_eq; vunfold; cbn; ring.
  - rewrite (proj2 (T 30 (or_intror (or_intror (or_introl eq_refl))))). cbn. apply vec_eq; vunfold; cbn; ring.
Qed.

(** C32 fails when a combination counts the same load twice with the factor
    one: the loads of a set are a mathematical set. *)
Theorem C32_twice_refuted : exists m m' x,
  lwf m /\ (forall x, NoDup (lmembers m x)) /\ known m x
  /\ (forall x yk, In yk (embedded m x) -> embedded m (fst yk) = [])
  /\ combine_all 0 m = Ok m'
  /\ total force_of m' x <> vadd (total force_of m x)
       (vsum (map (fun yk => vscale (applied 0 (snd yk)) (total force_of m (fst yk))) (embedded m x))).
Proof.
  exists (e32 [(10, [(20, 1%R); (20, 1%R)]); (20, [])]).
  eexists. exists 10. split; [apply e32_wf; cbn; repeat constructor; cbn; lia|].
  split; [intros; apply e32_nodup|]. split; [now left|].
  split.
  { intros x yk. unfold embedded at 1. cbn -[Z.eqb]. destruct (10 =? x); cbn -[Z.eqb].
    - intros [<-|[<-|[]]]; reflexivity.
    - destruct (20 =? x); intros []. }
  split.
  - unfold combine_all, combine_one, combine_set, e32. cbn -[near_one combine_load e32_loads e32_members].
    cbn -[near_one combine_load]. unfold combine_load at 1. rewrite near_self. cbn -[near_one].
    unfold combine_load at 1. rewrite near_self. cbn -[near_one]. reflexivity.
  - unfold applied. cbn -[near_one]. rewrite near_self. vunfold. intros H. injection H. intros. lra.
Qed.

(** C32 fails for combinations of combinations: a set is read before the sets
    it embeds have been completed. *)
Theorem C32_nested_refuted : exists m m' x y,
  lwf m /\ embedded m x = [(y, 1%R)] /\ known m x /\ known m y
  /\ combine_all 0 m = Ok m' /\ lmembers m x = []
  /\ total force_of m' x <> total force_of m' y.
Proof.
  exists (e32 [(10, [(15, 1%R)]); (15, [(20, 1%R)]); (20, [])]).
  eexists. exists 10, 15. split; [apply e32_wf; cbn; repeat constructor; cbn; lia|].
  split; [reflexivity|]. split; [now left|]. split; [right; now left|].
  split; [|split; [reflexivity|]].
  - unfold combine_all, combine_one, combine_set, e32. cbn -[near_one combine_load].
    unfold combine_load at 1. rewrite near_self. cbn -[near_one]. reflexivity.
  - cbn -[near_one]. vunfold. intros H. injection H. intros. lra.
Qed.

(** C32 fails for line forces and dynamic excitations, whose value is shared
    with their copy: the factor also multiplies the load of the embedded set. *)
Theorem C32_shared_value_refuted : exists m m' y i v d cells,
  lwf m /\ embedded m y = [] /\ lmembers m y = [i] /\ loads m i = Some (ForceLine v d cells)
  /\ combine_all 0 m = Ok m'
  /\ loads m' i = loads m i /\ store m v = Scalar 5 /\ store m' v = Scalar 10.
Proof.
  exists (mkLModel (fun _ => Scalar 5) (fun i => if i =? 1 then Some (ForceLine 0 DX [4]) else None)
            [(10, [(20, 2%R)]); (20, [])] (fun x => if x =? 20 then [1] else []) 2).
  eexists. exists 20, 1, 0, DX, [4]. split.
  { constructor; cbn.
    - intros x i. destruct (x =? 20); [|intros []]. intros [<-|[]]. discriminate.
    - intros i. destruct (Z.eqb_spec i 1); [lia|congruence].
    - repeat constructor; cbn; lia. }
  split; [reflexivity|]. split; [reflexivity|]. split; [reflexivity|]. split; [|split; [|split; [reflexivity|]]].
  - unfold combine_all, combine_one, combine_set. cbn -[near_one combine_load].
    unfold combine_load at 1. rewrite near_far by lra. cbn -[near_one]. reflexivity.
  - reflexivity.
  - cbn. f_equal. ring.
Qed.

Print Assumptions C32_weighted_sum_partial.
Print Assumptions C32_applied_factor.
Print Assumptions C32_card.
Print Assumptions C32_accepted.
Print Assumptions C32_twice_refuted.
Print Assumptions C32_nested_refuted.
Print Assumptions C32_shared_value_refuted.
