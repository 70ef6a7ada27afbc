(** Lemmas on the families of the MED file. *)
From Coq Require Import Ascii String ZArith List Bool Arith Lia Sorted.
From Verif Require Import Base ZMap TextModel MeshNodeModel MeshNodeProofs MeshCellModel MeshCellProofs MedModel.
Import ListNotations.
Open Scope Z_scope.

(** The names of the groups of [gs] that contain position [p], in order. *)
Definition groups_with (gs : list (str * list nat)) (p : nat) : list str :=
  map fst (filter (fun g => existsb (Nat.eqb p) (snd g)) gs).

Lemma existsb_in p l : existsb (Nat.eqb p) l = true <-> In p l.
Proof.
  rewrite existsb_exists. split; [intros (x & H & E); apply Nat.eqb_eq in E; congruence|].
  intros H. exists p. now rewrite Nat.eqb_refl.
Qed.

Lemma existsb_notin p l : existsb (Nat.eqb p) l = false <-> ~ In p l.
Proof. rewrite <- existsb_in. destruct (existsb _ _); intuition congruence. Qed.

Lemma groups_with_snoc gs g p : groups_with (gs ++ [g]) p =
  groups_with gs p ++ (if existsb (Nat.eqb p) (snd g) then [fst g] else []).
Proof.
  unfold groups_with. rewrite filter_app, map_app. cbn. destruct (existsb _ _); reflexivity.
Qed.

Fixpoint join (l : list str) : str :=
  match l with [] => [] | [g] => g | g :: r => g ++ txt "_" ++ join r end.

Lemma join_snoc l g : l <> [] -> join (l ++ [g]) = join l ++ txt "_" ++ g.
Proof.
  induction l as [|a l IH]; intros H; [congruence|]. destruct l as [|b l]; [reflexivity|].
  change (join ((a :: b :: l) ++ [g])) with (a ++ txt "_" ++ join ((b :: l) ++ [g])).
  rewrite IH by discriminate. change (join (a :: b :: l)) with (a ++ txt "_" ++ join (b :: l)).
  now rewrite <- !app_assoc.
Qed.

Section Loop.
Context {S : Type} (get : S -> nat -> outcome Z) (put : S -> nat -> Z -> outcome S).
Variables (sign : Z) (label : str).
Hypothesis Hsign : sign = 1 \/ sign = -1.
(** What [get] and [put] do on the positions of [dom]. *)
Variable (dom : nat -> Prop) (good : S -> Prop) (view : S -> nat -> Z).
Hypothesis Hget : forall s p, good s -> dom p -> get s p = Ok (view s p).
Hypothesis Hput : forall s p v, good s -> dom p -> exists s', put s p v = Ok s' /\ good s' /\
  forall q, dom q -> view s' q = if Nat.eqb p q then v else view s q.

(** Families are well numbered and well named. *)
Record tables_ok (t : tables) : Prop := {
  to_wf : zmap_wf (known t);
  to_cur : 0 <= sign * current t;
  to_num : forall n f, zfind (known t) n = Some f ->
    1 <= sign * n <= sign * current t /\ fam_num f = n /\ fam_groups f <> [] /\
    ((length (join (fam_groups f)) < LNAME)%nat -> fam_name f = join (fam_groups f)) }.

Definition groups_of (t : tables) (n : Z) : list str :=
  match zfind (known t) n with Some f => fam_groups f | None => [] end.

Lemma make_family_spec t old g : tables_ok t ->
  let t' := make_family sign label t old g in
  tables_ok t' /\ current t' = current t + sign /\
  groups_of t' (current t') = groups_of t old ++ [g] /\
  (exists f, zfind (known t') (current t') = Some f) /\
  (forall n f, zfind (known t) n = Some f -> zfind (known t') n = Some f) /\
  (forall n, n <> current t' -> zfind (known t') n = zfind (known t) n).
Proof.
  intros [W C N]. cbn zeta. unfold make_family.
  set (c := current t + sign). set (f := match zfind (known t) old with Some _ => _ | None => _ end).
  cbn [current known].
  assert (Hc : zfind (known t) c = None).
  { destruct (zfind (known t) c) eqn:E; [|reflexivity]. apply N in E. unfold c in E.
    destruct E as [E _]. exfalso. destruct Hsign as [H|H]; rewrite H in *; lia. }
  assert (Hf : fam_num f = c /\ fam_groups f = groups_of t old ++ [g] /\
    ((length (join (fam_groups f)) < LNAME)%nat -> fam_name f = join (fam_groups f))).
  { unfold f, groups_of. destruct (zfind (known t) old) as [o|] eqn:E; cbn [fam_num fam_groups fam_name]; [|auto].
    split; [reflexivity|]. split; [reflexivity|].
    destruct (N _ _ E) as (_ & _ & Ne & Nm). rewrite join_snoc by exact Ne. intros L.
    assert (L2 : (length (join (fam_groups o)) < LNAME)%nat) by (rewrite app_length in L; lia).
    rewrite (Nm L2). destruct (Nat.leb_spec LNAME (length (join (fam_groups o) ++ txt "_" ++ g))) as [X|X]; [lia|reflexivity]. }
  destruct Hf as (F1 & F2 & F3).
  split; [constructor; cbn [current known]|].
  - now apply zinsert_wf.
  - unfold c. destruct Hsign as [H|H]; rewrite H in *; lia.
  - intros n f0. rewrite zfind_insert by exact W. destruct (Z.eqb_spec c n) as [<-|Hn].
    + intros [= <-]. split; [unfold c; destruct Hsign as [H|H]; rewrite H in *; lia|].
      split; [exact F1|]. split; [rewrite F2; now destruct (groups_of t old)|exact F3].
    + intros E. destruct (N _ _ E) as (B & R). split; [|exact R].
      unfold c. destruct Hsign as [H|H]; rewrite H in *; lia.
  - split; [reflexivity|]. split; [|split; [|split]].
    + unfold groups_of at 1. cbn [known]. rewrite zfind_insert, Z.eqb_refl by exact W. exact F2.
    + exists f. rewrite zfind_insert, Z.eqb_refl by exact W. reflexivity.
    + intros n f0 E. rewrite zfind_insert by exact W. destruct (Z.eqb_spec c n) as [<-|Hn]; [congruence|exact E].
    + intros n Hn. rewrite zfind_insert by exact W. destruct (Z.eqb_spec c n); [congruence|reflexivity].
Qed.

Lemma tables_ok_bound t n : tables_ok t -> sign * current t < sign * n -> zfind (known t) n = None.
Proof. intros [W C N] H. destruct (zfind (known t) n) eqn:E; [|reflexivity]. apply N in E. lia. Qed.

(** The state inside a group: [done] members were visited. *)
Record within (t0 : tables) (s0 : S) (g : str) (done : list nat) (t : tables) (new : zmap Z) (s : S) : Prop := {
  wi_ok : tables_ok t;
  wi_good : good s;
  wi_wf : zmap_wf new;
  wi_cur : sign * current t0 <= sign * current t;
  wi_ext : forall n f, zfind (known t0) n = Some f -> zfind (known t) n = Some f;
  wi_new : forall o n, zfind new o = Some n ->
    sign * current t0 < sign * n /\ groups_of t n = groups_of t0 o ++ [g] /\ exists f, zfind (known t) n = Some f;
  wi_inj : forall o o' n, zfind new o = Some n -> zfind new o' = Some n -> o = o';
  wi_done : forall p, dom p -> In p done -> zfind new (view s0 p) = Some (view s p);
  wi_rest : forall p, dom p -> ~ In p done -> view s p = view s0 p }.

Lemma visit_spec t0 s0 g done t new s p : tables_ok t0 -> within t0 s0 g done t new s ->
  dom p -> ~ In p done -> (forall q, dom q -> view s0 q = 0 \/ exists f, zfind (known t0) (view s0 q) = Some f) ->
  exists t' new' s', visit get put sign label g (t, new, s) p = Ok (t', new', s') /\
    within t0 s0 g (p :: done) t' new' s'.
Proof.
  intros T0 [K G W C X N J Dn R] Hp Hn Hv.
  unfold visit. rewrite (Hget _ _ G Hp). cbn [bind]. rewrite (R _ Hp Hn).
  destruct (zfind new (view s0 p)) as [n|] eqn:E.
  - destruct (Hput s p n G Hp) as (s' & Es & Gs & Vs). rewrite Es. cbn [bind].
    exists t, new, s'. split; [reflexivity|]. constructor; auto.
    + intros q Hq [<-|Hi]; rewrite (Vs _ Hq).
      * rewrite Nat.eqb_refl. exact E.
      * destruct (Nat.eqb_spec p q) as [<-|]; [contradiction|]. auto.
    + intros q Hq Hi. rewrite (Vs _ Hq). cbn in Hi.
      destruct (Nat.eqb_spec p q) as [<-|]; [tauto|]. apply R; tauto.
  - destruct (make_family_spec t (view s0 p) g K) as (K' & C' & Gn & Ex & Mo & Sm).
    set (t' := make_family sign label t (view s0 p) g) in *.
    destruct (Hput s p (current t') G Hp) as (s' & Es & Gs & Vs). rewrite Es. cbn [bind].
    exists t', (zinsert new (view s0 p) (current t')), s'. split; [reflexivity|]. clearbody t'.
    assert (Cl : sign * current t < sign * current t').
    { rewrite C'. destruct Hsign as [H|H]; rewrite H; lia. }
    assert (Old : groups_of t (view s0 p) = groups_of t0 (view s0 p)).
    { unfold groups_of. destruct (Hv p Hp) as [Z0|(f & Ef)].
      - rewrite Z0. destruct (zfind (known t) 0) as [f|] eqn:Ez.
        { apply (to_num _ K) in Ez. lia. }
        destruct (zfind (known t0) 0) as [f|] eqn:Ez0; [|reflexivity].
        apply (to_num _ T0) in Ez0. lia.
      - now rewrite Ef, (X _ _ Ef). }
    constructor; auto.
    + now apply zinsert_wf.
    + lia.
    + intros o n. rewrite zfind_insert by exact W. destruct (Z.eqb_spec (view s0 p) o) as [<-|Ho].
      * intros [= <-]. split; [lia|]. split; [|exact Ex]. rewrite Gn, Old. reflexivity.
      * intros En. destruct (N _ _ En) as (N1 & N2 & f & N3). split; [exact N1|].
        split; [|exists f; now apply Mo]. rewrite <- N2. unfold groups_of. now rewrite N3, (Mo _ _ N3).
    + assert (Fresh : forall o n, zfind new o = Some n -> n <> current t').
      { intros o n En ->. destruct (N _ _ En) as (_ & _ & f & Ef). apply (to_num _ K) in Ef. lia. }
      intros o o' n. rewrite !zfind_insert by exact W.
      destruct (Z.eqb_spec (view s0 p) o) as [<-|Ho], (Z.eqb_spec (view s0 p) o') as [<-|Ho']; auto.
      * intros [= <-] E2. now apply Fresh in E2.
      * intros E2 [= <-]. now apply Fresh in E2.
      * apply J.
    + intros q Hq Hi. rewrite zfind_insert, (Vs _ Hq) by exact W. destruct Hi as [<-|Hi].
      * now rewrite Z.eqb_refl, Nat.eqb_refl.
      * destruct (Nat.eqb_spec p q) as [<-|]; [contradiction|].
        destruct (Z.eqb_spec (view s0 p) (view s0 q)) as [Eq|]; [|auto].
        rewrite Eq, (Dn _ Hq Hi) in E. discriminate.
    + intros q Hq Hi. rewrite (Vs _ Hq). cbn in Hi.
      destruct (Nat.eqb_spec p q) as [<-|]; [tauto|]. apply R; tauto.
Qed.

Lemma visits_spec t0 s0 g : tables_ok t0 ->
  (forall q, dom q -> view s0 q = 0 \/ exists f, zfind (known t0) (view s0 q) = Some f) ->
  forall ps done t new s, within t0 s0 g done t new s -> (forall p, In p ps -> dom p /\ ~ In p done) -> NoDup ps ->
  exists t' new' s', foldM (visit get put sign label g) ps (t, new, s) = Ok (t', new', s') /\
    exists done', (forall p, In p done' <-> In p done \/ In p ps) /\ within t0 s0 g done' t' new' s'.
Proof.
  intros T0 Hv. induction ps as [|p ps IH]; intros done t new s Wi Hd Nd.
  - exists t, new, s. split; [reflexivity|]. exists done. split; [cbn; tauto|exact Wi].
  - inversion Nd as [|? ? Nd1 Nd2]; subst. destruct (Hd p (or_introl eq_refl)) as [Dp Np].
    destruct (visit_spec t0 s0 g done t new s p T0 Wi Dp Np Hv) as (t1 & n1 & s1 & E1 & W1).
    destruct (IH (p :: done) t1 n1 s1 W1) as (t' & n' & s' & E' & done' & D' & W'); [|exact Nd2|].
    { intros q Hq. split; [apply Hd; now right|]. intros [<-|Hi]; [contradiction|].
      destruct (Hd q (or_intror Hq)). contradiction. }
    exists t', n', s'. cbn [foldM]. rewrite E1. cbn [bind]. split; [exact E'|].
    exists done'. split; [|exact W']. intros q. rewrite D'. cbn. tauto.
Qed.

(** The state between groups: [gs] were visited. *)
Record between (gs : list (str * list nat)) (t : tables) (s : S) : Prop := {
  be_ok : tables_ok t;
  be_good : good s;
  be_zero : forall p, dom p -> view s p = 0 <-> groups_with gs p = [];
  be_known : forall p, dom p -> view s p <> 0 -> exists f, zfind (known t) (view s p) = Some f;
  be_groups : forall p, dom p -> groups_of t (view s p) = groups_with gs p;
  be_same : forall p q, dom p -> dom q ->
    (view s p = view s q <-> forall g, In g gs -> In p (snd g) <-> In q (snd g)) }.

Lemma visit_group_spec gs g t s : between gs t s -> NoDup (snd g) -> (forall p, In p (snd g) -> dom p) ->
  exists t' s', visit_group get put sign label (t, s) g = Ok (t', s') /\ between (gs ++ [g]) t' s'.
Proof.
  intros [K G Z0 Kn Gr Sa] Nd Hd.
  assert (Hv : forall q, dom q -> view s q = 0 \/ exists f, zfind (known t) (view s q) = Some f).
  { intros q Hq. destruct (Z.eq_dec (view s q) 0); auto. }
  destruct (visits_spec t s (fst g) K Hv (snd g) [] t [] s) as (t' & n' & s' & E & done & Hdone & Wi).
  { constructor; cbn; auto; try discriminate; try contradiction; [constructor|lia]. }
  { intros p Hp. split; [now apply Hd|cbn; tauto]. }
  { exact Nd. }
  exists t', s'. unfold visit_group. cbn [fst snd].
  split; [unfold zmap in *; rewrite E; reflexivity|].
  destruct Wi as [K' G' W' C' X' N' J' Dn' R'].
  assert (Hin : forall p, In p done <-> In p (snd g)) by (intros p; rewrite Hdone; cbn; tauto).
  assert (Hnew : forall p, dom p -> In p (snd g) -> zfind n' (view s p) = Some (view s' p))
    by (intros p Hp Hi; apply Dn'; [exact Hp|now apply Hin]).
  assert (Hold : forall p, dom p -> ~ In p (snd g) -> view s' p = view s p)
    by (intros p Hp Hi; apply R'; [exact Hp|now rewrite Hin]).
  assert (Cur := to_cur _ K).
  assert (Hle : forall p, dom p -> sign * view s p <= sign * current t).
  { intros p Hp. destruct (Hv p Hp) as [->|(f & Ef)]; [lia|]. apply (to_num _ K) in Ef. lia. }
  constructor; auto.
  - intros p Hp. rewrite groups_with_snoc. destruct (existsb (Nat.eqb p) (snd g)) eqn:Ei.
    + apply existsb_in in Ei. destruct (N' _ _ (Hnew p Hp Ei)) as (B & _).
      split; [intros H0; rewrite H0 in B; lia|]. intros H0. now destruct (groups_with gs p).
    + apply existsb_notin in Ei. rewrite (Hold p Hp Ei), app_nil_r. auto.
  - intros p Hp Hz. destruct (in_dec Nat.eq_dec p (snd g)) as [Hi|Hi].
    + destruct (N' _ _ (Hnew p Hp Hi)) as (_ & _ & Ex). exact Ex.
    + rewrite (Hold p Hp Hi) in Hz |- *. destruct (Kn p Hp Hz) as (f & Ef). exists f. auto.
  - intros p Hp. rewrite groups_with_snoc. destruct (existsb (Nat.eqb p) (snd g)) eqn:Ei.
    + apply existsb_in in Ei. destruct (N' _ _ (Hnew p Hp Ei)) as (_ & B & _). rewrite B, (Gr p Hp). reflexivity.
    + apply existsb_notin in Ei. rewrite (Hold p Hp Ei), app_nil_r, <- (Gr p Hp).
      unfold groups_of. destruct (Hv p Hp) as [Hz|(f & Ef)]; [|now rewrite Ef, (X' _ _ Ef)].
      rewrite Hz. destruct (zfind (known t') 0) eqn:Ez; [apply (to_num _ K') in Ez; lia|].
      destruct (zfind (known t) 0) eqn:Ez0; [apply (to_num _ K) in Ez0; lia|reflexivity].
  - intros p q Hp Hq.
    assert (Iff : (forall g0, In g0 (gs ++ [g]) -> In p (snd g0) <-> In q (snd g0)) <->
      (view s p = view s q /\ (In p (snd g) <-> In q (snd g)))).
    { rewrite (Sa p q Hp Hq). split.
      - intros H. split; [intros g0 H0; apply H, in_or_app; auto|apply H, in_or_app; cbn; auto].
      - intros [H1 H2] g0 H0. apply in_app_or in H0. destruct H0 as [H0|[<-|[]]]; auto. }
    rewrite Iff. clear Iff.
    destruct (in_dec Nat.eq_dec p (snd g)) as [Ip|Ip], (in_dec Nat.eq_dec q (snd g)) as [Iq|Iq].
    + pose proof (Hnew p Hp Ip) as Np. pose proof (Hnew q Hq Iq) as Nq. split.
      * intros Eq. rewrite Eq in Np. split; [exact (J' _ _ _ Np Nq)|tauto].
      * intros [Eq _]. rewrite Eq, Nq in Np. congruence.
    + split; [|tauto]. intros Eq. exfalso. destruct (N' _ _ (Hnew p Hp Ip)) as (B & _).
      rewrite Eq, (Hold q Hq Iq) in B. pose proof (Hle q Hq). lia.
    + split; [|tauto]. intros Eq. exfalso. destruct (N' _ _ (Hnew q Hq Iq)) as (B & _).
      rewrite <- Eq, (Hold p Hp Ip) in B. pose proof (Hle p Hp). lia.
    + rewrite (Hold p Hp Ip), (Hold q Hq Iq). tauto.
Qed.

Lemma visit_groups_spec gs s : good s -> (forall p, dom p -> view s p = 0) ->
  (forall g, In g gs -> NoDup (snd g) /\ forall p, In p (snd g) -> dom p) ->
  exists t s', visit_groups get put sign label gs s = Ok (t, s') /\ between gs t s'.
Proof.
  intros G Hz Hg. unfold visit_groups.
  assert (B0 : between [] (mkT 0 []) s).
  { constructor; cbn.
    - constructor; cbn; [constructor|lia|discriminate].
    - exact G.
    - intros p Hp. rewrite (Hz p Hp). now split.
    - intros p Hp H. now rewrite (Hz p Hp) in H.
    - reflexivity.
    - intros p q Hp Hq. rewrite (Hz p Hp), (Hz q Hq). split; [intros _ g []|reflexivity]. }
  assert (Gen : forall l done t s, between done t s ->
    (forall g, In g l -> NoDup (snd g) /\ forall p, In p (snd g) -> dom p) ->
    exists t' s', foldM (visit_group get put sign label) l (t, s) = Ok (t', s') /\ between (done ++ l) t' s').
  { clear - Hsign Hget Hput. intros l. induction l as [|g l IH]; intros done t s B Hg.
    - exists t, s. rewrite app_nil_r. split; [reflexivity|exact B].
    - destruct (Hg g (or_introl eq_refl)) as [Nd Hd].
      destruct (visit_group_spec done g t s B Nd Hd) as (t1 & s1 & E1 & B1).
      destruct (IH (done ++ [g]) t1 s1 B1) as (t' & s' & E' & B'); [intros; apply Hg; now right|].
      exists t', s'. cbn [foldM]. rewrite E1. cbn [bind]. split; [exact E'|].
      rewrite <- app_assoc in B'. exact B'. }
  exact (Gen gs [] _ _ B0 Hg).
Qed.
End Loop.

(** The set of the values of a vector, ascending. *)
Lemma slots_set l : zmap_wf (fold_right (fun n s => sinsert s n) [] l) /\
  forall n, In n (map fst (fold_right (fun n s => sinsert s n) [] l)) <-> In n l.
Proof.
  induction l as [|a l [W I]]; cbn [fold_right]; [split; [constructor|cbn; tauto]|].
  split; [now apply zinsert_wf|]. intros n.
  assert (E : forall (m : zset) k, zmap_wf m -> In k (map fst m) <-> zfind m k = Some tt).
  { intros m k Wm. rewrite in_map_iff. split.
    - intros ((k' & []) & <- & Hi). now apply in_zfind.
    - intros H. exists (k, tt). split; [reflexivity|now apply zfind_in]. }
  unfold sinsert. rewrite E by now apply zinsert_wf.
  rewrite zfind_insert by exact W. cbn [In]. rewrite <- I, E by exact W.
  destruct (Z.eqb_spec a n); [subst; tauto|]. tauto.
Qed.

Lemma wf_sorted {A} (m : zmap A) : zmap_wf m -> StronglySorted Z.lt (map fst m).
Proof.
  induction 1 as [|x m H IH F]; cbn; constructor; [exact IH|].
  rewrite Forall_map. exact F.
Qed.

Lemma sorted_filter (f : Z -> bool) l : StronglySorted Z.lt l -> StronglySorted Z.lt (filter f l).
Proof.
  induction 1 as [|x m H IH F]; cbn; [constructor|]. destruct (f x); [|exact IH].
  constructor; [exact IH|]. rewrite Forall_forall in *. intros y Hy. apply F. now apply filter_In in Hy.
Qed.

(** The families in use: one for each number met, in order. *)
Lemma in_use_spec t slots : (forall n, In n slots -> n <> 0 -> exists f, zfind (known t) n = Some f /\ fam_num f = n) ->
  StronglySorted Z.lt (map fam_num (in_use t slots)) /\
  forall f, In f (in_use t slots) <-> fam_num f <> 0 /\ In (fam_num f) slots /\ zfind (known t) (fam_num f) = Some f.
Proof.
  intros H. unfold in_use. destruct (slots_set slots) as [W I].
  set (keys := map fst (fold_right (fun n s => sinsert s n) [] slots)) in *.
  set (look := fun n => match zfind (known t) n with Some f => f | None => blank_family end).
  assert (E : map fam_num (map look (filter (fun n => negb (n =? 0)) keys)) = filter (fun n => negb (n =? 0)) keys).
  { rewrite map_map. etransitivity; [|apply map_id]. apply map_ext_in. intros n Hn. apply filter_In in Hn.
    destruct Hn as [Hn Hz]. apply I in Hn. destruct (H n Hn) as (f & Ef & En).
    { intros ->. discriminate. } unfold look. now rewrite Ef. }
  split.
  - rewrite E. apply sorted_filter, wf_sorted, W.
  - intros f. rewrite in_map_iff. split.
    + intros (n & <- & Hn). apply filter_In in Hn. destruct Hn as [Hn Hz]. apply I in Hn.
      assert (Nz : n <> 0) by (intros ->; discriminate).
      destruct (H n Hn Nz) as (f & Ef & En). unfold look. rewrite Ef, En. auto.
    + intros (Nz & Hs & Ef). exists (fam_num f). unfold look. rewrite Ef. split; [reflexivity|].
      apply filter_In. split; [now apply I|]. destruct (Z.eqb_spec (fam_num f) 0); [contradiction|reflexivity].
Qed.

(** Nodes. *)
Lemma node_slots_get (n : nat) s p : length s = n -> (p < n)%nat -> get_slot s p = Ok (nth p s 0).
Proof.
  intros L H. unfold get_slot. rewrite (nth_error_nth' s 0) by lia. reflexivity.
Qed.

Lemma node_slots_put (n : nat) s p v : length s = n -> (p < n)%nat -> exists s', put_slot s p v = Ok s' /\
  length s' = n /\ forall q, (q < n)%nat -> nth q s' 0 = if Nat.eqb p q then v else nth q s 0.
Proof.
  intros L H. unfold put_slot. destruct (Nat.ltb_spec p (length s)) as [X|X]; [|lia].
  eexists. split; [reflexivity|]. rewrite set_nth_length. split; [exact L|]. intros q Hq.
  pose proof (nth_error_set_nth s p v q) as E.
  assert (Hs : nth_error (set_nth s p v) q = Some (nth q (set_nth s p v) 0))
    by (apply nth_error_nth'; rewrite set_nth_length; lia).
  rewrite Hs in E. destruct (Nat.eqb_spec p q) as [->|].
  - rewrite (nth_error_nth' s 0) in E by lia. congruence.
  - rewrite (nth_error_nth' s 0) in E by lia. congruence.
Qed.

(** Cells. *)
Section Cells.
Context {D : Type} (m : mesh D) (I : cinv m).

Definition a_cell (p : nat) : Prop := exists d, nth_error (cdatas m) p = Some d.
Definition cell_view (s : tmap Z) (p : nat) : Z :=
  match nth_error (cdatas m) p with Some d => nth (cd_tpos d) (s (cd_type d)) 0 | None => 0 end.
Definition sized (s : tmap Z) : Prop := forall t, length (s t) = countCellsOf m t.

Lemma findCell_tpos p d : nth_error (cdatas m) p = Some d ->
  exists c, findCell m p = Ok c /\ c_type c = cd_type d /\ c_tpos c = cd_tpos d /\ c_pos c = p.
Proof.
  intros Hd. destruct (findCell_ok m p d I Hd) as (c & ps & E & A1 & A2 & A3 & _). exists c.
  split; [exact E|]. split; [exact A2|]. split; [|exact A3].
  unfold findCell in E. rewrite Hd in E. destruct (slice _ _ _); [|discriminate].
  destruct (mapM _ _); cbn [bind] in E; try discriminate.
  match type of E with bind ?x _ = _ => destruct x; cbn in E; try discriminate end.
  injection E as <-. reflexivity.
Qed.

Lemma cell_rank p d : nth_error (cdatas m) p = Some d -> (cd_tpos d < countCellsOf m (cd_type d))%nat.
Proof. intros H. apply (ci_data _ I) in H. apply nth_error_Some. congruence. Qed.

Lemma cell_slots_get s p : sized s -> a_cell p -> get_cell m s p = Ok (cell_view s p).
Proof.
  intros G (d & Hd). unfold get_cell, cell_view. rewrite Hd.
  destruct (findCell_tpos p d Hd) as (c & -> & Ht & Hp & _). cbn [bind]. rewrite Ht, Hp.
  pose proof (cell_rank p d Hd) as L. rewrite <- G in L.
  destruct (s (cd_type d)) as [|v l] eqn:E; [cbn in L; lia|].
  rewrite (nth_error_nth' _ 0) by exact L. reflexivity.
Qed.

Lemma cell_slots_put s p v : sized s -> a_cell p -> exists s', put_cell m s p v = Ok s' /\ sized s' /\
  forall q, a_cell q -> cell_view s' q = if Nat.eqb p q then v else cell_view s q.
Proof.
  intros G (d & Hd). unfold put_cell.
  destruct (findCell_tpos p d Hd) as (c & -> & Ht & Hp & _). cbn [bind]. eexists. split; [reflexivity|]. rewrite Ht, Hp.
  split.
  - intros t. destruct (ctype_eq_dec (cd_type d) t); [rewrite set_nth_length|]; apply G.
  - intros q (e & He). unfold cell_view. rewrite He.
    pose proof (cell_rank p d Hd) as L. pose proof (cell_rank q e He) as L'.
    destruct (Nat.eqb_spec p q) as [<-|Hpq].
    + assert (e = d) by congruence. subst e. destruct (ctype_eq_dec (cd_type d) (cd_type d)); [|congruence].
      pose proof (nth_error_set_nth (s (cd_type d)) (cd_tpos d) v (cd_tpos d)) as E.
      rewrite Nat.eqb_refl, (nth_error_nth' (s (cd_type d)) 0) in E by (rewrite G; exact L).
      apply nth_error_nth with (d := 0) in E. exact E.
    + destruct (ctype_eq_dec (cd_type d) (cd_type e)) as [Et|Et]; [|reflexivity].
      assert (Hr : cd_tpos d <> cd_tpos e).
      { intros Er. apply Hpq. pose proof (ci_data _ I _ _ Hd) as X. pose proof (ci_data _ I _ _ He) as Y.
        rewrite <- Et, <- Er in Y. congruence. }
      pose proof (nth_error_set_nth (s (cd_type e)) (cd_tpos d) v (cd_tpos e)) as E.
      destruct (Nat.eqb_spec (cd_tpos d) (cd_tpos e)); [contradiction|].
      rewrite (nth_error_nth' (s (cd_type e)) 0) in E by (rewrite G; exact L').
      apply nth_error_nth with (d := 0) in E. exact E.
Qed.
End Cells.
