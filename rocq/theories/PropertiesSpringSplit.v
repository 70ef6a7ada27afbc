(** C108: springs split by their degrees of freedom. *)
From Coq Require Import Ascii String ZArith List Bool Arith Lia.
From Verif Require Import Base ZMap TextModel DofModel MeshGroupModel MeshGroupProofs AsterScriptNames SpringSplitModel.
Import ListNotations.
Open Scope Z_scope.

(** The specification: one set stands for one pair of another. *)
Definition stands_for {V} (gs : groups) (s : springs V) (k : dof * dof) (cells : list nat) (p : springs V) : Prop :=
  q_stiffness p = q_stiffness s /\ q_damping p = q_damping s /\ q_cells p = [(k, cells)] /\
  exists h g, q_group p = Some h /\ nth_error (heap gs) h = Some g /\ findGroup gs (g_name g) = Some h /\
    g_kind g = CellG /\ forall c, In c (g_pos g) <-> In c cells.

Lemma name_inj i j : 0 <= i -> 0 <= j -> piece_name i = piece_name j -> i = j.
Proof.
  intros Hi Hj E. unfold piece_name in E. cbn [append] in E. injection E as E.
  apply (f_equal list_ascii_of_string) in E. rewrite !list_ascii_of_string_of_list_ascii in E.
  rewrite <- (proj2 (int_digits i Hi)), <- (proj2 (int_digits j Hj)). now rewrite E.
Qed.
Lemma name_not_empty i : piece_name i <> ""%string.
Proof. discriminate. Qed.

Lemma add_all_springs k cells : cells <> [] -> fold_left (add_spring k) cells [] = [(k, cells)].
Proof.
  destruct cells as [|c cells]; [congruence|]. intros _. cbn [fold_left add_spring].
  assert (G : forall l a, fold_left (add_spring k) l [(k, a)] = [(k, a ++ l)]).
  { induction l as [|x l IH]; intros a; cbn; [now rewrite app_nil_r|]. rewrite IH, <- app_assoc. reflexivity. }
  apply (G cells [c]).
Qed.

Lemma adds_spec h : forall cells gs, ginv gs ->
  let gs1 := fold_left (fun g c => groupAdd g h c) cells gs in
  ginv gs1 /\ (forall n, findGroup gs1 n = findGroup gs n) /\ length (heap gs1) = length (heap gs) /\
  (forall h' g, nth_error (heap gs) h' = Some g -> exists g', nth_error (heap gs1) h' = Some g' /\
     g_name g' = g_name g /\ g_kind g' = g_kind g /\
     (forall q, In q (g_pos g') <-> In q (g_pos g) \/ h' = h /\ In q cells) /\ (h' <> h -> g' = g)).
Proof.
  induction cells as [|c cells IH]; intros gs I; cbn [fold_left]; cbv zeta.
  - split; [exact I|]. split; [reflexivity|]. split; [reflexivity|]. intros h' g Hg. exists g. repeat split; auto.
    intros [H|[_ []]]; exact H.
  - destruct (groupAdd_spec gs h c I) as [I1 H1]. destruct (IH _ I1) as (I2 & N2 & L2 & H2). split; [exact I2|].
    split; [intros n; rewrite N2; reflexivity|]. split; [rewrite L2; cbn; apply upd_length|].
    intros h' g Hg. destruct (H1 h' g Hg) as (g1 & Hg1 & A1 & A2 & _ & A3).
    destruct (H2 h' g1 Hg1) as (g2 & Hg2 & B1 & B2 & B3 & B4). exists g2. split; [exact Hg2|]. split; [congruence|]. split; [congruence|].
    split.
    + intros q. rewrite B3, A3. cbn. intuition congruence.
    + intros N. rewrite (B4 N). cbn [groupAdd heap] in Hg1. rewrite upd_nth, Hg in Hg1.
      destruct (Nat.eqb_spec h h'); [congruence|]. cbn in Hg1. congruence.
Qed.

Lemma forall2_weaken {A B} (R S : A -> B -> Prop) : (forall a b, R a b -> S a b) ->
  forall l m, Forall2 R l m -> Forall2 S l m.
Proof. intros H l m F. induction F; constructor; auto. Qed.

Section Pieces.
Context {V : Type}.
Variable vzero : V.

Lemma pieces_ok (s : springs V) : forall l i gs, ginv gs -> 0 < i ->
  (forall j, (j < length l)%nat -> findGroup gs (piece_name (i + Z.of_nat j)) = None) ->
  Forall (fun e => snd e <> []) l ->
  exists gs' ps, pieces vzero s i l gs = Ok (gs', ps) /\ ginv gs' /\
    (forall n, (forall j, (j < length l)%nat -> n <> piece_name (i + Z.of_nat j)) -> findGroup gs' n = findGroup gs n) /\
    (forall h g, nth_error (heap gs) h = Some g -> nth_error (heap gs') h = Some g) /\
    Forall2 (fun e p => stands_for gs' s (fst e) (snd e) p /\ q_mass p = vzero /\ q_id p = NO_ORIGINAL /\
               exists h g j, q_group p = Some h /\ nth_error (heap gs') h = Some g /\ g_name g = piece_name (i + Z.of_nat j) /\
                 (j < length l)%nat) l ps.
Proof.
  induction l as [|[k cells] l IH]; intros i gs I Hi F NE; cbn [pieces].
  - exists gs, []. split; [reflexivity|]. split; [exact I|]. split; [auto|]. split; [auto|constructor].
  - inversion NE as [|x y NE1 NE2]; subst. cbn [snd] in NE1.
    destruct (createGroup_spec gs CellG (piece_name i) NO_ORIGINAL I (name_not_empty i)) as (s1 & h & E & I1 & Hh & Hp & N1 & _).
    { specialize (F 0%nat ltac:(cbn; lia)). now rewrite Z.add_0_r in F. }
    { congruence. }
    rewrite E. cbn [bind fst snd].
    destruct (adds_spec h cells s1 I1) as (I2 & N2 & L2 & H2). set (gs1 := fold_left (fun g c => groupAdd g h c) cells s1) in *.
    destruct (IH (i + 1) gs1 I2 ltac:(lia)) as (gs' & ps & E' & I' & N' & H' & F').
    { intros j Hj. rewrite N2, N1. destruct (String.eqb_spec (piece_name i) (piece_name (i + 1 + Z.of_nat j))) as [C|_].
      - apply name_inj in C; lia.
      - specialize (F (S j) ltac:(cbn; lia)). replace (i + Z.of_nat (S j)) with (i + 1 + Z.of_nat j) in F by lia. exact F. }
    { exact NE2. }
    rewrite E'. cbn [bind fst snd].
    assert (Hg : nth_error (heap s1) h = Some (mkG (piece_name i) CellG NO_ORIGINAL (gauto gs + 1) [])).
    { rewrite Hp, Hh, nth_error_app2 by lia. now rewrite Nat.sub_diag. }
    destruct (H2 h _ Hg) as (g & Hg1 & A1 & A2 & A3 & _). cbn [g_name g_kind g_pos] in A1, A2, A3.
    pose proof (H' h g Hg1) as Hg2.
    assert (Fn : findGroup gs' (piece_name i) = Some h).
    { rewrite N'; [rewrite N2, N1; now rewrite String.eqb_refl|]. intros j Hj C. apply name_inj in C; lia. }
    eexists. eexists. split; [reflexivity|]. split; [exact I'|]. split; [|split].
    + intros n Hn. rewrite N'.
      * rewrite N2, N1. destruct (String.eqb_spec (piece_name i) n) as [C|_]; [|reflexivity].
        exfalso. apply (Hn 0%nat ltac:(cbn; lia)). now rewrite Z.add_0_r.
      * intros j Hj C. apply (Hn (S j)); [cbn; lia|]. rewrite C. f_equal. lia.
    + intros h' g' Hg'. apply H'. assert (B : (h' < length (heap gs))%nat) by (apply nth_error_Some; congruence).
      assert (Hs1 : nth_error (heap s1) h' = Some g') by (rewrite Hp, nth_error_app1 by exact B; exact Hg').
      destruct (H2 h' g' Hs1) as (g2 & Hg3 & _ & _ & _ & Q). rewrite Q in Hg3 by lia. exact Hg3.
    + constructor.
      * split; [|split; [reflexivity|split; [reflexivity|]]].
        -- unfold stands_for. cbn [q_stiffness q_damping q_cells q_group fst snd]. split; [reflexivity|]. split; [reflexivity|].
           split; [now apply add_all_springs|]. exists h, g. split; [reflexivity|]. split; [exact Hg2|]. split; [now rewrite A1|]. split; [exact A2|].
           intros c. rewrite A3. cbn. intuition.
        -- exists h, g, 0%nat. split; [reflexivity|]. split; [exact Hg2|]. split; [rewrite A1; f_equal; lia|cbn; lia].
      * eapply forall2_weaken; [|exact F']. cbv beta. intros e p (A & B & C & h1 & g1 & j & D1 & D2 & D3 & D4).
        repeat (split; [assumption|]). exists h1, g1, (S j).
        split; [exact D1|]. split; [exact D2|]. split; [rewrite D3; f_equal; lia|cbn in *; lia].
Qed.

(** What a set to split needs of the registry, whether or not it ends. *)
Lemma pieces_names (s : springs V) : forall l i gs, ginv gs ->
  match pieces vzero s i l gs with
  | Ok r => ginv (fst r) /\
      (forall j, (j < length l)%nat -> findGroup gs (piece_name (i + Z.of_nat j)) = None /\
                 findGroup (fst r) (piece_name (i + Z.of_nat j)) <> None)
  | Throw => True
  | _ => False
  end /\
  forall r, pieces vzero s i l gs = Ok r -> forall n, findGroup gs n <> None -> findGroup (fst r) n <> None.
Proof.
  induction l as [|[k cells] l IH]; intros i gs I; cbn [pieces].
  - split; [split; [exact I|intros j Hj; cbn in Hj; lia]|]. intros r [= <-] n Hn. exact Hn.
  - destruct (createGroup_dec gs CellG (piece_name i) NO_ORIGINAL) as [E|(s1 & h & E)]; rewrite E; cbn [bind fst snd].
    { split; [exact Logic.I|discriminate]. }
    destruct (createGroup_inv gs CellG (piece_name i) NO_ORIGINAL I) as (_ & Fn & _); [eauto|].
    destruct (createGroup_spec gs CellG (piece_name i) NO_ORIGINAL I (name_not_empty i) Fn) as (s1' & h' & E' & I1 & _ & _ & N1 & _); [congruence|].
    rewrite E' in E. injection E as -> ->.
    destruct (adds_spec h cells s1 I1) as (I2 & N2 & _). set (gs1 := fold_left (fun g c => groupAdd g h c) cells s1) in *.
    destruct (IH (i + 1) gs1 I2) as [H1 H2].
    assert (Grow : forall n, findGroup gs n <> None -> findGroup gs1 n <> None).
    { intros n Hn. rewrite N2, N1. destruct (String.eqb (piece_name i) n); [discriminate|exact Hn]. }
    destruct (pieces vzero s (i + 1) l gs1) as [r| | |] eqn:Er; cbn [bind fst snd]; try contradiction.
    + split.
      * split; [apply H1|]. intros [|j] Hj.
        -- rewrite Z.add_0_r. split; [exact Fn|]. apply (H2 r eq_refl). rewrite N2, N1, String.eqb_refl. discriminate.
        -- destruct H1 as [_ H1]. destruct (H1 j ltac:(cbn in Hj; lia)) as [A B].
           replace (i + Z.of_nat (S j)) with (i + 1 + Z.of_nat j) by lia. split; [|exact B].
           rewrite N2, N1 in A. destruct (String.eqb _ _); [discriminate|exact A].
      * intros r0 [= <-] n Hn. cbn [fst]. apply (H2 r eq_refl). auto.
    + split; [exact Logic.I|discriminate].
Qed.

Definition several (s : springs V) : Prop := (2 <= length (q_cells s))%nat.
Lemma to_split_spec s : to_split s = true <-> several s.
Proof. unfold to_split, several. rewrite Nat.ltb_lt. lia. Qed.

Lemma loop_names name : forall (l : list (springs V)) gs, ginv gs ->
  (split_loop vzero name l gs = Throw \/ exists r, split_loop vzero name l gs = Ok r) /\
  ((exists s, In s l /\ several s) -> findGroup gs (piece_name 1) <> None \/ findGroup gs (piece_name 2) <> None ->
   split_loop vzero name l gs = Throw).
Proof.
  induction l as [|s l IH]; intros gs I; cbn [split_loop].
  - split; [right; eauto|]. intros (s & [] & _).
  - destruct (to_split s) eqn:Et.
    + apply to_split_spec in Et. destruct (pieces_names s (q_cells s) 1 gs I) as [H1 H2].
      destruct (pieces vzero s 1 (q_cells s) gs) as [r| | |]; cbn [bind]; try contradiction; [|split; [now left|reflexivity]].
      destruct H1 as [I1 H1]. destruct (removeGroup_spec (fst r) name I1) as (g1 & Eg & Ig & _). rewrite Eg. cbn [bind].
      destruct (IH g1 Ig) as [[E|[q E]] _]; rewrite E; cbn [bind]; (split; [solve [auto | right; eauto]|]); [reflexivity|].
      intros _ [C|C]; exfalso; unfold several in Et.
      * destruct (H1 0%nat ltac:(lia)) as [A _]. now apply C.
      * destruct (H1 1%nat ltac:(lia)) as [A _]. now apply C.
    + destruct (IH gs I) as [[E|[q E]] K]; rewrite E in *; cbn [bind]; (split; [solve [auto | right; eauto]|]); [reflexivity|].
      intros (s0 & [->|Hs] & Ss) C; [apply to_split_spec in Ss; congruence|].
      assert (X : Ok q = Throw) by (apply K; eauto). discriminate.
Qed.

Lemma loop_two name : forall (l : list (springs V)) gs, ginv gs ->
  (2 <= length (filter to_split l))%nat -> split_loop vzero name l gs = Throw.
Proof.
  induction l as [|s l IH]; intros gs I H; [cbn in H; lia|]. cbn [split_loop filter] in *. destruct (to_split s) eqn:Et.
  - apply to_split_spec in Et. unfold several in Et. destruct (pieces_names s (q_cells s) 1 gs I) as [H1 H2].
    destruct (pieces vzero s 1 (q_cells s) gs) as [r| | |]; cbn [bind]; try contradiction; [|reflexivity].
    destruct H1 as [I1 H1]. destruct (removeGroup_spec (fst r) name I1) as (g1 & Eg & Ig & _ & Ng & _). rewrite Eg. cbn [bind].
    destruct (loop_names name l g1 Ig) as [_ K]. rewrite K; [reflexivity| |].
    + cbn [length] in H. destruct (filter to_split l) as [|s' r'] eqn:Ef; [cbn in H; lia|]. exists s'.
      assert (Hs : In s' (filter to_split l)) by (rewrite Ef; now left). apply filter_In in Hs. split; [apply Hs|now apply to_split_spec].
    + destruct (H1 0%nat ltac:(lia)) as [_ A]. destruct (H1 1%nat ltac:(lia)) as [_ B]. rewrite !Ng.
      change (1 + Z.of_nat 0) with 1 in A. change (1 + Z.of_nat 1) with 2 in B.
      destruct (String.eqb_spec name (piece_name 1)) as [->|_]; [|left; exact A]. right.
      destruct (String.eqb_spec (piece_name 1) (piece_name 2)) as [C|_]; [|exact B]. apply name_inj in C; lia.
  - rewrite (IH gs I H). reflexivity.
Qed.

Lemma loop_none name : forall (l : list (springs V)) gs, filter to_split l = [] -> split_loop vzero name l gs = Ok (gs, l, []).
Proof.
  induction l as [|s l IH]; intros gs H; cbn [split_loop filter] in *; [reflexivity|].
  destruct (to_split s); [discriminate|]. rewrite IH by exact H. reflexivity.
Qed.
End Pieces.

(** Sets with one pair at most are all kept. *)
Theorem C108_kept : forall V (vzero : V) name l gs,
  (forall s, In s l -> (length (q_cells s) <= 1)%nat) -> split_springs vzero name l gs = Ok (gs, l).
Proof.
  intros V vzero name l gs H. unfold split_springs. rewrite loop_none.
  - cbn. now rewrite app_nil_r.
  - induction l as [|s l IH]; [reflexivity|]. cbn [filter]. unfold to_split at 1. destruct (Nat.ltb_spec 1 (length (q_cells s))) as [C|_].
    + specialize (H s (or_introl eq_refl)). lia.
    + apply IH. intros s' Hs. apply H. now right.
Qed.

(** One set with several pairs: one set for each pair, with its cells, stiffness and
    damping.  Missing: several such sets, for which the pass throws
    (C108_two_stops), and the mass, which is lost. *)
Theorem C108_one_partial : forall V (vzero : V) name h a gs l1 s l2,
  grun (empty_groups a) h = Ok gs ->
  (forall s', In s' (l1 ++ l2) -> (length (q_cells s') <= 1)%nat) -> (2 <= length (q_cells s))%nat ->
  Forall (fun e => snd e <> []) (q_cells s) ->
  (forall j, 1 <= j <= Z.of_nat (length (q_cells s)) -> findGroup gs (piece_name j) = None /\ name <> piece_name j) ->
  exists gs' ps, split_springs vzero name (l1 ++ s :: l2) gs = Ok (gs', l1 ++ l2 ++ ps) /\
    Forall2 (fun e p => stands_for gs' s (fst e) (snd e) p) (q_cells s) ps /\
    (forall n, n <> name -> findGroup gs n <> None -> findGroup gs' n = findGroup gs n) /\
    (forall k g, nth_error (heap gs) k = Some g -> nth_error (heap gs') k = Some g).
Proof.
  intros V vzero name h a gs l1 s l2 G H1 H2 NE F.
  assert (I : ginv gs) by (eapply grun_inv; [apply ginv_empty|exact G]).
  destruct (pieces_ok vzero s (q_cells s) 1 gs I ltac:(lia)) as (g1 & ps & E & I1 & N1 & P1 & F1).
  { intros j Hj. apply F. lia. }
  { exact NE. }
  destruct (removeGroup_spec g1 name I1) as (g2 & E2 & I2 & Hp & N2 & _).
  assert (Small : forall l, (forall s', In s' l -> (length (q_cells s') <= 1)%nat) -> filter (@to_split V) l = []).
  { clear. induction l as [|s l IH]; intros H; [reflexivity|]. cbn [filter]. unfold to_split at 1.
    destruct (Nat.ltb_spec 1 (length (q_cells s))) as [C|_]; [specialize (H s (or_introl eq_refl)); lia|].
    apply IH. intros s' Hs. apply H. now right. }
  assert (L : forall l, (forall s', In s' (l ++ l2) -> (length (q_cells s') <= 1)%nat) ->
              split_loop vzero name (l ++ s :: l2) gs = Ok (g2, l ++ l2, ps)).
  { induction l as [|s1 l IH]; intros H; cbn [app split_loop].
    - destruct (to_split s) eqn:Et; [|unfold to_split in Et; apply Nat.ltb_ge in Et; lia].
      rewrite E. cbn [bind fst snd]. rewrite E2. cbn [bind]. rewrite loop_none by (apply Small; exact H).
      cbn [bind fst snd app]. now rewrite app_nil_r.
    - destruct (to_split s1) eqn:Et.
      + unfold to_split in Et. apply Nat.ltb_lt in Et. specialize (H s1 (or_introl eq_refl)). lia.
      + rewrite IH; [reflexivity|]. intros s' Hs. apply H. now right. }
  exists g2, ps. split; [|split; [|split]].
  - unfold split_springs. rewrite L by exact H1. cbn [bind fst snd]. now rewrite <- app_assoc.
  - assert (Name : forall j, (j < length (q_cells s))%nat -> name <> piece_name (1 + Z.of_nat j)) by (intros j Hj; apply F; lia).
    clear - F1 N2 Hp Name. revert F1 Name. generalize (length (q_cells s)) as n. intros n F1 Name.
    induction F1 as [|e p l ps (A & _ & _ & k & g & j & D1 & D2 & D3 & D4) F1 IHF]; constructor; [|exact IHF].
    destruct A as (A1 & A2 & A3 & k' & g' & B1 & B2 & B3 & B4 & B5). split; [exact A1|]. split; [exact A2|]. split; [exact A3|].
    exists k', g'. split; [exact B1|]. split; [now rewrite Hp|]. split; [|split; assumption].
    rewrite N2. assert (k' = k) by congruence. subst k'. assert (g' = g) by congruence. subst g'.
    destruct (String.eqb_spec name (g_name g)) as [C|_]; [|exact B3]. exfalso. apply (Name j D4). congruence.
  - intros n Nn Fn. rewrite N2. destruct (String.eqb_spec name n) as [C|_]; [congruence|]. apply N1.
    intros j Hj C. apply Fn. rewrite C. apply F. lia.
  - intros k g Hg. rewrite Hp. auto.
Qed.

(** With two sets to split the conversion stops, whatever the groups and the name of the
    model: the pieces of all the sets are given the same names. *)
Theorem C108_two_stops : forall V (vzero : V) name h a gs l1 s1 l2 s2 l3,
  grun (empty_groups a) h = Ok gs ->
  (2 <= length (q_cells s1))%nat -> (2 <= length (q_cells s2))%nat ->
  split_springs vzero name (l1 ++ s1 :: l2 ++ s2 :: l3) gs = Throw.
Proof.
  intros V vzero name h a gs l1 s1 l2 s2 l3 G H1 H2.
  assert (I : ginv gs) by (eapply grun_inv; [apply ginv_empty|exact G]).
  unfold split_springs. rewrite loop_two; [reflexivity|exact I|].
  apply to_split_spec in H1, H2. rewrite !filter_app. cbn [filter]. rewrite H1, filter_app. cbn [filter]. rewrite H2, !app_length. cbn [length].
  rewrite app_length. cbn. lia.
Qed.

(** The pass either ends or throws. *)
Theorem C108_total : forall V (vzero : V) name h a gs l, grun (empty_groups a) h = Ok gs ->
  split_springs vzero name l gs = Throw \/ exists r, split_springs vzero name l gs = Ok r.
Proof.
  intros V vzero name h a gs l G. assert (I : ginv gs) by (eapply grun_inv; [apply ginv_empty|exact G]).
  unfold split_springs. destruct (loop_names vzero name l gs I) as [[E|[r E]] _]; rewrite E; cbn [bind]; [now left|right; eauto].
Qed.

Definition two_ways (i : Z) : springs Z := mkSprings i 100 5 7 [((DX, DX), [0; 2]%nat); ((DY, DY), [1]%nat)] None.
Definition one_way (i : Z) : springs Z := mkSprings i 300 0 0 [((DZ, DZ), [3]%nat)] None.

Example C108_case :
  let gs := empty_groups 0 in
  exists gs' ps, split_springs 0 "plane" [one_way 1; two_ways 2] gs = Ok (gs', one_way 1 :: ps) /\
    map (fun p => (q_stiffness p, q_damping p, q_cells p)) ps =
      [(100, 5, [((DX, DX), [0; 2]%nat)]); (100, 5, [((DY, DY), [1]%nat)])] /\
    map g_name (heap gs') = ["ElementSet_1"; "ElementSet_2"]%string.
Proof. eexists. eexists. split; [vm_compute; reflexivity|]. split; vm_compute; reflexivity. Qed.

(** Two properties used in two directions each cannot be converted. *)
Theorem C108_two_refuted : exists l : list (springs Z),
  length l = 2%nat /\ split_springs 0 "plane" l (empty_groups 0) = Throw.
Proof. exists [two_ways 1; two_ways 2]. split; [reflexivity|]. vm_compute. reflexivity. Qed.

(** The mass is lost. *)
Theorem C108_mass_refuted : exists (s : springs Z) gs' p1 p2,
  q_mass s = 7 /\ split_springs 0 "plane" [s] (empty_groups 0) = Ok (gs', [p1; p2]) /\ q_mass p1 = 0 /\ q_mass p2 = 0.
Proof. exists (two_ways 1). eexists. eexists. eexists. split; [reflexivity|]. split; [vm_compute; reflexivity|]. split; reflexivity. Qed.

(** A group of the user with the name of the model is lost. *)
Theorem C108_model_name_refuted : exists gs gs' r,
  grun (empty_groups 0) [GCreate CellG "plane" 4; GAdd 0 9%nat] = Ok gs /\ findGroup gs "plane" = Some 0%nat /\
  split_springs 0 "plane" [two_ways 1] gs = Ok (gs', r) /\ findGroup gs' "plane" = None.
Proof.
  eexists. eexists. eexists. split; [vm_compute; reflexivity|]. split; [vm_compute; reflexivity|].
  split; [vm_compute; reflexivity|]. vm_compute. reflexivity.
Qed.

Print Assumptions C108_kept.
Print Assumptions C108_one_partial.
Print Assumptions C108_two_stops.
Print Assumptions C108_total.
Print Assumptions C108_case.
Print Assumptions C108_two_refuted.
Print Assumptions C108_mass_refuted.
Print Assumptions C108_model_name_refuted.
