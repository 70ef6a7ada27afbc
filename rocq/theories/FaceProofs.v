(** Lemmas about faces of solid cells. *)
From Coq Require Import ZArith List Bool Arith Lia.
From Verif Require Import Base MeshNodeModel MeshCellModel FaceModel.
Import ListNotations.
Open Scope nat_scope.

(** ** Specification: oriented edges of a face and closed surfaces *)

(** A face is listed corners first, then (6- and 8-node faces) the mid-side node
    of each edge. *)
Definition ncorners {A} (f : list A) : nat := if length f <=? 4 then length f else length f / 2.
Definition rotate {A} (l : list A) : list A := match l with [] => [] | x :: r => r ++ [x] end.
Definition mids {A} (f : list A) : list (option A) :=
  if length f <=? 4 then repeat None (length f) else map Some (skipn (ncorners f) f).
(** Edges (start corner, mid-side node if any, end corner) in the face's sense. *)
Definition edges {A} (f : list A) : list (A * option A * A) :=
  let c := firstn (ncorners f) f in combine (combine c (mids f)) (rotate c).
Definition reversed {A} (e : A * option A * A) : A * option A * A := let '(a, m, b) := e in (b, m, a).

(** Every edge of every face belongs, reversed, to exactly one face, which is
    another one, and to no other face in the same sense. *)
Definition closed {A} (fs : list (list A)) : Prop :=
  forall i f e, nth_error fs i = Some f -> In e (edges f) ->
    (exists j, j <> i /\ forall j' f', nth_error fs j' = Some f' -> (In (reversed e) (edges f') <-> j' = j)) /\
    (forall i' f', nth_error fs i' = Some f' -> In e (edges f') -> i' = i).

(** ** Transport along renumbering *)
Section Map.
Context {A B : Type} (g : A -> B).
Definition emap (e : A * option A * A) : B * option B * B := let '(a, m, b) := e in (g a, option_map g m, g b).

Lemma combine_map {C D E F} (u : C -> E) (v : D -> F) l l' :
  combine (map u l) (map v l') = map (fun p => (u (fst p), v (snd p))) (combine l l').
Proof. revert l'. induction l as [|x l IH]; intros [|y l']; cbn; try reflexivity. now rewrite IH. Qed.

Lemma edges_map f : edges (map g f) = map emap (edges f).
Proof.
  unfold edges, mids, ncorners. rewrite !map_length.
  assert (R : forall l : list A, rotate (map g l) = map g (rotate l)).
  { intros [|x l]; cbn; [reflexivity|]. now rewrite map_app. }
  rewrite firstn_map, R.
  assert (M : (if length f <=? 4 then repeat None (length f) else map Some (skipn (if length f <=? 4 then length f else length f / 2) (map g f)))
      = map (option_map g) (if length f <=? 4 then repeat None (length f) else map Some (skipn (if length f <=? 4 then length f else length f / 2) f))).
  { destruct (length f <=? 4).
    - induction (length f); cbn; congruence.
    - rewrite skipn_map, !map_map. reflexivity. }
  rewrite M, !combine_map. apply map_ext. intros [[a m] b]. reflexivity.
Qed.

Definition inj_on (P : A -> Prop) : Prop := forall x y, P x -> P y -> g x = g y -> x = y.

Lemma edges_in (f : list A) a m b : In (a, m, b) (edges f) -> In a f /\ In b f /\ (forall x, m = Some x -> In x f).
Proof.
  unfold edges. intros H. pose proof (in_combine_l _ _ _ _ H) as H1. pose proof (in_combine_r _ _ _ _ H) as H2.
  pose proof (in_combine_l _ _ _ _ H1) as H3. pose proof (in_combine_r _ _ _ _ H1) as H4.
  assert (Hf : forall x, In x (firstn (ncorners f) f) -> In x f).
  { intros x Hx. rewrite <- (firstn_skipn (ncorners f) f). apply in_or_app. auto. }
  split; [auto|]. split.
  - apply Hf. unfold rotate in H2. destruct (firstn (ncorners f) f); [contradiction|].
    apply in_app_or in H2. destruct H2 as [?|[?|[]]]; [now right|now left].
  - intros x ->. unfold mids in H4. destruct (length f <=? 4).
    + apply repeat_spec in H4. discriminate.
    + apply in_map_iff in H4. destruct H4 as (y & E & Hy). injection E as ->.
      rewrite <- (firstn_skipn (ncorners f) f). apply in_or_app. auto.
Qed.

Lemma emap_inj P : inj_on P -> forall e e',
  (let '(a, m, b) := e in P a /\ P b /\ forall x, m = Some x -> P x) ->
  (let '(a, m, b) := e' in P a /\ P b /\ forall x, m = Some x -> P x) -> emap e = emap e' -> e = e'.
Proof.
  intros I [[a m] b] [[a' m'] b'] (Ha & Hb & Hm) (Ha' & Hb' & Hm') E. cbn in E. injection E as E1 E2 E3.
  apply I in E1; auto. apply I in E3; auto. subst.
  destruct m as [x|], m' as [y|]; cbn in E2; try discriminate; [|reflexivity].
  injection E2 as E2. apply I in E2; auto. now subst.
Qed.

Lemma reversed_emap e : reversed (emap e) = emap (reversed e).
Proof. destruct e as [[a m] b]. reflexivity. Qed.

Lemma closed_map (fs : list (list A)) P : inj_on P -> (forall f x, In f fs -> In x f -> P x) ->
  closed fs -> closed (map (map g) fs).
Proof.
  intros I HP C i f e Hf He. rewrite nth_error_map in Hf.
  destruct (nth_error fs i) as [f0|] eqn:E; [|discriminate]. injection Hf as <-.
  rewrite edges_map in He. apply in_map_iff in He. destruct He as (e0 & <- & He0).
  destruct (C i f0 e0 E He0) as ((j & Hj & Hu) & Hs).
  assert (Pin : forall k f' e', nth_error fs k = Some f' -> In e' (edges f') ->
     let '(a, m, b) := e' in P a /\ P b /\ forall x, m = Some x -> P x).
  { intros k f' [[a m] b] Hk He'. apply nth_error_In in Hk. destruct (edges_in _ _ _ _ He') as (X & Y & Z0). split; [eauto|]. split; eauto. }
  assert (Pr : let '(a, m, b) := reversed e0 in P a /\ P b /\ forall x, m = Some x -> P x).
  { pose proof (Pin i f0 e0 E He0) as X. destruct e0 as [[a m] b]. cbn in *. tauto. }
  split.
  - exists j. split; [exact Hj|]. intros j' f' Hf'. rewrite nth_error_map in Hf'.
    destruct (nth_error fs j') as [f1|] eqn:E1; [|discriminate]. injection Hf' as <-.
    rewrite edges_map, reversed_emap, in_map_iff. rewrite <- (Hu _ _ E1). split.
    + intros (e1 & Ee & He1). apply (emap_inj P I _ _ (Pin _ _ _ E1 He1) Pr) in Ee. now subst.
    + intros H. eauto.
  - intros i' f' Hf' He'. rewrite nth_error_map in Hf'.
    destruct (nth_error fs i') as [f1|] eqn:E1; [|discriminate]. injection Hf' as <-.
    rewrite edges_map, in_map_iff in He'. destruct He' as (e1 & Ee & He1).
    apply (emap_inj P I _ _ (Pin _ _ _ E1 He1) (Pin _ _ _ E He0)) in Ee. subst. exact (Hs _ _ E1 He1).
Qed.
End Map.

(** ** Decision on tables of numbers *)
Definition edge_dec : forall x y : nat * option nat * nat, {x = y} + {x <> y}.
Proof. repeat decide equality. Defined.
Definition has (e : nat * option nat * nat) (f : list nat) : bool := if in_dec edge_dec e (edges f) then true else false.
Definition holders (fs : list (list nat)) (e : nat * option nat * nat) : list nat :=
  filter (fun i => has e (nth i fs [])) (seq 0 (length fs)).
Definition closedb (fs : list (list nat)) : bool :=
  forallb (fun i => forallb (fun e =>
     match holders fs (reversed e) with [j] => negb (j =? i) | _ => false end &&
     match holders fs e with [j] => j =? i | _ => false end) (edges (nth i fs []))) (seq 0 (length fs)).

Lemma holders_in fs e j f : nth_error fs j = Some f -> (In j (holders fs e) <-> In e (edges f)).
Proof.
  intros H. unfold holders. rewrite filter_In, in_seq.
  assert (j < length fs) by (apply nth_error_Some; congruence).
  rewrite (nth_error_nth _ _ [] H). unfold has. destruct (in_dec edge_dec e (edges f)); intuition (try lia; try discriminate).
Qed.

Lemma closedb_closed fs : closedb fs = true -> closed fs.
Proof.
  intros H i f e Hf He. unfold closedb in H. rewrite forallb_forall in H.
  assert (Hi : i < length fs) by (apply nth_error_Some; congruence).
  specialize (H i). rewrite in_seq in H. specialize (H ltac:(lia)). rewrite forallb_forall in H.
  rewrite (nth_error_nth _ _ [] Hf) in H. specialize (H e He). apply andb_true_iff in H. destruct H as [H1 H2].
  split.
  - pose proof (holders_in fs (reversed e)) as Hh. destruct (holders fs (reversed e)) as [|j [|? ?]]; try discriminate.
    exists j. apply negb_true_iff, Nat.eqb_neq in H1. split; [exact H1|].
    intros j' f' Hj. rewrite <- (Hh _ _ Hj). cbn. intuition.
  - pose proof (holders_in fs e) as Hh. destruct (holders fs e) as [|j [|? ?]]; try discriminate.
    apply Nat.eqb_eq in H2. subst. intros i' f' Hj Hin. rewrite <- (Hh _ _ Hj) in Hin. cbn in Hin. intuition.
Qed.

(** ** gather as a map *)
Definition pick (ids : list Z) (k : nat) : Z := nth (k - 1) ids 0%Z.

Definition in_range (n k : nat) : Prop := 1 <= k <= n.

Lemma pick_inj ids : NoDup ids -> inj_on (pick ids) (in_range (length ids)).
Proof.
  intros N x y [Hx Hx'] [Hy Hy'] E. unfold pick in E. apply NoDup_nth in E; [lia|assumption|lia|lia].
Qed.

Lemma gather_map ids l : (forall k, In k l -> in_range (length ids) k) -> gather ids l = Ok (map (pick ids) l).
Proof.
  unfold gather. induction l as [|k l IH]; intros H; cbn; [reflexivity|].
  destruct (H k (or_introl eq_refl)) as [H1 H2].
  rewrite (nth_error_nth' ids 0%Z) by lia. cbn. rewrite IH by (intros; apply H; now right). reflexivity.
Qed.

Lemma faces_map t ids fs : face_table t = Some fs -> (forall f k, In f fs -> In k f -> in_range (length ids) k) ->
  nodeIdsByFaceNum t ids = Ok (map (map (pick ids)) fs).
Proof.
  intros E H. unfold nodeIdsByFaceNum. rewrite E. clear E. induction fs as [|f fs IH]; cbn; [reflexivity|].
  rewrite gather_map by (intros; eapply H; [now left|eauto]). cbn.
  rewrite IH by (intros; eapply H; [right|]; eauto). reflexivity.
Qed.

Definition in_rangeb (n : nat) (fs : list (list nat)) : bool := forallb (forallb (fun k => (1 <=? k) && (k <=? n))) fs.
Lemma in_rangeb_ok n fs : in_rangeb n fs = true -> forall f k, In f fs -> In k f -> in_range n k.
Proof.
  unfold in_rangeb. intros H f k Hf Hk. rewrite forallb_forall in H. specialize (H f Hf). rewrite forallb_forall in H.
  specialize (H k Hk). apply andb_true_iff in H. rewrite !Nat.leb_le in H. exact H.
Qed.
Lemma table_range t fs : face_table t = Some fs -> forall f k, In f fs -> In k f -> in_range (numNodes t) k.
Proof.
  intros E. apply in_rangeb_ok. destruct t; cbn in E; try discriminate; injection E as <-; reflexivity.
Qed.

Lemma NoDup_pick ids l : NoDup ids -> (forall k, In k l -> in_range (length ids) k) -> NoDup l -> NoDup (map (pick ids) l).
Proof.
  intros N H Hl. induction Hl as [|k l Hk Hl IH]; cbn; constructor.
  - intros Hin. apply in_map_iff in Hin. destruct Hin as (k' & E & Hk').
    apply (pick_inj ids N) in E; [subst; contradiction|apply H; now right|apply H; now left].
  - apply IH. intros; apply H; now right.
Qed.

(** ** positions of nodes *)
Lemma findpos_pick ids k : NoDup ids -> in_range (length ids) k -> findNodeIdPosition ids (pick ids k) = Ok (k - 1).
Proof.
  unfold pick. intros N [H1 H2]. assert (H : k - 1 < length ids) by lia. clear H1 H2. revert H. generalize (k - 1) as i.
  induction N as [|x l Hx N IH]; cbn; intros i H; [lia|].
  destruct i as [|i]; cbn.
  - now rewrite Z.eqb_refl.
  - destruct (Z.eqb_spec x (nth i l 0%Z)) as [->|]; [exfalso; apply Hx, nth_In; lia|].
    rewrite IH by lia. reflexivity.
Qed.
