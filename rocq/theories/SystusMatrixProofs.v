(** Proofs about the export of direct matrices to Systus. *)
From Coq Require Import ZArith List Bool Lia Permutation Arith.
From Verif Require Import Base DofModel DofProofs MatrixElementModel MatrixElementProofs MatrixSplitProofs.
Import ListNotations.
Open Scope Z_scope.

(** Specification: the number Systus gives to a component. *)
Definition component_number (d : dof) : Z :=
  match d with DX => 1 | DY => 2 | DZ => 3 | RX => 4 | RY => 5 | RZ => 6 end.

(** The code of a table entry: node, node, component, component, written in decimal. *)
Definition table_code (num : Z -> Z) (p1 : Z) (e1 : dof) (p2 : Z) (e2 : dof) : Z :=
  1000 * num p1 + 100 * num p2 + 10 * component_number e1 + component_number e2.

(** A numbering 1, 2, ... of the nodes of an element following their positions. *)
Definition numbering {V} (m : melement V) (num : Z -> Z) : Prop :=
  (forall p, touches m p -> 1 <= num p) /\
  (forall p q, touches m p -> touches m q -> p < q -> num p < num q) /\
  (forall p k, touches m p -> 1 <= k <= num p -> exists q, touches m q /\ num q = k).

Lemma component_number_inj d e : component_number d = component_number e -> d = e.
Proof. destruct d, e; cbn; intros H; congruence. Qed.
Lemma component_number_range d : 1 <= component_number d <= 6.
Proof. destruct d; cbn; lia. Qed.
Lemma DOFToInt_spec d : DOFToInt d = component_number d.
Proof. destruct d; reflexivity. Qed.

(** Ranks *)
Lemma rank_of_nth l n r : rank_of l n = Some r -> nth_error l r = Some n.
Proof.
  revert r. induction l as [|a l IH]; cbn; intros r H; [discriminate|].
  destruct (Z.eqb_spec a n); [injection H as <-; now subst|].
  destruct (rank_of l n) as [r'|]; [|discriminate]. injection H as <-. now apply IH.
Qed.
Lemma rank_of_in l n : In n l -> exists r, rank_of l n = Some r /\ (r < length l)%nat.
Proof.
  induction l as [|a l IH]; cbn; intros H; [contradiction|].
  destruct (Z.eqb_spec a n); [exists O; split; [reflexivity|lia]|].
  destruct H as [H|H]; [contradiction|]. destruct (IH H) as [r [-> L]]. exists (S r). split; [reflexivity|lia].
Qed.
Lemma rank_of_mono l : zsorted l -> forall p q r s, p < q -> rank_of l p = Some r -> rank_of l q = Some s -> (r < s)%nat.
Proof.
  induction 1 as [|x l L S IH]; cbn; intros p q r s Lt Hp Hq; [discriminate|].
  destruct (Z.eqb_spec x p), (Z.eqb_spec x q); subst.
  - lia.
  - injection Hp as <-. destruct (rank_of l q); [|discriminate]. injection Hq as <-. lia.
  - destruct (rank_of l p) as [r'|] eqn:E; [|discriminate]. apply rank_of_nth, nth_error_In, L in E. lia.
  - destruct (rank_of l p) as [r'|] eqn:E1; [|discriminate]. destruct (rank_of l q) as [s'|] eqn:E2; [|discriminate].
    injection Hp as <-. injection Hq as <-. specialize (IH p q r' s' Lt E1 E2). lia.
Qed.
Lemma rank_of_nodup l r n : NoDup l -> nth_error l r = Some n -> rank_of l n = Some r.
Proof.
  intros N. revert r. induction N as [|x l Hx N IH]; intros [|r] H; cbn in *; try discriminate.
  - injection H as ->. now rewrite Z.eqb_refl.
  - destruct (Z.eqb_spec x n); [subst; exfalso; apply Hx; eapply nth_error_In; eauto|]. now rewrite (IH r H).
Qed.

Section Systus.
Context {V : Type} (vzero : V).
Implicit Types m : melement V.

Lemma number_spec m p : In p (nodePositions m) ->
  exists r, rank_of (nodePositions m) p = Some r /\ systus_number m p = Z.of_nat r + 1 /\ (r < length (nodePositions m))%nat.
Proof.
  intros H. destruct (rank_of_in _ _ H) as [r [E L]]. exists r. unfold systus_number. rewrite E. auto.
Qed.
Lemma number_range m p : In p (nodePositions m) -> 1 <= systus_number m p <= Z.of_nat (length (nodePositions m)).
Proof. intros H. destruct (number_spec m p H) as [r [_ [-> L]]]. lia. Qed.
Lemma number_inj m p q : In p (nodePositions m) -> In q (nodePositions m) -> systus_number m p = systus_number m q -> p = q.
Proof.
  intros Hp Hq E. destruct (number_spec m p Hp) as [r [R [N _]]], (number_spec m q Hq) as [s [S [N' _]]].
  assert (r = s) by lia. subst. eapply rank_of_inj; eauto.
Qed.

Lemma systus_numbering m : me_wf m -> numbering m (systus_number m).
Proof.
  intros W. unfold numbering. repeat apply conj.
  - intros p H. apply touches_nodes in H; [|exact W]. now apply number_range.
  - intros p q Hp Hq L. apply touches_nodes in Hp; [|exact W]. apply touches_nodes in Hq; [|exact W].
    destruct (number_spec m p Hp) as [r [R [-> _]]], (number_spec m q Hq) as [s [S [-> _]]].
    pose proof (rank_of_mono _ (nodePositions_sorted m) p q r s L R S). lia.
  - intros p k Hp Hk. apply touches_nodes in Hp; [|exact W].
    destruct (number_spec m p Hp) as [r [R [E L]]]. rewrite E in Hk.
    assert (Lt : (Z.to_nat (k - 1) < length (nodePositions m))%nat) by lia.
    destruct (nth_error (nodePositions m) (Z.to_nat (k - 1))) as [q|] eqn:N; [|apply nth_error_None in N; lia].
    exists q. split; [apply touches_nodes; [exact W|eapply nth_error_In; eauto]|].
    unfold systus_number. rewrite (rank_of_nodup _ _ _ (zsorted_nodup _ (nodePositions_sorted m)) N). lia.
Qed.

(** mapM / foldM over nested lists *)
Lemma mapM_ok {A B} (f : A -> outcome B) g l : (forall a, In a l -> f a = Ok (g a)) -> mapM f l = Ok (map g l).
Proof.
  induction l as [|a l IH]; cbn; intros H; [reflexivity|]. rewrite (H a) by now left. cbn.
  rewrite IH by (intros; apply H; now right). reflexivity.
Qed.
Lemma foldM_app {A B} (f : B -> A -> outcome B) l1 l2 b : foldM f (l1 ++ l2) b = do b' <- foldM f l1 b; foldM f l2 b'.
Proof. revert b. induction l1 as [|a l1 IH]; intros b; cbn; [reflexivity|]. destruct (f b a); cbn; auto. Qed.
Lemma foldM_map {A B C} (f : B -> C -> outcome B) (g : A -> C) l b : foldM f (map g l) b = foldM (fun b a => f b (g a)) l b.
Proof. revert b. induction l as [|a l IH]; intros b; cbn; [reflexivity|]. destruct (f b (g a)); cbn; auto. Qed.
Lemma foldM_flat {A B C} (f : B -> C -> outcome B) (g : A -> list C) l b :
  foldM f (flat_map g l) b = foldM (fun b a => foldM f (g a) b) l b.
Proof.
  revert b. induction l as [|a l IH]; intros b; cbn; [reflexivity|]. rewrite foldM_app.
  destruct (foldM f (g a) b); cbn; auto.
Qed.
Lemma foldM_ext {A B} (f g : B -> A -> outcome B) l b : (forall b a, f b a = g b a) -> foldM f l b = foldM g l b.
Proof. intros H. revert b. induction l as [|a l IH]; intros b; cbn; [reflexivity|]. rewrite H. destruct (g b a); cbn; auto. Qed.

(** All components of the terms fit in [nb] components per node. *)
Definition fits (nb : Z) m : Prop :=
  forall n1 d1 n2 d2 v, In (n1, d1, n2, d2, v) (terms m) -> component_number d1 <= nb /\ component_number d2 <= nb.

Lemma table_terms m nb : fits nb m ->
  table_fill m nb = Ok (map (fun t => let '(n1, d1, n2, d2, v) := t in
                                      (table_code (systus_number m) n1 d1 n2 d2, v)) (terms m)).
Proof.
  intros F. unfold table_fill.
  set (g := fun np : npair => map (fun kv : dof * dof * V =>
     (table_code (systus_number m) (fst np) (fst (fst kv)) (snd np) (snd (fst kv)), snd kv))
     (comps (findSubmatrix m (fst np) (snd np)))).
  rewrite (mapM_ok (table_pair m nb) g).
  - cbn [bind]. f_equal. unfold terms. rewrite <- flat_map_concat_map, map_flat_map.
    apply flat_map_ext. intros np. rewrite map_map. unfold g. reflexivity.
  - intros np Hnp. unfold table_pair, g. apply mapM_ok. intros [[a b] v] H. cbv zeta. cbn [fst snd].
    assert (T : In (fst np, a, snd np, b, v) (terms m)).
    { unfold terms. apply in_flat_map. exists np. split; [exact Hnp|]. apply in_map_iff. exists ((a, b), v). auto. }
    apply F in T. rewrite (DOFToInt_spec a), (DOFToInt_spec b).
    replace (nb <? component_number a) with false by (symmetry; apply Z.ltb_ge; lia).
    replace (nb <? component_number b) with false by (symmetry; apply Z.ltb_ge; lia).
    unfold table_code. f_equal. f_equal. ring.
Qed.

Lemma code_inj (num : Z -> Z) p1 e1 p2 e2 q1 f1 q2 f2 :
  (1 <= num p1 <= 9) -> (1 <= num p2 <= 9) -> (1 <= num q1 <= 9) -> (1 <= num q2 <= 9) ->
  table_code num p1 e1 p2 e2 = table_code num q1 f1 q2 f2 ->
  num p1 = num q1 /\ e1 = f1 /\ num p2 = num q2 /\ e2 = f2.
Proof.
  unfold table_code. intros. pose proof (component_number_range e1). pose proof (component_number_range e2).
  pose proof (component_number_range f1). pose proof (component_number_range f2).
  assert (num p1 = num q1 /\ component_number e1 = component_number f1 /\ num p2 = num q2 /\ component_number e2 = component_number f2) as [A [B [C D]]] by lia.
  repeat split; auto using component_number_inj.
Qed.

Lemma term_nodes m n1 d1 n2 d2 v : me_wf m -> In (n1, d1, n2, d2, v) (terms m) ->
  In n1 (nodePositions m) /\ In n2 (nodePositions m).
Proof.
  intros W H. split; (apply touches_nodes; [exact W|]); exists n1, d1, n2, d2, v; auto.
Qed.

Lemma table_codes_nodup m : me_wf m -> (length (nodePositions m) <= 9)%nat ->
  NoDup (map (fun t => let '(n1, d1, n2, d2, _) := t in table_code (systus_number m) n1 d1 n2 d2) (terms m)).
Proof.
  intros W L. pose proof (terms_nodup m W) as N.
  assert (G : forall t, In t (terms m) -> let '(n1, d1, n2, d2, _) := t in
    In n1 (nodePositions m) /\ In n2 (nodePositions m)).
  { intros [[[[n1 d1] n2] d2] v] H. eapply term_nodes; eauto. }
  revert N G. generalize (terms m). intros ts N G. induction ts as [|[[[[n1 d1] n2] d2] v] ts IH]; cbn in *; [constructor|].
  inversion N; subst. constructor; [|apply IH; [assumption|intros t Ht; apply G; now right]].
  intros X. apply in_map_iff in X. destruct X as [[[[[q1 f1] q2] f2] w] [E Hq]].
  destruct (G _ (or_introl eq_refl)) as [A1 A2]. destruct (G _ (or_intror Hq)) as [A3 A4].
  pose proof (number_range m _ A1). pose proof (number_range m _ A2).
  pose proof (number_range m _ A3). pose proof (number_range m _ A4).
  apply code_inj in E; try lia. destruct E as [E1 [-> [E2 ->]]].
  apply number_inj in E1; auto. apply number_inj in E2; auto. subst.
  apply H1. apply in_map_iff. exists (n1, d1, n2, d2, w). auto.
Qed.

(** A component that does not fit makes the export fail. *)
Lemma mapM_throw {A B} (f : A -> outcome B) l a : In a l -> (forall x, In x l -> f x = Throw \/ exists b, f x = Ok b) ->
  f a = Throw -> mapM f l = Throw.
Proof.
  induction l as [|x l IH]; cbn; intros H D E; [contradiction|].
  destruct H as [->|H]; [now rewrite E|]. destruct (D x (or_introl eq_refl)) as [X|[b X]]; rewrite X; cbn; [reflexivity|].
  rewrite IH; auto.
Qed.
Lemma mapM_total {A B} (f : A -> outcome B) l : (forall x, In x l -> f x = Throw \/ exists b, f x = Ok b) ->
  mapM f l = Throw \/ exists b, mapM f l = Ok b.
Proof.
  induction l as [|x l IH]; cbn; intros D; [right; eauto|].
  destruct (D x (or_introl eq_refl)) as [X|[b X]]; rewrite X; cbn; [auto|].
  destruct IH as [Y|[bs Y]]; [auto|rewrite Y; auto|rewrite Y; cbn; eauto].
Qed.

Lemma table_throw m nb n1 d1 n2 d2 v : In (n1, d1, n2, d2, v) (terms m) ->
  nb < component_number d1 \/ nb < component_number d2 -> table_fill m nb = Throw.
Proof.
  intros H Big. unfold terms in H. apply in_flat_map in H. destruct H as [np [Hnp H]].
  apply in_map_iff in H. destruct H as [[[a b] w] [E H]]. cbn in E. inversion E; subst.
  assert (D : forall np', In np' (nodePairs m) -> table_pair m nb np' = Throw \/ exists b, table_pair m nb np' = Ok b).
  { intros np' _. unfold table_pair. apply mapM_total. intros kv _. cbv zeta.
    destruct (nb <? _); [auto|]. destruct (nb <? _); eauto. }
  cut (mapM (table_pair m nb) (nodePairs m) = Throw); [intros X; unfold table_fill; now rewrite X|].
  apply (mapM_throw _ _ np Hnp D).
  unfold table_pair. apply (mapM_throw _ _ ((d1, d2), v) H).
  - intros kv _. cbv zeta. destruct (nb <? _); [auto|]. destruct (nb <? _); eauto.
  - cbn [fst snd]. rewrite (DOFToInt_spec d1), (DOFToInt_spec d2). destruct (Z.ltb_spec nb (component_number d1)); [reflexivity|].
    destruct (Z.ltb_spec nb (component_number d2)); [reflexivity|]. lia.
Qed.

(** ---- Systus matrices ---- *)
Definition sget (s : @smatrix V) (i j : Z) (a b : Z) : option V :=
  nth_error (svalues s) (Z.to_nat (spos s i j a b)).

Definition dims (s : @smatrix V) (nb n : Z) : Prop :=
  nbDOFS s = nb /\ nbNodes s = n /\ Z.of_nat (length (svalues s)) = n * n * nb * nb.

Lemma radix n a x a' x' : 0 <= a < n -> 0 <= a' < n -> a + n * x = a' + n * x' -> a = a' /\ x = x'.
Proof.
  intros H H' E. assert (x = x').
  { rewrite (Z.div_unique (a + n * x) n x a) by (try (left; lia); lia).
    rewrite E. symmetry. apply (Z.div_unique _ n x' a'); [left; lia|lia]. }
  subst. lia.
Qed.

Lemma spos_range (s : @smatrix V) nb n i j a b : nbDOFS s = nb -> nbNodes s = n ->
  1 <= a <= nb -> 1 <= b <= nb -> 1 <= i <= n -> 1 <= j <= n -> 0 <= spos s i j a b < n * n * nb * nb.
Proof.
  intros D N Ha Hb Hi Hj. unfold spos. rewrite D, N.
  assert (0 <= (a - 1) + nb * (b - 1) <= nb * nb - 1) by nia.
  assert (0 <= (i - 1) + n * (j - 1) <= n * n - 1) by nia.
  assert (0 <= nb * nb) by nia. nia.
Qed.
Lemma spos_inj (s : @smatrix V) nb n i j a b i' j' a' b' : nbDOFS s = nb -> nbNodes s = n ->
  1 <= a <= nb -> 1 <= b <= nb -> 1 <= i <= n -> 1 <= j <= n ->
  1 <= a' <= nb -> 1 <= b' <= nb -> 1 <= i' <= n -> 1 <= j' <= n ->
  spos s i j a b = spos s i' j' a' b' -> i = i' /\ j = j' /\ a = a' /\ b = b'.
Proof.
  intros D N Ha Hb Hi Hj Ha' Hb' Hi' Hj'. unfold spos. rewrite D, N. intros E.
  assert (E1 : (a - 1) + nb * ((b - 1) + nb * ((i - 1) + n * (j - 1))) = (a' - 1) + nb * ((b' - 1) + nb * ((i' - 1) + n * (j' - 1)))).
  { ring_simplify. ring_simplify in E. lia. }
  apply radix in E1; [|lia|lia]. destruct E1 as [E1 E2]. apply radix in E2; [|lia|lia]. destruct E2 as [E2 E3].
  apply radix in E3; [|lia|lia]. lia.
Qed.

Lemma setValue_spec (s : @smatrix V) nb n i j a b v : dims s nb n ->
  1 <= a <= nb -> 1 <= b <= nb -> 1 <= i <= n -> 1 <= j <= n ->
  exists s', setValue s i j a b v = Ok s' /\ dims s' nb n /\ sget s' i j a b = Some v /\
    (forall i' j' a' b', 1 <= a' <= nb -> 1 <= b' <= nb -> 1 <= i' <= n -> 1 <= j' <= n ->
       ~ (i = i' /\ j = j' /\ a = a' /\ b = b') -> sget s' i' j' a' b' = sget s i' j' a' b').
Proof.
  intros [D [N L]] Ha Hb Hi Hj. unfold setValue. rewrite D.
  replace (nb <? a) with false by (symmetry; apply Z.ltb_ge; lia).
  replace (nb <? b) with false by (symmetry; apply Z.ltb_ge; lia). cbv zeta.
  pose proof (spos_range s nb n i j a b D N Ha Hb Hi Hj) as R. unfold ssize. rewrite D, N.
  replace (n * n * nb * nb <? spos s i j a b) with false by (symmetry; apply Z.ltb_ge; lia).
  rewrite L.
  replace (spos s i j a b <? 0) with false by (symmetry; apply Z.ltb_ge; lia).
  replace (n * n * nb * nb <=? spos s i j a b) with false by (symmetry; apply Z.leb_gt; lia). cbn [orb].
  assert (Es : forall s0 : @smatrix V, nbDOFS s0 = nb -> nbNodes s0 = n -> forall i j a b, spos s0 i j a b = spos s i j a b).
  { intros s0 X Y. intros. unfold spos. rewrite X, Y, D, N. reflexivity. }
  eexists. split; [reflexivity|]. split; [|split].
  - unfold dims. cbn. rewrite length_update. auto.
  - unfold sget. rewrite (Es (mkSMatrix _ _ _)) by (cbn; auto). cbn [svalues]. rewrite nth_error_update, Nat.eqb_refl.
    replace (Nat.ltb _ (length (svalues s))) with true; [reflexivity|]. symmetry. apply Nat.ltb_lt. lia.
  - intros i' j' a' b' Ha' Hb' Hi' Hj' Ne. unfold sget at 1. cbn [svalues].
    rewrite (Es (mkSMatrix _ _ _)) by (cbn; auto). rewrite nth_error_update.
    destruct (Nat.eqb_spec (Z.to_nat (spos s i j a b)) (Z.to_nat (spos s i' j' a' b'))) as [E|_]; [|reflexivity].
    exfalso. apply Ne. pose proof (spos_range s nb n i' j' a' b' D N Ha' Hb' Hi' Hj').
    apply (spos_inj s nb n); auto. lia.
Qed.

Definition set_both m (s : @smatrix V) (t : write V) : outcome (@smatrix V) :=
  let '(n1, d1, n2, d2, v) := t in
  do s1 <- setValue s (systus_number m n1) (systus_number m n2) (component_number d1) (component_number d2) v;
  setValue s1 (systus_number m n2) (systus_number m n1) (component_number d2) (component_number d1) v.

Lemma smatrix_terms m nb :
  smatrix_of vzero m nb = foldM (set_both m) (terms m) (new_smatrix vzero nb (Z.of_nat (length (nodePositions m)))).
Proof.
  unfold smatrix_of, terms. rewrite foldM_flat. apply foldM_ext. intros s np.
  unfold smatrix_pair. rewrite foldM_map. apply foldM_ext. intros s0 [[a b] v]. cbn [fst snd set_both].
  now rewrite (DOFToInt_spec a), (DOFToInt_spec b).
Qed.

Definition inrange m (nb : Z) (p : Z) (e : dof) : Prop := In p (nodePositions m) /\ component_number e <= nb.

Definition mget m (s : @smatrix V) (p1 : Z) (e1 : dof) (p2 : Z) (e2 : dof) : option V :=
  sget s (systus_number m p1) (systus_number m p2) (component_number e1) (component_number e2).

Lemma set_both_spec m s nb t : let n := Z.of_nat (length (nodePositions m)) in
  let '(n1, d1, n2, d2, v) := t in
  dims s nb n -> inrange m nb n1 d1 -> inrange m nb n2 d2 ->
  exists s', set_both m s t = Ok s' /\ dims s' nb n /\
    (forall p1 e1 p2 e2, same_entry n1 d1 n2 d2 p1 e1 p2 e2 -> mget m s' p1 e1 p2 e2 = Some v) /\
    (forall p1 e1 p2 e2, inrange m nb p1 e1 -> inrange m nb p2 e2 -> ~ same_entry n1 d1 n2 d2 p1 e1 p2 e2 ->
       mget m s' p1 e1 p2 e2 = mget m s p1 e1 p2 e2).
Proof.
  intros n. destruct t as [[[[n1 d1] n2] d2] v]. intros D [I1 B1] [I2 B2]. unfold set_both.
  pose proof (component_number_range d1). pose proof (component_number_range d2).
  pose proof (number_range m _ I1) as R1. pose proof (number_range m _ I2) as R2. fold n in R1, R2.
  destruct (setValue_spec s nb n (systus_number m n1) (systus_number m n2) (component_number d1) (component_number d2) v D)
    as [s1 [E1 [D1 [G1 F1]]]]; try lia.
  rewrite E1. cbn [bind].
  destruct (setValue_spec s1 nb n (systus_number m n2) (systus_number m n1) (component_number d2) (component_number d1) v D1)
    as [s2 [E2 [D2 [G2 F2]]]]; try lia.
  rewrite E2. exists s2. split; [reflexivity|]. split; [exact D2|]. split.
  - intros p1 e1 p2 e2 [[<- [<- [<- <-]]]|[<- [<- [<- <-]]]]; unfold mget; [|exact G2].
    destruct (Z.eq_dec (systus_number m n1) (systus_number m n2)) as [En|Nn].
    + destruct (Z.eq_dec (component_number d1) (component_number d2)) as [Ed|Nd].
      * rewrite En, Ed in *. exact G2.
      * rewrite F2; [exact G1|lia..].
    + rewrite F2; [exact G1|lia..].
  - intros p1 e1 p2 e2 [I3 B3] [I4 B4] Ne. unfold mget.
    pose proof (component_number_range e1). pose proof (component_number_range e2).
    pose proof (number_range m _ I3) as R3. pose proof (number_range m _ I4) as R4. fold n in R3, R4.
    rewrite F2; [rewrite F1; [reflexivity|lia|lia|lia|lia|]|lia|lia|lia|lia|].
    + intros [A [B [C E]]]. apply Ne. left. apply number_inj in A; auto. apply number_inj in B; auto.
      apply component_number_inj in C. apply component_number_inj in E. subst. auto.
    + intros [A [B [C E]]]. apply Ne. right. apply number_inj in A; auto. apply number_inj in B; auto.
      apply component_number_inj in C. apply component_number_inj in E. subst. auto.
Qed.

Lemma fill_spec m nb (ts : list (write V)) : let n := Z.of_nat (length (nodePositions m)) in forall s,
  dims s nb n ->
  (forall n1 d1 n2 d2 v, In (n1, d1, n2, d2, v) ts -> inrange m nb n1 d1 /\ inrange m nb n2 d2) ->
  ForallOrdPairs (fun t t' => let '(n1, d1, n2, d2, _) := t in let '(p1, e1, p2, e2, _) := t' in
      ~ same_entry n1 d1 n2 d2 p1 e1 p2 e2) ts ->
  exists s', foldM (set_both m) ts s = Ok s' /\ dims s' nb n /\
    (forall n1 d1 n2 d2 v p1 e1 p2 e2, In (n1, d1, n2, d2, v) ts -> same_entry n1 d1 n2 d2 p1 e1 p2 e2 ->
        mget m s' p1 e1 p2 e2 = Some v) /\
    (forall p1 e1 p2 e2, inrange m nb p1 e1 -> inrange m nb p2 e2 ->
       (forall n1 d1 n2 d2 v, In (n1, d1, n2, d2, v) ts -> ~ same_entry n1 d1 n2 d2 p1 e1 p2 e2) ->
       mget m s' p1 e1 p2 e2 = mget m s p1 e1 p2 e2).
Proof.
  intros n. induction ts as [|[[[[n1 d1] n2] d2] v] ts IH]; intros s D R U.
  - cbn. exists s. repeat split; auto; try apply D. intros; contradiction.
  - inversion U as [|? ? U1 U2]; subst. destruct (R n1 d1 n2 d2 v (or_introl eq_refl)) as [R1 R2].
    destruct (set_both_spec m s nb (n1, d1, n2, d2, v) D R1 R2) as [s1 [E1 [D1 [G1 F1]]]].
    destruct (IH s1 D1) as [s' [E2 [D2 [G2 F2]]]]; [intros; eapply R; right; eauto|exact U2|].
    cbn [foldM]. rewrite E1. cbn [bind]. exists s'. split; [exact E2|]. split; [exact D2|]. split.
    + intros q1 f1 q2 f2 w p1 e1 p2 e2 [H|H] Se; [|eapply G2; eauto].
      inversion H; subst. rewrite F2.
      * now apply G1.
      * destruct Se as [[<- [<- [<- <-]]]|[<- [<- [<- <-]]]]; assumption.
      * destruct Se as [[<- [<- [<- <-]]]|[<- [<- [<- <-]]]]; assumption.
      * intros a1 b1 a2 b2 x Hx Sx. rewrite Forall_forall in U1. specialize (U1 _ Hx). cbn in U1. apply U1.
        unfold same_entry in *. clear - Se Sx. intuition congruence.
    + intros p1 e1 p2 e2 I1 I2 Ne. rewrite F2; auto; [|intros; eapply Ne; right; eauto].
      apply F1; auto. eapply Ne. left. reflexivity.
Qed.

Lemma terms_unrelated m : me_wf m ->
  ForallOrdPairs (fun t t' : write V => let '(n1, d1, n2, d2, _) := t in let '(p1, e1, p2, e2, _) := t' in
      ~ same_entry n1 d1 n2 d2 p1 e1 p2 e2) (terms m).
Proof.
  intros W. pose proof (terms_nodup m W) as N.
  assert (G : forall n1 d1 n2 d2 v, In (n1, d1, n2, d2, v) (terms m) -> norm_addr n1 d1 n2 d2 = (n1, d1, n2, d2)).
  { intros n1 d1 n2 d2 v H. apply in_terms in H; [|exact W]. eapply entry_norm; eauto. }
  revert N G. generalize (terms m). induction l as [|[[[[n1 d1] n2] d2] v] ts IH]; intros N G; constructor.
  - apply Forall_forall. intros [[[[p1 e1] p2] e2] w] H Se. inversion N; subst. apply H2.
    apply in_map_iff. exists (p1, e1, p2, e2, w). split; [|exact H]. cbn.
    apply norm_addr_same in Se. rewrite (G n1 d1 n2 d2 v (or_introl eq_refl)) in Se.
    rewrite (G p1 e1 p2 e2 w (or_intror H)) in Se. auto.
  - apply IH; [now inversion N|]. intros. eapply G. right. eauto.
Qed.

Lemma new_dims nb n : 0 <= nb -> 0 <= n -> dims (new_smatrix vzero nb n) nb n.
Proof. intros. unfold dims, new_smatrix. cbn. rewrite repeat_length. repeat split; nia. Qed.

Lemma new_get m nb p1 e1 p2 e2 : inrange m nb p1 e1 -> inrange m nb p2 e2 ->
  mget m (new_smatrix vzero nb (Z.of_nat (length (nodePositions m)))) p1 e1 p2 e2 = Some vzero.
Proof.
  intros [I1 B1] [I2 B2]. unfold mget, sget.
  pose proof (component_number_range e1). pose proof (component_number_range e2).
  pose proof (number_range m _ I1). pose proof (number_range m _ I2).
  set (n := Z.of_nat (length (nodePositions m))) in *.
  pose proof (spos_range (new_smatrix vzero nb n) nb n (systus_number m p1) (systus_number m p2)
     (component_number e1) (component_number e2) eq_refl eq_refl ltac:(lia) ltac:(lia) ltac:(lia) ltac:(lia)) as R.
  cbn [svalues new_smatrix]. rewrite nth_error_repeat; [reflexivity|]. lia.
Qed.

Lemma smatrix_spec m nb : me_wf m -> 0 <= nb -> fits nb m ->
  exists s, smatrix_of vzero m nb = Ok s /\ dims s nb (Z.of_nat (length (nodePositions m))) /\
    forall p1 e1 p2 e2, inrange m nb p1 e1 -> inrange m nb p2 e2 ->
      mget m s p1 e1 p2 e2 = Some (match lookup m p1 e1 p2 e2 with Some v => v | None => vzero end).
Proof.
  intros W Hnb F. rewrite smatrix_terms.
  destruct (fill_spec m nb (terms m) _ (new_dims nb (Z.of_nat (length (nodePositions m))) Hnb ltac:(lia)))
    as [s [E [D [G N]]]].
  - intros n1 d1 n2 d2 v H. destruct (F _ _ _ _ _ H). destruct (term_nodes m _ _ _ _ _ W H). unfold inrange. auto.
  - now apply terms_unrelated.
  - exists s. split; [exact E|]. split; [exact D|]. intros p1 e1 p2 e2 I1 I2.
    destruct (lookup m p1 e1 p2 e2) as [v|] eqn:L.
    + apply lookup_terms in L; [|exact W]. destruct L as [L|L]; eapply G; eauto; unfold same_entry; auto.
    + rewrite N; auto; [now apply new_get|].
      intros n1 d1 n2 d2 v H Se. assert (lookup m p1 e1 p2 e2 = Some v); [|congruence].
      apply lookup_terms; [exact W|]. destruct Se as [[<- [<- [<- <-]]]|[<- [<- [<- <-]]]]; auto.
Qed.

Lemma printed_get (s : @smatrix V) i j a b :
  printed s i j ((a - 1) + nbDOFS s * (b - 1)) = sget s j i a b.
Proof. unfold printed, sget, spos. f_equal. f_equal. ring. Qed.

Lemma lookup_sym m p1 e1 p2 e2 : lookup m p1 e1 p2 e2 = lookup m p2 e2 p1 e1.
Proof.
  unfold lookup. assert (norm_addr p1 e1 p2 e2 = norm_addr p2 e2 p1 e1) as ->; [|reflexivity].
  apply norm_addr_same. right. auto.
Qed.
End Systus.
