(** Lemmas on the vectors and lists of a Systus subcase. *)
From Coq Require Import Reals ZArith List Bool Lia Lra Permutation Sorted.
Require Import Verif.Base Verif.DofModel Verif.GeomModel Verif.AsterConstraintModel Verif.SystusVectorModel.
Import ListNotations.
Open Scope Z_scope.
Open Scope list_scope.

(** ** Maps *)
Definition sorted {A} (l : list (Z * A)) : Prop := StronglySorted Z.lt (map fst l).

Lemma upd_keys {A} k d f (l : list (Z * A)) x : In x (map fst (upd k d f l)) -> x = k \/ In x (map fst l).
Proof.
  induction l as [|[q a] r IH]; cbn [upd map fst In]; [intuition auto|].
  destruct (k <? q); [cbn [map fst In]; intuition auto|].
  destruct (k =? q); cbn [map fst In]; [tauto|]. intros [E|J]; [tauto|]. destruct (IH J); tauto.
Qed.

Lemma upd_sorted {A} k d f (l : list (Z * A)) : sorted l -> sorted (upd k d f l).
Proof.
  unfold sorted. induction l as [|[q a] r IH]; cbn [upd map fst]; intros H; [repeat constructor|].
  inversion H as [|? ? S F]; subst.
  destruct (Z.ltb_spec k q) as [L|L].
  - cbn [map fst]. constructor; [exact H|]. constructor; [exact L|]. apply Forall_forall. intros y J. rewrite Forall_forall in F. specialize (F y J). lia.
  - destruct (Z.eqb_spec k q) as [E|E]; cbn [map fst]; constructor; auto.
    apply Forall_forall. intros y J. apply upd_keys in J as [->|J]; [lia|]. rewrite Forall_forall in F. exact (F y J).
Qed.

Lemma get_absent {A} k (l : list (Z * A)) : Forall (Z.lt k) (map fst l) -> get k l = None.
Proof.
  induction l as [|[q a] r IH]; cbn [get map fst]; intros H; [reflexivity|]. inversion H; subst.
  destruct (Z.eqb_spec k q); [lia|auto].
Qed.

Lemma get_upd {A} k d f (l : list (Z * A)) x : sorted l ->
  get x (upd k d f l) = if x =? k then Some (f (match get k l with Some a => a | None => d end)) else get x l.
Proof.
  unfold sorted. induction l as [|[q a] r IH]; cbn [upd get map fst]; intros H; [reflexivity|].
  inversion H as [|? ? S F]; subst.
  destruct (Z.ltb_spec k q) as [L|L].
  - cbn [get]. destruct (Z.eqb_spec x k) as [E|E]; [|reflexivity].
    destruct (Z.eqb_spec k q) as [E2|E2]; [lia|]. rewrite get_absent; [reflexivity|].
    apply Forall_forall. intros y J. rewrite Forall_forall in F. specialize (F y J). lia.
  - destruct (Z.eqb_spec k q) as [E|E]; cbn [get].
    + destruct (Z.eqb_spec x k) as [E1|E1], (Z.eqb_spec x q) as [E2|E2]; try reflexivity; lia.
    + destruct (Z.eqb_spec x q) as [E2|E2]; [|apply IH; exact S].
      destruct (Z.eqb_spec x k) as [E1|E1]; [lia|reflexivity].
Qed.

Lemma get_in {A} k (a : A) l : get k l = Some a -> In (k, a) l.
Proof.
  induction l as [|[q b] r IH]; cbn [get]; [discriminate|].
  destruct (Z.eqb_spec k q) as [E|E]; [intros J; injection J as <-; subst; now left|right; auto].
Qed.
Lemma in_get {A} k (a : A) l : NoDup (map fst l) -> In (k, a) l -> get k l = Some a.
Proof.
  induction l as [|[q b] r IH]; cbn [get map fst In]; [tauto|]. intros N [E|J]; inversion N; subst.
  - injection E as <- <-. now rewrite Z.eqb_refl.
  - destruct (Z.eqb_spec k q) as [E|E]; [|auto]. subst q. exfalso. match goal with H : ~ In k _ |- _ => apply H end. apply in_map_iff. exists (k, a). auto.
Qed.
Lemma sorted_nodup {A} (l : list (Z * A)) : sorted l -> NoDup (map fst l).
Proof.
  unfold sorted. induction (map fst l) as [|x r IH]; intros H; constructor; inversion H as [|? ? S F]; subst; auto.
  intros J. rewrite Forall_forall in F. specialize (F x J). lia.
Qed.
Lemma get_none {A} k (l : list (Z * A)) : get k l = None <-> ~ In k (map fst l).
Proof.
  induction l as [|[q b] r IH]; cbn [get map fst In]; [tauto|].
  destruct (Z.eqb_spec k q) as [E|E]; [split; [discriminate|intros H; exfalso; apply H; auto]|]. rewrite IH. split; [|tauto]. intros H [J|J]; [congruence|auto].
Qed.
Lemma upd_new {A} k d f (l : list (Z * A)) : ~ In k (map fst l) -> Permutation (upd k d f l) ((k, f d) :: l).
Proof.
  induction l as [|[q a] r IH]; cbn [upd map fst In]; intros H; [reflexivity|].
  destruct (k <? q); [reflexivity|]. destruct (Z.eqb_spec k q) as [E|E]; [exfalso; auto|].
  rewrite IH by tauto. apply perm_swap.
Qed.

(** ** Numbers *)
Fixpoint number {A} (i : Z) (l : list A) : list (Z * A) :=
  match l with [] => [] | a :: r => (i, a) :: number (i + 1) r end.
Lemma number_app {A} (l r : list A) i : number i (l ++ r) = number i l ++ number (i + Z.of_nat (length l)) r.
Proof.
  revert i. induction l as [|a l IH]; intros i; cbn [number app length]; [now rewrite Z.add_0_r|].
  f_equal. rewrite IH. do 2 f_equal. lia.
Qed.
Lemma number_keys {A} (l : list A) i : map fst (number i l) = map (fun k => i + Z.of_nat k) (seq 0 (length l)).
Proof.
  revert i. induction l as [|a l IH]; intros i; cbn [number map fst length seq]; [reflexivity|].
  f_equal; [lia|]. rewrite IH, <- seq_shift, map_map. apply map_ext. intros k. lia.
Qed.
Lemma number_length {A} (l : list A) i : length (number i l) = length l.
Proof. revert i. induction l; intros i; cbn [number length]; auto. Qed.
Lemma number_snd {A} (l : list A) i : map snd (number i l) = l.
Proof. revert i. induction l; intros i; cbn [number map snd]; f_equal; auto. Qed.
Lemma number_bound {A} (l : list A) i k a : In (k, a) (number i l) -> i <= k < i + Z.of_nat (length l).
Proof.
  revert i. induction l as [|x l IH]; intros i; cbn [number In length]; [tauto|].
  intros [E|J]; [injection E; lia|]. apply IH in J. lia.
Qed.
Lemma number_get {A} (l : list A) i k : i <= k -> get k (number i l) = nth_error l (Z.to_nat (k - i)).
Proof.
  revert i. induction l as [|x l IH]; intros i H; cbn [number get]; [now destruct (Z.to_nat (k - i))|].
  destruct (Z.eqb_spec k i) as [E|E]; [subst; now rewrite Z.sub_diag|].
  rewrite IH by lia. replace (Z.to_nat (k - i)) with (S (Z.to_nat (k - (i + 1)))) by lia. reflexivity.
Qed.
Lemma number_get_low {A} (l : list A) i k : k < i -> get k (number i l) = None.
Proof.
  revert i. induction l as [|x l IH]; intros i H; cbn [number get]; [reflexivity|].
  destruct (Z.eqb_spec k i); [lia|]. apply IH. lia.
Qed.
Lemma number_nodup {A} (l : list A) i : NoDup (map fst (number i l)).
Proof.
  revert i. induction l as [|x l IH]; intros i; cbn [number map fst]; constructor; auto.
  intros J. apply in_map_iff in J as ([k a] & E & J). cbn in E. subst k. apply number_bound in J. lia.
Qed.
Lemma upd_next {A} (l : list A) i d f : upd (i + Z.of_nat (length l)) d f (number i l) = number i (l ++ [f d]).
Proof.
  revert i. induction l as [|x l IH]; intros i; cbn [number upd length app]; [now rewrite Z.add_0_r|].
  destruct (Z.ltb_spec (i + Z.of_nat (S (length l))) i); [lia|].
  destruct (Z.eqb_spec (i + Z.of_nat (S (length l))) i); [lia|]. f_equal.
  rewrite <- IH. f_equal. lia.
Qed.

(** ** Numbers pushed *)
Definition ids (m : pushes) (p c : Z) : list Z :=
  match get p m with Some x => match get c x with Some l => l | None => [] end | None => [] end.
Definition wf (m : pushes) : Prop := sorted m /\ forall p x, get p m = Some x -> sorted x.

Lemma wf_nil : wf [].
Proof. split; [constructor|discriminate]. Qed.
Lemma wf_push p c v m : wf m -> wf (push p c v m).
Proof.
  intros (S & I). unfold push. split; [now apply upd_sorted|]. intros q x. rewrite get_upd by exact S.
  destruct (q =? p); [|apply I]. intros E. injection E as <-. apply upd_sorted.
  destruct (get p m) eqn:G; [eapply I; eassumption|constructor].
Qed.
Lemma ids_push p c v m q d : wf m -> ids (push p c v m) q d = ids m q d ++ (if (p =? q) && (c =? d) then [v] else []).
Proof.
  intros (S & I). unfold ids, push. rewrite get_upd by exact S.
  rewrite (Z.eqb_sym q p). destruct (Z.eqb_spec p q) as [E|E]; cbn [andb].
  - subst q. rewrite get_upd.
    + rewrite (Z.eqb_sym d c). destruct (Z.eqb_spec c d) as [E|E].
      * subst d. destruct (get p m) as [x|]; [|reflexivity]. destruct (get c x); reflexivity.
      * rewrite app_nil_r. destruct (get p m); reflexivity.
    + destruct (get p m) eqn:G; [eapply I; eassumption|constructor].
  - now rewrite app_nil_r.
Qed.

(** ** States *)
(** [vs] the vectors in order. *)
Record holds_vectors (s : sys) (vs : list (list R)) : Prop := HV {
  hv_vectors : vectors s = number 1 vs;
  hv_next : next s = 1 + Z.of_nat (length vs) }.

Lemma hv_put v s vs : holds_vectors s vs -> holds_vectors (put v s) (vs ++ [v]).
Proof.
  intros [V N]. split; cbn [put vectors next].
  - rewrite V, N. apply (upd_next vs 1).
  - rewrite N, app_length. cbn [length]. lia.
Qed.
Lemma hv_restart s vs : holds_vectors s vs -> restart s = s.
Proof.
  intros [V N]. destruct s as [v n a b c d]. cbn [vectors next] in *. subst. unfold restart. cbn [vectors next on_node on_cell on_case fixed]. rewrite number_length. f_equal. lia.
Qed.

Definition known (s : sys) (m : pushes) : Prop := forall p c v, In v (ids m p c) -> 1 <= v < next s.
Definition look (s : sys) (v : Z) : option (list R) := get v (vectors s).
Definition rd (s : sys) (m : pushes) (p c : Z) : list (option (list R)) := map (look s) (ids m p c).

(** [s'] holds the vectors of [s] and more. *)
Definition ext (s s' : sys) : Prop := exists vs ws, holds_vectors s vs /\ holds_vectors s' (vs ++ ws).
Lemma ext_look s s' v : ext s s' -> 1 <= v < next s -> look s' v = look s v.
Proof.
  intros (vs & ws & [V N] & [V' N']) H. unfold look. rewrite V, V', !number_get by lia.
  apply nth_error_app1. lia.
Qed.
Lemma ext_next s s' : ext s s' -> next s <= next s'.
Proof. intros (vs & ws & [V N] & [V' N']). rewrite N, N', app_length. lia. Qed.
Lemma ext_refl s vs : holds_vectors s vs -> ext s s.
Proof. intros H. exists vs, []. rewrite app_nil_r. auto. Qed.
Lemma number_inj {A} (l r : list A) i : number i l = number i r -> l = r.
Proof. intros E. rewrite <- (number_snd l i), E. apply number_snd. Qed.
Lemma ext_trans s s1 s2 : ext s s1 -> ext s1 s2 -> ext s s2.
Proof.
  intros (vs & ws & H & H1) (vs' & ws' & H1' & H2).
  assert (vs' = vs ++ ws) by (apply (number_inj _ _ 1); rewrite <- (hv_vectors _ _ H1), <- (hv_vectors _ _ H1'); reflexivity). subst vs'.
  exists vs, (ws ++ ws'). rewrite app_assoc. auto.
Qed.
Lemma ext_rd s s' m p c : ext s s' -> known s m -> rd s' m p c = rd s m p c.
Proof. intros E K. unfold rd. apply map_ext_in. intros v J. apply ext_look; [exact E|]. exact (K p c v J). Qed.
Lemma ext_known s s' m : ext s s' -> known s m -> known s' m.
Proof. intros E K p c v J. specialize (K p c v J). apply ext_next in E. lia. Qed.

(** What is read of the loads of nodes and cells. *)
Record good (s : sys) : Prop := Good {
  g_vectors : exists vs, holds_vectors s vs;
  g_wf_node : wf (on_node s); g_known_node : known s (on_node s);
  g_wf_cell : wf (on_cell s); g_known_cell : known s (on_cell s) }.
Record adds (s s' : sys) (N C : Z -> Z -> list (list R)) : Prop := Adds {
  a_good : good s'; a_ext : ext s s';
  a_node : forall p c, rd s' (on_node s') p c = rd s (on_node s) p c ++ map Some (N p c);
  a_cell : forall p c, rd s' (on_cell s') p c = rd s (on_cell s) p c ++ map Some (C p c);
  a_fixed : fixed s' = fixed s }.
Definition none : Z -> Z -> list (list R) := fun _ _ => [].

Lemma adds_refl s N C : good s -> (forall p c, N p c = []) -> (forall p c, C p c = []) -> adds s s N C.
Proof.
  intros G HN HC. split; auto.
  - destruct (g_vectors _ G) as (vs & H). eapply ext_refl; eassumption.
  - intros p c. rewrite HN. now rewrite app_nil_r.
  - intros p c. rewrite HC. now rewrite app_nil_r.
Qed.
Lemma adds_trans s s1 s2 N1 C1 N2 C2 N C : adds s s1 N1 C1 -> adds s1 s2 N2 C2 ->
  (forall p c, N p c = N1 p c ++ N2 p c) -> (forall p c, C p c = C1 p c ++ C2 p c) -> adds s s2 N C.
Proof.
  intros A B HN HC. split.
  - exact (a_good _ _ _ _ B).
  - eapply ext_trans; [exact (a_ext _ _ _ _ A)|exact (a_ext _ _ _ _ B)].
  - intros p c. rewrite (a_node _ _ _ _ B), (a_node _ _ _ _ A), HN, map_app. now rewrite app_assoc.
  - intros p c. rewrite (a_cell _ _ _ _ B), (a_cell _ _ _ _ A), HC, map_app. now rewrite app_assoc.
  - rewrite (a_fixed _ _ _ _ B). exact (a_fixed _ _ _ _ A).
Qed.
(** A loop of steps. *)
Lemma adds_fold {B} (f : sys -> B -> sys) (N C : B -> Z -> Z -> list (list R)) l s :
  good s -> (forall s b, In b l -> good s -> adds s (f s b) (N b) (C b)) ->
  adds s (fold_left f l s) (fun p c => flat_map (fun b => N b p c) l) (fun p c => flat_map (fun b => C b p c) l).
Proof.
  revert s. induction l as [|b l IH]; intros s G H; cbn [fold_left flat_map].
  - now apply adds_refl.
  - assert (A := H s b (or_introl eq_refl) G).
    eapply adds_trans; [exact A|apply IH; [exact (a_good _ _ _ _ A)|]|reflexivity|reflexivity].
    intros s' b' J. apply H. now right.
Qed.

Definition keep (g : setting) (head body : list R) : list (list R) :=
  if near_zero (tol g) (maxabs body) then [] else [head ++ body].

(** Writing one vector for several nodes, cells. *)
Lemma put_good s v : good s -> good (put v s).
Proof.
  intros G. destruct (g_vectors _ G) as (vs & H). assert (P := hv_put v s vs H).
  assert (L : next s <= next (put v s)) by (cbn; lia).
  split; cbn [put on_node on_cell]; try apply G.
  - eexists; exact P.
  - intros p c x J. apply (g_known_node _ G) in J. lia.
  - intros p c x J. apply (g_known_cell _ G) in J. lia.
Qed.

Lemma look_new s vs v s1 : holds_vectors s vs -> next s1 = next s -> vectors s1 = vectors s -> look (put v s1) (next s) = Some v.
Proof.
  intros H E1 E2. assert (H1 : holds_vectors s1 vs) by (destruct H; split; congruence).
  apply (hv_put v) in H1. unfold look. rewrite (hv_vectors _ _ H1), number_get; rewrite (hv_next _ _ H); [|lia].
  replace (Z.to_nat (1 + Z.of_nat (length vs) - 1)) with (length vs) by lia.
  rewrite nth_error_app2 by lia. rewrite Nat.sub_diag. reflexivity.
Qed.

Lemma node_vector_adds g c p body s : good s ->
  adds s (node_vector g c p body s) (fun q d => if (p =? q) && (c =? d) then keep g zeros body else []) none.
Proof.
  intros G. unfold node_vector, keep. destruct (near_zero (tol g) (maxabs body)) eqn:Z.
  - apply adds_refl; [exact G| |reflexivity]. intros q d. now destruct ((p =? q) && (c =? d)).
  - destruct (g_vectors _ G) as (vs & H).
    set (s1 := push_node p c (next s) s).
    assert (H1 : holds_vectors s1 vs) by (destruct H; split; auto).
    assert (X : ext s (put (zeros ++ body) s1)) by (exists vs, [zeros ++ body]; split; [exact H|exact (hv_put _ _ _ H1)]).
    assert (L : look (put (zeros ++ body) s1) (next s) = Some (zeros ++ body)) by (eapply look_new; [exact H|reflexivity|reflexivity]).
    split.
    + split.
      * exists (vs ++ [zeros ++ body]). exact (hv_put _ _ _ H1).
      * apply wf_push. apply G.
      * intros q d v. cbn [put on_node s1 push_node]. rewrite ids_push by apply G. rewrite in_app_iff. change (next (put (zeros ++ body) s1)) with (next s + 1).
        intros [J|J]; [apply (g_known_node _ G) in J; lia|].
        destruct ((p =? q) && (c =? d)); [|contradiction]. destruct J as [<-|[]]. rewrite (hv_next _ _ H). lia.
      * apply G.
      * intros q d v J. apply (g_known_cell _ G) in J. cbn. lia.
    + exact X.
    + intros q d. cbn [put on_node s1 push_node]. unfold rd at 1. rewrite ids_push by apply G. rewrite map_app. f_equal.
      * exact (ext_rd s (put (zeros ++ body) s1) (on_node s) q d X (g_known_node _ G)).
      * destruct ((p =? q) && (c =? d)); [|reflexivity]. cbn [map]. f_equal. exact L.
    + intros q d. unfold none. cbn [map]. rewrite app_nil_r. exact (ext_rd s (put (zeros ++ body) s1) (on_cell s) q d X (g_known_cell _ G)).
    + reflexivity.
Qed.

Definition node_part (g : setting) (c : Z) (n : nforce) (q d : Z) : list (list R) :=
  flat_map (fun p =>
    (if (p =? q) && (c =? d) then keep g zeros (comps3 (nf_force n p) ++ (if shell g then comps3 (nf_moment n p) else [])) else []) ++
    (if shell g then []
     else match rot g p with
          | Some r => if (r =? q) && (c =? d) then keep g zeros (comps3 (nf_moment n p)) else []
          | None => []
          end)) (nf_on n).

Lemma nodal_vectors_adds g c n s : good s -> adds s (nodal_vectors g c n s) (node_part g c n) none.
Proof.
  intros G. unfold nodal_vectors, node_part.
  eapply adds_trans with (s1 := s); [apply adds_refl with (N := none) (C := none); auto| |reflexivity|].
  - apply adds_fold with (C := fun _ => none); [exact G|].
    intros s' p _ G'. cbv zeta.
    assert (A := node_vector_adds g c p (comps3 (nf_force n p) ++ (if shell g then comps3 (nf_moment n p) else [])) s' G').
    destruct (shell g).
    + eapply adds_trans; [exact A|apply adds_refl with (N := none) (C := none); [exact (a_good _ _ _ _ A)|reflexivity|reflexivity]|reflexivity|reflexivity].
    + destruct (rot g p) as [r|].
      * eapply adds_trans; [exact A|apply node_vector_adds; exact (a_good _ _ _ _ A)|reflexivity|reflexivity].
      * eapply adds_trans; [exact A|apply adds_refl with (N := none) (C := none); [exact (a_good _ _ _ _ A)|reflexivity|reflexivity]|reflexivity|reflexivity].
  - intros p d. unfold none. cbn [app]. induction (nf_on n); auto.
Qed.

Lemma cells_ids c v cells : forall s, wf (on_cell s) ->
  let s' := fold_left (fun s' k => push_cell k c v s') cells s in
  wf (on_cell s') /\ vectors s' = vectors s /\ next s' = next s /\ on_node s' = on_node s /\ on_case s' = on_case s /\ fixed s' = fixed s /\
  forall q d, ids (on_cell s') q d = ids (on_cell s) q d ++ flat_map (fun k => if (k =? q) && (c =? d) then [v] else []) cells.
Proof.
  induction cells as [|k l IH]; intros s W; cbn [fold_left flat_map].
  - repeat split; try apply W. intros q d. now rewrite app_nil_r.
  - destruct (IH (push_cell k c v s)) as (A & B & C & D & E & F & I); [now apply wf_push|].
    cbv zeta in *. repeat (split; [first [exact A | rewrite B; reflexivity | rewrite C; reflexivity | rewrite D; reflexivity | rewrite E; reflexivity | rewrite F; reflexivity]|]).
    intros q d. rewrite I. cbn [push_cell on_cell]. rewrite ids_push by exact W. now rewrite app_assoc.
Qed.

Lemma map_flat_map {A B C} (f : A -> list B) (g : B -> C) l : map g (flat_map f l) = flat_map (fun x => map g (f x)) l.
Proof. induction l as [|x l IH]; [reflexivity|]. cbn [flat_map]. now rewrite map_app, IH. Qed.

Lemma cell_vector_adds c cells v s : good s ->
  adds s (cell_vector c cells v s) none (fun q d => flat_map (fun k => if (k =? q) && (c =? d) then [v] else []) cells).
Proof.
  intros G. unfold cell_vector. destruct (g_vectors _ G) as (vs & H).
  destruct (cells_ids c (next s) cells s (g_wf_cell _ G)) as (A & B & C & D & E & F & I).
  set (s1 := fold_left _ cells s) in *. cbv zeta in *.
  assert (H1 : holds_vectors s1 vs) by (destruct H; split; congruence).
  assert (X : ext s (put v s1)) by (exists vs, [v]; split; [exact H|exact (hv_put _ _ _ H1)]).
  assert (L : look (put v s1) (next s) = Some v) by (eapply look_new; eassumption).
  split.
  - split.
    + exists (vs ++ [v]). exact (hv_put _ _ _ H1).
    + cbn [put on_node]. rewrite D. apply G.
    + cbn [put on_node]. rewrite D. intros p d x J. apply (g_known_node _ G) in J. change (next (put v s1)) with (next s1 + 1). lia.
    + exact A.
    + cbn [put on_cell]. intros p d x. rewrite I, in_app_iff. change (next (put v s1)) with (next s1 + 1). intros [J|J]; [apply (g_known_cell _ G) in J; lia|].
      apply in_flat_map in J as (k & _ & J). destruct ((k =? p) && (c =? d)); [|contradiction]. destruct J as [<-|[]]. rewrite C, (hv_next _ _ H). lia.
  - exact X.
  - intros p d. unfold none. cbn [map put on_node]. rewrite app_nil_r, D. exact (ext_rd s (put v s1) (on_node s) p d X (g_known_node _ G)).
  - intros p d. cbn [put on_cell]. unfold rd at 1. rewrite I, map_app. f_equal.
    + exact (ext_rd s (put v s1) (on_cell s) p d X (g_known_cell _ G)).
    + rewrite !map_flat_map. apply flat_map_ext. intros k. destruct ((k =? p) && (c =? d)); [|reflexivity]. cbn [map]. f_equal. exact L.
  - exact F.
Qed.

(** Nodes: forces of a loading on [q], case [d]. *)
Definition node_load (g : setting) (c : Z) (k : sload) (q d : Z) : list (list R) :=
  match k with
  | SNodal n => node_part g c n q d
  | SDynamic true _ forces => flat_map (fun n => node_part g c n q d) forces
  | _ => []
  end.
Definition on_cells (cells : list Z) (c q d : Z) (v : list R) : list (list R) :=
  flat_map (fun k => if (k =? q) && (c =? d) then [v] else []) cells.
Definition cell_load (g : setting) (c : Z) (k : sload) (q d : Z) : list (list R) :=
  match k with
  | SPressure cells p => if near_zero (tol g) p then [] else on_cells cells c q d [1; 0; 1; 0; 0; 0; 0; 0; p]%R
  | SSurface cells f m =>
    let body := comps3 f ++ (if shell g then comps3 m else []) in
    if near_zero (tol g) (maxabs body) then [] else on_cells cells c q d ([1; 0; 0; 0; 0; 0]%R ++ body)
  | SLine cells e p _ =>
    let l := if shell g then all_dofs else [DX; DY; DZ] in
    if near_zero (tol g) (maxabs (map (unit_of e) l)) then []
    else on_cells cells c q d ([1; 0; 0; 0; 0; 0]%R ++ map (fun x => unit_of e x * p)%R l)
  | _ => []
  end.

Lemma same_adds s s' v : good s -> vectors s' = upd (next s) [] (fun _ => v) (vectors s) -> next s' = next s + 1 ->
  on_node s' = on_node s -> on_cell s' = on_cell s -> fixed s' = fixed s -> adds s s' none none.
Proof.
  intros G E1 E2 E3 E4 E5. destruct (g_vectors _ G) as (vs & H).
  assert (P := hv_put v s vs H).
  assert (P' : holds_vectors s' (vs ++ [v])) by (split; [rewrite E1; exact (hv_vectors _ _ P)|rewrite E2; exact (hv_next _ _ P)]).
  assert (X : ext s s') by (exists vs, [v]; auto).
  split.
  - split; [eexists; exact P'| | | |]; rewrite ?E3, ?E4; try apply G.
    + eapply ext_known; [exact X|apply G].
    + eapply ext_known; [exact X|apply G].
  - exact X.
  - intros p c. unfold none. cbn [map]. rewrite app_nil_r, E3. apply ext_rd; [exact X|apply G].
  - intros p c. unfold none. cbn [map]. rewrite app_nil_r, E4. apply ext_rd; [exact X|apply G].
  - exact E5.
Qed.

Lemma load_vectors_adds g c s k : good s -> adds s (load_vectors g c s k) (node_load g c k) (cell_load g c k).
Proof.
  intros G. destruct k as [n|cells p|a|cells f m|cells e p o|x amp forces|on e|]; unfold load_vectors, node_load, cell_load; cbv zeta.
  - apply nodal_vectors_adds. exact G.
  - destruct (near_zero (tol g) p); [now apply adds_refl|]. apply cell_vector_adds. exact G.
  - destruct (near_zero (tol g) (maxabs (comps3 a))); [now apply adds_refl|].
    destruct (negb _); [now apply adds_refl|]. eapply same_adds; try reflexivity. exact G.
  - cbv zeta. destruct (near_zero _ _); [now apply adds_refl|]. apply cell_vector_adds. exact G.
  - cbv zeta. destruct (near_zero _ _); [now apply adds_refl|]. apply cell_vector_adds. exact G.
  - destruct x; [|now apply adds_refl].
    eapply adds_trans with (s1 := s); [apply adds_refl with (N := none) (C := none); auto|apply adds_fold with (N := fun n => node_part g c n) (C := fun _ => none); [exact G|]|reflexivity|].
    + intros s' n _ G'. now apply nodal_vectors_adds.
    + intros q d. unfold none. cbn [app]. induction forces; auto.
  - now apply adds_refl.
  - now apply adds_refl.
Qed.

(** ** Numbering of the load cases *)
Definition sets_of (a : analysis) : list (option (list sload)) :=
  match an_loads a with [] => [None] | l => map (fun x => Some (snd x)) l end.
Definition case_sets (l : list analysis) : list (analysis * option (list sload)) :=
  flat_map (fun a => map (fun x => (a, x)) (sets_of a)) l.
Definition width (a : analysis) : Z := Z.of_nat (length (sets_of a)).
Fixpoint starts (n : Z) (l : list analysis) : list (Z * analysis) :=
  match l with [] => [] | a :: r => (n, a) :: starts (n + width a) r end.
(** Numbers given to the sets of an analysis from [n]. *)
Definition given (n : Z) (a : analysis) : list (Z * Z) :=
  match an_loads a with [] => [(0, n)] | l => map (fun e => (fst (snd e), fst e)) (number n l) end.

Lemma inner_fold A L : forall n (t : cases) m0, sorted t -> get A t = Some m0 -> sorted m0 -> NoDup (map fst L) -> (forall x, In x (map fst L) -> ~ In x (map fst m0)) ->
  let r := fold_left (fun s (ls : Z * list sload) => (fst s + 1, upd A [] (upd (fst ls) 0 (fun _ => fst s)) (snd s))) L (n, t) in
  fst r = n + Z.of_nat (length L) /\ sorted (snd r) /\ (forall B, B <> A -> get B (snd r) = get B t) /\
  exists m, get A (snd r) = Some m /\ sorted m /\ Permutation m (map (fun e => (fst (snd e), fst e)) (number n L) ++ m0).
Proof.
  induction L as [|ls L IH]; intros n t m0 S G S0 ND D; cbn [fold_left number map length].
  - cbv zeta. cbn [fst snd]. split; [lia|]. split; [exact S|]. split; [auto|]. exists m0. auto.
  - cbn [fst snd map] in *. inversion ND as [|? ? N1 N2]; subst.
    destruct (IH (n + 1) (upd A [] (upd (fst ls) 0 (fun _ => n)) t) (upd (fst ls) 0 (fun _ => n) m0)) as (E1 & E2 & E3 & m & E4 & E5 & E6).
    + now apply upd_sorted.
    + rewrite get_upd, Z.eqb_refl, G by exact S. reflexivity.
    + now apply upd_sorted.
    + exact N2.
    + intros x J K. apply upd_keys in K as [->|K]; [contradiction|]. apply (D x); [now right|exact K].
    + cbv zeta in *. split; [etransitivity; [exact E1|lia]|]. split; [exact E2|]. split.
      * intros B NB. rewrite E3 by exact NB. rewrite get_upd by exact S. destruct (Z.eqb_spec B A); [contradiction|reflexivity].
      * exists m. split; [exact E4|]. split; [exact E5|]. rewrite E6. cbn [app].
        rewrite (upd_new (fst ls) 0 (fun _ => n) m0) by (apply D; now left). symmetry. apply Permutation_middle.
Qed.

Lemma fill_one_spec st a : sorted (snd st) -> NoDup (map fst (an_loads a)) ->
  let r := fill_one st a in
  fst r = fst st + width a /\ sorted (snd r) /\ (forall B, B <> an_id a -> get B (snd r) = get B (snd st)) /\
  exists m, get (an_id a) (snd r) = Some m /\ sorted m /\ Permutation m (given (fst st) a).
Proof.
  intros S ND. unfold fill_one. cbv zeta.
  assert (S0 : sorted (upd (an_id a) [] (fun _ : list (Z * Z) => []) (snd st))) by now apply upd_sorted.
  assert (G0 : get (an_id a) (upd (an_id a) [] (fun _ : list (Z * Z) => []) (snd st)) = Some []) by (rewrite get_upd, Z.eqb_refl by exact S; reflexivity).
  destruct (inner_fold (an_id a) (an_loads a) (fst st) _ [] S0 G0 (SSorted_nil _) ND) as (E1 & E2 & E3 & m & E4 & E5 & E6); [intros x _ []|].
  cbv zeta in *. set (r := fold_left _ (an_loads a) _) in *.
  assert (E3' : forall B, B <> an_id a -> get B (snd r) = get B (snd st)).
  { intros B NB. rewrite E3 by exact NB. rewrite get_upd by exact S. destruct (Z.eqb_spec B (an_id a)); [contradiction|reflexivity]. }
  unfold width, sets_of, given. destruct (an_loads a) as [|x L] eqn:EL.
  - cbn [fst snd length] in *. split; [rewrite E1; cbn; lia|]. split; [now apply upd_sorted|]. split.
    + intros B NB. rewrite get_upd by exact E2. destruct (Z.eqb_spec B (an_id a)); [contradiction|auto].
    + exists (upd 0 0 (fun _ => fst r) m). split; [rewrite get_upd, Z.eqb_refl, E4 by exact E2; reflexivity|]. split; [now apply upd_sorted|].
      cbn [number map app] in E6. apply Permutation_sym, Permutation_nil in E6. subst m. cbn [upd]. rewrite E1. cbn. rewrite Z.add_0_r. reflexivity.
  - cbv iota beta. split; [etransitivity; [exact E1|rewrite map_length; reflexivity]|]. split; [exact E2|]. split; [exact E3'|].
    exists m. split; [exact E4|]. split; [exact E5|]. rewrite E6, app_nil_r. reflexivity.
Qed.

Definition distinct (l : list analysis) : Prop := NoDup (map an_id l) /\ Forall (fun a => NoDup (map fst (an_loads a))) l.

Lemma fill_loads_from l : forall st, sorted (snd st) -> distinct l ->
  let r := fold_left fill_one l st in
  fst r = fst st + Z.of_nat (length (case_sets l)) /\ sorted (snd r) /\ (forall B, ~ In B (map an_id l) -> get B (snd r) = get B (snd st)) /\
  Forall (fun e => exists m, get (an_id (snd e)) (snd r) = Some m /\ sorted m /\ Permutation m (given (fst e) (snd e))) (starts (fst st) l).
Proof.
  induction l as [|a l IH]; intros st S (ND & F); cbn [fold_left starts case_sets flat_map].
  - cbv zeta. split; [unfold case_sets; cbn [flat_map length]; symmetry; apply Z.add_0_r|]. split; [exact S|]. split; [auto|constructor].
  - cbn [map] in ND. inversion ND as [|? ? N1 N2]; subst. inversion F as [|? ? F1 F2]; subst.
    destruct (fill_one_spec st a S F1) as (E1 & E2 & E3 & m & E4 & E5 & E6).
    destruct (IH (fill_one st a) E2 (conj N2 F2)) as (A1 & A2 & A3 & A4). cbv zeta in *.
    split; [etransitivity; [exact A1|]; etransitivity; [exact (f_equal (fun z => z + _) E1)|]; unfold width, case_sets; cbn [flat_map]; rewrite app_length, map_length; rewrite Nat2Z.inj_add; symmetry; apply Z.add_assoc|].
    split; [exact A2|]. split.
    + intros B NB. cbn [map In] in NB. rewrite A3 by tauto. apply E3. intros ->. tauto.
    + constructor.
      * cbn [fst snd]. exists m. rewrite A3 by exact N1. auto.
      * assert (Q : starts (fst (fill_one st a)) l = starts (fst st + width a) l) by (f_equal; exact E1). rewrite <- Q. exact A4.
Qed.

Lemma given_keys n a : NoDup (map fst (an_loads a)) -> NoDup (map fst (given n a)).
Proof.
  intros H. unfold given. destruct (an_loads a) as [|x l] eqn:E; [repeat constructor; intros []|].
  rewrite map_map. cbn [fst]. rewrite <- (map_map snd fst), number_snd. exact H.
Qed.
Lemma given_numbers n a : map snd (given n a) = map fst (number n (sets_of a)).
Proof.
  unfold given, sets_of. destruct (an_loads a) as [|x l] eqn:E; [reflexivity|].
  rewrite map_map. cbn [snd]. rewrite !number_keys, map_length. reflexivity.
Qed.

(** What the table says of the analysis whose cases begin at [n]. *)
Definition told (t : cases) (n : Z) (a : analysis) : Prop :=
  exists m, get (an_id a) t = Some m /\ sorted m /\ Permutation m (given n a).

Lemma fill_loads_told l : distinct l ->
  fst (fill_loads l) = 1 + Z.of_nat (length (case_sets l)) /\ Forall (fun e => told (snd (fill_loads l)) (fst e) (snd e)) (starts 1 l).
Proof.
  intros D. unfold fill_loads. destruct (fill_loads_from l (1, []) (SSorted_nil _) D) as (A & _ & _ & B). exact (conj A B).
Qed.
Lemma told_case t n a k x : told t n a -> NoDup (map fst (an_loads a)) -> In (k, x) (number n (an_loads a)) -> case_of t (an_id a) (fst x) = k.
Proof.
  intros (m & G & S & P) ND J. unfold case_of. rewrite G.
  rewrite (in_get (fst x) k m); [reflexivity|now apply sorted_nodup|].
  eapply Permutation_in; [symmetry; exact P|]. unfold given. destruct (an_loads a) as [|y l]; [contradiction|].
  apply in_map_iff. exists (k, x). auto.
Qed.
Lemma told_cases t n a : told t n a -> NoDup (cases_of t (an_id a)) /\ forall c, In c (cases_of t (an_id a)) <-> n <= c < n + width a.
Proof.
  intros (m & G & S & P). unfold cases_of. rewrite G.
  assert (Q : Permutation (map snd m) (map fst (number n (sets_of a)))) by (rewrite (Permutation_map snd P), given_numbers; reflexivity).
  split; [eapply Permutation_NoDup; [symmetry; exact Q|apply number_nodup]|].
  intros c. split; intros J.
  - apply (Permutation_in _ Q) in J. apply in_map_iff in J as ([k x] & <- & J). apply number_bound in J. exact J.
  - apply (Permutation_in _ (Permutation_sym Q)). rewrite number_keys. apply in_map_iff. exists (Z.to_nat (c - n)).
    split; [lia|]. apply in_seq. unfold width in J. lia.
Qed.

(** ** The loop over the sets *)
Definition loads_of (o : option (list sload)) : list sload := match o with Some l => l | None => [] end.
Definition step (g : setting) (s : sys) (e : Z * (analysis * option (list sload))) : sys :=
  match snd (snd e) with Some loads => fold_left (load_vectors g (fst e)) loads (set_case (fst e) 0 s) | None => s end.

Lemma sets_fold g t a L : forall n s, (forall k x, In (k, x) (number n L) -> case_of t (an_id a) (fst x) = k) ->
  fold_left (set_vectors g t a) L s = fold_left (step g) (number n (map (fun x => (a, Some (snd x))) L)) s.
Proof.
  induction L as [|x L IH]; intros n s H; cbn [fold_left number map]; [reflexivity|].
  rewrite <- (IH (n + 1)).
  - f_equal. unfold set_vectors, step. cbn [fst snd]. now rewrite (H n x) by (cbn [number]; now left).
  - intros k y J. apply H. cbn [number]. now right.
Qed.
Lemma analysis_fold g t n a s : told t n a -> NoDup (map fst (an_loads a)) ->
  fold_left (set_vectors g t a) (an_loads a) s = fold_left (step g) (number n (map (fun x => (a, x)) (sets_of a))) s.
Proof.
  intros T ND. rewrite (sets_fold g t a (an_loads a) n s) by (intros k x; now apply told_case).
  unfold sets_of. destruct (an_loads a) as [|x L]; [reflexivity|]. rewrite map_map. reflexivity.
Qed.
Lemma starts_number l : forall n, flat_map (fun e => number (fst e) (map (fun x => (snd e, x)) (sets_of (snd e)))) (starts n l) = number n (case_sets l).
Proof.
  induction l as [|a l IH]; intros n; cbn [starts flat_map]; [reflexivity|]. cbn [fst snd].
  rewrite IH. change (case_sets (a :: l)) with (map (fun x => (a, x)) (sets_of a) ++ case_sets l). rewrite number_app, map_length. reflexivity.
Qed.
Lemma loading_fold g t l : forall n s, Forall (fun e => told t (fst e) (snd e)) (starts n l) -> Forall (fun a => NoDup (map fst (an_loads a))) l ->
  fold_left (fun s a => fold_left (set_vectors g t a) (an_loads a) s) l s = fold_left (step g) (number n (case_sets l)) s.
Proof.
  intros n. rewrite <- starts_number. revert n.
  induction l as [|a l IH]; intros n s T F; cbn [fold_left starts flat_map]; [reflexivity|].
  cbn [starts] in T. inversion T as [|? ? T1 T2]; subst. inversion F as [|? ? F1 F2]; subst. cbn [fst snd] in *.
  rewrite fold_left_app, <- (analysis_fold g t n a s T1 F1). now apply IH.
Qed.

Lemma case_adds c v s : good s -> adds s (set_case c v s) none none.
Proof.
  intros G. destruct (g_vectors _ G) as (vs & H).
  assert (H' : holds_vectors (set_case c v s) vs) by (destruct H; split; auto).
  assert (X : ext s (set_case c v s)) by (exists vs, []; rewrite app_nil_r; auto).
  split.
  - split; [eexists; exact H'| | | |]; try apply G.
  - exact X.
  - intros p d. unfold none. cbn [map]. now rewrite app_nil_r.
  - intros p d. unfold none. cbn [map]. now rewrite app_nil_r.
  - reflexivity.
Qed.
Lemma step_adds g s e : good s ->
  adds s (step g s e) (fun q d => flat_map (fun k => node_load g (fst e) k q d) (loads_of (snd (snd e))))
                      (fun q d => flat_map (fun k => cell_load g (fst e) k q d) (loads_of (snd (snd e)))).
Proof.
  intros G. unfold step. destruct (snd (snd e)) as [loads|]; [|now apply adds_refl]. cbn [loads_of].
  assert (A := case_adds (fst e) 0 s G).
  eapply adds_trans; [exact A|apply adds_fold; [exact (a_good _ _ _ _ A)|]|reflexivity|reflexivity].
  intros s' k _ G'. now apply load_vectors_adds.
Qed.

(** The contributions without their case. *)
Definition force_at (g : setting) (n : nforce) (q : Z) : list (list R) :=
  flat_map (fun p =>
    (if p =? q then keep g zeros (comps3 (nf_force n p) ++ (if shell g then comps3 (nf_moment n p) else [])) else []) ++
    (if shell g then [] else match rot g p with Some r => if r =? q then keep g zeros (comps3 (nf_moment n p)) else [] | None => [] end)) (nf_on n).
Definition node_says (g : setting) (q : Z) (k : sload) : list (list R) :=
  match k with SNodal n => force_at g n q | SDynamic true _ forces => flat_map (fun n => force_at g n q) forces | _ => [] end.
Definition cell_says (g : setting) (q : Z) (k : sload) : list (list R) := cell_load g 0 k q 0.

Lemma flat_map_nil {A B} (f : A -> list B) l : (forall x, f x = []) -> flat_map f l = [].
Proof. intros H. induction l as [|x l IH]; [reflexivity|]. cbn. now rewrite H. Qed.
Lemma node_part_case g c n q d : node_part g c n q d = if c =? d then force_at g n q else [].
Proof.
  unfold node_part, force_at. destruct (c =? d).
  - apply flat_map_ext. intros p. rewrite andb_true_r. f_equal. destruct (shell g); [reflexivity|]. destruct (rot g p) as [r|]; [|reflexivity]. now rewrite andb_true_r.
  - apply flat_map_nil. intros p. rewrite andb_false_r. destruct (shell g); [reflexivity|]. destruct (rot g p) as [r|]; [|reflexivity]. now rewrite andb_false_r.
Qed.
Lemma node_load_case g c k q d : node_load g c k q d = if c =? d then node_says g q k else [].
Proof.
  destruct k as [n|cells p|a|cells f m|cells e p o|x amp forces|on e|]; unfold node_load, node_says; try (now destruct (c =? d)).
  - apply node_part_case.
  - destruct x; [|now destruct (c =? d)]. destruct (c =? d) eqn:E.
    + apply flat_map_ext. intros n. now rewrite node_part_case, E.
    + apply flat_map_nil. intros n. now rewrite node_part_case, E.
Qed.
Lemma on_cells_case cells c q d v : on_cells cells c q d v = if c =? d then on_cells cells 0 q 0 v else [].
Proof.
  unfold on_cells. destruct (c =? d).
  - apply flat_map_ext. intros k. now rewrite !andb_true_r.
  - apply flat_map_nil. intros k. now rewrite andb_false_r.
Qed.
Lemma cell_load_case g c k q d : cell_load g c k q d = if c =? d then cell_says g q k else [].
Proof.
  destruct k as [n|cells p|a|cells f m|cells e p o|x amp forces|on e|]; unfold cell_load, cell_says; try (now destruct (c =? d)); cbv zeta; unfold cell_load; cbv zeta;
    (destruct (near_zero _ _); [now destruct (c =? d)|apply on_cells_case]).
Qed.

Lemma pick {A B} (h : A -> list B) (L : list A) : forall i d, i <= d ->
  flat_map (fun e : Z * A => if fst e =? d then h (snd e) else []) (number i L) = match nth_error L (Z.to_nat (d - i)) with Some x => h x | None => [] end.
Proof.
  induction L as [|x L IH]; intros i d H; cbn [number flat_map fst snd]; [now destruct (Z.to_nat (d - i))|].
  destruct (Z.eqb_spec i d) as [E|E].
  - subst. rewrite Z.sub_diag. cbn [Z.to_nat nth_error].
    rewrite <- (app_nil_r (h x)) at 2. f_equal.
    assert (G : forall (l : list A) j, d < j -> flat_map (fun e : Z * A => if fst e =? d then h (snd e) else []) (number j l) = []).
    { clear. induction l as [|y l IH]; intros j H; cbn [number flat_map fst snd]; [reflexivity|].
      destruct (Z.eqb_spec j d); [lia|]. apply IH. lia. }
    apply G. lia.
  - cbn [app]. rewrite IH by lia. replace (Z.to_nat (d - i)) with (S (Z.to_nat (d - (i + 1)))) by lia. reflexivity.
Qed.

Lemma flat_map_if {A B} (b : bool) (f : A -> list B) l : flat_map (fun x => if b then f x else []) l = if b then flat_map f l else [].
Proof. destruct b; [reflexivity|]. now apply flat_map_nil. Qed.

(** ** State after the loadings *)
Lemma no_sys_good : good no_sys.
Proof.
  split.
  - exists []. split; reflexivity.
  - exact wf_nil.
  - intros p c v [].
  - exact wf_nil.
  - intros p c v [].
Qed.
Lemma restart_no : restart no_sys = no_sys.
Proof. reflexivity. Qed.

(** Loads of case [i + 1]. *)
Definition case_loads (l : list analysis) (i : nat) : list sload :=
  match nth_error (case_sets l) i with Some (_, Some loads) => loads | _ => [] end.

Lemma loading_reads g l s : distinct l -> s = loading_vectors g (snd (fill_loads l)) l no_sys ->
  good s /\ fixed s = [] /\
  (forall q i, rd s (on_node s) q (Z.of_nat i + 1) = map Some (flat_map (node_says g q) (case_loads l i))) /\
  (forall q i, rd s (on_cell s) q (Z.of_nat i + 1) = map Some (flat_map (cell_says g q) (case_loads l i))).
Proof.
  intros D ->. destruct (fill_loads_told l D) as (_ & T). unfold loading_vectors. rewrite restart_no.
  rewrite (loading_fold g _ l 1 no_sys T (proj2 D)).
  assert (A := adds_fold (step g) _ _ (number 1 (case_sets l)) no_sys no_sys_good (fun s e _ G => step_adds g s e G)).
  split; [exact (a_good _ _ _ _ A)|]. split; [exact (a_fixed _ _ _ _ A)|].
  assert (N : forall i, Z.to_nat (Z.of_nat i + 1 - 1) = i) by (intros; lia).
  split; intros q i.
  - rewrite (a_node _ _ _ _ A). cbn [no_sys on_node rd ids get map app]. f_equal.
    transitivity (flat_map (fun e : Z * (analysis * option (list sload)) => if fst e =? Z.of_nat i + 1 then flat_map (node_says g q) (loads_of (snd (snd e))) else []) (number 1 (case_sets l))).
    + apply flat_map_ext. intros e. rewrite <- flat_map_if. apply flat_map_ext. intros k. apply node_load_case.
    + rewrite (pick (fun x : analysis * option (list sload) => flat_map (node_says g q) (loads_of (snd x)))) by lia. rewrite N. unfold case_loads.
      destruct (nth_error (case_sets l) i) as [[a [x|]]|]; reflexivity.
  - rewrite (a_cell _ _ _ _ A). cbn [no_sys on_cell rd ids get map app]. f_equal.
    transitivity (flat_map (fun e : Z * (analysis * option (list sload)) => if fst e =? Z.of_nat i + 1 then flat_map (cell_says g q) (loads_of (snd (snd e))) else []) (number 1 (case_sets l))).
    + apply flat_map_ext. intros e. rewrite <- flat_map_if. apply flat_map_ext. intros k. apply cell_load_case.
    + rewrite (pick (fun x : analysis * option (list sload) => flat_map (cell_says g q) (loads_of (snd x)))) by lia. rewrite N. unfold case_loads.
      destruct (nth_error (case_sets l) i) as [[a [x|]]|]; reflexivity.
Qed.

(** ** Accelerations *)
Definition cz (s : sys) (d : Z) : Z := or0 (get d (on_case s)).
Definition gr (s : sys) (d : Z) : list (option (list R)) := if cz s d =? 0 then [] else [look s (cz s d)].
Record good_c (s : sys) : Prop := GoodC {
  gc_vectors : exists vs, holds_vectors s vs;
  gc_sorted : sorted (on_case s); gc_known : forall d, cz s d <> 0 -> 1 <= cz s d < next s }.
Record adds_c (s s' : sys) (G : Z -> list (list R)) : Prop := AddsC {
  ac_good : good_c s'; ac_ext : ext s s';
  ac_case : forall d, gr s' d = firstn 1 (gr s d ++ map Some (G d)) }.

Lemma gr_short s d : firstn 1 (gr s d) = gr s d.
Proof. unfold gr. now destruct (cz s d =? 0). Qed.
Lemma firstn_twice {A} (a b c : list A) : firstn 1 (firstn 1 (a ++ b) ++ c) = firstn 1 (a ++ b ++ c).
Proof. destruct a; [|reflexivity]. destruct b; reflexivity. Qed.

Lemma ext_gr s s' d : good_c s -> ext s s' -> on_case s' = on_case s -> gr s' d = gr s d.
Proof.
  intros G X E. unfold gr, cz. rewrite E. fold (cz s d). destruct (Z.eqb_spec (cz s d) 0) as [Z|Z]; [reflexivity|].
  f_equal. apply ext_look; [exact X|]. now apply (gc_known _ G).
Qed.
Lemma ext_good_c s s' : good_c s -> ext s s' -> on_case s' = on_case s -> good_c s'.
Proof.
  intros G X E. split.
  - destruct X as (vs & ws & _ & H). eexists; exact H.
  - rewrite E. apply G.
  - intros d. unfold cz. rewrite E. intros N. apply (gc_known _ G) in N. apply ext_next in X. unfold cz in N. lia.
Qed.
Lemma ext_adds_c s s' G : good_c s -> ext s s' -> on_case s' = on_case s -> (forall d, G d = []) -> adds_c s s' G.
Proof.
  intros C X E N. split; [eapply ext_good_c; eassumption|exact X|].
  intros d. rewrite N. cbn [map]. rewrite app_nil_r, gr_short. now apply ext_gr.
Qed.
Lemma adds_c_trans s s1 s2 G1 G2 G : adds_c s s1 G1 -> adds_c s1 s2 G2 -> (forall d, G d = G1 d ++ G2 d) -> adds_c s s2 G.
Proof.
  intros A B E. split; [apply B|eapply ext_trans; [apply A|apply B]|].
  intros d. rewrite (ac_case _ _ _ B), (ac_case _ _ _ A), E, map_app, app_assoc. rewrite <- app_assoc. apply firstn_twice.
Qed.
Lemma adds_c_fold {B} (f : sys -> B -> sys) (G : B -> Z -> list (list R)) l s :
  good_c s -> good s -> (forall s b, In b l -> good_c s -> good s -> good (f s b) /\ adds_c s (f s b) (G b)) ->
  adds_c s (fold_left f l s) (fun d => flat_map (fun b => G b d) l).
Proof.
  revert s. induction l as [|b l IH]; intros s C D H; cbn [fold_left flat_map].
  - apply ext_adds_c; auto. destruct (g_vectors _ D) as (vs & HV). eapply ext_refl; eassumption.
  - destruct (H s b (or_introl eq_refl) C D) as (D' & A).
    eapply adds_c_trans; [exact A|apply IH; [apply A|exact D'|]|reflexivity].
    intros s' b' J. apply H. now right.
Qed.

Lemma nodal_case g c n s : on_case (nodal_vectors g c n s) = on_case s.
Proof.
  unfold nodal_vectors. generalize (nf_on n). intros l. revert s. induction l as [|p l IH]; intros s; cbn [fold_left]; [reflexivity|].
  rewrite IH. clear IH. cbv zeta.
  assert (E : forall p b s, on_case (node_vector g c p b s) = on_case s) by (intros p' b s'; unfold node_vector; now destruct (near_zero _ _)).
  destruct (shell g); [apply E|]. destruct (rot g p); rewrite !E; reflexivity.
Qed.
Lemma cell_case c cells v s : on_case (cell_vector c cells v s) = on_case s.
Proof.
  unfold cell_vector. cbn [put on_case]. generalize (next s). intros n. revert s.
  induction cells as [|k l IH]; intros s; cbn [fold_left]; [reflexivity|]. rewrite IH. reflexivity.
Qed.

Definition weight (a : vec) : list R := [6; 0; 0; 0; 0; 0; vx a; 0; vy a; 0; vz a]%R.
Definition case_says (g : setting) (k : sload) : list (list R) :=
  match k with SGravity a => if near_zero (tol g) (maxabs (comps3 a)) then [] else [weight a] | _ => [] end.

Lemma load_case g c s k : good_c s -> good s -> adds_c s (load_vectors g c s k) (fun d => if c =? d then case_says g k else []).
Proof.
  intros C G. assert (A := load_vectors_adds g c s k G).
  assert (X := a_ext _ _ _ _ A). clear A.
  destruct k as [n|cells p|a|cells f m|cells e p o|x amp forces|on e|]; unfold load_vectors, case_says in *; cbv zeta in *.
  - apply ext_adds_c; [exact C|exact X|apply nodal_case|intros d; now destruct (c =? d)].
  - apply ext_adds_c; [exact C|exact X| |intros d; now destruct (c =? d)]. destruct (near_zero _ _); [reflexivity|apply cell_case].
  - destruct (near_zero (tol g) (maxabs (comps3 a))); [apply ext_adds_c; [exact C|exact X|reflexivity|intros d; now destruct (c =? d)]|].
    change (match get c (on_case s) with Some v => v | None => 0 end) with (cz s c) in *.
    destruct (Z.eqb_spec (cz s c) 0) as [Z|Z]; cbn [negb] in *.
    + destruct (g_vectors _ G) as (vs & H). fold (weight a) in *.
      assert (L : look (put (weight a) s) (next s) = Some (weight a)) by (eapply look_new; [exact H|reflexivity|reflexivity]).
      assert (CZ : forall d, cz (set_case c (next s) (put (weight a) s)) d = if d =? c then next s else cz s d).
      { intros d. unfold cz. cbn [set_case on_case]. rewrite get_upd by apply C. cbn [put on_case]. destruct (d =? c); reflexivity. }
      assert (N : next s = 1 + Z.of_nat (length vs)) by apply H.
      split.
      * split.
        -- destruct X as (? & ? & _ & HX). eexists; exact HX.
        -- apply upd_sorted. apply C.
        -- intros d. rewrite CZ. cbn [set_case put next]. destruct (d =? c); [lia|]. intros K. apply (gc_known _ C) in K. lia.
      * exact X.
      * intros d. unfold gr. rewrite CZ. rewrite (Z.eqb_sym c d). destruct (Z.eqb_spec d c) as [E|E].
        -- subst d. rewrite Z. cbn [Z.eqb app firstn map]. destruct (Z.eqb_spec (next s) 0) as [E0|E0]; [lia|]. f_equal. exact L.
        -- cbn [map]. rewrite app_nil_r. destruct (Z.eqb_spec (cz s d) 0) as [E0|E0]; [reflexivity|]. cbn [firstn].
           f_equal. apply (ext_look s _ _ X). now apply (gc_known _ C).
    + split; [exact C|exact X|]. intros d. destruct (Z.eqb_spec c d) as [E|E].
      * subst d. unfold gr. destruct (Z.eqb_spec (cz s c) 0); [contradiction|reflexivity].
      * cbn [map]. now rewrite app_nil_r, gr_short.
  - apply ext_adds_c; [exact C|exact X| |intros d; now destruct (c =? d)]. destruct (near_zero _ _); [reflexivity|apply cell_case].
  - apply ext_adds_c; [exact C|exact X| |intros d; now destruct (c =? d)]. destruct (near_zero _ _); [reflexivity|apply cell_case].
  - apply ext_adds_c; [exact C|exact X| |intros d; now destruct (c =? d)]. destruct x; [|reflexivity].
    clear. revert s. induction forces as [|n l IH]; intros s; cbn [fold_left]; [reflexivity|]. now rewrite IH, nodal_case.
  - apply ext_adds_c; [exact C|exact X|reflexivity|intros d; now destruct (c =? d)].
  - apply ext_adds_c; [exact C|exact X|reflexivity|intros d; now destruct (c =? d)].
Qed.

(** The sets come with cases not met before. *)
Lemma set_case_adds c s : good_c s -> gr s c = [] -> adds_c s (set_case c 0 s) (fun _ => []).
Proof.
  intros C Z. destruct (gc_vectors _ C) as (vs & H).
  assert (X : ext s (set_case c 0 s)) by (exists vs, []; rewrite app_nil_r; split; [exact H|destruct H; split; auto]).
  assert (CZ : forall d, cz (set_case c 0 s) d = if d =? c then 0 else cz s d).
  { intros d. unfold cz. cbn [set_case on_case]. rewrite get_upd by apply C. destruct (d =? c); reflexivity. }
  split.
  - split; [eexists; destruct H; split; eauto|apply upd_sorted; apply C|].
    intros d. rewrite CZ. destruct (d =? c); [tauto|]. apply (gc_known _ C).
  - exact X.
  - intros d. cbn [map]. rewrite app_nil_r, gr_short. unfold gr. rewrite CZ. destruct (Z.eqb_spec d c) as [E|E]; [|reflexivity].
    subst d. unfold gr in Z. rewrite Z.eqb_refl. now rewrite Z.
Qed.
Lemma step_case g s e : good_c s -> good s -> gr s (fst e) = [] ->
  adds_c s (step g s e) (fun d => if fst e =? d then flat_map (case_says g) (loads_of (snd (snd e))) else []).
Proof.
  intros C G Z. unfold step. destruct (snd (snd e)) as [loads|]; cbn [loads_of].
  - assert (A := set_case_adds (fst e) s C Z). assert (B := case_adds (fst e) 0 s G).
    eapply adds_c_trans; [exact A|apply adds_c_fold with (G := fun k d => if fst e =? d then case_says g k else []); [apply A|apply B|]|].
    + intros s' k _ C' G'. split; [exact (a_good _ _ _ _ (load_vectors_adds g _ _ k G'))|now apply load_case].
    + intros d. cbn [app]. symmetry. apply flat_map_if.
  - apply ext_adds_c; [exact C| |reflexivity|intros d; cbn; now destruct (fst e =? d)].
    destruct (g_vectors _ G) as (vs & H). eapply ext_refl; eassumption.
Qed.
Lemma steps_case g L : forall n s, good_c s -> good s -> (forall d, n <= d -> gr s d = []) ->
  adds_c s (fold_left (step g) (number n L) s)
    (fun d => flat_map (fun e : Z * (analysis * option (list sload)) => if fst e =? d then flat_map (case_says g) (loads_of (snd (snd e))) else []) (number n L)).
Proof.
  induction L as [|x L IH]; intros n s C G Z; cbn [number fold_left flat_map].
  - apply ext_adds_c; [exact C| |reflexivity|reflexivity]. destruct (g_vectors _ G) as (vs & H). eapply ext_refl; eassumption.
  - assert (A := step_case g s (n, x) C G (Z n ltac:(cbn [fst]; lia))).
    assert (B := step_adds g s (n, x) G).
    eapply adds_c_trans; [exact A|apply IH; [apply A|apply B|]|reflexivity].
    intros d H. rewrite (ac_case _ _ _ A), (Z d) by lia. cbn [fst snd app].
    destruct (Z.eqb_spec n d); [lia|reflexivity].
Qed.

Lemma loading_cases g l s : distinct l -> s = loading_vectors g (snd (fill_loads l)) l no_sys ->
  good_c s /\ forall i, gr s (Z.of_nat i + 1) = map Some (firstn 1 (flat_map (case_says g) (case_loads l i))).
Proof.
  intros D ->. destruct (fill_loads_told l D) as (_ & T). unfold loading_vectors. rewrite restart_no.
  rewrite (loading_fold g _ l 1 no_sys T (proj2 D)).
  assert (C : good_c no_sys).
  { split; [exists []; split; reflexivity|constructor|]. intros d N. exfalso. apply N. reflexivity. }
  assert (A := steps_case g (case_sets l) 1 no_sys C no_sys_good (fun d _ => eq_refl)).
  split; [apply A|]. intros i. rewrite (ac_case _ _ _ A). change (gr no_sys (Z.of_nat i + 1)) with (@nil (option (list R))). cbn [app].
  rewrite (pick (fun x : analysis * option (list sload) => flat_map (case_says g) (loads_of (snd x)))) by lia.
  replace (Z.to_nat (Z.of_nat i + 1 - 1)) with i by lia. rewrite firstn_map. unfold case_loads.
  destruct (nth_error (case_sets l) i) as [[a [x|]]|]; reflexivity.
Qed.

(** ** Displacements *)
(** What a step on displacements leaves. *)
Record keeps (s s' : sys) : Prop := Keeps {
  k_ext : ext s s'; k_node : on_node s' = on_node s; k_cell : on_cell s' = on_cell s; k_case : on_case s' = on_case s }.
Lemma keeps_refl s vs : holds_vectors s vs -> keeps s s.
Proof. intros H. split; auto. eapply ext_refl; eassumption. Qed.
Lemma keeps_trans s s1 s2 : keeps s s1 -> keeps s1 s2 -> keeps s s2.
Proof. intros [A B C D] [A' B' C' D']. split; try congruence. eapply ext_trans; eassumption. Qed.
Lemma ext_hv s s' : ext s s' -> exists vs, holds_vectors s' vs.
Proof. intros (vs & ws & _ & H). eauto. Qed.
Lemma keeps_fold {B} (f : sys -> B -> sys) l : (forall s b, In b l -> (exists vs, holds_vectors s vs) -> keeps s (f s b)) ->
  forall s, (exists vs, holds_vectors s vs) -> keeps s (fold_left f l s).
Proof.
  induction l as [|b l IH]; intros H s (vs & V); cbn [fold_left]; [eapply keeps_refl; eassumption|].
  assert (K := H s b (or_introl eq_refl) (ex_intro _ vs V)).
  eapply keeps_trans; [exact K|apply IH; [intros s' b' J; apply H; now right|eapply ext_hv; apply K]].
Qed.
Lemma keeps_push p c v s : (exists vs, holds_vectors s vs) -> keeps s (push_fixed p c v s).
Proof. intros (vs & H). split; try reflexivity. exists vs, []. rewrite app_nil_r. split; [exact H|destruct H; split; auto]. Qed.
Lemma keeps_put v s : (exists vs, holds_vectors s vs) -> keeps s (put v s).
Proof. intros (vs & H). split; try reflexivity. exists vs, [v]. split; [exact H|now apply hv_put]. Qed.
Lemma fixed_vector_keeps g cs on body s : (exists vs, holds_vectors s vs) -> keeps s (fixed_vector g cs on body s).
Proof.
  intros H. unfold fixed_vector. destruct (near_zero _ _); [destruct H; eapply keeps_refl; eassumption|].
  assert (K : keeps s (fold_left (fun s1 c => fold_left (fun s2 p => push_fixed p c (next s) s2) on s1) cs s)).
  { apply keeps_fold; [|exact H]. intros s1 c _ H1. apply keeps_fold; [|exact H1]. intros s2 p _ H2. now apply keeps_push. }
  eapply keeps_trans; [exact K|]. apply keeps_put. eapply ext_hv. apply K.
Qed.
Lemma rotation_vector_keeps g cs on body s : (exists vs, holds_vectors s vs) -> keeps s (rotation_vector g cs on body s).
Proof.
  intros H. unfold rotation_vector. destruct (near_zero _ _); [destruct H; eapply keeps_refl; eassumption|].
  assert (G : forall b s, (exists vs, holds_vectors s vs) -> keeps s (fst (fold_left (fun (st : sys * bool) p =>
    match rot g p with
    | None => st
    | Some r =>
      let s1 := fold_left (fun s1 c => push_fixed r c (next (fst st)) s1) cs (fst st) in
      if snd st then (put (four ++ body) s1, false) else (s1, false)
    end) on (s, b)))).
  { clear s H. induction on as [|p l IH]; intros b s H; cbn [fold_left fst]; [destruct H; eapply keeps_refl; eassumption|].
    destruct (rot g p) as [r|]; [|now apply IH]. cbv zeta. cbn [fst snd].
    assert (K : keeps s (fold_left (fun s1 c => push_fixed r c (next s) s1) cs s)).
    { apply keeps_fold; [|exact H]. intros s2 c _ H2. now apply keeps_push. }
    assert (V := ext_hv _ _ (k_ext _ _ K)).
    destruct b.
    - assert (K2 := keeps_put (four ++ body) _ V). eapply keeps_trans; [exact K|]. eapply keeps_trans; [exact K2|]. apply IH. eapply ext_hv. apply K2.
    - eapply keeps_trans; [exact K|]. now apply IH. }
  now apply G.
Qed.
Lemma fix_vectors_keeps g cs on val s : (exists vs, holds_vectors s vs) -> keeps s (fix_vectors g cs on val s).
Proof.
  intros H. unfold fix_vectors. cbv zeta. assert (K := fixed_vector_keeps g cs on (map val (available g)) s H).
  destruct (shell g); [exact K|]. eapply keeps_trans; [exact K|]. apply rotation_vector_keeps. eapply ext_hv. apply K.
Qed.
Lemma constraint_keeps g t l s : (exists vs, holds_vectors s vs) -> keeps s (constraint_vectors g t l s).
Proof.
  intros H. unfold constraint_vectors. cbv zeta. destruct H as (vs & H). rewrite (hv_restart _ _ H).
  assert (K : keeps s (fold_left (fun s a => fold_left (spc_vectors g (cases_of t (an_id a))) (an_spcs a) s) l s)).
  { apply keeps_fold; [|eauto]. intros s1 a _ H1. apply keeps_fold; [|exact H1]. intros s2 x _ H2. unfold spc_vectors.
    destruct (spc_has_references _); [destruct H2; eapply keeps_refl; eassumption|now apply fix_vectors_keeps]. }
  eapply keeps_trans; [exact K|]. apply keeps_fold; [|eapply ext_hv; apply K].
  intros s1 a _ H1. apply keeps_fold; [|exact H1]. intros s2 x _ H2. apply keeps_fold; [|exact H2]. intros s3 k _ H3.
  unfold imposed_vectors. destruct k; try (destruct H3; eapply keeps_refl; eassumption). now apply fix_vectors_keeps.
Qed.

Record good_f (s : sys) : Prop := GoodF {
  gf_vectors : exists vs, holds_vectors s vs; gf_wf : wf (fixed s); gf_known : known s (fixed s) }.
Record adds_f (s s' : sys) (F : Z -> Z -> list (list R)) : Prop := AddsF {
  af_good : good_f s'; af_ext : ext s s';
  af_read : forall q d, rd s' (fixed s') q d = rd s (fixed s) q d ++ map Some (F q d) }.
Lemma adds_f_refl s F : good_f s -> (forall q d, F q d = []) -> adds_f s s F.
Proof.
  intros G E. split; [exact G| |]; [destruct (gf_vectors _ G) as (vs & H); eapply ext_refl; eassumption|].
  intros q d. rewrite E. now rewrite app_nil_r.
Qed.
Lemma adds_f_trans s s1 s2 F1 F2 F : adds_f s s1 F1 -> adds_f s1 s2 F2 -> (forall q d, F q d = F1 q d ++ F2 q d) -> adds_f s s2 F.
Proof.
  intros A B E. split; [apply B|eapply ext_trans; [apply A|apply B]|].
  intros q d. rewrite (af_read _ _ _ B), (af_read _ _ _ A), E, map_app. now rewrite app_assoc.
Qed.
Lemma adds_f_fold {B} (f : sys -> B -> sys) (F : B -> Z -> Z -> list (list R)) l :
  (forall s b, In b l -> good_f s -> adds_f s (f s b) (F b)) -> forall s, good_f s ->
  adds_f s (fold_left f l s) (fun q d => flat_map (fun b => F b q d) l).
Proof.
  induction l as [|b l IH]; intros H s G; cbn [fold_left flat_map]; [now apply adds_f_refl|].
  assert (A := H s b (or_introl eq_refl) G).
  eapply adds_f_trans; [exact A|apply IH; [intros s' b' J; apply H; now right|apply A]|reflexivity].
Qed.

(** Pushing the number [v] for several places. *)
Record pushed (v : Z) (s s' : sys) (H : Z -> Z -> list Z) : Prop := Pushed {
  pu_vectors : vectors s' = vectors s; pu_next : next s' = next s; pu_wf : wf (fixed s');
  pu_ids : forall q d, ids (fixed s') q d = ids (fixed s) q d ++ H q d }.
Lemma pushed_fold {B} v (f : sys -> B -> sys) (H : B -> Z -> Z -> list Z) l :
  (forall s b, wf (fixed s) -> pushed v s (f s b) (H b)) -> forall s, wf (fixed s) ->
  pushed v s (fold_left f l s) (fun q d => flat_map (fun b => H b q d) l).
Proof.
  intros S. induction l as [|b l IH]; intros s W; cbn [fold_left flat_map].
  - split; auto. intros q d. now rewrite app_nil_r.
  - destruct (S s b W) as [A1 A2 A3 A4]. destruct (IH (f s b) A3) as [B1 B2 B3 B4].
    split; [congruence|congruence|exact B3|]. intros q d. rewrite B4, A4. now rewrite app_assoc.
Qed.
Lemma pushed_one v p c s : wf (fixed s) -> pushed v s (push_fixed p c v s) (fun q d => if (p =? q) && (c =? d) then [v] else []).
Proof. intros W. split; try reflexivity; [now apply wf_push|]. intros q d. now apply ids_push. Qed.

Lemma put_pushed v s s1 H : good_f s -> pushed (next s) s s1 H -> (forall q d x, In x (H q d) -> x = next s) ->
  adds_f s (put v s1) (fun q d => map (fun _ => v) (H q d)).
Proof.
  intros G [P1 P2 P3 P4] E. destruct (gf_vectors _ G) as (vs & HV).
  assert (H1 : holds_vectors s1 vs) by (destruct HV; split; congruence).
  assert (X : ext s (put v s1)) by (exists vs, [v]; split; [exact HV|exact (hv_put _ _ _ H1)]).
  assert (L : look (put v s1) (next s) = Some v) by (eapply look_new; eassumption).
  split.
  - split; [exists (vs ++ [v]); exact (hv_put _ _ _ H1)|exact P3|].
    intros q d x. cbn [put fixed]. rewrite P4, in_app_iff. change (next (put v s1)) with (next s1 + 1). rewrite P2.
    intros [J|J]; [apply (gf_known _ G) in J; lia|]. apply E in J. subst x. rewrite (hv_next _ _ HV). lia.
  - exact X.
  - intros q d. cbn [put fixed]. unfold rd at 1. rewrite P4, map_app. f_equal.
    + exact (ext_rd s (put v s1) (fixed s) q d X (gf_known _ G)).
    + rewrite map_map. apply map_ext_in. intros x J. apply E in J. now subst x.
Qed.

Definition inb (d : Z) (cs : list Z) : bool := existsb (Z.eqb d) cs.
Lemma inb_iff d cs : inb d cs = true <-> In d cs.
Proof. unfold inb. rewrite existsb_exists. split; [intros (x & J & E); apply Z.eqb_eq in E; now subst|]. intros J. exists d. split; [exact J|apply Z.eqb_refl]. Qed.
Lemma once {B} (d : Z) cs (h : list B) : NoDup cs -> flat_map (fun c => if c =? d then h else []) cs = if inb d cs then h else [].
Proof.
  induction cs as [|c cs IH]; intros ND; [reflexivity|]. inversion ND as [|? ? N1 N2]; subst. cbn [flat_map]. unfold inb. cbn [existsb]. rewrite IH by exact N2.
  rewrite (Z.eqb_sym d c). destruct (Z.eqb_spec c d) as [E|E]; cbn [orb]; [|reflexivity].
  subst d. destruct (inb c cs) eqn:K; [apply inb_iff in K; contradiction|]. now rewrite app_nil_r.
Qed.

Lemma fixed_vector_adds g cs on body s : NoDup cs -> good_f s ->
  adds_f s (fixed_vector g cs on body s) (fun q d => if inb d cs then flat_map (fun p => if p =? q then keep g four body else []) on else []).
Proof.
  intros ND G. unfold fixed_vector, keep. destruct (near_zero (tol g) (maxabs body)).
  - apply adds_f_refl; [exact G|]. intros q d. destruct (inb d cs); [|reflexivity]. apply flat_map_nil. intros p. now destruct (p =? q).
  - eapply adds_f_trans with (s1 := s); [apply adds_f_refl with (F := none); [exact G|reflexivity]| |].
    + apply put_pushed with (H := fun q d => flat_map (fun c => flat_map (fun p => if (p =? q) && (c =? d) then [next s] else []) on) cs); [exact G| |].
      * apply pushed_fold with (H := fun c q d => flat_map (fun p => if (p =? q) && (c =? d) then [next s] else []) on); [|apply G].
        intros s1 c W. apply pushed_fold with (H := fun p q d => if (p =? q) && (c =? d) then [next s] else []); [|exact W].
        intros s2 p W2. now apply pushed_one.
      * intros q d x J. apply in_flat_map in J as (c & _ & J). apply in_flat_map in J as (p & _ & J).
        destruct ((p =? q) && (c =? d)); [destruct J as [J|[]]; now symmetry|contradiction].
    + intros q d. unfold none. cbn [app]. rewrite map_flat_map.
      rewrite <- (once d cs _ ND). apply flat_map_ext. intros c. rewrite map_flat_map.
      destruct (c =? d).
      * apply flat_map_ext. intros p. rewrite andb_true_r. now destruct (p =? q).
      * symmetry. apply flat_map_nil. intros p. now rewrite andb_false_r.
Qed.

(** At most one node of the list has a rotation node. *)
Definition hasrot (g : setting) (p : Z) : bool := match rot g p with Some _ => true | None => false end.
Definition single (g : setting) (on : list Z) : Prop := (length (filter (hasrot g) on) <= 1)%nat.
Definition rot_says (g : setting) (body : list R) (on : list Z) (q : Z) : list (list R) :=
  flat_map (fun p => match rot g p with Some r => if r =? q then keep g four body else [] | None => [] end) on.

Lemma rotation_vector_adds g cs on body s : NoDup cs -> single g on -> good_f s ->
  adds_f s (rotation_vector g cs on body s) (fun q d => if inb d cs then rot_says g body on q else []).
Proof.
  intros ND U G. unfold rotation_vector, rot_says, keep. destruct (near_zero (tol g) (maxabs body)).
  - apply adds_f_refl; [exact G|]. intros q d. destruct (inb d cs); [|reflexivity]. apply flat_map_nil. intros p. destruct (rot g p) as [r|]; [|reflexivity]. now destruct (r =? q).
  - unfold single in U. revert s G. induction on as [|p l IH]; intros s G; cbn [fold_left fst].
    + apply adds_f_refl; [exact G|]. intros q d. now destruct (inb d cs).
    + cbn [filter] in U. unfold hasrot at 1 in U. cbn [flat_map]. destruct (rot g p) as [r|].
      * cbv zeta. cbn [fst snd].
        assert (ZF : filter (hasrot g) l = []) by (cbn [length] in U; destruct (filter (hasrot g) l); [reflexivity|cbn in U; lia]).
        assert (NR : forall x, In x l -> rot g x = None).
        { intros x J. destruct (rot g x) as [y|] eqn:E; [|reflexivity]. exfalso.
          assert (K : In x (filter (hasrot g) l)) by (apply filter_In; unfold hasrot; rewrite E; auto). rewrite ZF in K. exact K. }
        assert (FE : forall st : sys * bool, fold_left (fun (st : sys * bool) p =>
           match rot g p with
           | None => st
           | Some r =>
             let s1 := fold_left (fun s1 c => push_fixed r c (next (fst st)) s1) cs (fst st) in
             if snd st then (put (four ++ body) s1, false) else (s1, false)
           end) l st = st).
        { clear - NR. induction l as [|x l IH]; intros st; cbn [fold_left]; [reflexivity|]. rewrite (NR x) by now left. apply IH. intros y J. apply NR. now right. }
        cbv zeta in FE. rewrite FE. cbn [fst].
        eapply adds_f_trans with (s1 := s); [apply adds_f_refl with (F := none); [exact G|reflexivity]| |].
        -- apply put_pushed with (H := fun q d => flat_map (fun c => if (r =? q) && (c =? d) then [next s] else []) cs); [exact G| |].
           ++ apply pushed_fold with (H := fun c q d => if (r =? q) && (c =? d) then [next s] else []); [|apply G].
              intros s2 c W2. now apply pushed_one.
           ++ intros q d x J. apply in_flat_map in J as (c & _ & J).
              destruct ((r =? q) && (c =? d)); [destruct J as [J|[]]; now symmetry|contradiction].
        -- intros q d. unfold none. cbn [app].
           assert (E : flat_map (fun p : Z => match rot g p with Some r => if r =? q then [four ++ body] else [] | None => [] end) l = []).
           { clear - NR. induction l as [|x l IH]; cbn [flat_map]; [reflexivity|]. rewrite (NR x) by now left. apply IH. intros y J. apply NR. now right. }
           rewrite E, app_nil_r, map_flat_map. rewrite <- (once d cs _ ND). apply flat_map_ext. intros c.
           destruct (r =? q), (c =? d); reflexivity.
      * apply IH; assumption.
Qed.

Definition fix_says (g : setting) (on : list Z) (val : dof -> R) (q : Z) : list (list R) :=
  flat_map (fun p => if p =? q then keep g four (map val (available g)) else []) on ++
  (if shell g then [] else rot_says g (map val [RX; RY; RZ]) on q).
Lemma fix_vectors_adds g cs on val s : NoDup cs -> (shell g = false -> single g on) -> good_f s ->
  adds_f s (fix_vectors g cs on val s) (fun q d => if inb d cs then fix_says g on val q else []).
Proof.
  intros ND U G. unfold fix_vectors, fix_says. cbv zeta.
  assert (A := fixed_vector_adds g cs on (map val (available g)) s ND G).
  destruct (shell g).
  - eapply adds_f_trans; [exact A|apply adds_f_refl with (F := none); [apply A|reflexivity]|]. intros q d. unfold none. destruct (inb d cs); [|reflexivity]. reflexivity.
  - eapply adds_f_trans; [exact A|apply rotation_vector_adds; [exact ND|now apply U|apply A]|].
    intros q d. cbv beta. now destruct (inb d cs).
Qed.

Definition spc_says (g : setting) (q : Z) (x : sspc) : list (list R) :=
  if spc_has_references (ss_spc x) then [] else fix_says g (ss_on x) (spc_value (ss_spc x)) q.
Definition imposed_says (g : setting) (q : Z) (k : sload) : list (list R) :=
  match k with SImposed on e => fix_says g on (imposed_value e) q | _ => [] end.
Definition all_single (g : setting) (l : list analysis) : Prop :=
  shell g = false -> forall a, In a l ->
    (forall x, In x (an_spcs a) -> single g (ss_on x)) /\
    (forall ls on e, In ls (an_loads a) -> In (SImposed on e) (snd ls) -> single g on).

(** Index of the analysis of a case. *)
Definition case_analysis (l : list analysis) (i : nat) : option analysis := option_map fst (nth_error (case_sets l) i).

Lemma by_analysis {B} (h : analysis -> list B) t l : forall n d, Forall (fun e => told t (fst e) (snd e)) (starts n l) -> n <= d ->
  flat_map (fun a => if inb d (cases_of t (an_id a)) then h a else []) l =
  match nth_error (case_sets l) (Z.to_nat (d - n)) with Some (a, _) => h a | None => [] end.
Proof.
  induction l as [|a l IH]; intros n d T H; cbn [flat_map]; [unfold case_sets; cbn [flat_map]; now destruct (Z.to_nat (d - n))|].
  cbn [starts] in T. inversion T as [|? ? T1 T2]; subst. cbn [fst snd] in *.
  destruct (told_cases _ _ _ T1) as (_ & I).
  change (case_sets (a :: l)) with (map (fun x => (a, x)) (sets_of a) ++ case_sets l).
  destruct (inb d (cases_of t (an_id a))) eqn:E.
  - apply inb_iff, I in E. rewrite nth_error_app1 by (rewrite map_length; unfold width in E; lia).
    rewrite nth_error_map. assert (L : (Z.to_nat (d - n) < length (sets_of a))%nat) by (unfold width in E; lia).
    apply nth_error_Some in L. destruct (nth_error (sets_of a) (Z.to_nat (d - n))) as [x|]; [|contradiction]. cbn [option_map].
    assert (O : forall l m, n + width a <= m -> d < m -> Forall (fun e => told t (fst e) (snd e)) (starts m l) -> flat_map (fun a => if inb d (cases_of t (an_id a)) then h a else []) l = []).
    { clear. induction l as [|b l IH]; intros m M L T; cbn [flat_map]; [reflexivity|]. cbn [starts] in T. inversion T as [|? ? T1 T2]; subst. cbn [fst snd] in *.
      destruct (told_cases _ _ _ T1) as (_ & I). destruct (inb d (cases_of t (an_id b))) eqn:E; [apply inb_iff, I in E; lia|].
      cbn [app]. apply (IH (m + width b)); [unfold width in *; lia|unfold width in *; lia|exact T2]. }
    rewrite (O l (n + width a)); [apply app_nil_r|lia|lia|exact T2].
  - cbn [app]. assert (K : n + width a <= d).
    { destruct (Z_le_gt_dec (n + width a) d) as [Y|Y]; [exact Y|]. exfalso. assert (J : In d (cases_of t (an_id a))) by (apply I; lia). apply inb_iff in J. congruence. }
    rewrite (IH _ _ T2 K). rewrite nth_error_app2 by (rewrite map_length; unfold width in K; lia).
    rewrite map_length. replace (Z.to_nat (d - n) - length (sets_of a))%nat with (Z.to_nat (d - (n + width a))) by (unfold width; lia). reflexivity.
Qed.

Lemma constraint_reads g l s s' : distinct l -> all_single g l -> good_f s -> fixed s = [] ->
  s' = constraint_vectors g (snd (fill_loads l)) l s ->
  good_f s' /\ forall q i, rd s' (fixed s') q (Z.of_nat i + 1) =
    map Some (match case_analysis l i with
              | Some a => flat_map (spc_says g q) (an_spcs a) ++ flat_map (fun ls => flat_map (imposed_says g q) (snd ls)) (an_loads a)
              | None => [] end).
Proof.
  intros D U G Z ->. destruct (fill_loads_told l D) as (_ & T). set (t := snd (fill_loads l)) in *.
  assert (ND : forall a, In a l -> NoDup (cases_of t (an_id a))).
  { intros a J. assert (K : exists n, In (n, a) (starts 1 l)).
    { clear - J. generalize 1. induction l as [|b l IH]; intros n; [contradiction|]. cbn [starts]. destruct J as [->|J]; [exists n; now left|]. destruct (IH J (n + width b)) as (k & K). exists k. now right. }
    destruct K as (n & K). rewrite Forall_forall in T. specialize (T _ K). cbn [fst snd] in T. now destruct (told_cases _ _ _ T). }
  unfold constraint_vectors. cbv zeta. destruct (gf_vectors _ G) as (vs & HV). rewrite (hv_restart _ _ HV).
  assert (A : adds_f s (fold_left (fun s a => fold_left (spc_vectors g (cases_of t (an_id a))) (an_spcs a) s) l s)
     (fun q d => flat_map (fun a => flat_map (fun x => if inb d (cases_of t (an_id a)) then spc_says g q x else []) (an_spcs a)) l)).
  { apply adds_f_fold with (F := fun a q d => flat_map (fun x => if inb d (cases_of t (an_id a)) then spc_says g q x else []) (an_spcs a)); [|exact G]. intros s1 a J G1.
    apply adds_f_fold with (F := fun x q d => if inb d (cases_of t (an_id a)) then spc_says g q x else []); [|exact G1]. intros s2 x K G2.
    unfold spc_vectors, spc_says. destruct (spc_has_references (ss_spc x)).
    - apply adds_f_refl; [exact G2|]. intros q d. now destruct (inb d _).
    - apply fix_vectors_adds; [now apply ND| |exact G2]. intros NS. destruct (U NS a J) as (U1 & _). now apply U1. }
  set (s1 := fold_left _ l s) in *.
  assert (B : adds_f s1 (fold_left (fun s a => fold_left (fun s ls => fold_left (imposed_vectors g (cases_of t (an_id a))) (snd ls) s) (an_loads a) s) l s1)
     (fun q d => flat_map (fun a => flat_map (fun ls => flat_map (fun k => if inb d (cases_of t (an_id a)) then imposed_says g q k else []) (snd ls)) (an_loads a)) l)).
  { apply adds_f_fold with (F := fun a q d => flat_map (fun ls => flat_map (fun k => if inb d (cases_of t (an_id a)) then imposed_says g q k else []) (snd ls)) (an_loads a)); [|apply A]. intros s2 a J G2.
    apply adds_f_fold with (F := fun ls q d => flat_map (fun k => if inb d (cases_of t (an_id a)) then imposed_says g q k else []) (snd ls)); [|exact G2]. intros s3 ls K G3.
    apply adds_f_fold with (F := fun k q d => if inb d (cases_of t (an_id a)) then imposed_says g q k else []); [|exact G3]. intros s4 k K4 G4.
    unfold imposed_vectors, imposed_says. destruct k as [n|cells p|x|cells f m|cells e p o|x amp forces|on e|]; try (apply adds_f_refl; [exact G4|]; intros q d; now destruct (inb d _)).
    apply fix_vectors_adds; [now apply ND| |exact G4]. intros NS. destruct (U NS a J) as (_ & U2). exact (U2 ls on e K K4). }
  split; [apply B|]. intros q i.
  rewrite (af_read _ _ _ B), (af_read _ _ _ A), Z. cbn [rd ids get map app]. rewrite <- map_app. f_equal.
  assert (N : Z.to_nat (Z.of_nat i + 1 - 1) = i) by lia.
  transitivity (flat_map (fun a => if inb (Z.of_nat i + 1) (cases_of t (an_id a)) then flat_map (spc_says g q) (an_spcs a) else []) l ++
                flat_map (fun a => if inb (Z.of_nat i + 1) (cases_of t (an_id a)) then flat_map (fun ls => flat_map (imposed_says g q) (snd ls)) (an_loads a) else []) l).
  - f_equal; apply flat_map_ext; intros a.
    + apply flat_map_if.
    + rewrite <- flat_map_if. apply flat_map_ext. intros ls. apply flat_map_if.
  - rewrite !(by_analysis _ t l 1) by (try exact T; lia). rewrite N. unfold case_analysis.
    destruct (nth_error (case_sets l) i) as [[a o]|]; reflexivity.
Qed.

(** ** Local systems *)
Record keeps_all (s s' : sys) : Prop := KeepsAll { ka_keeps : keeps s s'; ka_fixed : fixed s' = fixed s }.
(** The state of the loop: [known] gives the vector of a Cartesian system, [local] that of the nodes met. *)
Record cinv (find : Z -> csys) (s0 : sys) (done : list snode) (st : sys * list (Z * Z) * list (Z * Z)) : Prop := CInv {
  ci_keeps : keeps_all s0 (fst (fst st));
  ci_sorted : sorted (snd (fst st)); ci_sorted2 : sorted (snd st);
  ci_known : forall k v, get k (snd (fst st)) = Some v -> 1 <= v < next (fst (fst st)) /\
     exists a, find k = Cart a /\ look (fst (fst st)) v = Some (zeros ++ comps3 a);
  ci_local : forall n, In n done -> match sn_cs n with
     | None => True
     | Some k => exists v, get (sn_pos n) (snd st) = Some v /\ 1 <= v < next (fst (fst st)) /\
                 look (fst (fst st)) v = Some (zeros ++ comps3 (angles_of (find k) (sn_pos n)))
     end }.

Lemma coordinate_step find s0 done st n : cinv find s0 done st -> ~ In (sn_pos n) (map sn_pos done) ->
  cinv find s0 (done ++ [n]) (coordinate_vector find st n).
Proof.
  destruct st as [[s kn] lo]. intros I ND. destruct I as [K S1 S2 A B]. cbn [fst snd] in *.
  unfold coordinate_vector. destruct (sn_cs n) as [k|] eqn:E.
  - destruct (get k kn) as [v|] eqn:GK.
    + destruct (A k v GK) as (R & a & F & L).
      split; cbn [fst snd]; auto; [now apply upd_sorted|].
      intros m J. apply in_app_iff in J as [J|[<-|[]]].
      * specialize (B m J). destruct (sn_cs m); [|exact I]. destruct B as (v' & B1 & B2). exists v'. split; [|exact B2].
        rewrite get_upd by exact S2. destruct (Z.eqb_spec (sn_pos m) (sn_pos n)) as [Q|Q]; [|exact B1].
        exfalso. apply ND. rewrite <- Q. now apply in_map.
      * rewrite E. exists v. split; [rewrite get_upd, Z.eqb_refl by exact S2; reflexivity|]. split; [exact R|]. rewrite F. exact L.
    + set (w := zeros ++ comps3 (angles_of (find k) (sn_pos n))).
      assert (HV : exists vs, holds_vectors s vs) by (eapply ext_hv; apply K).
      assert (KP := keeps_put w s HV). destruct HV as (vs & HV).
      assert (L : look (put w s) (next s) = Some w) by (eapply look_new; [exact HV|reflexivity|reflexivity]).
      assert (X := k_ext _ _ KP).
      assert (N : next s = 1 + Z.of_nat (length vs)) by apply HV.
      split; cbn [fst snd].
      * destruct K as [K1 K2]. split; [eapply keeps_trans; eassumption|exact K2].
      * destruct (find k); [now apply upd_sorted|exact S1|exact S1].
      * now apply upd_sorted.
      * change (next (put w s)) with (next s + 1).
        assert (OLD : forall k0 v, get k0 kn = Some v -> 1 <= v < next s + 1 /\ exists a, find k0 = Cart a /\ look (put w s) v = Some (zeros ++ comps3 a)).
        { intros k0 v J. destruct (A k0 v J) as (R & a & F & L0). split; [lia|]. exists a. split; [exact F|]. rewrite (ext_look _ _ _ X) by exact R. exact L0. }
        destruct (find k) as [a| |] eqn:F; try exact OLD.
        intros k0 v. rewrite get_upd by exact S1. destruct (Z.eqb_spec k0 k) as [Q|Q]; [|apply OLD].
        intros J. injection J as <-. split; [lia|]. exists a. subst k0. split; [exact F|]. rewrite L. unfold w. reflexivity.
      * change (next (put w s)) with (next s + 1).
        intros m J. apply in_app_iff in J as [J|[<-|[]]].
        -- specialize (B m J). destruct (sn_cs m); [|exact I]. destruct B as (v' & B1 & B2 & B3). exists v'.
           split; [|split; [lia|rewrite (ext_look _ _ _ X) by exact B2; exact B3]].
           rewrite get_upd by exact S2. destruct (Z.eqb_spec (sn_pos m) (sn_pos n)) as [Q|Q]; [|exact B1].
           exfalso. apply ND. rewrite <- Q. now apply in_map.
        -- rewrite E. exists (next s). split; [rewrite get_upd, Z.eqb_refl by exact S2; reflexivity|]. split; [lia|exact L].
  - split; cbn [fst snd]; auto. intros m J. apply in_app_iff in J as [J|[<-|[]]]; [now apply B|]. now rewrite E.
Qed.

Lemma coordinate_loop find s0 nodes : forall done st, cinv find s0 done st -> NoDup (map sn_pos (done ++ nodes)) ->
  cinv find s0 (done ++ nodes) (fold_left (coordinate_vector find) nodes st).
Proof.
  induction nodes as [|n l IH]; intros done st I ND; cbn [fold_left]; [now rewrite app_nil_r|].
  replace (done ++ n :: l) with ((done ++ [n]) ++ l) in * by (rewrite <- app_assoc; reflexivity).
  apply IH; [|exact ND]. apply coordinate_step; [exact I|].
  intros J. rewrite map_app in ND. rewrite map_app in ND. cbn [map] in ND. rewrite <- app_assoc in ND. cbn [app] in ND.
  apply NoDup_remove_2 in ND. apply ND. apply in_app_iff. now left.
Qed.

Lemma coordinates_read find nodes s s' local : (exists vs, holds_vectors s vs) -> NoDup (map sn_pos nodes) ->
  coordinate_vectors find nodes s = (s', local) ->
  keeps_all s s' /\
  forall n k, In n nodes -> sn_cs n = Some k -> exists v, get (sn_pos n) local = Some v /\ look s' v = Some (zeros ++ comps3 (angles_of (find k) (sn_pos n))).
Proof.
  intros (vs & H) ND. unfold coordinate_vectors. rewrite (hv_restart _ _ H).
  assert (I : cinv find s nodes (fold_left (coordinate_vector find) nodes (s, [], []))).
  { apply (coordinate_loop find s nodes [] (s, [], [])); [|exact ND]. split; cbn [fst snd].
    - split; [eapply keeps_refl; eassumption|reflexivity].
    - constructor.
    - constructor.
    - discriminate.
    - intros n []. }
  destruct (fold_left (coordinate_vector find) nodes (s, [], [])) as [[s1 kn] lo]. intros E. injection E as <- <-.
  destruct I as [K S1 S2 A B]. cbn [fst snd] in *. split; [exact K|].
  intros n k J C. specialize (B n J). rewrite C in B. destruct B as (v & B1 & _ & B2). eauto.
Qed.

(** ** Lists *)
Definition flat (cs : list (Z * list Z)) : list Z := flat_map (fun e => flat_map (fun v => [fst e; v]) (snd e)) cs.
Lemma fill_from_lists m : forall i, fst (fill_from i m) = number i (map (fun e => flat (snd e)) m).
Proof. induction m as [|[p cs] m IH]; intros i; cbn [fill_from fst map number snd]; [reflexivity|]. f_equal. apply IH. Qed.
Lemma fill_from_some m p x : get p m = Some x -> forall i, exists k, get p (snd (fill_from i m)) = Some k /\ i <= k /\
  nth_error (map (fun e => flat (snd e)) m) (Z.to_nat (k - i)) = Some (flat x).
Proof.
  induction m as [|[q cs] m IH]; cbn [get fill_from snd map]; [discriminate|]. intros E i.
  destruct (p =? q).
  - injection E as ->. exists i. split; [reflexivity|]. split; [lia|]. rewrite Z.sub_diag. reflexivity.
  - destruct (IH E (i + 1)) as (k & K1 & K2 & K3). exists k. split; [exact K1|]. split; [lia|].
    replace (Z.to_nat (k - i)) with (S (Z.to_nat (k - (i + 1)))) by lia. exact K3.
Qed.
Lemma fill_from_none m p : get p m = None -> forall i, get p (snd (fill_from i m)) = None.
Proof.
  induction m as [|[q cs] m IH]; cbn [get fill_from snd]; [reflexivity|]. destruct (p =? q); [discriminate|]. intros E i. now apply IH.
Qed.
Lemma lists_numbered s : lists (fill_lists s) = number 1 (map (fun e => flat (snd e)) (on_node s ++ on_cell s ++ fixed s)).
Proof.
  unfold fill_lists. cbv zeta. cbn [lists]. rewrite !fill_from_lists, !map_app, !number_app, !map_length. reflexivity.
Qed.

Fixpoint pairs (l : list Z) : list (Z * Z) := match l with a :: b :: r => (a, b) :: pairs r | _ => [] end.
Lemma pairs_app_even a b l : pairs ((a :: b :: nil) ++ l) = (a, b) :: pairs l.
Proof. reflexivity. Qed.
Lemma pairs_row c vs l : pairs (flat_map (fun v => [c; v]) vs ++ l) = map (fun v => (c, v)) vs ++ pairs l.
Proof. induction vs as [|v vs IH]; [reflexivity|]. cbn [flat_map map app]. cbn [pairs]. now rewrite IH. Qed.
Lemma pairs_flat cs : pairs (flat cs) = flat_map (fun e => map (fun v => (fst e, v)) (snd e)) cs.
Proof. induction cs as [|[c vs] cs IH]; [reflexivity|]. unfold flat in *. cbn [flat_map fst snd]. rewrite pairs_row. now rewrite IH. Qed.
Lemma filter_app' {A} (f : A -> bool) l r : filter f (l ++ r) = filter f l ++ filter f r.
Proof. induction l as [|x l IH]; [reflexivity|]. cbn [filter app]. rewrite IH. now destruct (f x). Qed.
Lemma row_filter c d vs : map snd (filter (fun e : Z * Z => fst e =? d) (map (fun v => (c, v)) vs)) = if c =? d then vs else [].
Proof.
  induction vs as [|v vs IH]; cbn [map filter]; [now destruct (c =? d)|]. cbn [fst]. destruct (c =? d); [cbn [map snd]; now rewrite IH|exact IH].
Qed.
Lemma pairs_case cs d : NoDup (map fst cs) -> map snd (filter (fun e => fst e =? d) (pairs (flat cs))) = match get d cs with Some l => l | None => [] end.
Proof.
  rewrite pairs_flat. induction cs as [|[c vs] cs IH]; intros ND; [reflexivity|]. cbn [map fst] in ND. inversion ND as [|? ? N1 N2]; subst.
  cbn [flat_map fst snd get]. rewrite filter_app', map_app, row_filter, (Z.eqb_sym d c), IH by exact N2.
  destruct (Z.eqb_spec c d) as [E|E]; [|reflexivity]. subst d.
  destruct (get c cs) as [l|] eqn:G; [exfalso; apply N1; apply in_map_iff; exists (c, l); split; [reflexivity|now apply get_in]|]. apply app_nil_r.
Qed.

(** Reading the list of number [k] for the case [c]. *)
Definition listed (ls : list (Z * list Z)) (vs : list (Z * list R)) (k c : Z) : list (option (list R)) :=
  match get k ls with Some l => map (fun e => get (snd e) vs) (filter (fun e => fst e =? c) (pairs l)) | None => [] end.

Lemma listed_part s m i before after : on_node s ++ on_cell s ++ fixed s = before ++ m ++ after -> i = 1 + Z.of_nat (length before) -> wf m ->
  forall p c, listed (lists (fill_lists s)) (vectors s) (or0 (get p (snd (fill_from i m)))) c = rd s m p c.
Proof.
  intros E I (S & W) p c. unfold listed, rd, ids. rewrite lists_numbered, E.
  destruct (get p m) as [x|] eqn:G.
  - destruct (fill_from_some m p x G i) as (k & K1 & K2 & K3). rewrite K1. cbn [or0].
    rewrite number_get by lia. rewrite !map_app.
    rewrite nth_error_app2 by (rewrite map_length; lia). rewrite map_length.
    replace (Z.to_nat (k - 1) - length before)%nat with (Z.to_nat (k - i)) by lia.
    rewrite nth_error_app1 by (apply nth_error_Some; rewrite K3; discriminate). rewrite K3.
    rewrite <- (pairs_case x c) by (apply sorted_nodup; exact (W p x G)). rewrite map_map. reflexivity.
  - rewrite (fill_from_none m p G). cbn [or0]. rewrite number_get_low by lia. reflexivity.
Qed.

(** ** The file *)
Record file_reads (g : setting) (find : Z -> csys) (nodes : list snode) (l : list analysis) (f : file) : Prop := FR {
  fr_vectors : exists vs, f_vectors f = number 1 vs;
  fr_lists : exists ls, f_lists f = number 1 ls;
  fr_cases : map fst (f_cases f) = map Z.of_nat (seq 1 (length (case_sets l)));
  fr_counts : f_counts f = (Z.of_nat (length (f_cases f)), Z.of_nat (length (f_lists f)), Z.of_nat (length (f_vectors f)));
  fr_nodes : Forall2 (fun n ln => l_id ln = sn_id n /\
    (forall i, listed (f_lists f) (f_vectors f) (l_isol ln) (Z.of_nat i + 1) = map Some (flat_map (node_says g (sn_pos n)) (case_loads l i))) /\
    (match sn_cs n with None => l_iangl ln = 0 | Some k => get (l_iangl ln) (f_vectors f) = Some (zeros ++ comps3 (angles_of (find k) (sn_pos n))) end) /\
    l_iconst ln = or0 (get (sn_pos n) (constrained g l))) nodes (f_nodes f);
  fr_fixed : all_single g l -> Forall2 (fun n ln => forall i, listed (f_lists f) (f_vectors f) (l_idisp ln) (Z.of_nat i + 1) =
      map Some (match case_analysis l i with
              | Some a => flat_map (spc_says g (sn_pos n)) (an_spcs a) ++ flat_map (fun ls => flat_map (imposed_says g (sn_pos n)) (snd ls)) (an_loads a)
              | None => [] end)) nodes (f_nodes f);
  fr_cells : forall q i, listed (f_lists f) (f_vectors f) (f_isol f q) (Z.of_nat i + 1) = map Some (flat_map (cell_says g q) (case_loads l i));
  fr_weights : forall i v, In (Z.of_nat i + 1, v) (f_cases f) ->
    (if v =? 0 then [] else [get v (f_vectors f)]) = map Some (firstn 1 (flat_map (case_says g) (case_loads l i))) }.

Lemma forall2_map {A B} (P : A -> B -> Prop) (h : A -> B) l : (forall a, In a l -> P a (h a)) -> Forall2 P l (map h l).
Proof. induction l as [|a l IH]; intros H; cbn [map]; constructor; [apply H; now left|apply IH; intros b J; apply H; now right]. Qed.

Lemma write_reads g find nodes l : distinct l -> NoDup (map sn_pos nodes) -> file_reads g find nodes l (write_subcase g find nodes l).
Proof.
  intros D ND. unfold write_subcase. assert (FL := fill_loads_told l D). destruct (fill_loads l) as [n t] eqn:EF. cbn [fst snd] in FL. destruct FL as (N & _).
  set (s0 := loading_vectors g t l no_sys).
  assert (ES0 : s0 = loading_vectors g (snd (fill_loads l)) l no_sys) by (rewrite EF; reflexivity).
  destruct (loading_reads g l s0 D ES0) as (G0 & F0 & RN & RC).
  destruct (loading_cases g l s0 D ES0) as (C0 & RG).
  assert (K := constraint_keeps g t l s0 (g_vectors _ G0)).
  assert (ES1 : constraint_vectors g t l s0 = constraint_vectors g (snd (fill_loads l)) l s0) by (rewrite EF; reflexivity).
  set (s1 := constraint_vectors g t l s0) in *.
  destruct (coordinate_vectors find nodes s1) as [s2 local] eqn:EC.
  destruct (coordinates_read find nodes s1 s2 local (ext_hv _ _ (k_ext _ _ K)) ND EC) as ((K2 & F2) & RA).
  assert (K02 := keeps_trans _ _ _ K K2).
  assert (X := k_ext _ _ K02). cbv zeta.
  destruct (ext_hv _ _ X) as (vs & HV).
  assert (WN : wf (on_node s2)) by (rewrite (k_node _ _ K02); apply G0).
  assert (WC : wf (on_cell s2)) by (rewrite (k_cell _ _ K02); apply G0).
  assert (LN : forall p i, listed (lists (fill_lists s2)) (vectors s2) (or0 (get p (node_list (fill_lists s2)))) (Z.of_nat i + 1) = map Some (flat_map (node_says g p) (case_loads l i))).
  { intros p i. rewrite <- RN. rewrite <- (ext_rd s0 s2 (on_node s0) p _ X (g_known_node _ G0)). rewrite <- (k_node _ _ K02).
    apply (listed_part s2 (on_node s2) 1 [] (on_cell s2 ++ fixed s2)); [reflexivity|reflexivity|exact WN]. }
  split; cbn [f_vectors f_lists f_cases f_counts f_nodes f_isol].
  - exists vs. apply HV.
  - eexists. apply lists_numbered.
  - rewrite map_map. cbn [fst]. rewrite map_id. do 2 f_equal. lia.
  - rewrite !map_length, seq_length. do 2 f_equal. lia.
  - apply forall2_map. intros x J. cbn [node_of l_id l_isol l_iangl l_iconst]. split; [reflexivity|]. split; [intros i; apply LN|]. split; [|reflexivity].
    destruct (sn_cs x) as [k|] eqn:E; [|reflexivity]. destruct (RA x k J E) as (v & V1 & V2). rewrite V1. exact V2.
  - intros U. apply forall2_map. intros x J i. cbn [node_of l_idisp].
    assert (GF : good_f s0).
    { split; [apply G0|rewrite F0; exact wf_nil|rewrite F0; intros p c v []]. }
    destruct (constraint_reads g l s0 s1 D U GF F0 ES1) as (GF1 & RF).
    rewrite <- RF. rewrite <- (ext_rd s1 s2 (fixed s1) (sn_pos x) _ (k_ext _ _ K2) (gf_known _ GF1)). rewrite <- F2.
    apply (listed_part s2 (fixed s2) (1 + Z.of_nat (length (on_node s2)) + Z.of_nat (length (on_cell s2))) (on_node s2 ++ on_cell s2) []).
    + now rewrite app_nil_r, app_assoc.
    + rewrite app_length. lia.
    + rewrite F2. apply GF1.
  - intros q i. rewrite <- RC. rewrite <- (ext_rd s0 s2 (on_cell s0) q _ X (g_known_cell _ G0)). rewrite <- (k_cell _ _ K02).
    apply (listed_part s2 (on_cell s2) (1 + Z.of_nat (length (on_node s2))) (on_node s2) (fixed s2)); [reflexivity|reflexivity|exact WC].
  - intros i v J. apply in_map_iff in J as (c & E & _). injection E as -> <-. rewrite <- RG.
    change (or0 (get (Z.of_nat i + 1) (on_case s2))) with (cz s2 (Z.of_nat i + 1)).
    rewrite <- (ext_gr s0 s2 _ C0 X (k_case _ _ K02)). reflexivity.
Qed.

(** ** Constraint codes *)
Lemma mark_bits g p s m q d : sorted m ->
  Z.testbit (or0 (get q (mark g p s m))) d = Z.testbit (or0 (get q m)) d || (p =? q) && (Z.testbit s d && Z.testbit (dof_code_of g) d).
Proof.
  intros S. unfold mark. rewrite get_upd by exact S. rewrite (Z.eqb_sym q p). destruct (Z.eqb_spec p q) as [E|E]; cbn [andb].
  - subst q. cbn [or0]. rewrite Z.lor_spec, Z.land_spec. destruct (get p m) as [v|]; cbn [or0]; [apply orb_comm|]. now rewrite Z.bits_0, orb_false_r.
  - now rewrite orb_false_r.
Qed.
