(** Property C85: what is in the sets of loadings, constraints and objectives. *)
From Coq Require Import ZArith List Bool Lia.
From Verif Require Import Base ZMap ReferenceModel ReferenceProofs PropertiesReference MembershipModel.
Import ListNotations.
Open Scope Z_scope.

(** ** Vocabulary *)
(** Two references to the same thing (C07_equality_meaning). *)
Definition same (a b : ref) : Prop := rtype a = rtype b /\ roid a = roid b /\ (roid a = NO_ID -> rid a = rid b).
(** The two names of a set: its own reference, or its type and user number. *)
Definition names (n s : ref) : Prop := n = s \/ (roid s <> NO_ID /\ n = mkRef (rtype s) (roid s) NO_ID).
(** Sets with numbers of their own. *)
Definition distinct (U : list ref) : Prop := forall a b, In a U -> In b U ->
  rid a <> NO_ID /\ (rid a = rid b -> a = b) /\ (rtype a = rtype b -> roid a = roid b -> roid a <> NO_ID -> a = b).
Definition named_in (U : list ref) (h : list event) : Prop := forall e, In e h ->
  match e with Put _ n => exists s, In s U /\ names n s | TakeOut _ => True | TakeFrom _ s => In s U end.
(** [r] was put into [s], under one of its names, and not taken out since. *)
Definition takes (e : event) (s r : ref) : Prop :=
  match e with Put _ _ => False | TakeOut x => same x r | TakeFrom x s' => s' = s /\ same x r end.
Definition member (h : list event) (s r : ref) : Prop :=
  exists h1 x n h2, h = h1 ++ Put x n :: h2 /\ names n s /\ same x r /\ forall e, In e h2 -> ~ takes e s r.

(** ** Lists of references *)
Definition mem (l : list ref) (x : ref) : bool := existsb (fun y => ref_eqb y x) l.
Fixpoint uniq (l : list ref) : Prop := match l with [] => True | x :: r => mem r x = false /\ uniq r end.

Lemma same_iff a b : ref_eqb a b = true <-> same a b.
Proof. apply C07_equality_meaning. Qed.
Lemma same_refl a : same a a.
Proof. apply same_iff, ref_eq_refl. Qed.
Lemma same_sym a b : same a b -> same b a.
Proof. rewrite <- !same_iff, ref_eq_sym. auto. Qed.
Lemma same_trans a b c : same a b -> same b c -> same a c.
Proof. rewrite <- !same_iff. apply ref_eq_trans. Qed.
Lemma same_dec a b : {same a b} + {~ same a b}.
Proof. destruct (ref_eqb a b) eqn:E; [left; now apply same_iff|right; rewrite <- same_iff; congruence]. Qed.
Lemma ref_dec (a b : ref) : {a = b} + {a <> b}.
Proof. decide equality; apply Z.eq_dec. Qed.
Lemma mem_iff l x : mem l x = true <-> exists y, In y l /\ same y x.
Proof. unfold mem. rewrite existsb_exists. split; intros (y & A & B); exists y; split; auto; now apply same_iff. Qed.
Lemma eqb_compat a b x : ref_eqb a b = true -> ref_eqb a x = ref_eqb b x.
Proof.
  intros E. destruct (ref_eqb a x) eqn:X; symmetry.
  - apply ref_eq_trans with a; [now rewrite ref_eq_sym|exact X].
  - destruct (ref_eqb b x) eqn:Y; [|reflexivity]. rewrite <- X. symmetry. now apply ref_eq_trans with b.
Qed.
Lemma mem_compat l x y : ref_eqb x y = true -> mem l x = mem l y.
Proof.
  intros E. induction l as [|a l IH]; [reflexivity|]. cbn. fold (mem l x) (mem l y). rewrite IH. f_equal.
  rewrite (ref_eq_sym a x), (ref_eq_sym a y). now apply eqb_compat.
Qed.
Lemma mem_app l k x : mem (l ++ k) x = mem l x || mem k x.
Proof. apply existsb_app. Qed.
Lemma mem_insert r l x : mem (set_insert r l) x = mem l x || ref_eqb r x.
Proof.
  unfold set_insert. fold (mem l r). destruct (mem l r) eqn:M.
  - destruct (ref_eqb r x) eqn:E; [|now rewrite orb_false_r]. rewrite <- (mem_compat l r x E), M. reflexivity.
  - rewrite mem_app. cbn. now rewrite orb_false_r.
Qed.
Lemma uniq_snoc l r : uniq l -> mem l r = false -> uniq (l ++ [r]).
Proof.
  induction l as [|a l IH]; cbn; [tauto|]. fold (mem l r). intros [A B] H. apply orb_false_iff in H. destruct H as [H1 H2].
  split; [|auto]. rewrite mem_app, A. cbn. rewrite ref_eq_sym, H1. reflexivity.
Qed.
Lemma uniq_insert r l : uniq l -> uniq (set_insert r l).
Proof. unfold set_insert. fold (mem l r). destruct (mem l r) eqn:M; auto using uniq_snoc. Qed.
Lemma mem_remove r l x : uniq l -> mem (set_remove r l) x = mem l x && negb (ref_eqb r x).
Proof.
  induction l as [|a l IH]; [reflexivity|]. cbn [uniq]. intros [A B]. cbn [set_remove]. destruct (ref_eqb a r) eqn:E.
  - cbn. fold (mem l x). rewrite <- (eqb_compat _ _ x E). destruct (ref_eqb a x) eqn:F; cbn.
    + rewrite <- (mem_compat l a x F). exact A.
    + now rewrite andb_true_r.
  - cbn. fold (mem (set_remove r l) x) (mem l x). rewrite IH by exact B. destruct (ref_eqb a x) eqn:F; [|reflexivity]. cbn.
    destruct (ref_eqb r x) eqn:G; [|reflexivity]. exfalso.
    rewrite ref_eq_sym, (eqb_compat _ _ a G), ref_eq_sym, F in E. discriminate.
Qed.
Lemma uniq_remove r l : uniq l -> uniq (set_remove r l).
Proof.
  induction l as [|a l IH]; [auto|]. cbn [uniq set_remove]. intros [A B]. destruct (ref_eqb a r) eqn:E; [exact B|].
  cbn [uniq]. split; [|auto]. rewrite mem_remove, A by exact B. reflexivity.
Qed.

(** ** Members after one more event *)
Lemma rev_case {A} (l : list A) : l = [] \/ exists k a, l = k ++ [a].
Proof. destruct l as [|a l] using rev_ind; [now left|right; eauto]. Qed.
Lemma member_snoc_put h r n s x : member (h ++ [Put r n]) s x <-> member h s x \/ (names n s /\ same r x).
Proof.
  split.
  - intros (h1 & y & n' & h2 & E & N & S & T). destruct (rev_case h2) as [-> | (h2' & e & ->)].
    + change (h1 ++ [Put y n']) with (h1 ++ [Put y n']) in E. apply app_inj_tail in E. destruct E as [_ E]. inversion E; subst. auto.
    + rewrite app_comm_cons, app_assoc in E. apply app_inj_tail in E. destruct E as [-> <-]. left. exists h1, y, n', h2'.
      split; [reflexivity|]. split; [exact N|]. split; [exact S|]. intros e' I. apply T. apply in_or_app. now left.
  - intros [(h1 & y & n' & h2 & -> & N & S & T) | [N S]].
    + exists h1, y, n', (h2 ++ [Put r n]). split; [now rewrite <- app_assoc|]. split; [exact N|]. split; [exact S|].
      intros e I. apply in_app_or in I. destruct I as [I | [<- | []]]; [auto|cbn; tauto].
    + exists h, r, n, []. split; [reflexivity|]. split; [exact N|]. split; [exact S|]. intros e [].
Qed.
Lemma member_snoc_take h e s x : (forall r n, e <> Put r n) -> (member (h ++ [e]) s x <-> member h s x /\ ~ takes e s x).
Proof.
  intros P. split.
  - intros (h1 & y & n' & h2 & E & N & S & T). destruct (rev_case h2) as [-> | (h2' & e' & ->)].
    + apply app_inj_tail in E. destruct E as [_ E]. destruct (P y n' E).
    + rewrite app_comm_cons, app_assoc in E. apply app_inj_tail in E. destruct E as [-> ->]. split.
      * exists h1, y, n', h2'. split; [reflexivity|]. split; [exact N|]. split; [exact S|]. intros e'' I. apply T. apply in_or_app. now left.
      * apply T. apply in_or_app. right. now left.
  - intros [(h1 & y & n' & h2 & -> & N & S & T) K]. exists h1, y, n', (h2 ++ [e]). split; [now rewrite <- app_assoc|]. split; [exact N|]. split; [exact S|].
    intros e' I. apply in_app_or in I. destruct I as [I | [<- | []]]; auto.
Qed.

(** ** The two maps *)
Record good (U : list ref) (h : list event) (m : membership) : Prop := {
  g_uniq_id : forall k, uniq (in_id m k);
  g_uniq_orig : forall t n, uniq (in_orig m t n);
  g_id_sound : forall s x, In s U -> mem (in_id m (rid s)) x = true -> member h s x;
  g_id_all : forall s x, In s U -> roid s = NO_ID -> member h s x -> mem (in_id m (rid s)) x = true;
  g_orig : forall s x, In s U -> roid s <> NO_ID -> (mem (in_orig m (rtype s) (roid s)) x = true <-> member h s x);
  g_no_id : forall x, mem (in_id m NO_ID) x = false;
  g_no_orig : forall t x, mem (in_orig m t NO_ID) x = false }.

Lemma has_id_iff r : has_id r = true <-> rid r <> NO_ID.
Proof. unfold has_id. rewrite negb_true_iff, Z.eqb_neq. tauto. Qed.
Lemma has_orig_iff r : has_original_id r = true <-> roid r <> NO_ID.
Proof. unfold has_original_id. rewrite negb_true_iff, Z.eqb_neq. tauto. Qed.

Lemma mem_id_put r n m k x : mem (in_id (put r n m) k) x = mem (in_id m k) x || (has_id n && (k =? rid n) && ref_eqb r x).
Proof.
  unfold put. destruct (has_id n), (has_original_id n); cbn [in_id at_id at_orig andb].
  1,2: destruct (k =? rid n); cbn [andb]; [apply mem_insert|now rewrite orb_false_r].
  all: now rewrite orb_false_r.
Qed.
Lemma mem_orig_put r n m t k x : mem (in_orig (put r n m) t k) x = mem (in_orig m t k) x || (has_original_id n && (t =? rtype n) && (k =? roid n) && ref_eqb r x).
Proof.
  unfold put. destruct (has_id n), (has_original_id n); cbn [in_orig at_id at_orig andb].
  1,3: destruct (t =? rtype n), (k =? roid n); cbn [andb]; [apply mem_insert|now rewrite orb_false_r..].
  all: now rewrite orb_false_r.
Qed.
Lemma uniq_put r n m : (forall k, uniq (in_id m k)) -> (forall t k, uniq (in_orig m t k)) ->
  (forall k, uniq (in_id (put r n m) k)) /\ (forall t k, uniq (in_orig (put r n m) t k)).
Proof.
  intros A B. unfold put. destruct (has_id n), (has_original_id n); cbn; split; intros; auto.
  all: try (destruct (_ && _)); try (destruct (_ =? _)); auto using uniq_insert.
Qed.

Lemma names_id U n s s' : distinct U -> In s U -> In s' U -> names n s' -> rid n = rid s -> s' = s /\ n = s.
Proof.
  intros D I I' [-> | [O ->]] E.
  - destruct (D s' s I' I) as (_ & X & _). rewrite (X E). auto.
  - cbn [rid] in E. destruct (D s s I I) as (X & _). congruence.
Qed.
Lemma names_orig U n s s' : distinct U -> In s U -> In s' U -> names n s' -> roid s <> NO_ID -> rtype n = rtype s -> roid n = roid s -> s' = s.
Proof.
  intros D I I' N O T E. destruct (D s' s I' I) as (_ & _ & X). destruct N as [-> | [O' ->]]; cbn [rtype roid] in *; apply X; congruence.
Qed.
Lemma names_fields n s : names n s -> rtype n = rtype s /\ roid n = roid s.
Proof. intros [-> | [_ ->]]; auto. Qed.

Lemma put_good U h m r n : distinct U -> (exists s, In s U /\ names n s) -> good U h m -> good U (h ++ [Put r n]) (put r n m).
Proof.
  intros D (s' & I' & N) G. destruct (uniq_put r n m (g_uniq_id _ _ _ G) (g_uniq_orig _ _ _ G)) as [U1 U2].
  constructor; [exact U1|exact U2| | | | |].
  - intros s x I. rewrite mem_id_put, member_snoc_put. intros H. apply orb_true_iff in H. destruct H as [H|H].
    + left. now apply (g_id_sound _ _ _ G).
    + right. rewrite !andb_true_iff in H. destruct H as [[_ E] S]. apply Z.eqb_eq in E. destruct (names_id U n s s' D I I' N (eq_sym E)) as [-> ->].
      split; [now left|now apply same_iff].
  - intros s x I O. rewrite mem_id_put, member_snoc_put. intros [H|[H S]].
    + now rewrite (g_id_all _ _ _ G s x I O H).
    + destruct H as [-> | [O' _]]; [|contradiction]. destruct (D s s I I) as (X & _). rewrite (proj2 (has_id_iff s) X), Z.eqb_refl, (proj2 (same_iff r x) S). apply orb_true_r.
  - intros s x I O. rewrite mem_orig_put, member_snoc_put, orb_true_iff, (g_orig _ _ _ G s x I O), !andb_true_iff, !Z.eqb_eq, same_iff, has_orig_iff.
    split; (intros [H|H]; [now left|right]).
    + destruct H as [[[A B] C] S]. rewrite <- (names_orig U n s s' D I I' N O (eq_sym B) (eq_sym C)). auto.
    + destruct H as [H S]. destruct (names_fields _ _ H) as [A B]. rewrite A, B. auto.
  - intros x. rewrite mem_id_put, (g_no_id _ _ _ G). cbn [orb]. destruct (has_id n) eqn:H; [|reflexivity]. apply has_id_iff in H.
    destruct (Z.eqb_spec NO_ID (rid n)); [congruence|reflexivity].
  - intros t x. rewrite mem_orig_put, (g_no_orig _ _ _ G). cbn [orb]. destruct (has_original_id n) eqn:H; [|reflexivity]. apply has_orig_iff in H.
    destruct (Z.eqb_spec NO_ID (roid n)); [congruence|]. now rewrite andb_false_r.
Qed.

Lemma out_good U h m r : good U h m -> good U (h ++ [TakeOut r]) (take_out r m).
Proof.
  intros G. assert (M : forall l x, uniq l -> mem (set_remove r l) x = true <-> mem l x = true /\ ~ same r x).
  { intros l x L. rewrite mem_remove, andb_true_iff, negb_true_iff, <- same_iff by exact L. destruct (ref_eqb r x); intuition congruence. }
  constructor; cbn [take_out in_id in_orig].
  - intros k. apply uniq_remove, (g_uniq_id _ _ _ G).
  - intros t n. apply uniq_remove, (g_uniq_orig _ _ _ G).
  - intros s x I. rewrite M by apply (g_uniq_id _ _ _ G). intros [A B]. apply member_snoc_take; [discriminate|]. split; [now apply (g_id_sound _ _ _ G)|exact B].
  - intros s x I O. rewrite M by apply (g_uniq_id _ _ _ G). intros H. apply member_snoc_take in H; [|discriminate]. destruct H. split; [now apply (g_id_all _ _ _ G)|assumption].
  - intros s x I O. rewrite M by apply (g_uniq_orig _ _ _ G). rewrite member_snoc_take by discriminate. rewrite (g_orig _ _ _ G s x I O). reflexivity.
  - intros x. rewrite mem_remove, (g_no_id _ _ _ G) by apply (g_uniq_id _ _ _ G). reflexivity.
  - intros t x. rewrite mem_remove, (g_no_orig _ _ _ G) by apply (g_uniq_orig _ _ _ G). reflexivity.
Qed.

Lemma mem_id_from r n m k x : (forall k, uniq (in_id m k)) -> mem (in_id (take_from r n m) k) x = mem (in_id m k) x && negb ((k =? rid n) && ref_eqb r x).
Proof.
  intros A. unfold take_from. destruct (has_original_id n); cbn [in_id at_id at_orig]; (destruct (k =? rid n); cbn [andb negb]; [now apply mem_remove|now rewrite andb_true_r]).
Qed.
Lemma mem_orig_from r n m t k x : (forall t k, uniq (in_orig m t k)) ->
  mem (in_orig (take_from r n m) t k) x = mem (in_orig m t k) x && negb (has_original_id n && (t =? rtype n) && (k =? roid n) && ref_eqb r x).
Proof.
  intros A. unfold take_from. destruct (has_original_id n); cbn [in_orig at_id at_orig andb negb]; [|now rewrite andb_true_r]. destruct (t =? rtype n), (k =? roid n); cbn [andb negb]; [now apply mem_remove|now rewrite andb_true_r..].
Qed.
Lemma uniq_from r n m : (forall k, uniq (in_id m k)) -> (forall t k, uniq (in_orig m t k)) ->
  (forall k, uniq (in_id (take_from r n m) k)) /\ (forall t k, uniq (in_orig (take_from r n m) t k)).
Proof.
  intros A B. unfold take_from. destruct (has_original_id n); cbn; split; intros; auto.
  all: try (destruct (_ && _)); try (destruct (_ =? _)); auto using uniq_remove.
Qed.
Lemma from_good U h m r n : distinct U -> In n U -> good U h m -> good U (h ++ [TakeFrom r n]) (take_from r n m).
Proof.
  intros D N G. pose proof (g_uniq_id _ _ _ G) as V1. pose proof (g_uniq_orig _ _ _ G) as V2. destruct (uniq_from r n m V1 V2) as [U1 U2].
  constructor; [exact U1|exact U2| | | | |].
  - intros s x I. rewrite mem_id_from by exact V1. rewrite andb_true_iff, negb_true_iff. intros [A B]. apply member_snoc_take; [discriminate|]. split; [now apply (g_id_sound _ _ _ G)|].
    cbn. intros [-> S]. apply same_iff in S. rewrite Z.eqb_refl, S in B. discriminate.
  - intros s x I O H. apply member_snoc_take in H; [|discriminate]. destruct H as [A B]. rewrite mem_id_from, (g_id_all _ _ _ G s x I O A) by exact V1. cbn.
    destruct (Z.eqb_spec (rid s) (rid n)) as [E|]; [|reflexivity]. destruct (D s n I N) as (_ & X & _). rewrite (X E) in *. cbn.
    destruct (ref_eqb r x) eqn:S; [|reflexivity]. apply same_iff in S. exfalso. apply B. cbn. auto.
  - intros s x I O. rewrite mem_orig_from by exact V2. rewrite andb_true_iff, (g_orig _ _ _ G s x I O), member_snoc_take by discriminate. cbn.
    assert (Q : negb (has_original_id n && (rtype s =? rtype n) && (roid s =? roid n) && ref_eqb r x) = true <-> ~ (n = s /\ same r x)); [|rewrite Q; reflexivity].
    rewrite negb_true_iff. split.
    + intros F [-> S]. apply same_iff in S. rewrite (proj2 (has_orig_iff s) O), !Z.eqb_refl, S in F. discriminate.
    + intros F. apply not_true_is_false. rewrite !andb_true_iff, !Z.eqb_eq, same_iff. intros [[[A B] C] S]. apply F. split; [|exact S].
      destruct (D s n I N) as (_ & _ & X). symmetry. auto.
  - intros x. rewrite mem_id_from, (g_no_id _ _ _ G) by exact V1. reflexivity.
  - intros t x. rewrite mem_orig_from, (g_no_orig _ _ _ G) by exact V2. reflexivity.
Qed.

Lemma run_good U h : distinct U -> named_in U h -> good U h (run h).
Proof.
  intros D. induction h as [|e h IH] using rev_ind; intros N.
  - constructor; cbn; try tauto; try discriminate; auto.
    + intros s x _ _ (h1 & y & n & h2 & E & _). destruct h1; discriminate.
    + intros s x _ _. split; [discriminate|]. intros (h1 & y & n & h2 & E & _). destruct h1; discriminate.
  - unfold run. rewrite fold_left_app. cbn. fold (run h).
    assert (G : good U h (run h)) by (apply IH; intros e' I; apply N, in_or_app; now left).
    pose proof (N e ltac:(apply in_or_app; right; now left)) as Ne. destruct e as [r n|r|r n]; cbn [step].
    + now apply put_good.
    + now apply out_good.
    + now apply from_good.
Qed.

(** C85: under either of its names, a set contains exactly what was put into it
    and not taken out since. *)
Theorem C85_members : forall U h s n r, distinct U -> named_in U h -> In s U -> names n s ->
  (exists x, In x (members (run h) n) /\ same x r) <-> member h s r.
Proof.
  intros U h s n r D N I Hn. pose proof (run_good U h D N) as G. rewrite <- mem_iff. unfold members. rewrite mem_app, orb_true_iff.
  destruct (names_fields _ _ Hn) as [-> ->]. destruct (Z.eq_dec (roid s) NO_ID) as [O|O].
  - destruct Hn as [-> | [? _]]; [|contradiction]. rewrite O, (g_no_orig _ _ _ G). split.
    + intros [H|H]; [now apply (g_id_sound _ _ _ G)|discriminate].
    + intros H. left. now apply (g_id_all _ _ _ G).
  - rewrite (g_orig _ _ _ G s r I O). split; [|tauto]. intros [H|H]; [|exact H]. destruct Hn as [-> | [_ ->]].
    + now apply (g_id_sound _ _ _ G).
    + cbn [rid] in H. rewrite (g_no_id _ _ _ G) in H. discriminate.
Qed.

(** ** The objects *)
Section Objects.
Context {P : Type}.

(** A reference kept in a set denotes an object by its user number, or by the
    internal number of an object without user number. *)
Definition genuine (ops : list (@cop P)) (r : ref) : Prop :=
  roid r = NO_ID -> rid r <> NO_ID /\ forall c, In c ops -> oid (op_obj c) = rid r -> getReference (op_obj c) = r.
Definition all_genuine (ops : list (@cop P)) (h : list event) : Prop := forall r n, In (Put r n) h -> genuine ops r.

Lemma insert_in r l x : In x (set_insert r l) -> In x l \/ x = r.
Proof. unfold set_insert. destruct (existsb _ _); [auto|]. rewrite in_app_iff. cbn. intuition. Qed.
Lemma remove_in r l x : In x (set_remove r l) -> In x l.
Proof. induction l as [|a l IH]; cbn; [auto|]. destruct (ref_eqb a r); cbn; intuition. Qed.
Lemma from_history h : forall x, (forall k, In x (in_id (run h) k) -> exists n, In (Put x n) h) /\ (forall t k, In x (in_orig (run h) t k) -> exists n, In (Put x n) h).
Proof.
  intros x. induction h as [|e h [A B]] using rev_ind; [cbn; tauto|]. unfold run. rewrite fold_left_app. cbn [fold_left]. fold (run h).
  assert (K : forall l : list ref, (In x l -> exists n, In (Put x n) h) -> In x l -> exists n, In (Put x n) (h ++ [e])).
  { intros l H I. destruct (H I) as [n J]. exists n. apply in_or_app. now left. }
  destruct e as [r n|r|r n]; cbn [step].
  - assert (J : forall l, (In x l -> exists n, In (Put x n) h) -> In x (set_insert r l) -> exists n', In (Put x n') (h ++ [Put r n])).
    { intros l H I. apply insert_in in I. destruct I as [I | ->]; [now apply (K l)|]. exists n. apply in_or_app. right. now left. }
    unfold put. destruct (has_id n), (has_original_id n); cbn [in_id in_orig at_id at_orig]; split; intros *;
      try (destruct (_ && _)); try (destruct (_ =? _)); first [exact (J _ (A _)) | exact (J _ (B _ _)) | exact (K _ (A _)) | exact (K _ (B _ _))].
  - cbn [take_out in_id in_orig]. split; intros *; intros I; apply remove_in in I; [exact (K _ (A _) I)|exact (K _ (B _ _) I)].
  - unfold take_from. destruct (has_original_id n); cbn [in_id in_orig at_id at_orig]; split; intros *;
      try (destruct (_ && _)); try (destruct (_ =? _)); intros I; try apply remove_in in I; first [exact (K _ (A _) I) | exact (K _ (B _ _) I)].
Qed.
Lemma members_put h n x : In x (members (run h) n) -> exists k, In (Put x k) h.
Proof. unfold members. rewrite in_app_iff. intros [I|I]; [eapply (proj1 (from_history h x)); exact I|eapply (proj2 (from_history h x)); exact I]. Qed.

Lemma live_op (ops : list (@cop P)) o : In o (live ops) -> exists c, In c ops /\ op_obj c = o.
Proof.
  unfold live. assert (K : forall L, In o (fold_left live_step ops L) -> In o L \/ exists c, In c ops /\ op_obj c = o).
  { induction ops as [|c ops IH]; intros L H; [now left|]. cbn in H. apply IH in H. destruct H as [H|(c' & I & E)].
    - apply live_step_in in H. destruct H as [H| ->]; [now left|right; exists c; split; [now left|reflexivity]].
    - right. exists c'. split; [now right|exact E]. }
  intros H. destruct (K [] H) as [[]|H']. exact H'.
Qed.

Definition sound (ops : list (@cop P)) : Prop := numbers_valid ops /\ numbers_consistent ops /\ erases_live [] ops.

(** What the registry answers for a genuine reference. *)
Lemma find_same ops r : sound ops -> genuine ops r -> exists res, cfind (crun ops) r = Ok res /\ forall o, res = Some o <-> In o (live ops) /\ same r (getReference o).
Proof.
  intros (V & C & E) G. assert (NZ : roid r <> NO_ID \/ rid r <> NO_ID). { destruct (Z.eq_dec (roid r) NO_ID) as [O|O]; [right; now apply G|now left]. }
  destruct (C09_find_live P ops V C E r NZ) as (res & F & H). exists res. split; [exact F|]. intros o. rewrite H. unfold same. cbn [getReference rtype roid rid].
  split.
  - intros (L & A & B). split; [exact L|]. destruct (Z.eq_dec (roid r) NO_ID) as [O|O].
    + destruct (live_op _ _ L) as (c & I & Ec). destruct (G O) as [_ X]. specialize (X c I). rewrite Ec in X. specialize (X (B O)). rewrite <- X. cbn. auto.
    + destruct (A O) as [A1 A2]. split; [auto|]. split; [auto|]. intros X. contradiction.
  - intros (L & A & B & D). split; [exact L|]. split; [auto|]. intros O. symmetry. auto.
Qed.

Lemma genuine_members ops h n x : all_genuine ops h -> In x (members (run h) n) -> genuine ops x.
Proof. intros G I. destruct (members_put _ _ _ I) as [k J]. exact (G x k J). Qed.

(** C85: the loadings of a set are the registered objects among its members; a
    member that is not registered is an exception. *)
Theorem C85_loadings : forall U h ops s n, distinct U -> named_in U h -> In s U -> names n s -> sound ops -> all_genuine ops h ->
  match loadings_of (mkModel (run h) (crun ops)) n with
  | Ok l => (forall o, In o l <-> In o (live ops) /\ member h s (getReference o)) /\ (forall r, member h s r -> exists o, In o (live ops) /\ same r (getReference o))
  | Throw => exists r, member h s r /\ forall o, In o (live ops) -> ~ same r (getReference o)
  | _ => False
  end.
Proof.
  intros U h ops s n D N I Hn S G. pose proof (fun r => C85_members U h s n r D N I Hn) as M. unfold loadings_of. cbn [sets objects].
  assert (Gm : forall x, In x (members (run h) n) -> genuine ops x) by (intros x; now apply genuine_members).
  revert M Gm. generalize (members (run h) n) as l. intros l M Gm.
  assert (K : match mapM (fun r => do o <- cfind (crun ops) r; match o with Some o => Ok o | None => Throw end) l with
    | Ok k => (forall o, In o k <-> In o (live ops) /\ exists x, In x l /\ same x (getReference o)) /\ (forall x, In x l -> exists o, In o (live ops) /\ same x (getReference o))
    | Throw => exists x, In x l /\ forall o, In o (live ops) -> ~ same x (getReference o)
    | _ => False end).
  { clear M. induction l as [|x l IH]; cbn [mapM].
    - split; [|intros x []]. intros o. cbn. split; [tauto|]. intros (_ & x & [] & _).
    - specialize (IH (fun y Hy => Gm y (or_intror Hy))). destruct (find_same ops x S (Gm x (or_introl eq_refl))) as (res & F & H). rewrite F. cbn [bind].
      destruct res as [o|]; cbn [bind].
      + destruct (mapM _ l) as [k| | |]; cbn [bind]; auto.
        * destruct IH as [A B]. destruct (proj1 (H o) eq_refl) as [L Q]. split.
          -- intros o'. split.
             ++ intros [<- |J]; [split; [exact L|]; exists x; split; [now left|exact Q]|]. apply A in J. destruct J as (J & y & Y & Z0). split; [exact J|]. exists y. split; [now right|exact Z0].
             ++ intros (J & y & [<- |Y] & Z0). { left. assert (Some o = Some o') as X by (apply H; auto). now inversion X. } right. apply A. split; [exact J|]. exists y. auto.
          -- intros y [<- |Y]; [exists o; auto|auto].
        * destruct IH as (y & Y & Z0). exists y. split; [now right|exact Z0].
      + exists x. split; [now left|]. intros o L Q. assert (None = Some o) by (apply H; auto). discriminate. }
  destruct (mapM _ l) as [k| | |]; auto.
  - destruct K as [A B]. split.
    + intros o. rewrite A, <- M. reflexivity.
    + intros r Hr. apply M in Hr. destruct Hr as (x & X & Q). destruct (B x X) as (o & L & Q'). exists o. split; [exact L|]. apply same_trans with x; [now apply same_sym|exact Q'].
  - destruct K as (x & X & Q). exists x. split; [apply M; exists x; split; [exact X|apply same_refl]|exact Q].
Qed.

(** C85: the same for constraints and objectives, when every member is
    registered. *)
Lemma find_all ops l : sound ops -> (forall x, In x l -> genuine ops x) -> (forall x, In x l -> exists o, In o (live ops) /\ same x (getReference o)) ->
  exists k, mapM (fun r => cfind (crun ops) r) l = Ok (map Some k) /\ forall o, In o k <-> In o (live ops) /\ exists x, In x l /\ same x (getReference o).
Proof.
  intros S. induction l as [|x l IH]; intros G R.
  - exists []. split; [reflexivity|]. intros o. cbn. split; [tauto|]. intros (_ & x & [] & _).
  - destruct IH as (k & E & A); [intros y Y; apply G; now right|intros y Y; apply R; now right|]. destruct (find_same ops x S (G x (or_introl eq_refl))) as (res & F & H).
    destruct (R x (or_introl eq_refl)) as (o & L & Q). assert (X : res = Some o) by (apply H; auto). rewrite X in F. exists (o :: k). cbn [mapM]. rewrite F. cbn [bind]. rewrite E. cbn [bind map].
    split; [reflexivity|]. intros o'. split.
    + intros [<- |J]; [split; [exact L|]; exists x; split; [now left|exact Q]|]. apply A in J. destruct J as (J & y & Y & Z0). split; [exact J|]. exists y. split; [now right|exact Z0].
    + intros (J & y & [<- |Y] & Z0). { left. assert (X' : res = Some o') by (apply H; auto). congruence. } right. apply A. split; [exact J|]. exists y. auto.
Qed.
Definition all_registered (ops : list (@cop P)) (h : list event) (s : ref) : Prop := forall r, member h s r -> exists o, In o (live ops) /\ same r (getReference o).

Theorem C85_constraints : forall U h ops s n, distinct U -> named_in U h -> In s U -> names n s -> sound ops -> all_genuine ops h -> all_registered ops h s ->
  exists l, constraints_of (mkModel (run h) (crun ops)) n = Ok (map Some l) /\ forall o, In o l <-> In o (live ops) /\ member h s (getReference o).
Proof.
  intros U h ops s n D N I Hn S G R. pose proof (fun r => C85_members U h s n r D N I Hn) as M. unfold constraints_of. cbn [sets objects].
  destruct (find_all ops (members (run h) n) S) as (k & E & A).
  - intros x. now apply genuine_members.
  - intros x X. apply R, M. exists x. split; [exact X|apply same_refl].
  - rewrite E. cbn [bind]. exists k. split.
    + replace (existsb _ (map Some k)) with false; [reflexivity|]. clear. induction k; cbn; auto.
    + intros o. rewrite A, <- M. reflexivity.
Qed.

(** C85: the sets of a constraint are the registered sets it is a member of. *)
Lemma scan_some r (l : list (object P)) : exists b, scan r (map Some l) = Ok b /\ (b = true <-> exists o, In o l /\ same (getReference o) r).
Proof.
  induction l as [|o l (b & E & H)]; cbn [map scan].
  - exists false. split; [reflexivity|]. split; [discriminate|]. intros (o & [] & _).
  - destruct (ref_eqb (getReference o) r) eqn:F.
    + exists true. split; [reflexivity|]. split; [|auto]. intros _. exists o. split; [now left|now apply same_iff].
    + exists b. split; [exact E|]. rewrite H. split; intros (o' & I & Q); exists o'; (split; [|exact Q]); [now right|]. destruct I as [<- |I]; [|exact I]. apply same_iff in Q. congruence.
Qed.
Theorem C85_sets_of_constraint : forall U h ops registered c, distinct U -> named_in U h -> (forall s, In s registered -> In s U) -> sound ops -> all_genuine ops h ->
  (forall s, In s registered -> all_registered ops h s) -> In c (live ops) ->
  exists l, sets_of registered (mkModel (run h) (crun ops)) (getReference c) = Ok l /\ forall s, In s l <-> In s registered /\ member h s (getReference c).
Proof.
  intros U h ops registered c D N I S G R L. unfold sets_of.
  assert (K : forall acc, exists l, foldM (fun acc s => do l <- constraints_of (mkModel (run h) (crun ops)) s; do found <- scan (getReference c) l; Ok (if found then acc ++ [s] else acc)) registered acc = Ok (acc ++ l)
    /\ forall s, In s l <-> In s registered /\ member h s (getReference c)).
  { induction registered as [|s reg IH]; intros acc; cbn [foldM].
    - exists []. split; [now rewrite app_nil_r|]. cbn. tauto.
    - destruct (C85_constraints U h ops s s D N (I s (or_introl eq_refl)) (or_introl eq_refl) S G (R s (or_introl eq_refl))) as (k & E & A). rewrite E. cbn [bind].
      destruct (scan_some (getReference c) k) as (b & F & B). rewrite F. cbn [bind].
      assert (Q : b = true <-> member h s (getReference c)).
      { rewrite B. split.
        - intros (o & J & Z0). apply A in J. destruct J as [_ (h1 & x & n & h2 & Eh & Nn & Sx & T)]. exists h1, x, n, h2. split; [exact Eh|]. split; [exact Nn|]. split; [eapply same_trans; eassumption|].
          intros e Ie Te. apply (T e Ie). destruct e as [r n'|r|r n']; cbn in *; [exact Te|eapply same_trans; [exact Te|now apply same_sym]|]. destruct Te as [T1 T2]. split; [exact T1|]. eapply same_trans; [exact T2|now apply same_sym].
        - intros Mc. exists c. split; [apply A; auto|apply same_refl]. }
      destruct (IH (fun y Hy => I y (or_intror Hy)) (fun y Hy => R y (or_intror Hy)) (if b then acc ++ [s] else acc)) as (l & El & Hl). rewrite El. destruct b.
      + exists (s :: l). split; [now rewrite <- app_assoc|]. intros s'. cbn [In]. rewrite Hl. assert (member h s (getReference c)) by now apply Q. intuition (subst; auto).
      + exists l. split; [reflexivity|]. intros s'. cbn [In]. rewrite Hl. assert (~ member h s (getReference c)) by (rewrite <- Q; discriminate). intuition (subst; auto; contradiction). }
  destruct (K []) as (l & E & H). exists l. auto.
Qed.

(** ** Whole histories: no set refers to an object that is gone *)
Definition event_of (a : action P) : list event :=
  match a with
  | Create _ => []
  | Into r s => [Put r s]
  | Remove o => [TakeOut (getReference o)]
  | RemoveFrom o s => [TakeFrom (getReference o) s]
  end.
Definition op_of (a : action P) : list (@cop P) :=
  match a with
  | Create o => [CAdd o]
  | Into _ _ => []
  | Remove o | RemoveFrom o _ => [CErase o]
  end.
Definition events (h : list (action P)) : list event := flat_map event_of h.
Definition ops_of (h : list (action P)) : list (@cop P) := flat_map op_of h.

(** Registered objects are put into sets; one is only removed through one of its
    sets when it is in no other. *)
Definition proper (U : list ref) (h : list (action P)) : Prop := forall h1 a h2, h = h1 ++ a :: h2 ->
  match a with
  | Into r n => (exists o, In o (live (ops_of h1)) /\ r = getReference o) /\ (exists s, In s U /\ names n s)
  | RemoveFrom o s => In s U /\ forall s', In s' U -> s' <> s -> ~ member (events h1) s' (getReference o)
  | _ => True
  end.

Lemma events_snoc h a : events (h ++ [a]) = events h ++ event_of a.
Proof. unfold events. rewrite flat_map_app. cbn. now rewrite app_nil_r. Qed.
Lemma ops_snoc h a : ops_of (h ++ [a]) = ops_of h ++ op_of a.
Proof. unfold ops_of. rewrite flat_map_app. cbn. now rewrite app_nil_r. Qed.
Lemma acts_split h : acts h = mkModel (run (events h)) (crun (ops_of h)).
Proof.
  induction h as [|a h IH] using rev_ind; [reflexivity|]. unfold acts. rewrite fold_left_app. cbn [fold_left]. fold (acts h). rewrite IH, events_snoc, ops_snoc.
  unfold run, crun. rewrite !fold_left_app. fold (run (events h)) (crun (ops_of h)). destruct a; reflexivity.
Qed.

Lemma erases_app (a b : list (@cop P)) : forall L, erases_live L (a ++ b) <-> erases_live L a /\ erases_live (fold_left live_step a L) b.
Proof. induction a as [|x a IH]; intros L; cbn; [tauto|]. rewrite IH. tauto. Qed.
Lemma sound_prefix a b : sound (a ++ b) -> sound a.
Proof.
  intros (V & C & E). split; [|split].
  - intros x I. apply V, in_or_app. now left.
  - intros x y I J. apply C; apply in_or_app; now left.
  - now apply erases_app in E.
Qed.
Lemma live_snoc (ops : list (@cop P)) c : live (ops ++ [c]) = live_step (live ops) c.
Proof. unfold live. now rewrite fold_left_app. Qed.
Lemma member_same h s x y : same x y -> member h s x -> member h s y.
Proof.
  intros Q (h1 & z & n & h2 & E & N & S & T). exists h1, z, n, h2. split; [exact E|]. split; [exact N|]. split; [eapply same_trans; eassumption|].
  intros e I K. apply (T e I). apply same_sym in Q. destruct e as [r n'|r|r n']; cbn in *; [exact K|eapply same_trans; eassumption|]. destruct K. split; [assumption|eapply same_trans; eassumption].
Qed.
Lemma live_erased ops o o' : sound (ops ++ [CErase o]) -> In o' (live ops) -> o' <> o -> In o' (live (ops ++ [CErase o])).
Proof.
  intros (V & C & E) L D. rewrite live_snoc. cbn. apply filter_In. split; [exact L|]. apply negb_true_iff, Z.eqb_neq. intros X. apply D.
  destruct (live_op _ _ L) as (c & I & <-). apply (C c (CErase o)); [apply in_or_app; now left|apply in_or_app; right; now left|exact X].
Qed.
Lemma proper_prefix U h a : proper U (h ++ [a]) -> proper U h.
Proof. intros H h1 b h2 E. apply (H h1 b (h2 ++ [a])). now rewrite E, <- app_assoc. Qed.
Lemma proper_named U h : proper U h -> named_in U (events h).
Proof.
  intros H e I. unfold events in I. apply in_flat_map in I. destruct I as (a & A & I). apply in_split in A. destruct A as (h1 & h2 & E). specialize (H h1 a h2 E).
  destruct a; cbn in I; try contradiction; destruct I as [<- |[]]; cbn; tauto.
Qed.
Lemma proper_genuine U h : sound (ops_of h) -> proper U h -> all_genuine (ops_of h) (events h).
Proof.
  intros (V & C & _) H r n I. unfold events in I. apply in_flat_map in I. destruct I as (a & A & I). apply in_split in A. destruct A as (h1 & h2 & E). specialize (H h1 a h2 E).
  destruct a; cbn in I; try contradiction; destruct I as [I|[]]; try discriminate. inversion I; subst r n. destruct H as [(o & L & ->) _].
  destruct (live_op _ _ L) as (c & J & Ec). assert (J' : In c (ops_of h)). { rewrite E. unfold ops_of. rewrite flat_map_app. apply in_or_app. left. exact J. }
  intros O. cbn [getReference rid]. split; [rewrite <- Ec; now apply V|]. intros c' J'' X. f_equal. rewrite <- Ec. apply C; auto. now rewrite Ec.
Qed.
Lemma proper_registered U h : sound (ops_of h) -> proper U h -> forall s, In s U -> all_registered (ops_of h) (events h) s.
Proof.
  induction h as [|a h IH] using rev_ind; intros S H s I r M.
  { destruct M as (h1 & y & n & h2 & E & _). destruct h1; discriminate. }
  rewrite ops_snoc in *. rewrite events_snoc in *. specialize (IH (sound_prefix _ _ S) (proper_prefix _ _ _ H)). pose proof (H h a [] eq_refl) as Ha.
  destruct a as [o|x n|o|o n]; cbn [event_of op_of] in *.
  - rewrite app_nil_r in M. destruct (IH s I r M) as (o' & L & Q). exists o'. split; [|exact Q]. rewrite live_snoc. cbn. destruct (existsb _ _); [exact L|now right].
  - rewrite app_nil_r. apply member_snoc_put in M. destruct M as [M|[_ Q]]; [now apply (IH s)|]. destruct Ha as [(o & L & ->) _]. exists o. split; [exact L|now apply same_sym].
  - apply member_snoc_take in M; [|discriminate]. destruct M as [M T]. destruct (IH s I r M) as (o' & L & Q). exists o'. split; [|exact Q]. apply live_erased; auto.
    intros ->. apply T. cbn. now apply same_sym.
  - apply member_snoc_take in M; [|discriminate]. destruct M as [M T]. destruct (IH s I r M) as (o' & L & Q). exists o'. split; [|exact Q]. apply live_erased; auto.
    intros ->. destruct Ha as [J K]. destruct (ref_dec s n) as [-> |D]; [apply T; cbn; split; [reflexivity|now apply same_sym]|]. apply (K s I D). eapply member_same; eassumption.
Qed.

(** C85: after any such history every set is read without failure, and its
    contents are the registered objects put into it and not taken out since. *)
Theorem C85_no_dangling : forall U h s n, distinct U -> sound (ops_of h) -> proper U h -> In s U -> names n s ->
  (exists l, loadings_of (acts h) n = Ok l /\ forall o, In o l <-> In o (live (ops_of h)) /\ member (events h) s (getReference o)) /\
  (exists l, constraints_of (acts h) n = Ok (map Some l) /\ forall o, In o l <-> In o (live (ops_of h)) /\ member (events h) s (getReference o)).
Proof.
  intros U h s n D S H I N. rewrite acts_split. pose proof (proper_named U h H) as A. pose proof (proper_genuine U h S H) as G. pose proof (proper_registered U h S H s I) as R. split.
  - pose proof (C85_loadings U (events h) (ops_of h) s n D A I N S G) as K. destruct (loadings_of _ n) as [l| | |]; try contradiction.
    + exists l. split; [reflexivity|]. apply K.
    + destruct K as (r & M & Q). destruct (R r M) as (o & L & X). destruct (Q o L X).
  - now apply C85_constraints with (U := U).
Qed.
End Objects.

(** ** The set itself *)
(** C85: putting a loading into a numbered set registers the set if needed, and
    loses none of the others. *)
Lemma added (L : list (object unit)) c o : Inv c L -> oid o <> NO_ID -> (forall x, In x L -> oid x = oid o -> x = o) -> cfind c (getReference o) = Ok None ->
  exists c', cadd c o = Ok c' /\ Inv c' (o :: L).
Proof.
  intros I N D F. pose proof (step_inv c L (CAdd o) I N D Logic.I) as I'. cbn [cstep live_step] in I'. unfold cadd in *. rewrite F in *. cbn [bind] in *. eexists. split; [reflexivity|].
  destruct (existsb (same_name o) L) eqn:E; [|exact I'].
  exfalso. apply existsb_same in E. destruct E as (x & J & K).
  destruct (cfind_live c L (getReference o) I) as (res & F' & H). { right. now apply has_id_iff. }
  rewrite F in F'. inversion F'; subst res. assert (None = Some x); [|discriminate]. apply H. split; [exact J|]. unfold has_original_id. cbn [getReference roid rtype rid].
  destruct (ooid o =? NO_ID); exact K.
Qed.
Lemma kept (L L' : list (object unit)) c c' : Inv c L -> Inv c' L' -> (forall x, In x L -> In x L') -> forall r o, cfind c r = Ok (Some o) -> cfind c' r = Ok (Some o).
Proof.
  intros I I' S r o F. assert (V : has_original_id r = true \/ has_id r = true).
  { unfold cfind in F. destruct (has_original_id r); [auto|]. destruct (has_id r); [auto|discriminate]. }
  destruct (cfind_live c L r I V) as (res & E & H). destruct (cfind_live c' L' r I' V) as (res' & E' & H'). rewrite F in E. inversion E; subst res.
  rewrite E'. f_equal. apply H'. destruct (proj1 (H o) eq_refl). auto.
Qed.
Theorem C85_set_registered : forall (ops : list (@cop unit)) common fresh n, sound (ops ++ [CAdd common]) -> ooid common <> NO_ID ->
  fresh <> NO_ID -> (forall c, In c (ops ++ [CAdd common]) -> oid (op_obj c) <> fresh) -> roid n <> NO_ID ->
  exists c s, register_set common fresh n (crun ops) = Ok c /\ cfind c n = Ok (Some s) /\ otype s = rtype n /\ ooid s = roid n /\
    (forall r o, cfind (crun ops) r = Ok (Some o) -> cfind c r = Ok (Some o)).
Proof.
  intros ops common fresh n S Oc Nf F On. destruct (sound_prefix _ _ S) as (V & C & E). pose proof (history_inv ops V C E) as I. destruct S as (V' & C' & _).
  assert (Vn : has_original_id n = true \/ has_id n = true) by (left; now apply has_orig_iff).
  assert (Hn : forall (L : list (object unit)) c, Inv c L -> exists res, cfind c n = Ok res /\ forall o, res = Some o <-> In o L /\ otype o = rtype n /\ ooid o = roid n).
  { intros L c I0. destruct (cfind_live c L n I0 Vn) as (res & E0 & H0). rewrite (proj2 (has_orig_iff n) On) in H0. eauto. }
  (* the common set *)
  assert (K : exists c1 L1, (if ref_eqb n (getReference common) then do f <- cfind (crun ops) (getReference common); match f with None => cadd (crun ops) common | Some _ => Ok (crun ops) end else Ok (crun ops)) = Ok c1
     /\ Inv c1 L1 /\ (forall x, In x (live ops) -> In x L1) /\ (forall x, In x L1 -> In x (live ops) \/ x = common)).
  { destruct (ref_eqb n (getReference common)); [|exists (crun ops), (live ops); auto].
    destruct (cfind_live (crun ops) (live ops) (getReference common) I) as (res & F1 & _). { left. now apply has_orig_iff. }
    rewrite F1. cbn [bind]. destruct res; [exists (crun ops), (live ops); auto|].
    destruct (added (live ops) (crun ops) common I) as (c' & A & I').
    - apply (V' (CAdd common)). apply in_or_app. right. now left.
    - intros x J X. destruct (live_op _ _ J) as (c & Jc & <-). apply (C' c (CAdd common)); [apply in_or_app; now left|apply in_or_app; right; now left|exact X].
    - exact F1.
    - exists c', (common :: live ops). split; [exact A|]. split; [exact I'|]. split; [intros x J; now right|]. intros x [<- |J]; auto. }
  destruct K as (c1 & L1 & E1 & I1 & Inc & Src). unfold register_set. rewrite E1. cbn [bind]. destruct (Hn L1 c1 I1) as (res & F1 & H1). rewrite F1. cbn [bind]. destruct res as [s|].
  - exists c1, s. destruct (proj1 (H1 s) eq_refl) as (_ & T & O). split; [reflexivity|]. split; [exact F1|]. split; [exact T|]. split; [exact O|]. eapply kept; eauto.
  - set (o := mkObj (rtype n) (roid n) fresh tt). assert (Fo : cfind c1 (getReference o) = Ok None).
    { rewrite <- F1. unfold cfind, has_original_id, has_id. cbn [getReference o otype ooid oid roid rtype rid]. destruct (Z.eqb_spec (roid n) NO_ID); [contradiction|reflexivity]. }
    destruct (added L1 c1 o I1) as (c' & A & I'); [exact Nf| |exact Fo|].
    + intros x J X. exfalso. cbn in X. destruct (Src x J) as [J' | ->].
      * destruct (live_op _ _ J') as (c & Jc & <-). apply (F c); [apply in_or_app; now left|exact X].
      * apply (F (CAdd common)); [apply in_or_app; right; now left|exact X].
    + exists c', o. split; [exact A|]. destruct (Hn _ c' I') as (res & F2 & H2). split; [rewrite F2; f_equal; apply H2; split; [now left|auto]|]. split; [reflexivity|]. split; [reflexivity|].
      eapply kept; [exact I|exact I'|]. intros x J. right. auto.
Qed.

(** C85: the internal reference of a set that is not registered registers another
    set: what was put into the first is not found in the second. *)
Theorem C85_unnumbered_set_refuted : exists fresh n r c s, rid n <> NO_ID /\ register_set (mkObj 0 0 1 tt) fresh n (crun []) = Ok c /\
  celements c = [s] /\ members (put r n no_members) (getReference s) = [].
Proof.
  exists 9, (mkRef 1 NO_ID 5), (mkRef 3 7 8). eexists. exists (mkObj 1 NO_ID 9 tt). split; [discriminate|]. split; [reflexivity|]. split; reflexivity.
Qed.

(** C85: removing a constraint from one of its sets removes it from the model:
    its other set then holds a null pointer.  Reading that set is undefined when it
    is numbered; otherwise looking for the sets of any constraint fails. *)
Definition shared (s1 s2 : ref) : list (action unit) :=
  [Create (mkObj 4 NO_ID 11 tt); Into (mkRef 4 NO_ID 11) s1; Into (mkRef 4 NO_ID 11) s2; RemoveFrom (mkObj 4 NO_ID 11 tt) s1].
Theorem C85_remove_from_refuted : exists s1 s2 s3,
  distinct [s1; s2; s3] /\
  (sound (ops_of (shared s1 s2)) /\ member (events (shared s1 s2)) s2 (mkRef 4 NO_ID 11) /\ constraints_of (acts (shared s1 s2)) s2 = UB) /\
  (sound (ops_of (shared s1 s3)) /\ member (events (shared s1 s3)) s3 (mkRef 4 NO_ID 11) /\ constraints_of (acts (shared s1 s3)) s3 = Ok [None] /\
   forall r, sets_of [s3] (acts (shared s1 s3)) r = Throw).
Proof.
  exists (mkRef 1 7 2), (mkRef 1 8 3), (mkRef 1 NO_ID 4).
  assert (S : forall a b, sound (ops_of (shared a b))).
  { intros a b. split; [|split].
    - intros c I. cbn in I. destruct I as [<- |[<- |[]]]; discriminate.
    - intros c d I J. cbn in I, J. destruct I as [<- |[<- |[]]], J as [<- |[<- |[]]]; reflexivity.
    - cbn. tauto. }
  assert (M : forall a b, a <> b -> member (events (shared a b)) b (mkRef 4 NO_ID 11)).
  { intros a b D. exists [Put (mkRef 4 NO_ID 11) a], (mkRef 4 NO_ID 11), b, [TakeFrom (mkRef 4 NO_ID 11) a]. split; [reflexivity|]. split; [now left|]. split; [apply same_refl|].
    intros e [<- |[]]. cbn. tauto. }
  split; [|split; (split; [apply S|split; [apply M; discriminate|]])].
  - intros a b I J. destruct I as [<- |[<- |[<- |[]]]], J as [<- |[<- |[<- |[]]]]; cbn; (split; [discriminate|split; intros; try reflexivity; try discriminate; congruence]).
  - reflexivity.
  - split; [reflexivity|]. intros r. reflexivity.
Qed.

(** C85: taking out of a set named by its user number leaves the member under the
    own reference of the set. *)
Theorem C85_take_from_number_refuted : exists r s n, names n s /\ rid s <> NO_ID /\ In r (members (take_from r n (put r s no_members)) s).
Proof.
  exists (mkRef 4 NO_ID 11), (mkRef 1 7 2), (mkRef 1 7 NO_ID). split; [right; split; [discriminate|reflexivity]|]. split; [discriminate|]. cbn. now left.
Qed.

(** ** Objectives *)
(** Numbered objectives put into numbered sets are in the sets they were put into.
    Partial: see the refutations. *)
Definition puts (l : list (ref * ref)) : membership := fold_left (fun m p => put_objective (fst p) (snd p) m) l no_members.
Theorem C85_objectives_partial : forall U l s n r, distinct U -> In s U -> names n s ->
  (forall x t, In (x, t) l -> In t U /\ roid t <> NO_ID /\ roid x <> NO_ID /\ rid x <> NO_ID) ->
  (exists x, In x (members (puts l) n) /\ same x r) <-> exists x, In (x, s) l /\ same x r.
Proof.
  intros U l s n r D I N H. set (h := map (fun p => Put (fst p) (snd p)) l).
  assert (E : puts l = run h).
  { unfold puts, run, h. revert H. generalize no_members. induction l as [|[x t] l IH]; intros m H; [reflexivity|]. cbn [fold_left map step fst snd].
    rewrite IH by (intros; apply H; now right). f_equal. destruct (H x t (or_introl eq_refl)) as (J & A & B & C). destruct (D t t J J) as (F & _).
    unfold put_objective, put. now rewrite (proj2 (has_id_iff _) C), (proj2 (has_id_iff _) F), (proj2 (has_orig_iff _) A), (proj2 (has_orig_iff _) B). }
  rewrite E. rewrite (C85_members U h s n r D); auto.
  - split.
    + intros (h1 & x & n' & h2 & Eh & Nn & Q & _). assert (J : In (Put x n') h) by (rewrite Eh; apply in_or_app; right; now left).
      unfold h in J. apply in_map_iff in J. destruct J as ([y t] & Ey & Jl). cbn in Ey. inversion Ey; subst y t. exists x. split; [|exact Q].
      destruct (H x n' Jl) as (Ju & O & _). destruct Nn as [-> |[_ ->]]; [exact Jl|]. destruct (D _ _ Ju Ju) as (X & _). cbn in X. congruence.
    + intros (x & Jl & Q). apply in_split in Jl. destruct Jl as (l1 & l2 & ->). exists (map (fun p => Put (fst p) (snd p)) l1), x, s, (map (fun p => Put (fst p) (snd p)) l2).
      split; [unfold h; now rewrite map_app|]. split; [now left|]. split; [exact Q|]. intros e J. apply in_map_iff in J. destruct J as (p & <- & _). cbn. tauto.
  - intros e J. unfold h in J. apply in_map_iff in J. destruct J as ([x t] & <- & Jl). cbn. exists t. split; [apply (H x t Jl)|now left].
Qed.
(** The tests are on the numbers of the objective, not of the set: a numbered
    objective put into one unnumbered set is found in every other of its type, and
    an objective without number is not found in its set under the user number. *)
Theorem C85_objectives_refuted :
  (exists r s1 s2, distinct [s1; s2] /\ s1 <> s2 /\ In r (members (put_objective r s1 no_members) s2)) /\
  (exists r s n, distinct [s] /\ names n s /\ rid r <> NO_ID /\ members (put_objective r s no_members) n = []).
Proof.
  split.
  - exists (mkRef 3 7 5), (mkRef 1 NO_ID 2), (mkRef 1 NO_ID 3). split; [|split; [discriminate|cbn; now left]].
    intros a b I J. destruct I as [<- |[<- |[]]], J as [<- |[<- |[]]]; cbn; (split; [discriminate|split; intros; try reflexivity; try discriminate; congruence]).
  - exists (mkRef 3 NO_ID 5), (mkRef 1 7 2), (mkRef 1 7 NO_ID). split; [|split; [right; split; [discriminate|reflexivity]|split; [discriminate|reflexivity]]].
    intros a b [<- |[]] [<- |[]]. cbn. split; [discriminate|]. auto.
Qed.

(** ** Cases *)
Definition a_set : ref := mkRef 1 7 2.
Definition b_set : ref := mkRef 1 NO_ID 3.
Definition a_load : object Z := mkObj 4 100 11 0.
Definition b_load : object Z := mkObj 4 NO_ID 12 1.
Definition a_history : list (action Z) :=
  [Create a_load; Into (getReference a_load) (mkRef 1 7 NO_ID); Create b_load; Into (getReference b_load) a_set; Into (getReference b_load) b_set;
   Remove b_load; Create (mkObj 4 NO_ID 13 2); Into (mkRef 4 NO_ID 13) b_set; RemoveFrom (mkObj 4 NO_ID 13 2) b_set].
Example C85_case : distinct [a_set; b_set] /\ sound (ops_of a_history) /\ proper [a_set; b_set] a_history /\
  loadings_of (acts a_history) a_set = Ok [a_load] /\ constraints_of (acts a_history) (mkRef 1 7 NO_ID) = Ok [Some a_load] /\
  loadings_of (acts a_history) b_set = Ok [] /\ sets_of [a_set; b_set] (acts a_history) (getReference a_load) = Ok [a_set].
Proof.
  split. { intros a b [<- |[<- |[]]] [<- |[<- |[]]]; cbn; (split; [discriminate|split; intros; try reflexivity; try discriminate; congruence]). }
  split.
  { split; [|split].
    - intros c I. cbn in I. repeat (destruct I as [<- |I]; [discriminate|]). destruct I.
    - intros c d I J. cbn in I, J. repeat (destruct I as [<- |I]); try destruct I; repeat (destruct J as [<- |J]); try destruct J; intros X; try reflexivity; cbn in X; discriminate.
    - cbn. tauto. }
  split; [|vm_compute; auto].
  intros h1 a h2 E.
  repeat (destruct h1 as [|? h1]; [cbn in E; inversion E; subst; clear E|cbn in E; injection E as <- E]); try exact Logic.I; try (destruct h1; discriminate).
  all: try (split; [cbn; eauto|]).
  all: try (exists a_set; split; [now left|first [now left|right; split; [discriminate|reflexivity]]]).
  all: try (exists b_set; split; [right; now left|now left]).
  all: try (cbn; tauto).
  - intros s' [<- |[<- |[]]] D; [|contradiction]. intros (k1 & x & n & k2 & Ek & N & Q & _). cbn in Ek.
    repeat (destruct k1 as [|? k1]; [inversion Ek; subst; destruct N as [N|[_ N]]; try discriminate; destruct Q as (_ & Q1 & Q2); cbn in Q1, Q2; try discriminate; specialize (Q2 eq_refl); discriminate|injection Ek as _ Ek]); destruct k1; discriminate.
Qed.

Print Assumptions C85_members.
Print Assumptions C85_loadings.
Print Assumptions C85_constraints.
Print Assumptions C85_sets_of_constraint.
Print Assumptions C85_no_dangling.
Print Assumptions C85_set_registered.
Print Assumptions C85_unnumbered_set_refuted.
Print Assumptions C85_remove_from_refuted.
Print Assumptions C85_take_from_number_refuted.
Print Assumptions C85_objectives_partial.
Print Assumptions C85_objectives_refuted.
