(** C121: the tables of a Systus file. *)
From Coq Require Import ZArith QArith Qround List Bool Lia.
From Verif Require Import Base DofModel DofProofs MatrixElementModel SystusTableModel SystusTableProofs.
Import ListNotations.
Open Scope Z_scope.

(** ** Specification *)
Definition comp (d : dof) : Z := match d with DX => 1 | DY => 2 | DZ => 3 | RX => 4 | RY => 5 | RZ => 6 end.

(** A table of codes and values.  The four digits of a code are a node, another
    node, a component of the first and one of the second; the element is
    symmetric and each pair is written once.  [energy] is twice the energy of
    the element for the displacements [u]. *)
Fixpoint coefficients (vals : list Q) : list (Z * Q) :=
  match vals with
  | c :: v :: r => (Qfloor c, v) :: coefficients r
  | _ => []
  end.
Definition term (u : Z -> Z -> Q) (cv : Z * Q) : Q :=
  let '(i, j, a, b) := (fst cv / 1000, fst cv / 100 mod 10, fst cv / 10 mod 10, fst cv mod 10) in
  ((if (i =? j) && (a =? b) then 1 else 2) * snd cv * u i a * u j b)%Q.
Definition energy (vals : list Q) (u : Z -> Z -> Q) : Q :=
  fold_right (fun cv e => (term u cv + e)%Q) 0%Q (coefficients vals).

(** The sets that need a table in this subcase. *)
Definition concerns (q : tcase) (s : tset) : Prop :=
  match t_source s with
  | TSpring ((a, b) :: _) _ _ => q_table q = true /\ a <> b
  | TSpring [] _ _ => False
  | TStiffness _ | TMass _ | TDamping _ => q_table q = true
  | TRelation an _ => In an (q_active q)
  | TOther => False
  end.
Definition is_relation (s : tset) : Prop := match t_source s with TRelation _ _ => True | _ => False end.

(** The file has a table [n] with these values. *)
Definition written (st : tstate) (n : Z) (vals : list Q) : Prop := In (n, vals) (snd (write_tables (st_tables st))).

(** The table wanted for a role: none (number 0), or one with some contents. *)
Definition plays (st : tstate) (want : option (list Q -> Prop)) (n : Z) : Prop :=
  match want with
  | None => n = 0
  | Some P => n <> 0 /\ exists vals, written st n vals /\ P vals
  end.
(** A spring of stiffness [x] between component [a] of node 1 and [b] of node 2. *)
Definition spring_of (a b : dof) (x : Q) (vals : list Q) : Prop :=
  forall u : Z -> Z -> Q, let e := (u 1%Z (comp a) - u 2%Z (comp b))%Q in (energy vals u == x * (e * e))%Q.
(** The entries of a direct matrix, those of C62. *)
Definition matrix_of (q : tcase) (m : melement Q) (vals : list Q) : Prop := table_fill m (Z.of_nat (q_nb q)) = Ok (coefficients vals).

Definition roles (q : tcase) (st : tstate) (s : tset) (k m d : Z) : Prop :=
  match t_source s with
  | TSpring ((a, b) :: _) x y => plays st (option_map (spring_of a b) x) k /\ m = 0 /\ plays st (option_map (spring_of a b) y) d
  | TStiffness me => plays st (Some (matrix_of q me)) k /\ m = 0 /\ d = 0
  | TMass me => k = 0 /\ plays st (Some (matrix_of q me)) m /\ d = 0
  | TDamping me => k = 0 /\ m = 0 /\ plays st (Some (matrix_of q me)) d
  | _ => False
  end.
(** The documented reading of the field TABLE: six digits, damping, mass,
    stiffness. *)
Definition stiffness_part (r : Z) := r mod 100.
Definition mass_part (r : Z) := r / 100 mod 100.
Definition damping_part (r : Z) := r / 10000.

(** ** Lemmas *)
Lemma wanted_concerns q s : wanted q s <-> concerns q s.
Proof.
  unfold wanted, concerns, crossed_spring, is_stiffness, is_mass, is_damping, active_relation.
  destruct (t_source s) as [[|[a b] l] k c|m|m|m|an cs|]; tauto.
Qed.
Lemma spring_energy a b x : spring_of a b x (spring_values a b x).
Proof. intros u. destruct a, b; unfold energy, coefficients, spring_values; rewrite ?Qfloor_Z; cbn -[Qmult Qplus Qminus Qopp]; ring. Qed.
Lemma coefficients_alternate t : coefficients (alternate t) = t.
Proof. induction t as [|[c v] t IH]; [reflexivity|]. cbn [alternate flat_map app coefficients]. unfold alternate in IH. rewrite Qfloor_Z, IH. reflexivity. Qed.
Lemma entry_written own st id n vals : entry own (st_tables st) id n vals -> written st n vals.
Proof. intros (_ & E & _). apply nth_error_In in E. unfold written, write_tables. cbn [snd]. apply in_map_iff. exists (mkTable n 0 vals). auto. Qed.
Lemma entry_pos own ts id n vals : entry own ts id n vals -> 1 <= n <= Z.of_nat (length ts).
Proof. intros (A & E & _). assert (X : (Z.to_nat (n - 1) < length ts)%nat) by (apply nth_error_Some; congruence). lia. Qed.

(** Numbers of the tables of a set, with their owner. *)
Lemma parts_of q st own s r : described (q_nb q) own (st_tables st) s r -> ~ is_relation s ->
  exists k m d, r = k + 100 * m + 10000 * d /\ roles q st s k m d /\
    forall n, n = k \/ n = m \/ n = d -> n = 0 \/ (1 <= n <= Z.of_nat (length (st_tables st)) /\ nth_error own (Z.to_nat (n - 1)) = Some (Some (t_id s))).
Proof.
  assert (R : forall a b x n, role own (st_tables st) (t_id s) a b x n -> plays st (option_map (spring_of a b) x) n).
  { intros a b [x|] n H; cbn in *; [|exact H]. pose proof (entry_pos _ _ _ _ _ H). split; [lia|]. exists (spring_values a b x). split; [eapply entry_written; exact H|apply spring_energy]. }
  assert (R' : forall a b x n, role own (st_tables st) (t_id s) a b x n -> n = 0 \/ (1 <= n <= Z.of_nat (length (st_tables st)) /\ nth_error own (Z.to_nat (n - 1)) = Some (Some (t_id s)))).
  { intros a b [x|] n H; cbn in H; [|auto]. right. split; [eapply entry_pos; exact H|apply H]. }
  assert (M : forall m n, held (q_nb q) own (st_tables st) (t_id s) m n -> plays st (Some (matrix_of q m)) n /\ (1 <= n <= Z.of_nat (length (st_tables st)) /\ nth_error own (Z.to_nat (n - 1)) = Some (Some (t_id s)))).
  { intros m n (t & F & H). pose proof (entry_pos _ _ _ _ _ H). split; [|split; [exact H0|apply H]].
    split; [lia|]. exists (alternate t). split; [eapply entry_written; exact H|]. unfold matrix_of. rewrite coefficients_alternate. exact F. }
  unfold described, is_relation, roles. destruct (t_source s) as [[|[a b] l] k c|m|m|m|an cs|]; intros De No; try contradiction.
  - destruct De as (rk & rc & E & K & C). exists rk, 0, rc. split; [lia|]. split; [auto|]. intros n [->|[->| ->]]; eauto.
  - apply M in De as [P O]. exists r, 0, 0. split; [lia|]. split; [auto|]. intros n [->|[->| ->]]; auto.
  - destruct De as (n & E & De). apply M in De as [P O]. exists 0, n, 0. split; [lia|]. split; [auto|]. intros n' [->|[->| ->]]; auto.
  - destruct De as (n & E & De). apply M in De as [P O]. exists 0, 0, n. split; [lia|]. split; [auto|]. intros n' [->|[->| ->]]; auto.
Qed.

(** ** Theorems *)
(** The tables of the file are numbered from 1, in order, and announced. *)
Theorem C121_numbers : forall q sets st n ls, NoDup (map t_id sets) -> fillTables q sets = Ok st ->
  write_tables (st_tables st) = (n, ls) ->
  n = Z.of_nat (length ls) /\ map fst ls = map (fun i => Z.of_nat i + 1) (seq 0 (length ls)).
Proof.
  intros q sets st n ls Nd F W. destruct (fill_inv q sets st Nd F) as (own & s1 & I & _). pose proof (i_num _ _ _ _ _ I) as Nu.
  unfold write_tables in W. injection W as <- <-. rewrite map_length. split; [reflexivity|]. rewrite map_map. cbn [fst]. exact Nu.
Qed.

(** Each set that needs tables has them, under the numbers its field TABLE is made of. *)
Theorem C121_reference : forall q sets st s, NoDup (map t_id sets) -> fillTables q sets = Ok st ->
  In s sets -> concerns q s -> ~ is_relation s ->
  exists r k m d, st_set st (t_id s) = Some r /\ r = k + 100 * m + 10000 * d /\ roles q st s k m d.
Proof.
  intros q sets st s Nd F Is C No. destruct (fill_inv q sets st Nd F) as (own & s1 & I & _).
  destruct (i_set _ _ _ _ _ I s Is (proj2 (wanted_concerns q s) C)) as (r & E & De).
  destruct (parts_of q st own s r De No) as (k & m & d & X & Ro & _). exists r, k, m, d. auto.
Qed.

Lemma parts_small r k m d N : r = k + 100 * m + 10000 * d -> (forall n, n = k \/ n = m \/ n = d -> n = 0 \/ 1 <= n <= N) -> N < 100 ->
  stiffness_part r = k /\ mass_part r = m /\ damping_part r = d.
Proof.
  intros E B L. assert (K : 0 <= k < 100) by (destruct (B k); auto; lia). assert (M : 0 <= m < 100) by (destruct (B m); auto; lia).
  assert (D : 0 <= d < 100) by (destruct (B d); auto; lia). unfold stiffness_part, mass_part, damping_part.
  assert (H1 : r / 100 = m + 100 * d) by (symmetry; apply (Z.div_unique r 100 _ k); lia).
  split; [symmetry; apply (Z.mod_unique r 100 (m + 100 * d)); lia|]. split.
  - rewrite H1. symmetry. apply (Z.mod_unique _ 100 d); lia.
  - symmetry. apply (Z.div_unique r 10000 d (k + 100 * m)); lia.
Qed.

(** With fewer than a hundred tables the field is read as documented (partial:
    see [C121_hundred_tables_refuted]). *)
Theorem C121_roles_partial : forall q sets st s, NoDup (map t_id sets) -> fillTables q sets = Ok st ->
  (length (st_tables st) < 100)%nat -> In s sets -> concerns q s -> ~ is_relation s ->
  exists r, st_set st (t_id s) = Some r /\ roles q st s (stiffness_part r) (mass_part r) (damping_part r).
Proof.
  intros q sets st s Nd F Few Is C No. destruct (fill_inv q sets st Nd F) as (own & s1 & I & _).
  destruct (i_set _ _ _ _ _ I s Is (proj2 (wanted_concerns q s) C)) as (r & E & De).
  destruct (parts_of q st own s r De No) as (k & m & d & X & Ro & B). exists r. split; [exact E|].
  destruct (parts_small r k m d (Z.of_nat (length (st_tables st))) X) as (-> & -> & ->); [|lia|exact Ro].
  intros n Hn. destruct (B n Hn) as [?|[? _]]; auto.
Qed.

(** A relation of the subcase refers to its table, where the coefficient of
    component [d] at node [j] of equation [i] is in its place. *)
Lemma flat_index {A B} (f : A -> list B) w : forall l i x, (forall y, In y l -> length (f y) = w) -> nth_error l i = Some x ->
  forall j, (j < w)%nat -> nth_error (flat_map f l) (i * w + j) = nth_error (f x) j.
Proof.
  induction l as [|y l IH]; intros i x W E j Lj; [destruct i; discriminate E|]. cbn [flat_map]. destruct i as [|i]; cbn in E.
  - injection E as ->. cbn. apply nth_error_app1. rewrite W by (left; reflexivity). exact Lj.
  - rewrite nth_error_app2 by (rewrite W by (left; reflexivity); nia). rewrite W by (left; reflexivity).
    replace (S i * w + j - w)%nat with (i * w + j)%nat by nia. apply IH; auto. intros z Iz. apply W. right. exact Iz.
Qed.
Lemma flat_length {A B} (f : A -> list B) w : forall l, (forall y, In y l -> length (f y) = w) -> length (flat_map f l) = (length l * w)%nat.
Proof.
  induction l as [|y l IH]; intros W; [reflexivity|]. cbn [flat_map length]. rewrite app_length, W by (left; reflexivity).
  rewrite IH by (intros z Iz; apply W; right; exact Iz). lia.
Qed.
Lemma nth_firstn {A} : forall n (l : list A) d, (d < n)%nat -> nth_error (firstn n l) d = nth_error l d.
Proof. induction n as [|n IH]; intros l d L; [lia|]. destruct l as [|a l]; [destruct d; reflexivity|]. destruct d as [|d]; [reflexivity|]. cbn. apply IH. lia. Qed.

Theorem C121_relation : forall q sets st s an coefs w, NoDup (map t_id sets) -> fillTables q sets = Ok st ->
  In s sets -> t_source s = TRelation an coefs -> In an (q_active q) ->
  (q_nb q <= 6)%nat -> (forall eq, In eq coefs -> length eq = w) -> (forall eq c, In eq coefs -> In c eq -> length c = 6%nat) ->
  exists n vals, st_set st (t_id s) = Some n /\ written st n vals /\ length vals = (length coefs * (w * q_nb q))%nat /\
    forall i eq j c d, nth_error coefs i = Some eq -> nth_error eq j = Some c -> (d < q_nb q)%nat ->
      nth_error vals ((i * w + j) * q_nb q + d) = nth_error c d.
Proof.
  intros q sets st s an coefs w Nd F Is Src Ac Nb W Six. destruct (fill_inv q sets st Nd F) as (own & s1 & I & _).
  assert (C : wanted q s) by (right; unfold active_relation; rewrite Src; exact Ac).
  destruct (i_set _ _ _ _ _ I s Is C) as (r & E & De). unfold described in De. rewrite Src in De.
  exists r, (relation_values (q_nb q) coefs). split; [exact E|]. split; [eapply entry_written; exact De|].
  assert (Lc : forall eq, In eq coefs -> forall c, In c eq -> length (firstn (q_nb q) c) = q_nb q)
    by (intros eq Ie c Ic; rewrite firstn_length, (Six eq c Ie Ic); lia).
  assert (Le : forall eq, In eq coefs -> length (flat_map (firstn (q_nb q)) eq) = (w * q_nb q)%nat)
    by (intros eq Ie; rewrite (flat_length _ (q_nb q)) by (apply Lc; exact Ie); rewrite (W eq Ie); reflexivity).
  split; [apply flat_length; exact Le|].
  intros i eq j c d Ei Ej Ld. pose proof (nth_error_In _ _ Ei) as Ie.
  assert (Lj : (j < w)%nat) by (rewrite <- (W eq Ie); apply nth_error_Some; congruence).
  replace ((i * w + j) * q_nb q + d)%nat with (i * (w * q_nb q) + (j * q_nb q + d))%nat by nia.
  unfold relation_values. rewrite (flat_index _ (w * q_nb q) coefs i eq Le Ei) by nia.
  rewrite (flat_index _ (q_nb q) eq j c (Lc eq Ie) Ej d Ld). apply nth_firstn. exact Ld.
Qed.

(** Nothing else refers to a table. *)
Theorem C121_only : forall q sets st x r, NoDup (map t_id sets) -> fillTables q sets = Ok st -> st_set st x = Some r ->
  exists s, In s sets /\ concerns q s /\ t_id s = x.
Proof.
  intros q sets st x r Nd F E. destruct (fill_inv q sets st Nd F) as (own & s1 & I & _).
  destruct (i_only _ _ _ _ _ I x r E) as (s & Is & W & X). exists s. split; [exact Is|]. split; [apply wanted_concerns; exact W|exact X].
Qed.

(** Two sets never share a table. *)
Definition parts (s : tset) (r : Z) : list Z :=
  match t_source s with TRelation _ _ => [r] | _ => [stiffness_part r; mass_part r; damping_part r] end.
Lemma part_owner q sets st own s r n : Inv (q_nb q) sets (wanted q) st own -> (length (st_tables st) < 100)%nat ->
  In s sets -> concerns q s -> st_set st (t_id s) = Some r -> In n (parts s r) -> n = 0 \/ nth_error own (Z.to_nat (n - 1)) = Some (Some (t_id s)).
Proof.
  intros I Few Is C E P. destruct (i_set _ _ _ _ _ I s Is (proj2 (wanted_concerns q s) C)) as (r' & E' & De).
  assert (r' = r) by congruence. subst r'.
  assert (Cases : is_relation s \/ ~ is_relation s) by (unfold is_relation; destruct (t_source s); tauto). destruct Cases as [Y|No].
  - unfold is_relation in Y. unfold parts in P. unfold described in De. destruct (t_source s); try contradiction.
    destruct P as [<-|[]]. right. apply De.
  - destruct (parts_of q st own s r De No) as (k & m & d & X & Ro & B).
    destruct (parts_small r k m d (Z.of_nat (length (st_tables st))) X) as (Ek & Em & Ed); [|lia|].
    { intros n' Hn. destruct (B n' Hn) as [?|[? _]]; auto. }
    assert (Hn : n = k \/ n = m \/ n = d).
    { unfold parts in P. unfold is_relation in No. destruct (t_source s); try (elim No; exact Logic.I);
      destruct P as [<-|[<-|[<-|[]]]]; auto. }
    destruct (B n Hn) as [?|[_ ?]]; auto.
Qed.
Theorem C121_apart : forall q sets st s s' r r' n, NoDup (map t_id sets) -> fillTables q sets = Ok st ->
  (length (st_tables st) < 100)%nat -> In s sets -> In s' sets -> s <> s' -> concerns q s -> concerns q s' ->
  st_set st (t_id s) = Some r -> st_set st (t_id s') = Some r' -> In n (parts s r) -> In n (parts s' r') -> n = 0.
Proof.
  intros q sets st s s' r r' n Nd F Few Is Is' Ne C C' E E' P P'. destruct (fill_inv q sets st Nd F) as (own & s1 & I & _).
  destruct (part_owner q sets st own s r n I Few Is C E P) as [?|O]; [assumption|].
  destruct (part_owner q sets st own s' r' n I Few Is' C' E' P') as [?|O']; [assumption|].
  exfalso. apply Ne. eapply distinct_ids; try eassumption. congruence.
Qed.

(** The count: as many tables as are needed. *)
Definition one {A} (o : option A) : nat := match o with Some _ => 1 | None => 0 end.
Definition needed (q : tcase) (s : tset) : nat :=
  match t_source s with
  | TSpring ((a, b) :: _) k c => if q_table q && negb (comp a =? comp b)%Z then one k + one c else 0
  | TSpring [] _ _ => 0
  | TStiffness _ | TMass _ | TDamping _ => if q_table q then 1 else 0
  | TRelation an _ => if in_dec Z.eq_dec an (q_active q) then 1 else 0
  | TOther => 0
  end%nat.
Definition excitation (l : tloading) : nat := match l with TExcitation true _ => 1 | _ => 0 end.
Definition excitation_count (cs : list (Z * list tloading)) : nat := list_sum (map (fun cl => list_sum (map excitation (snd cl))) cs).

Lemma pass_count (step : tstate -> tset -> outcome tstate) f :
  (forall st s st', step st s = Ok st' -> length (st_tables st') = (length (st_tables st) + f s)%nat) ->
  forall l st st', foldM step l st = Ok st' -> length (st_tables st') = (length (st_tables st) + list_sum (map f l))%nat.
Proof.
  intros H. induction l as [|s l IH]; intros st st' F; cbn [foldM] in F.
  - injection F as <-. cbn. lia.
  - destruct (step st s) as [s1| | |] eqn:E; try discriminate F. cbn [bind] in F. rewrite (IH _ _ F), (H _ _ _ E). cbn [map]. unfold list_sum. cbn [fold_right]. lia.
Qed.
Lemma comp_eqb a b : (comp a =? comp b) = dof_eqb a b.
Proof. destruct a, b; reflexivity. Qed.
Lemma list_sum_plus {A} (f g : A -> nat) l : list_sum (map (fun x => f x + g x)%nat l) = (list_sum (map f l) + list_sum (map g l))%nat.
Proof. induction l as [|a l IH]; [reflexivity|]. cbn [map]. unfold list_sum in *. cbn [fold_right]. lia. Qed.
Lemma excite_length : forall l st, length (st_tables (fold_left excite l st)) = (length (st_tables st) + length l)%nat.
Proof. induction l as [|a l IH]; intros st; [cbn; lia|]. cbn [fold_left]. rewrite IH. cbn [excite st_tables]. rewrite app_length. cbn. lia. Qed.
Lemma loading_count c : forall ls st st', foldM (loading_step c) ls st = Ok st' -> length (flat_map (pairs_of c) ls) = list_sum (map excitation ls).
Proof.
  induction ls as [|l ls IH]; intros st st' F; [reflexivity|]. cbn [foldM] in F. destruct (loading_step c st l) as [s1| | |] eqn:E; try discriminate F.
  cbn [bind] in F. cbn [flat_map]. rewrite app_length, (IH _ _ F). destruct l as [[|] [ps|]|]; try discriminate E; reflexivity.
Qed.
Lemma cases_count : forall cs st st', foldM case_step cs st = Ok st' -> length (excited cs) = excitation_count cs.
Proof.
  induction cs as [|c cs IH]; intros st st' F; [reflexivity|]. cbn [foldM] in F. destruct (case_step st c) as [s1| | |] eqn:E; try discriminate F.
  cbn [bind] in F. unfold excited. cbn [flat_map]. rewrite app_length. fold (excited cs). rewrite (IH _ _ F). unfold case_step in E. rewrite (loading_count _ _ _ _ E). reflexivity.
Qed.
Lemma all_known cs : forall st st', excitations (map Some cs) st = Ok st' -> length (excited (known (map Some cs))) = excitation_count (concat cs) /\ known (map Some cs) = concat cs.
Proof.
  induction cs as [|c cs IH]; intros st st' F; [split; reflexivity|]. cbn [map excitations] in F.
  destruct (foldM case_step c st) as [s1| | |] eqn:E; try discriminate F. cbn [bind] in F. destruct (IH _ _ F) as [A B].
  cbn [map known concat]. rewrite B. split; [|reflexivity]. rewrite B in A. unfold excited, excitation_count in *. rewrite flat_map_app, app_length, map_app, list_sum_app, A.
  pose proof (cases_count _ _ _ E) as X. unfold excited, excitation_count in X. rewrite X. reflexivity.
Qed.

Theorem C121_count : forall q sets st cs, fillTables q sets = Ok st -> q_loads q = map Some cs ->
  length (st_tables st) = (list_sum (map (needed q) sets) + if q_modal q then excitation_count (concat cs) else 0)%nat.
Proof.
  intros q sets st cs F Kn. unfold fillTables in F.
  set (first := if q_table q then _ else Ok no_table) in F.
  destruct first as [s4| | |] eqn:F4; try discriminate F. cbn [bind] in F.
  destruct (foldM (relation_step (q_active q) (q_nb q)) sets s4) as [s5| | |] eqn:F5; try discriminate F. cbn [bind] in F.
  assert (E : length (st_tables st) = (length (st_tables s5) + if q_modal q then excitation_count (concat cs) else 0)%nat).
  { destruct (q_modal q); [|injection F as <-; lia]. rewrite Kn in F. pose proof (proj1 (all_known _ _ _ F)) as X.
    apply excitations_fold in F. rewrite F, excite_length, X. reflexivity. }
  rewrite E. f_equal. clear E F.
  pose (g5 := fun s => match t_source s with TRelation an _ => if in_dec Z.eq_dec an (q_active q) then 1 else 0 | _ => 0 end%nat).
  assert (E5 : length (st_tables s5) = (length (st_tables s4) + list_sum (map g5 sets))%nat).
  { eapply pass_count; [|exact F5]. intros a s a' X. unfold relation_step in X. unfold g5. destruct (t_source s); try (injection X as <-; lia).
    destruct (existsb (Z.eqb analysis) (q_active q)) eqn:Ex; injection X as <-.
    - cbn. rewrite app_length. cbn. destruct (in_dec Z.eq_dec analysis (q_active q)); [reflexivity|].
      apply existsb_exists in Ex as (y & Iy & Y). apply Z.eqb_eq in Y. subst y. contradiction.
    - destruct (in_dec Z.eq_dec analysis (q_active q)) as [In'|]; [|lia]. exfalso.
      assert (existsb (Z.eqb analysis) (q_active q) = true) by (apply existsb_exists; exists analysis; split; [exact In'|apply Z.eqb_refl]). congruence. }
  rewrite E5. clear E5 F5. subst first. destruct (q_table q) eqn:Qt.
  - destruct (foldM spring_step sets no_table) as [s1| | |] eqn:F1; try discriminate F4. cbn [bind] in F4.
    destruct (foldM (stiffness_step (q_nb q)) sets s1) as [s2| | |] eqn:F2; try discriminate F4. cbn [bind] in F4.
    destruct (foldM (mass_step (q_nb q)) sets s2) as [s3| | |] eqn:F3; try discriminate F4. cbn [bind] in F4.
    pose (g1 := fun s => match t_source s with TSpring ((a, b) :: _) k c => if negb (comp a =? comp b)%Z then one k + one c else 0 | _ => 0 end%nat).
    pose (g2 := fun s => match t_source s with TStiffness _ => 1 | _ => 0 end%nat).
    pose (g3 := fun s => match t_source s with TMass _ => 1 | _ => 0 end%nat).
    pose (g4 := fun s => match t_source s with TDamping _ => 1 | _ => 0 end%nat).
    assert (Mt : forall f id m a a', matrix_table (q_nb q) f id m a = Ok a' -> length (st_tables a') = (length (st_tables a) + 1)%nat).
    { intros f id m a a' X. unfold matrix_table in X. destruct (table_fill m (Z.of_nat (q_nb q))); try discriminate X. cbn [bind] in X.
      injection X as <-. cbn. rewrite app_length. reflexivity. }
    assert (E1 : length (st_tables s1) = (0 + list_sum (map g1 sets))%nat).
    { apply (pass_count spring_step g1) in F1; [exact F1|]. intros a s a' X. unfold spring_step in X. unfold g1.
      destruct (t_source s) as [[|[d e] l] k c|m|m|m|an cs'|]; try discriminate X; try (injection X as <-; lia).
      rewrite comp_eqb. destruct (dof_eqb d e); [injection X as <-; cbn; lia|].
      destruct k, c; cbn [bind] in X; injection X as <-; cbn; rewrite ?app_length; cbn; lia. }
    assert (E2 : length (st_tables s2) = (length (st_tables s1) + list_sum (map g2 sets))%nat).
    { eapply pass_count; [|exact F2]. intros a s a' X. unfold stiffness_step in X. unfold g2. destruct (t_source s); try (injection X as <-; lia). eapply Mt; exact X. }
    assert (E3 : length (st_tables s3) = (length (st_tables s2) + list_sum (map g3 sets))%nat).
    { eapply pass_count; [|exact F3]. intros a s a' X. unfold mass_step in X. unfold g3. destruct (t_source s); try (injection X as <-; lia). eapply Mt; exact X. }
    assert (E4 : length (st_tables s4) = (length (st_tables s3) + list_sum (map g4 sets))%nat).
    { eapply pass_count; [|exact F4]. intros a s a' X. unfold damping_step in X. unfold g4. destruct (t_source s); try (injection X as <-; lia). eapply Mt; exact X. }
    rewrite E4, E3, E2, E1, Nat.add_0_l, <- !list_sum_plus. f_equal. apply map_ext. intros s. unfold g1, g2, g3, g4, g5, needed. rewrite Qt.
    destruct (t_source s) as [[|[d e] l] k c|m|m|m|an cs'|]; cbn [andb]; try lia.
  - injection F4 as <-. cbn [no_table st_tables length]. rewrite Nat.add_0_l. f_equal. apply map_ext. intros s. unfold g5, needed. rewrite Qt.
    destruct (t_source s) as [[|[d e] l] k c|m|m|m|an cs'|]; reflexivity.
Qed.

(** The writing succeeds when springs have a direction, matrices only the
    components of the model and excitations their function. *)
Definition proper (q : tcase) (s : tset) : Prop :=
  q_table q = true ->
  match t_source s with
  | TSpring dirs _ _ => dirs <> []
  | TStiffness m | TMass m | TDamping m => exists t, table_fill m (Z.of_nat (q_nb q)) = Ok t
  | _ => True
  end.
Definition has_function (l : tloading) : Prop := match l with TExcitation true None => False | _ => True end.
Lemma foldM_ok {A B} (f : B -> A -> outcome B) l : (forall b a, In a l -> exists b', f b a = Ok b') -> forall b, exists b', foldM f l b = Ok b'.
Proof.
  induction l as [|a l IH]; intros H b; [exists b; reflexivity|]. destruct (H b a (or_introl eq_refl)) as (b' & E). cbn [foldM]. rewrite E. cbn [bind].
  apply IH. intros c x Ix. apply H. right. exact Ix.
Qed.
Theorem C121_succeeds : forall q sets, (forall s, In s sets -> proper q s) ->
  (forall cs c ls l, In (Some cs) (q_loads q) -> In (c, ls) cs -> In l ls -> has_function l) ->
  exists st, fillTables q sets = Ok st.
Proof.
  intros q sets P H. unfold fillTables.
  assert (A : exists st, (if q_table q then
              do s1 <- foldM spring_step sets no_table;
              do s2 <- foldM (stiffness_step (q_nb q)) sets s1;
              do s3 <- foldM (mass_step (q_nb q)) sets s2;
              foldM (damping_step (q_nb q)) sets s3
            else Ok no_table) = Ok st).
  { destruct (q_table q) eqn:Qt; [|eexists; reflexivity].
    assert (Mt : forall f id m a, (exists t, table_fill m (Z.of_nat (q_nb q)) = Ok t) -> exists a', matrix_table (q_nb q) f id m a = Ok a').
    { intros f id m a (t & E). unfold matrix_table. rewrite E. cbn [bind]. eexists; reflexivity. }
    destruct (foldM_ok spring_step sets) with (b := no_table) as (s1 & ->); [|cbn [bind]].
    { intros b a Ia. specialize (P a Ia Qt). unfold spring_step. destruct (t_source a) as [[|[d e] l] k c|m|m|m|an cs'|]; try (eexists; reflexivity); [contradiction|].
      destruct (dof_eqb d e); [eexists; reflexivity|]. destruct k, c; eexists; reflexivity. }
    destruct (foldM_ok (stiffness_step (q_nb q)) sets) with (b := s1) as (s2 & ->); [|cbn [bind]].
    { intros b a Ia. specialize (P a Ia Qt). unfold stiffness_step. destruct (t_source a); try (eexists; reflexivity); auto. }
    destruct (foldM_ok (mass_step (q_nb q)) sets) with (b := s2) as (s3 & ->); [|cbn [bind]].
    { intros b a Ia. specialize (P a Ia Qt). unfold mass_step. destruct (t_source a); try (eexists; reflexivity); auto. }
    apply foldM_ok. intros b a Ia. specialize (P a Ia Qt). unfold damping_step. destruct (t_source a); try (eexists; reflexivity); auto. }
  destruct A as (s4 & ->). cbn [bind].
  destruct (foldM_ok (relation_step (q_active q) (q_nb q)) sets) with (b := s4) as (s5 & ->); [|cbn [bind]].
  { intros b a _. unfold relation_step. destruct (t_source a); try (eexists; reflexivity). destruct (existsb _ _); eexists; reflexivity. }
  destruct (q_modal q); [|eexists; reflexivity]. revert s5 H. generalize (q_loads q). clear. induction l as [|[cs|] l IH]; intros st H; try (eexists; reflexivity).
  cbn [excitations]. destruct (foldM_ok case_step cs) with (b := st) as (s1 & ->).
  - intros b [c ls] Ic. unfold case_step. apply foldM_ok. intros b' a Ia. specialize (H cs c ls a (or_introl eq_refl) Ic Ia).
    destruct a as [[|] [ps|]|]; try (eexists; reflexivity). contradiction.
  - cbn [bind]. apply IH. intros cs' c ls a I1. apply (H cs' c ls a). right. exact I1.
Qed.
(** Refusals. *)
Theorem C121_undirected_spring : forall q pre s post k c, q_table q = true -> t_source s = TSpring [] k c ->
  (forall p, In p pre -> proper q p) -> fillTables q (pre ++ s :: post) = UB.
Proof.
  intros q pre s post k c Qt Src P. unfold fillTables. rewrite Qt.
  assert (E : forall st, foldM spring_step (pre ++ s :: post) st = UB).
  { induction pre as [|p pre IH]; intros st; cbn [app foldM].
    - unfold spring_step. rewrite Src. reflexivity.
    - pose proof (P p (or_introl eq_refl) Qt) as X.
      assert (Y : exists st', spring_step st p = Ok st').
      { unfold spring_step. destruct (t_source p) as [[|[d e] l] k' c'|m|m|m|an cs'|]; try (eexists; reflexivity); [contradiction|].
        destruct (dof_eqb d e); [eexists; reflexivity|]. destruct k', c'; eexists; reflexivity. }
      destruct Y as (st' & ->). cbn [bind]. apply IH. intros p' I'. apply P. right. exact I'. }
  rewrite E. reflexivity.
Qed.

(** The last excitation of a load case has its points in a table of type 1, which
    the load case refers to. *)
Theorem C121_excitation_partial : forall q sets st anas1 before c ls1 ps ls2 after anas2,
  NoDup (map t_id sets) -> fillTables q sets = Ok st -> q_modal q = true ->
  q_loads q = map Some (anas1 ++ (before ++ (c, ls1 ++ TExcitation true (Some ps) :: ls2) :: after) :: anas2) ->
  (forall l, In l ls2 -> excitation l = 0%nat) -> (forall c' ls, In (c', ls) (after ++ concat anas2) -> c' <> c) ->
  exists n, load_table st c = Some n /\ written st n (1%Q :: flat_map (fun p => [fst p; snd p]) ps).
Proof.
  intros q sets st anas1 before c ls1 ps ls2 after anas2 Nd F Mo Lo No Other.
  destruct (fill_inv q sets st Nd F) as (own & s1 & I & L1 & N1 & E). rewrite Mo, Lo in E.
  assert (Kn : forall cs, known (map Some cs) = concat cs) by (induction cs as [|x cs IH]; [reflexivity|cbn; rewrite IH; reflexivity]).
  rewrite Kn, concat_app in E. cbn [concat] in E.
  assert (Z2 : forall l, (forall x, In x l -> excitation x = 0%nat) -> flat_map (pairs_of c) l = []).
  { induction l as [|x l IH]; intros H; [reflexivity|]. cbn [flat_map]. rewrite IH by (intros y Iy; apply H; right; exact Iy).
    specialize (H x (or_introl eq_refl)). destruct x as [[|] ?|]; try discriminate H; reflexivity. }
  assert (Sp : exists A B, excited (concat anas1 ++ (before ++ (c, ls1 ++ TExcitation true (Some ps) :: ls2) :: after) ++ concat anas2) = A ++ (c, ps) :: B /\ ~ In c (map fst B)).
  { exists (excited (concat anas1) ++ excited before ++ flat_map (pairs_of c) ls1), (excited (after ++ concat anas2)). split.
    - unfold excited. repeat rewrite ?flat_map_app, <- ?app_assoc. f_equal. f_equal. cbn [flat_map app fst snd]. rewrite flat_map_app. cbn [flat_map pairs_of].
      rewrite (Z2 ls2 No). rewrite !app_nil_r. repeat rewrite <- app_assoc. cbn [app]. reflexivity.
    - intros H. apply in_map_iff in H as ((c' & p') & Ec & Ip). cbn in Ec. subst c'. unfold excited in Ip. apply in_flat_map in Ip as ((c' & ls) & Ic & Ip).
      apply in_flat_map in Ip as (l & Il & Ip). cbn [fst] in Ip. apply (Other c' ls Ic). destruct l as [[|] [p|]|]; cbn in Ip; try contradiction.
      destruct Ip as [X|[]]. congruence. }
  destruct Sp as (A & B & Sp & Nb). rewrite Sp, fold_left_app in E. cbn [fold_left] in E.
  set (s2 := fold_left excite A s1) in *. exists (next s2). split.
  - rewrite E, excite_load by exact Nb. apply (excite_cons (c, ps)).
  - assert (N2 : numbered (st_tables s2)) by (destruct (excite_tail A s1 N1) as (t & _ & _ & X); exact X).
    destruct (excite_tail B (excite s2 (c, ps))) as (t & T & _); [apply numbered_push; exact N2|].
    unfold written, write_tables. cbn [snd]. rewrite E, T. apply in_map_iff. exists (mkTable (next s2) 1 (points_values ps)). split; [reflexivity|].
    apply in_or_app. left. cbn [excite st_tables]. apply in_or_app. right. left. reflexivity.
Qed.

(** ** What does not hold *)
(** Beyond 99 tables the digits run into each other: a stiffness is read as a mass. *)
Theorem C121_hundred_tables_refuted : exists q sets st s r, NoDup (map t_id sets) /\ fillTables q sets = Ok st /\
  In s sets /\ is_stiffness s /\ concerns q s /\ st_set st (t_id s) = Some r /\ stiffness_part r = 0 /\ mass_part r = 1.
Proof.
  exists (mkTCase true false 6 [] []), (map (fun i => mkTSet (Z.of_nat i) (TStiffness [])) (seq 1 100)).
  eexists. exists (mkTSet 100 (TStiffness [])), 100. split.
  - rewrite map_map. cbn [t_id]. apply FinFun.Injective_map_NoDup; [intros x y; lia|apply seq_NoDup].
  - split; [vm_compute; reflexivity|]. split; [apply in_map_iff; exists 100%nat; split; [reflexivity|apply in_seq; lia]|].
    repeat split; reflexivity.
Qed.

(** Of two excitations in a load case, the first has a table that no load case
    refers to. *)
Theorem C121_two_excitations_refuted : forall nb c p1 p2, exists st,
  fillTables (mkTCase true true nb [] [Some [(c, [TExcitation true (Some p1); TExcitation true (Some p2)])]]) [] = Ok st /\
  written st 1 (1%Q :: flat_map (fun p => [fst p; snd p]) p1) /\ forall c', load_table st c' <> Some 1.
Proof.
  intros nb c p1 p2. eexists. split; [reflexivity|]. split; [left; reflexivity|]. intros c'. unfold load_table. cbn.
  destruct (c =? c'); cbn; discriminate.
Qed.

(** The line FUNCTION of the analysis file names the table of the first load case;
    when only another one is excited it names table 0, which is not written. *)
Theorem C121_function_line : forall st n, load_table st 1 = Some n -> function_line st = Some n.
Proof.
  intros st n E. unfold function_line. rewrite E. destruct (st_load st) eqn:L; [|reflexivity].
  unfold load_table in E. rewrite L in E. discriminate E.
Qed.
Theorem C121_no_function_line : forall q sets st, NoDup (map t_id sets) -> fillTables q sets = Ok st ->
  (q_modal q = true -> forall cs c ls l, In (Some cs) (q_loads q) -> In (c, ls) cs -> In l ls -> excitation l = 0%nat) -> function_line st = None.
Proof.
  intros q sets st Nd F No. destruct (fill_inv q sets st Nd F) as (own & s1 & I & L1 & N1 & E).
  assert (X : (if q_modal q then excited (known (q_loads q)) else []) = []).
  { destruct (q_modal q); [|reflexivity]. specialize (No eq_refl). clear -No.
    destruct (excited (known (q_loads q))) as [|[c p] r] eqn:Ex; [reflexivity|]. exfalso.
    assert (H : In (c, p) (excited (known (q_loads q)))) by (rewrite Ex; left; reflexivity). unfold excited in H.
    apply in_flat_map in H as ((c' & ls) & Ic & H). apply in_flat_map in H as (l & Il & H).
    assert (K : forall x L, In x (known L) -> exists cs, In (Some cs) L /\ In x cs).
    { intros x. induction L as [|[cs|] L IH]; cbn; try contradiction. intros Ix. apply in_app_or in Ix as [A|A]; [exists cs; auto|].
      destruct (IH A) as (cs' & B & D). exists cs'. auto. }
    destruct (K _ _ Ic) as (cs & Ics & Ic'). specialize (No cs c' ls l Ics Ic' Il). destruct l as [[|] [?|]|]; cbn in H, No; try contradiction; discriminate No. }
  rewrite X in E. cbn in E. subst st. unfold function_line. rewrite L1. reflexivity.
Qed.
Theorem C121_function_line_refuted : forall nb c p, c <> 1 -> exists st,
  fillTables (mkTCase true true nb [] [Some [(1, [TNoTable]); (c, [TExcitation true (Some p)])]]) [] = Ok st /\
  load_table st c = Some 1 /\ function_line st = Some 0 /\ forall vals, ~ written st 0 vals.
Proof.
  intros nb c p N. eexists. split; [reflexivity|]. unfold function_line, load_table. cbn. rewrite Z.eqb_refl.
  destruct (c =? 1) eqn:E; [apply Z.eqb_eq in E; contradiction|]. repeat split. intros vals [X|[]]. discriminate X.
Qed.

(** ** Examples *)
Definition demo_matrix : melement Q := [((3, 3), mkMatrix SYMMETRIC [((DX, DX), 7%Q)]); ((3, 8), mkMatrix FULL [((DX, DY), 5%Q)])].
Definition demo_sets : list tset :=
  [mkTSet 4 (TDamping demo_matrix); mkTSet 1 (TSpring [(DX, DY); (DZ, DZ)] (Some 10%Q) (Some 3%Q)); mkTSet 2 (TSpring [(RX, RX)] (Some 10%Q) None);
   mkTSet 3 (TStiffness demo_matrix); mkTSet 9 (TMass demo_matrix);
   mkTSet 5 (TRelation 7 [[[1; 2; 3; 4; 5; 6]; [0; 0; 0; 0; 0; -1]]; [[0; 0; 1; 0; 0; 0]; [0; 9; 0; 0; 0; 0]]]%Q);
   mkTSet 6 (TRelation 8 [[[1; 0; 0; 0; 0; 0]]]%Q); mkTSet 8 TOther].
Definition demo_case : tcase := mkTCase true true 6 [7] (map Some [[(1, [TNoTable; TExcitation true (Some [(10, 1); (20, 2)]%Q)])]]).
Example C121_case : exists st, fillTables demo_case demo_sets = Ok st /\ NoDup (map t_id demo_sets) /\
  map (st_set st) [1; 2; 3; 9; 4; 5; 6; 8] = [Some 20001; None; Some 3; Some 400; Some 50000; Some 6; None; None] /\
  nth_error (snd (write_tables (st_tables st))) 0 = Some (1, [1111; 10; 2222; 10; 1212; -10]%Q) /\
  nth_error (snd (write_tables (st_tables st))) 4 = Some (5, [1111; 7; 1212; 5]%Q) /\
  fst (write_tables (st_tables st)) = 7 /\ function_line st = Some 7 /\
  nth_error (snd (write_tables (st_tables st))) 6 = Some (7, [1; 10; 1; 20; 2]%Q).
Proof.
  eexists. split; [vm_compute; reflexivity|]. split.
  - cbn. repeat constructor; cbn; intuition discriminate.
  - vm_compute. repeat split.
Qed.
Example C121_meets : (forall s, In s demo_sets -> proper demo_case s) /\
  (forall cs c ls l, In (Some cs) (q_loads demo_case) -> In (c, ls) cs -> In l ls -> has_function l) /\
  Forall (concerns demo_case) [nth 0 demo_sets (mkTSet 0 TOther); nth 1 demo_sets (mkTSet 0 TOther); nth 5 demo_sets (mkTSet 0 TOther)] /\
  list_sum (map (needed demo_case) demo_sets) = 6%nat.
Proof.
  split; [|split; [|split]].
  - intros s Is _. cbn in Is. repeat destruct Is as [<-|Is]; cbn; try contradiction; try exact Logic.I; try discriminate; eexists; vm_compute; reflexivity.
  - cbn. intros cs c ls l [X|[]] Ic Il. injection X as <-. destruct Ic as [X|[]]. injection X as <- <-. destruct Il as [<-|[<-|[]]]; exact Logic.I.
  - repeat constructor. cbn. discriminate.
  - reflexivity.
Qed.
Example C121_file_mode : exists st, fillTables (mkTCase false false 3 [7; 8] []) demo_sets = Ok st /\
  map (st_set st) [1; 3; 5; 6] = [None; None; Some 1; Some 2] /\ function_line st = None.
Proof. eexists. split; [vm_compute; reflexivity|]. vm_compute. auto. Qed.

Print Assumptions C121_numbers.
Print Assumptions C121_reference.
Print Assumptions C121_roles_partial.
Print Assumptions C121_relation.
Print Assumptions C121_only.
Print Assumptions C121_apart.
Print Assumptions C121_count.
Print Assumptions C121_succeeds.
Print Assumptions C121_undirected_spring.
Print Assumptions C121_excitation_partial.
Print Assumptions C121_hundred_tables_refuted.
Print Assumptions C121_two_excitations_refuted.
Print Assumptions C121_function_line.
Print Assumptions C121_no_function_line.
Print Assumptions C121_function_line_refuted.
