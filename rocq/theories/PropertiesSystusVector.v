(** C94: what a Systus subcase applies to each node, cell and load case. *)
From Coq Require Import Reals ZArith List Bool Lia Lra.
Require Import Verif.Base Verif.DofModel Verif.DofProofs Verif.GeomModel Verif.AsterConstraintModel Verif.PropertiesAsterConstraint.
Require Import Verif.SystusVectorModel Verif.SystusVectorProofs.
Import ListNotations.
Open Scope Z_scope.
Open Scope list_scope.

(** ** Specification: reading the file *)
(** A record of a number. *)
Definition record {A} (k : Z) (l : list (Z * A)) : option A := option_map snd (find (fun e => fst e =? k) l).
(** A list is a row of couples: load case, vector. *)
Fixpoint couples (l : list Z) : list (Z * Z) := match l with a :: b :: r => (a, b) :: couples r | _ => [] end.
(** The vectors that list [k] gives to case [c]; [None] is a vector that is not in the file. *)
Definition applied (f : file) (k c : Z) : list (option (list R)) :=
  match record k (f_lists f) with
  | Some l => map (fun e => record (snd e) (f_vectors f)) (filter (fun e => fst e =? c) (couples l))
  | None => []
  end.

(** ** Specification: what should be applied *)
(** A vector counts when one of its numbers is beyond the tolerance. *)
Definition beyond (t : R) (l : list R) : bool := existsb (fun x => if Rle_dec (Rabs x) t then false else true) l.
Definition row (t : R) (head body : list R) : list (list R) := if beyond t body then [head ++ body] else [].
Definition xyz (v : vec) : list R := [vx v; vy v; vz v].
(** The load cases: the load sets of the analyses in order, an analysis without set making one. *)
Definition cases_in_order (l : list analysis) : list (analysis * list sload) :=
  flat_map (fun a => match an_loads a with [] => [(a, [])] | s => map (fun x => (a, snd x)) s end) l.
Definition loads_in (l : list analysis) (i : nat) : list sload :=
  match nth_error (cases_in_order l) i with Some (_, s) => s | None => [] end.
(** Nodal forces of a load set, those of the excitations included. *)
Definition forces_in (s : list sload) : list nforce :=
  flat_map (fun k => match k with SNodal n => [n] | SDynamic true _ l => l | _ => [] end) s.
(** Each analysis once in a subcase, each set once in an analysis. *)
Definition no_repeat (l : list analysis) : Prop := NoDup (map an_id l) /\ Forall (fun a => NoDup (map fst (an_loads a))) l.

(** ** Bridges *)
Lemma forall2_impl {A B} (P Q : A -> B -> Prop) l r : (forall a b, P a b -> Q a b) -> Forall2 P l r -> Forall2 Q l r.
Proof. intros H F. induction F; constructor; auto. Qed.
Lemma record_get {A} k (l : list (Z * A)) : record k l = get k l.
Proof.
  unfold record. induction l as [|[q a] l IH]; [reflexivity|]. cbn [find fst get]. rewrite (Z.eqb_sym q k).
  destruct (k =? q); [reflexivity|exact IH].
Qed.
Lemma couples_pairs l : couples l = pairs l.
Proof. reflexivity. Qed.
Lemma applied_listed f k c : applied f k c = listed (f_lists f) (f_vectors f) k c.
Proof.
  unfold applied, listed. rewrite record_get. destruct (get k (f_lists f)) as [l|]; [|reflexivity]. apply map_ext. intros e. apply record_get.
Qed.
Lemma near_zero_iff t x : near_zero t x = true <-> (Rabs x <= t)%R.
Proof. unfold near_zero. destruct (Rle_dec (Rabs x) t); split; auto; discriminate. Qed.
Lemma maxabs_from l : forall n, (0 <= n)%R -> (n <= fold_left (fun n x => Rmax n (Rabs x)) l n)%R /\
  forall t, (fold_left (fun n x => Rmax n (Rabs x)) l n <= t <-> n <= t /\ Forall (fun x => Rabs x <= t) l)%R.
Proof.
  induction l as [|x l IH]; intros n N; cbn [fold_left].
  - split; [lra|]. intros t. split; [intros H; split; [exact H|constructor]|tauto].
  - assert (P : (0 <= Rmax n (Rabs x))%R) by (eapply Rle_trans; [exact N|apply Rmax_l]).
    destruct (IH _ P) as (A & B). split; [eapply Rle_trans; [apply Rmax_l|exact A]|].
    intros t. rewrite B. split.
    + intros (H & F). split; [eapply Rle_trans; [apply Rmax_l|exact H]|constructor; [eapply Rle_trans; [apply Rmax_r|exact H]|exact F]].
    + intros (H & F). inversion F; subst. split; [apply Rmax_lub; assumption|assumption].
Qed.
Lemma beyond_maxabs t l : (0 <= t)%R -> near_zero t (maxabs l) = negb (beyond t l).
Proof.
  intros T. destruct (maxabs_from l 0%R (Rle_refl 0)) as (A & B). fold (maxabs l) in *.
  assert (E : near_zero t (maxabs l) = true <-> beyond t l = false).
  { rewrite near_zero_iff, Rabs_right by lra. rewrite B. unfold beyond.
    rewrite <- not_true_iff_false, existsb_exists. split.
    - intros (_ & F) (x & J & H). rewrite Forall_forall in F. specialize (F x J). destruct (Rle_dec (Rabs x) t); [discriminate|contradiction].
    - intros H. split; [exact T|]. apply Forall_forall. intros x J. destruct (Rle_dec (Rabs x) t) as [Y|Y]; [exact Y|].
      exfalso. apply H. exists x. split; [exact J|]. destruct (Rle_dec (Rabs x) t); [contradiction|reflexivity]. }
  destruct (near_zero t (maxabs l)), (beyond t l); cbn [negb]; try reflexivity; destruct E as (E1 & E2); exfalso.
  - now specialize (E1 eq_refl).
  - now specialize (E2 eq_refl).
Qed.
Lemma keep_row g head body : (0 <= tol g)%R -> keep g head body = row (tol g) head body.
Proof. intros T. unfold keep, row. rewrite beyond_maxabs by exact T. now destruct (beyond (tol g) body). Qed.

Lemma cases_bridge l : map (fun e => (fst e, loads_of (snd e))) (case_sets l) = cases_in_order l.
Proof.
  unfold case_sets, cases_in_order. rewrite map_flat_map. apply flat_map_ext. intros a. rewrite map_map. unfold sets_of.
  destruct (an_loads a) as [|x s]; [reflexivity|]. rewrite map_map. reflexivity.
Qed.
Lemma loads_bridge l i : case_loads l i = loads_in l i.
Proof.
  unfold case_loads, loads_in. rewrite <- cases_bridge, nth_error_map. destruct (nth_error (case_sets l) i) as [[a [s|]]|]; reflexivity.
Qed.
Lemma analysis_bridge l i : case_analysis l i = option_map fst (nth_error (cases_in_order l) i).
Proof. unfold case_analysis. rewrite <- cases_bridge, nth_error_map. destruct (nth_error (case_sets l) i) as [[a o]|]; reflexivity. Qed.

(** ** Numbers *)
(** Vectors, lists and load cases are numbered from one without a gap, and the header gives their counts. *)
Theorem C94_numbers : forall g find nodes l f,
  no_repeat l -> NoDup (map sn_pos nodes) -> f = write_subcase g find nodes l ->
  map fst (f_vectors f) = map Z.of_nat (seq 1 (length (f_vectors f))) /\
  map fst (f_lists f) = map Z.of_nat (seq 1 (length (f_lists f))) /\
  map fst (f_cases f) = map Z.of_nat (seq 1 (length (cases_in_order l))) /\
  f_counts f = (Z.of_nat (length (f_cases f)), Z.of_nat (length (f_lists f)), Z.of_nat (length (f_vectors f))).
Proof.
  intros g find nodes l f D ND ->. assert (F := write_reads g find nodes l D ND).
  assert (K : forall {A} (l : list A), map fst (number 1 l) = map Z.of_nat (seq 1 (length (number 1 l)))).
  { intros A k. rewrite number_keys, number_length, <- seq_shift, map_map. apply map_ext. intros j. lia. }
  destruct (fr_vectors _ _ _ _ _ F) as (vs & V). destruct (fr_lists _ _ _ _ _ F) as (ls & L).
  split; [rewrite V; apply K|]. split; [rewrite L; apply K|]. split; [|exact (fr_counts _ _ _ _ _ F)].
  rewrite (fr_cases _ _ _ _ _ F), <- cases_bridge, map_length. reflexivity.
Qed.

(** ** Forces *)
Definition force_rows (g : setting) (q : Z) (n : nforce) : list (list R) :=
  flat_map (fun p => (if p =? q then row (tol g) [0; 0; 0; 0; 0; 0]%R (xyz (nf_force n p) ++ (if shell g then xyz (nf_moment n p) else [])) else []) ++
                     (if shell g then [] else match rot g p with Some r => if r =? q then row (tol g) [0; 0; 0; 0; 0; 0]%R (xyz (nf_moment n p)) else [] | None => [] end)) (nf_on n).
Lemma node_says_rows g q s : (0 <= tol g)%R -> flat_map (node_says g q) s = flat_map (force_rows g q) (forces_in s).
Proof.
  intros T. assert (E : forall n, force_at g n q = force_rows g q n).
  { intros n. unfold force_at, force_rows. apply flat_map_ext. intros p. rewrite !keep_row by exact T. reflexivity. }
  unfold forces_in. induction s as [|k s IH]; [reflexivity|]. cbn [flat_map]. rewrite flat_map_app, <- IH. f_equal.
  destruct k as [n|cells p|a|cells f m|cells e p o|x amp forces|on e|]; try reflexivity; cbn [node_says flat_map].
  - now rewrite app_nil_r, E.
  - destruct x; [|reflexivity]. apply flat_map_ext. exact E.
Qed.

(** Each node is given, for each load case, the forces of the set of that case at this node, in order: six
    components with the option of shells; otherwise the force, and the moments of the nodes whose
    rotation node it is.  (Partial: moments of other nodes are not applied, see [C94_moment_refuted].) *)
Theorem C94_forces_partial : forall g find nodes l f,
  (0 <= tol g)%R -> no_repeat l -> NoDup (map sn_pos nodes) -> f = write_subcase g find nodes l ->
  Forall2 (fun n ln => l_id ln = sn_id n /\
     forall i, applied f (l_isol ln) (Z.of_nat i + 1) = map Some (flat_map (force_rows g (sn_pos n)) (forces_in (loads_in l i)))) nodes (f_nodes f).
Proof.
  intros g find nodes l f T D ND ->. assert (F := write_reads g find nodes l D ND).
  eapply forall2_impl; [|exact (fr_nodes _ _ _ _ _ F)].
  intros n ln (A & B & _). split; [exact A|]. intros i. rewrite applied_listed, B, node_says_rows by exact T. now rewrite loads_bridge.
Qed.

Definition comp_of (v : list R) (d : dof) : R := nth (6 + Z.to_nat (dof_rank d)) v 0%R.
Definition sum (l : list R) : R := fold_right Rplus 0%R l.
Definition part (n : nforce) (p : Z) (d : dof) : R :=
  match d with DX => vx (nf_force n p) | DY => vy (nf_force n p) | DZ => vz (nf_force n p)
             | RX => vx (nf_moment n p) | RY => vy (nf_moment n p) | RZ => vz (nf_moment n p) end.
Definition hits (s : list sload) (q : Z) : list (nforce * Z) :=
  flat_map (fun n => map (fun p => (n, p)) (filter (fun p => p =? q) (nf_on n))) (forces_in s).
Definition resultant (s : list sload) (q : Z) (d : dof) : R := sum (map (fun e => part (fst e) (snd e) d) (hits s q)).

Lemma sum_append a b : sum (a ++ b) = (sum a + sum b)%R.
Proof. unfold sum. induction a as [|x a IH]; cbn [app fold_right]; [lra|]. rewrite IH. lra. Qed.
Lemma row_close t n p d : (0 <= t)%R ->
  (Rabs (sum (map (fun v => comp_of v d) (row t [0; 0; 0; 0; 0; 0]%R (xyz (nf_force n p) ++ xyz (nf_moment n p)))) - part n p d) <= t)%R.
Proof.
  intros T. unfold row. destruct (beyond t (xyz (nf_force n p) ++ xyz (nf_moment n p))) eqn:B; cbn [map sum fold_right].
  - match goal with |- (Rabs ?x <= _)%R => replace x with 0%R; [rewrite Rabs_R0; exact T|] end. destruct d; unfold comp_of, sum, part; cbn [map fold_right app]; match goal with |- context [nth ?k _ _] => let v := eval vm_compute in k in change k with v end; cbn [nth xyz app]; lra.
  - assert (K : (Rabs (part n p d) <= t)%R).
    { unfold beyond in B. rewrite <- not_true_iff_false, existsb_exists in B.
      assert (I : In (part n p d) (xyz (nf_force n p) ++ xyz (nf_moment n p))) by (destruct d; cbn; tauto).
      destruct (Rle_dec (Rabs (part n p d)) t) as [Y|Y] eqn:Q; [exact Y|]. exfalso. apply B. exists (part n p d). split; [exact I|]. now rewrite Q. }
    rewrite Rminus_0_l, Rabs_Ropp. exact K.
Qed.
Lemma rows_close g q d s : (0 <= tol g)%R -> shell g = true ->
  (Rabs (sum (map (fun v => comp_of v d) (flat_map (force_rows g q) (forces_in s))) - resultant s q d) <= tol g * INR (length (hits s q)))%R.
Proof.
  intros T S. unfold resultant, hits. induction (forces_in s) as [|n l IH]; cbn [flat_map].
  - cbn. rewrite Rminus_0_r, Rabs_R0, Rmult_0_r. lra.
  - rewrite !map_app, !sum_append, app_length, plus_INR.
    assert (K : (Rabs (sum (map (fun v => comp_of v d) (force_rows g q n)) - sum (map (fun e => part (fst e) (snd e) d) (map (fun p => (n, p)) (filter (fun p => p =? q) (nf_on n))))) <= tol g * INR (length (map (fun p => (n, p)) (filter (fun p => p =? q) (nf_on n)))))%R).
    { clear IH. unfold force_rows. rewrite S. induction (nf_on n) as [|p r IH]; cbn [flat_map filter].
      - cbn. rewrite Rminus_0_r, Rabs_R0, Rmult_0_r. lra.
      - rewrite app_nil_r, map_app, sum_append. destruct (p =? q); cbn [map fst snd length].
        + rewrite S_INR. assert (C := row_close (tol g) n p d T). cbn [sum fold_right]. fold (sum (map (fun e : nforce * Z => part (fst e) (snd e) d) (map (fun p0 => (n, p0)) (filter (fun p0 => p0 =? q) r)))).
          match goal with |- (Rabs ((?a + ?b) - (?c + ?e)) <= _)%R => replace ((a + b) - (c + e))%R with ((a - c) + (b - e))%R by lra end.
          eapply Rle_trans; [apply Rabs_triang|]. lra.
        + cbn [sum fold_right map]. rewrite Rplus_0_l. exact IH. }
    match goal with |- (Rabs ((?a + ?b) - (?c + ?e)) <= _)%R => replace ((a + b) - (c + e))%R with ((a - c) + (b - e))%R by lra end.
    eapply Rle_trans; [apply Rabs_triang|]. lra.
Qed.

(** With six components, the vectors listed for a node add up to the resultant of the set, within
    the tolerance for each force of the set at the node. *)
Theorem C94_resultant : forall g find nodes l f,
  (0 <= tol g)%R -> shell g = true -> no_repeat l -> NoDup (map sn_pos nodes) -> f = write_subcase g find nodes l ->
  Forall2 (fun n ln => forall i, exists vs, applied f (l_isol ln) (Z.of_nat i + 1) = map Some vs /\
     forall d, (Rabs (sum (map (fun v => comp_of v d) vs) - resultant (loads_in l i) (sn_pos n) d) <= tol g * INR (length (hits (loads_in l i) (sn_pos n))))%R)
    nodes (f_nodes f).
Proof.
  intros g find nodes l f T S D ND E. eapply forall2_impl; [|exact (C94_forces_partial g find nodes l f T D ND E)].
  intros n ln (_ & B) i. exists (flat_map (force_rows g (sn_pos n)) (forces_in (loads_in l i))). split; [apply B|].
  intros d. now apply rows_close.
Qed.

(** ** Loads on cells *)
Definition unit (d e : dof) : R := if dof_eq_dec d e then 1%R else 0%R.
Definition six : list dof := [DX; DY; DZ; RX; RY; RZ].
Definition cell_rows (g : setting) (q : Z) (k : sload) : list (list R) :=
  match k with
  | SPressure cells p => flat_map (fun c => if c =? q then (if Rle_dec (Rabs p) (tol g) then [] else [[1; 0; 1; 0; 0; 0; 0; 0; p]%R]) else []) cells
  | SSurface cells f m => flat_map (fun c => if c =? q then row (tol g) [1; 0; 0; 0; 0; 0]%R (xyz f ++ (if shell g then xyz m else [])) else []) cells
  | SLine cells d p _ => flat_map (fun c => if c =? q then [[1; 0; 0; 0; 0; 0]%R ++ map (fun e => unit d e * p)%R (if shell g then six else firstn 3 six)] else []) cells
  | _ => []
  end.
(** A line load that has an available component. *)
Definition writable (g : setting) (k : sload) : Prop :=
  match k with SLine _ d _ _ => shell g = true \/ isRotation d = false | _ => True end.

Lemma unit_same d e : unit_of d e = unit d e.
Proof. destruct d, e; reflexivity. Qed.
Lemma flat_map_none {A B} (f : A -> list B) l : (forall x, f x = []) -> flat_map f l = [].
Proof. apply flat_map_nil. Qed.
Lemma cell_says_rows g q k : (0 <= tol g < 1)%R -> writable g k -> cell_says g q k = cell_rows g q k.
Proof.
  intros T W. unfold cell_says, cell_load, cell_rows, on_cells. destruct k as [n|cells p|a|cells f m|cells d p o|x amp forces|on e|]; try reflexivity.
  - unfold near_zero. destruct (Rle_dec (Rabs p) (tol g)).
    + symmetry. apply flat_map_none. intros c. now destruct (c =? q).
    + apply flat_map_ext. intros c. now rewrite andb_true_r.
  - cbv zeta. change (comps3 f ++ (if shell g then comps3 m else [])) with (xyz f ++ (if shell g then xyz m else [])).
    rewrite beyond_maxabs by lra. unfold row. destruct (beyond (tol g) _); cbn [negb].
    + apply flat_map_ext. intros c. now rewrite andb_true_r.
    + symmetry. apply flat_map_none. intros c. now destruct (c =? q).
  - cbv zeta. rewrite beyond_maxabs by lra.
    assert (B : beyond (tol g) (map (unit_of d) (if shell g then all_dofs else [DX; DY; DZ])) = true).
    { unfold beyond. apply existsb_exists. exists 1%R. split.
      - apply in_map_iff. exists d. split; [destruct d; reflexivity|]. destruct W as [W|W]; [rewrite W; destruct d; cbn; tauto|]. destruct (shell g); destruct d; cbn; try tauto; discriminate.
      - destruct (Rle_dec (Rabs 1) (tol g)) as [Y|Y]; [|reflexivity]. rewrite Rabs_R1 in Y. lra. }
    rewrite B. cbn [negb]. apply flat_map_ext. intros c. rewrite andb_true_r. destruct (c =? q); [|reflexivity].
    rewrite (map_ext (fun x => unit_of d x * p)%R (fun e => unit d e * p)%R) by (intros e; now rewrite unit_same). destruct (shell g); reflexivity.
Qed.

(** Each cell is given, for each load case, the pressures, surface forces and line forces of the set
    on it.  (Partial: a line force is its first value, [C94_line_refuted]; line moments
    without the option of shells are left out.) *)
Theorem C94_cells_partial : forall g find nodes l f,
  (0 <= tol g < 1)%R -> no_repeat l -> NoDup (map sn_pos nodes) -> f = write_subcase g find nodes l ->
  (forall a ls k, In a l -> In ls (an_loads a) -> In k (snd ls) -> writable g k) ->
  forall q i, applied f (f_isol f q) (Z.of_nat i + 1) = map Some (flat_map (cell_rows g q) (loads_in l i)).
Proof.
  intros g find nodes l f T D ND -> W q i. rewrite applied_listed, (fr_cells _ _ _ _ _ (write_reads g find nodes l D ND)), loads_bridge. f_equal.
  assert (K : forall k, In k (loads_in l i) -> writable g k).
  { intros k J. unfold loads_in in J. destruct (nth_error (cases_in_order l) i) as [[a s]|] eqn:E; [|contradiction].
    apply nth_error_In in E. unfold cases_in_order in E. apply in_flat_map in E as (b & B1 & B2).
    destruct (an_loads b) as [|x r] eqn:EL; [destruct B2 as [B2|[]]; injection B2 as <- <-; contradiction|].
    apply in_map_iff in B2 as (y & Y1 & Y2). injection Y1 as <- <-. apply (W b y k B1); [rewrite EL; exact Y2|exact J]. }
  induction (loads_in l i) as [|k s IH]; [reflexivity|]. cbn [flat_map]. rewrite cell_says_rows by (try exact T; apply K; now left). f_equal.
  apply IH. intros x J. apply K. now right.
Qed.

(** ** Accelerations *)
(** A load case refers to the first acceleration of its set, by a vector of the file.  (Partial:
    the others are left out, [C94_weights_refuted].) *)
Definition accelerations (t : R) (s : list sload) : list (list R) :=
  flat_map (fun k => match k with SGravity a => if beyond t (xyz a) then [[6; 0; 0; 0; 0; 0; vx a; 0; vy a; 0; vz a]%R] else [] | _ => [] end) s.
Theorem C94_weight_partial : forall g find nodes l f i v,
  (0 <= tol g)%R -> no_repeat l -> NoDup (map sn_pos nodes) -> f = write_subcase g find nodes l -> In (Z.of_nat i + 1, v) (f_cases f) ->
  match accelerations (tol g) (loads_in l i) with
  | [] => v = 0
  | a :: _ => v <> 0 /\ record v (f_vectors f) = Some a
  end.
Proof.
  intros g find nodes l f i v T D ND -> J. assert (E := fr_weights _ _ _ _ _ (write_reads g find nodes l D ND) i v J).
  rewrite loads_bridge in E.
  assert (Q : flat_map (case_says g) (loads_in l i) = accelerations (tol g) (loads_in l i)).
  { apply flat_map_ext. intros k. destruct k; try reflexivity. cbn [case_says]. rewrite beyond_maxabs by exact T. unfold xyz, comps3. now destruct (beyond _ _). }
  rewrite Q in E. destruct (accelerations (tol g) (loads_in l i)) as [|a r]; cbn [firstn map] in E; destruct (Z.eqb_spec v 0) as [Z|Z]; try discriminate; [exact Z|].
  split; [exact Z|]. rewrite record_get. now injection E.
Qed.

(** ** Local systems *)
(** A node whose displacements are in a local system refers to a vector with the angles of that
    system at the node, the others to none. *)
Theorem C94_axes : forall g find nodes l f,
  no_repeat l -> NoDup (map sn_pos nodes) -> f = write_subcase g find nodes l ->
  Forall2 (fun n ln => match sn_cs n with
     | None => l_iangl ln = 0
     | Some k => record (l_iangl ln) (f_vectors f) = Some ([0; 0; 0; 0; 0; 0]%R ++ xyz (angles_of (find k) (sn_pos n)))
     end) nodes (f_nodes f).
Proof.
  intros g find nodes l f D ND ->. eapply forall2_impl; [|exact (fr_nodes _ _ _ _ _ (write_reads g find nodes l D ND))].
  intros n ln (_ & _ & A & _). destruct (sn_cs n); [|exact A]. rewrite record_get. exact A.
Qed.

(** ** Displacements *)
(** Given values of a support, of an imposed displacement. *)
Definition support_value (s : spc) (d : dof) : R := match sp_entry s d with Fixed v => v | _ => 0%R end.
Definition given_value (e : dof -> option R) (d : dof) : R := match e d with Some v => v | None => 0%R end.
Definition displacement_rows (g : setting) (q : Z) (on : list Z) (val : dof -> R) : list (list R) :=
  flat_map (fun p => if p =? q then row (tol g) [4; 0; 0; 0; 0; 0]%R (map val (if shell g then six else firstn 3 six)) else []) on ++
  (if shell g then []
   else flat_map (fun p => match rot g p with Some r => if r =? q then row (tol g) [4; 0; 0; 0; 0; 0]%R (map val [RX; RY; RZ]) else [] | None => [] end) on).
Definition supports_of (g : setting) (q : Z) (a : analysis) : list (list R) :=
  flat_map (fun x => if existsb (fun d => match sp_entry (ss_spc x) d with Function _ => true | _ => false end) six then []
                     else displacement_rows g q (ss_on x) (support_value (ss_spc x))) (an_spcs a).
Definition imposed_of (g : setting) (q : Z) (s : list sload) : list (list R) :=
  flat_map (fun k => match k with SImposed on e => displacement_rows g q on (given_value e) | _ => [] end) s.
(** Without the option of shells: no support and no imposed displacement on two masters of rigid bars. *)
Definition one_master (g : setting) (on : list Z) : Prop :=
  (length (filter (fun p => match rot g p with Some _ => true | None => false end) on) <= 1)%nat.
Definition masters_apart (g : setting) (l : list analysis) : Prop :=
  shell g = false -> forall a, In a l ->
    (forall x, In x (an_spcs a) -> one_master g (ss_on x)) /\
    (forall ls on e, In ls (an_loads a) -> In (SImposed on e) (snd ls) -> one_master g on).

Lemma spc_value_same x d : spc_value x d = support_value x d.
Proof.
  unfold spc_value, support_value. destruct (contains (spc_dofs x) d) eqn:E; [reflexivity|].
  destruct (sp_entry x d) as [|v|f] eqn:Q; try reflexivity.
  exfalso. assert (K : contains (spc_dofs x) d = true) by (apply spc_dofs_in; rewrite Q; discriminate). congruence.
Qed.
Lemma fix_says_rows g q on val : (0 <= tol g)%R -> fix_says g on val q = displacement_rows g q on val.
Proof.
  intros T. unfold fix_says, displacement_rows, rot_says, available. f_equal.
  - apply flat_map_ext. intros p. rewrite keep_row by exact T. destruct (shell g); reflexivity.
  - destruct (shell g); [reflexivity|]. apply flat_map_ext. intros p. rewrite keep_row by exact T. reflexivity.
Qed.
Lemma rows_ext g q on v w : (forall d, v d = w d) -> displacement_rows g q on v = displacement_rows g q on w.
Proof. intros H. unfold displacement_rows. rewrite !(map_ext v w) by exact H. reflexivity. Qed.

(** Each node is given, for each load case, the displacements of the supports of the analysis of
    that case, then those that the load sets of this analysis impose; in a case of an analysis of
    which no other set imposes any, those of its own set. *)
Theorem C94_displacements_partial : forall g find nodes l f,
  (0 <= tol g)%R -> no_repeat l -> NoDup (map sn_pos nodes) -> masters_apart g l -> f = write_subcase g find nodes l ->
  Forall2 (fun n ln => forall i a s, nth_error (cases_in_order l) i = Some (a, s) ->
     applied f (l_idisp ln) (Z.of_nat i + 1) =
       map Some (supports_of g (sn_pos n) a ++ flat_map (fun ls => imposed_of g (sn_pos n) (snd ls)) (an_loads a)) /\
     ((forall before ls after, an_loads a = before ++ ls :: after -> snd ls = s -> (forall o, In o (before ++ after) -> imposed_of g (sn_pos n) (snd o) = []) ->
       applied f (l_idisp ln) (Z.of_nat i + 1) = map Some (supports_of g (sn_pos n) a ++ imposed_of g (sn_pos n) s)))) nodes (f_nodes f).
Proof.
  intros g find nodes l f T D ND U ->. eapply forall2_impl; [|exact (fr_fixed _ _ _ _ _ (write_reads g find nodes l D ND) U)].
  intros n ln H i a s E. cbv beta in H.
  assert (M : applied (write_subcase g find nodes l) (l_idisp ln) (Z.of_nat i + 1) =
       map Some (supports_of g (sn_pos n) a ++ flat_map (fun ls => imposed_of g (sn_pos n) (snd ls)) (an_loads a))).
  { rewrite applied_listed, H, analysis_bridge, E. cbn [option_map fst]. f_equal. f_equal.
    - apply flat_map_ext. intros x. unfold spc_says, spc_has_references. destruct (existsb _ _); [reflexivity|].
      rewrite fix_says_rows by exact T. apply rows_ext. apply spc_value_same.
    - apply flat_map_ext. intros ls. apply flat_map_ext. intros k. destruct k; try reflexivity. cbn [imposed_says]. now apply fix_says_rows. }
  split; [exact M|]. intros before ls after L S O. rewrite M. do 2 f_equal. rewrite L, flat_map_app. cbn [flat_map]. rewrite S.
  assert (N : forall r : list (Z * list sload), (forall o, In o r -> imposed_of g (sn_pos n) (snd o) = []) -> flat_map (fun ls => imposed_of g (sn_pos n) (snd ls)) r = []).
  { induction r as [|o r IH]; intros Q; [reflexivity|]. cbn [flat_map]. rewrite Q by now left. apply IH. intros o' J. apply Q. now right. }
  rewrite !N, app_nil_r; [reflexivity| |]; intros o J; apply O; apply in_app_iff; auto.
Qed.

(** ** Constraint codes *)
Definition turned (d : dof) : option dof := match d with DX => Some RX | DY => Some RY | DZ => Some RZ | _ => None end.
Definition held (g : setting) (l : list sspc) (q : Z) (d : dof) : Prop :=
  (shell g = true \/ isRotation d = false) /\
  exists x, In x l /\
    ((In q (ss_on x) /\ sp_entry (ss_spc x) d <> Free) \/
     (shell g = false /\ exists p r, In p (ss_on x) /\ rot g p = Some q /\ turned d = Some r /\ sp_entry (ss_spc x) r <> Free)).

Lemma avail_bit g d : Z.testbit (dof_code_of g) (dof_rank d) = true <-> shell g = true \/ isRotation d = false.
Proof. unfold dof_code_of. destruct (shell g); destruct d; cbn; intuition congruence. Qed.
Lemma turned_bit s d : Z.testbit (combineCodes (contains s RX) (contains s RY) (contains s RZ) false false false) (dof_rank d) = true <->
  exists r, turned d = Some r /\ contains s r = true.
Proof.
  destruct (contains s RX) eqn:X, (contains s RY) eqn:Y, (contains s RZ) eqn:W; destruct d;
    (split; [intros H; first [vm_compute in H; discriminate|eexists; split; [reflexivity|eassumption]]|intros (r & Q & C); cbn in Q; try discriminate; injection Q as <-; first [reflexivity|congruence]]).
Qed.
Lemma spc_bit x d : Z.testbit (spc_dofs x) (dof_rank d) = true <-> sp_entry x d <> Free.
Proof. rewrite <- contains_testbit. apply spc_dofs_in. Qed.
Lemma mark_sorted g p s m : sorted m -> sorted (mark g p s m).
Proof. apply upd_sorted. Qed.

Lemma mark_spc_bits g x q d : forall m, sorted m -> sorted (mark_spc g m x) /\
  (Z.testbit (or0 (get q (mark_spc g m x))) (dof_rank d) = true <-> Z.testbit (or0 (get q m)) (dof_rank d) = true \/ held g [x] q d).
Proof.
  unfold mark_spc. intros m S.
  assert (G : forall on m, sorted m ->
    let m' := fold_left (fun m p => let m1 := mark g p (spc_dofs (ss_spc x)) m in
      if shell g then m1 else match rot g p with
       | Some r => mark g r (combineCodes (contains (spc_dofs (ss_spc x)) RX) (contains (spc_dofs (ss_spc x)) RY) (contains (spc_dofs (ss_spc x)) RZ) false false false) m1
       | None => m1 end) on m in
    sorted m' /\ (Z.testbit (or0 (get q m')) (dof_rank d) = true <-> Z.testbit (or0 (get q m)) (dof_rank d) = true \/ held g [SSpc on (ss_spc x)] q d)).
  { induction on as [|p on IH]; intros m0 S0; cbn [fold_left]; cbv zeta.
    - split; [exact S0|]. split; [tauto|]. intros [H|(_ & y & [<-|[]] & [(J & _)|(_ & p & r & J & _)])]; [exact H|destruct J|destruct J].
    - set (m1 := mark g p (spc_dofs (ss_spc x)) m0).
      assert (S1 : sorted m1) by now apply mark_sorted.
      set (m2 := if shell g then m1 else _).
      assert (S2 : sorted m2) by (unfold m2; destruct (shell g); [exact S1|]; destruct (rot g p); [now apply mark_sorted|exact S1]).
      destruct (IH m2 S2) as (A & B). cbv zeta in *. split; [exact A|]. rewrite B.
      assert (B1 : Z.testbit (or0 (get q m1)) (dof_rank d) = true <-> Z.testbit (or0 (get q m0)) (dof_rank d) = true \/ (p = q /\ sp_entry (ss_spc x) d <> Free /\ (shell g = true \/ isRotation d = false))).
      { unfold m1. rewrite mark_bits by exact S0. rewrite orb_true_iff, !andb_true_iff, Z.eqb_eq, spc_bit, avail_bit. tauto. }
      assert (B2 : Z.testbit (or0 (get q m2)) (dof_rank d) = true <-> Z.testbit (or0 (get q m1)) (dof_rank d) = true \/
         (shell g = false /\ isRotation d = false /\ exists r, rot g p = Some q /\ turned d = Some r /\ sp_entry (ss_spc x) r <> Free)).
      { unfold m2. destruct (shell g) eqn:SH; [intuition discriminate|].
        destruct (rot g p) as [r|] eqn:R; [|split; [tauto|intros [H|(_ & _ & r & Q & _)]; [exact H|discriminate]]].
        rewrite mark_bits by exact S1. rewrite orb_true_iff, !andb_true_iff, Z.eqb_eq, turned_bit, avail_bit, SH. split.
        - intros [H|(E & (r' & Q1 & Q2) & [Q3|Q3])]; [tauto|discriminate|]. right. split; [reflexivity|]. split; [exact Q3|]. exists r'. rewrite spc_dofs_in in Q2. subst r. auto.
        - intros [H|(_ & Q3 & r' & E & Q1 & Q2)]; [tauto|]. right. injection E as ->. split; [reflexivity|]. split; [exists r'; rewrite spc_dofs_in; auto|auto]. }
      rewrite B2, B1. unfold held. split.
      + intros [[[H|(H1 & H2 & H3)]|(H1 & H2 & r & H3 & H4 & H5)]|(H1 & y & [<-|[]] & [(H2 & H3)|(H2 & p' & r & H3 & H4)])]; [tauto| | | |].
        * right. split; [exact H3|]. eexists. split; [now left|]. left. split; [now left|exact H2].
        * right. split; [auto|]. eexists. split; [now left|]. right. split; [exact H1|]. exists p, r. split; [now left|auto].
        * right. split; [exact H1|]. eexists. split; [now left|]. left. split; [now right|exact H3].
        * right. split; [exact H1|]. eexists. split; [now left|]. right. split; [exact H2|]. exists p', r. split; [now right|exact H4].
      + intros [H|(H1 & y & [<-|[]] & [(H2 & H3)|(H2 & p' & r & H3 & H4 & H5 & H6)])]; [tauto| |].
        * cbn [ss_on ss_spc] in *. destruct H2 as [H2|H2]; [tauto|]. right. split; [exact H1|]. eexists. split; [now left|]. left. auto.
        * cbn [ss_on ss_spc] in *. destruct H3 as [H3|H3].
          -- left. right. subst p'. split; [exact H2|]. split; [destruct d; try discriminate; reflexivity|]. exists r. auto.
          -- right. split; [exact H1|]. eexists. split; [now left|]. right. split; [exact H2|]. exists p', r. auto. }
  specialize (G (ss_on x) m S). cbv zeta in G. destruct x as [on y]. exact G.
Qed.

Lemma constrained_bits g a l q d : Z.testbit (or0 (get q (constrained g (a :: l)))) (dof_rank d) = true <-> held g (an_spcs a) q d.
Proof.
  cbn [constrained].
  assert (G : forall xs m, sorted m -> Z.testbit (or0 (get q (fold_left (mark_spc g) xs m))) (dof_rank d) = true <-> Z.testbit (or0 (get q m)) (dof_rank d) = true \/ held g xs q d).
  { induction xs as [|x xs IH]; intros m S; cbn [fold_left].
    - unfold held. split; [tauto|]. intros [H|(_ & y & [] & _)]. exact H.
    - destruct (mark_spc_bits g x q d m S) as (S1 & B). rewrite (IH _ S1), B. unfold held. split.
      + intros [[H|(H & y & [<-|[]] & K)]|(H & y & J & K)]; [tauto| |]; right; split; try exact H; [exists x|exists y]; split; auto; [now left|now right].
      + intros [H|(H & y & [<-|J] & K)]; [tauto| |]; [left; right|right]; (split; [exact H|]); [exists x|exists y]; split; auto. now left. }
  rewrite (G (an_spcs a) []) by (exact I || constructor). cbn [get or0]. rewrite Z.bits_0. intuition discriminate.
Qed.

(** The constraint code of a node has the bit of a component when a support of the first analysis
    holds it.  When the analyses of a subcase have the same supports, this is so for each of them;
    subcases made by the program are like that (SystusWriter.cpp:898-925).  (Partial: those given
    by the user may not be, [C94_codes_refuted].) *)
Theorem C94_codes_partial : forall g find nodes l f,
  no_repeat l -> NoDup (map sn_pos nodes) -> f = write_subcase g find nodes l ->
  (forall a b, In a l -> In b l -> an_spcs a = an_spcs b) ->
  Forall2 (fun n ln => forall a d, In a l -> (Z.testbit (l_iconst ln) (dof_rank d) = true <-> held g (an_spcs a) (sn_pos n) d)) nodes (f_nodes f).
Proof.
  intros g find nodes l f D ND -> S. eapply forall2_impl; [|exact (fr_nodes _ _ _ _ _ (write_reads g find nodes l D ND))].
  intros n ln (_ & _ & _ & C) a d J. rewrite C. destruct l as [|b l]; [contradiction|]. rewrite constrained_bits.
  rewrite (S a b J) by now left. reflexivity.
Qed.

(** ** What is lost *)
Ltac look := repeat match goal with |- context [Rle_dec (Rabs ?x) ?t] =>
  let Y := fresh in destruct (Rle_dec (Rabs x) t) as [Y|Y];
  [try (exfalso; unfold Rabs in Y; destruct (Rcase_abs x); lra)|try (exfalso; apply Y; unfold Rabs; destruct (Rcase_abs x); lra)] end.
Definition loose (b : bool) : setting := Setting 0 b (fun _ => None).
Definition one_node : list snode := [SNode 0 10 None].
Definition alone (k : list sload) : list analysis := [Analysis 1 [(5, k)] []].
Lemma one_fine : NoDup (map sn_pos one_node).
Proof. repeat constructor. intros []. Qed.
Lemma alone_fine k : no_repeat (alone k).
Proof. split; [repeat constructor; intros []|]. repeat constructor. intros []. Qed.

(** Without the option of shells, the moment of a node that is no master of rigid bars is applied nowhere. *)
Theorem C94_moment_refuted : exists find n l f,
  f = write_subcase (loose false) find one_node l /\ no_repeat l /\ NoDup (map sn_pos one_node) /\ loads_in l 0 = [SNodal n] /\
  In 0 (nf_on n) /\ nf_moment n 0 = V3 0 0 5 /\
  Forall (fun ln => forall i, applied f (l_isol ln) (Z.of_nat i + 1) = []) (f_nodes f).
Proof.
  exists (fun _ => OtherCs), (NForce [0] (fun _ => vzero) (fun _ => V3 0 0 5)), (alone [SNodal (NForce [0] (fun _ => vzero) (fun _ => V3 0 0 5))]).
  eexists. split; [reflexivity|]. split; [apply alone_fine|]. split; [apply one_fine|]. split; [reflexivity|]. split; [now left|]. split; [reflexivity|].
  set (l := alone _). assert (F := C94_forces_partial (loose false) (fun _ => OtherCs) one_node l _ (Rle_refl 0) (alone_fine _) one_fine eq_refl).
  inversion F as [|n ln ns lns (_ & H) F2 E1 E2]. inversion F2. constructor; [|constructor]. intros i. rewrite H.
  subst n. destruct i as [|i]; [|destruct i; reflexivity]. unfold l, alone, loads_in, cases_in_order, forces_in, force_rows, row, beyond. cbn. look. reflexivity.
Qed.

(** A line load that varies is applied with its first value. *)
Theorem C94_line_refuted : exists find cells d p o o',
  o <> o' /\ write_subcase (loose true) find one_node (alone [SLine cells d p o]) = write_subcase (loose true) find one_node (alone [SLine cells d p o']).
Proof. exists (fun _ => OtherCs), [20], DZ, 1%R, [3%R], [1%R]. split; [intros H; injection H; lra|reflexivity]. Qed.

(** The second acceleration of a set is not applied. *)
Theorem C94_weights_refuted : exists find a b l f,
  f = write_subcase (loose true) find one_node l /\ no_repeat l /\ a <> b /\ accelerations 0 (loads_in l 0) = [a; b] /\
  exists v, f_cases f = [(1, v)] /\ record v (f_vectors f) = Some a.
Proof.
  set (l := alone [SGravity (V3 0 0 (-9)); SGravity (V3 1 0 0)]).
  assert (A : accelerations 0 (loads_in l 0) = [[6; 0; 0; 0; 0; 0; 0; 0; 0; 0; -9]%R; [6; 0; 0; 0; 0; 0; 1; 0; 0; 0; 0]%R]).
  { unfold l, alone, loads_in, cases_in_order, accelerations, beyond. cbn. look. reflexivity. }
  exists (fun _ => OtherCs), [6; 0; 0; 0; 0; 0; 0; 0; 0; 0; -9]%R, [6; 0; 0; 0; 0; 0; 1; 0; 0; 0; 0]%R, l. eexists. split; [reflexivity|]. split; [apply alone_fine|].
  split; [intros H; injection H; lra|]. split; [exact A|].
  assert (N := C94_numbers (loose true) (fun _ => OtherCs) one_node l _ (alone_fine _) one_fine eq_refl). destruct N as (_ & _ & N & _).
  assert (W := C94_weight_partial (loose true) (fun _ => OtherCs) one_node l (write_subcase (loose true) (fun _ => OtherCs) one_node l) 0%nat).
  destruct (f_cases (write_subcase (loose true) (fun _ => OtherCs) one_node l)) as [|[c v] [|e r]] eqn:E; [discriminate N| |discriminate N].
  injection N as ->. exists v. split; [reflexivity|].
  specialize (W v (Rle_refl 0) (alone_fine _) one_fine eq_refl). specialize (W (or_introl eq_refl)).
  cbn [tol loose] in W. rewrite A in W. apply W.
Qed.

(** A displacement that one load set imposes is imposed in the cases of the other sets of the analysis too. *)
Theorem C94_other_set_refuted : exists find l f,
  f = write_subcase (loose true) find one_node l /\ no_repeat l /\ imposed_of (loose true) 0 (loads_in l 1) = [] /\ map an_spcs l = [[]] /\
  Forall (fun ln => applied f (l_idisp ln) 2 = [Some [4; 0; 0; 0; 0; 0; 1; 0; 0; 0; 0; 0]%R]) (f_nodes f).
Proof.
  set (l := [Analysis 1 [(5, [SImposed [0] (fun d => match d with DX => Some 1%R | _ => None end)]); (6, [SGravity (V3 0 0 1)])] []]).
  assert (D : no_repeat l) by (split; [repeat constructor; intros []|repeat constructor; intros J; cbn in J; lia]).
  exists (fun _ => OtherCs), l. eexists. split; [reflexivity|]. split; [exact D|]. split; [reflexivity|]. split; [reflexivity|].
  assert (U : masters_apart (loose true) l) by (intros H; discriminate H).
  assert (F := C94_displacements_partial (loose true) (fun _ => OtherCs) one_node l _ (Rle_refl 0) D one_fine U eq_refl).
  inversion F as [|n ln ns lns H F2 E1 E2]. inversion F2. constructor; [|constructor].
  destruct (H 1%nat _ _ eq_refl) as (K & _). etransitivity; [exact K|]. subst n.
  unfold imposed_of, displacement_rows, row, beyond. cbn. look. reflexivity.
Qed.

(** The codes of the nodes are those of the first analysis. *)
Theorem C94_codes_refuted : exists find l f a d,
  f = write_subcase (loose true) find one_node l /\ no_repeat l /\ In a l /\ held (loose true) (an_spcs a) 0 d /\
  Forall (fun ln => Z.testbit (l_iconst ln) (dof_rank d) = false) (f_nodes f).
Proof.
  set (a := Analysis 2 [] [SSpc [0] (Spc (NCont [] [] [] []) (fun d => match d with DX => Fixed 0 | _ => Free end))]).
  set (l := [Analysis 1 [] []; a]).
  assert (D : no_repeat l) by (split; [repeat constructor; [intros [H|[]]; discriminate|intros []]|repeat constructor]).
  exists (fun _ => OtherCs), l. eexists. exists a, DX. split; [reflexivity|]. split; [exact D|]. split; [now right; left|].
  split; [split; [now left|]; eexists; split; [now left|]; left; split; [now left|discriminate]|].
  assert (F := fr_nodes _ _ _ _ _ (write_reads (loose true) (fun _ => OtherCs) one_node l D one_fine)).
  inversion F as [|n ln ns lns (_ & _ & _ & C) F2 E1 E2]. inversion F2. constructor; [|constructor]. match goal with |- Z.testbit ?x _ = _ => replace x with 0 by (symmetry; etransitivity; [exact C|]; subst n; reflexivity) end. reflexivity.
Qed.

(** The amplitude of an excitation is not used. *)
Theorem C94_amplitude_refuted : exists find a b n,
  a <> b /\ nf_on n = [0] /\ nf_force n 0 = V3 1 0 0 /\
  write_subcase (loose true) find one_node (alone [SDynamic true a [n]]) = write_subcase (loose true) find one_node (alone [SDynamic true b [n]]).
Proof. exists (fun _ => OtherCs), 1%R, 5%R, (NForce [0] (fun _ => V3 1 0 0) (fun _ => vzero)). split; [lra|]. repeat split. Qed.

Definition bars : setting := Setting 0 false (fun p => if p =? 1 then Some 11 else if p =? 2 then Some 12 else None).
Definition two_rotations : list snode := [SNode 11 111 None; SNode 12 112 None].
Definition turning : spc := Spc (NCont [] [] [] []) (fun d => match d with RX => Fixed 1 | _ => Free end).
Lemma still : near_zero 0 (maxabs [0; 0; 0]%R) = true.
Proof. rewrite beyond_maxabs by lra. unfold beyond. cbn [existsb]. look. reflexivity. Qed.
Lemma turns : near_zero 0 (maxabs [1; 0; 0]%R) = false.
Proof. rewrite beyond_maxabs by lra. unfold beyond. cbn [existsb]. look. reflexivity. Qed.

(** Without the option of shells, a support that turns two masters of rigid bars gives the rotation
    node of the second a vector that is not in the file. *)
Theorem C94_rotations_refuted : exists find l f a b,
  f = write_subcase bars find two_rotations l /\ no_repeat l /\ f_nodes f = [a; b] /\
  displacement_rows bars 12 [1; 2] (support_value turning) = [[4; 0; 0; 0; 0; 0; 1; 0; 0]%R] /\ map an_spcs l = [[SSpc [1; 2] turning]] /\
  applied f (l_idisp a) 1 = [Some [4; 0; 0; 0; 0; 0; 1; 0; 0]%R] /\ applied f (l_idisp b) 1 = [None].
Proof.
  set (l := [Analysis 1 [] [SSpc [1; 2] turning]]).
  assert (D : no_repeat l) by (split; [repeat constructor; intros []|repeat constructor]).
  set (s1 := constraint_vectors bars (snd (fill_loads l)) l (loading_vectors bars (snd (fill_loads l)) l no_sys)).
  assert (E : s1 = Sys [(1, [4; 0; 0; 0; 0; 0; 1; 0; 0]%R)] 2 [] [] [] [(11, [(1, [1])]); (12, [(1, [2])])]).
  { subst s1. unfold constraint_vectors, loading_vectors, l. cbn -[near_zero maxabs]. unfold rotation_vector, fixed_vector. cbn [tol bars]. rewrite still, turns. reflexivity. }
  assert (F : write_subcase bars (fun _ => OtherCs) two_rotations l =
    let '(s2, local) := coordinate_vectors (fun _ => OtherCs) two_rotations s1 in
    let ls := fill_lists s2 in
    File [(1, or0 (get 1 (on_case s2)))] (lists ls) (vectors s2) (map (node_of (constrained bars l) local (node_list ls) (fixed_list ls)) two_rotations)
    (fun k => or0 (get k (cell_list ls))) (1, Z.of_nat (length (lists ls)), Z.of_nat (length (vectors s2)))) by reflexivity.
  rewrite E in F. clear E s1.
  exists (fun _ => OtherCs), l. do 3 eexists. split; [reflexivity|]. split; [exact D|]. rewrite F. split; [reflexivity|].
  split; [unfold displacement_rows, row, beyond; cbn; look; reflexivity|]. repeat split.
Qed.

(** An analysis that a subcase lists twice has its loads twice in the second of its cases and none in the first. *)
Definition push_it : nforce := NForce [0] (fun _ => V3 1 0 0) (fun _ => vzero).
Lemma pushed : near_zero 0 (maxabs [1; 0; 0; 0; 0; 0]%R) = false.
Proof. rewrite beyond_maxabs by lra. unfold beyond. cbn [existsb]. look. reflexivity. Qed.
Theorem C94_repeat_refuted : exists find a f ln,
  f = write_subcase (loose true) find one_node [a; a] /\ f_nodes f = [ln] /\ map fst (f_cases f) = [1; 2] /\
  cases_in_order [a; a] = [(a, [SNodal push_it]); (a, [SNodal push_it])] /\
  applied f (l_isol ln) 1 = [] /\ applied f (l_isol ln) 2 = [Some [0; 0; 0; 0; 0; 0; 1; 0; 0; 0; 0; 0]%R; Some [0; 0; 0; 0; 0; 0; 1; 0; 0; 0; 0; 0]%R].
Proof.
  set (a := Analysis 1 [(5, [SNodal push_it])] []). set (l := [a; a]).
  set (s1 := constraint_vectors (loose true) (snd (fill_loads l)) l (loading_vectors (loose true) (snd (fill_loads l)) l no_sys)).
  assert (E : s1 = Sys [(1, [0; 0; 0; 0; 0; 0; 1; 0; 0; 0; 0; 0]%R); (2, [0; 0; 0; 0; 0; 0; 1; 0; 0; 0; 0; 0]%R)] 3 [(0, [(2, [1; 2])])] [] [(2, 0)] []).
  { subst s1. unfold constraint_vectors, loading_vectors, l, a. cbn -[near_zero maxabs]. unfold set_vectors, load_vectors, nodal_vectors, node_vector. cbn -[near_zero maxabs]. change (comps3 vzero) with [0; 0; 0]%R. rewrite !pushed. reflexivity. }
  assert (F : write_subcase (loose true) (fun _ => OtherCs) one_node l =
    let '(s2, local) := coordinate_vectors (fun _ => OtherCs) one_node s1 in
    let ls := fill_lists s2 in
    File [(1, or0 (get 1 (on_case s2))); (2, or0 (get 2 (on_case s2)))] (lists ls) (vectors s2) (map (node_of (constrained (loose true) l) local (node_list ls) (fixed_list ls)) one_node)
    (fun k => or0 (get k (cell_list ls))) (2, Z.of_nat (length (lists ls)), Z.of_nat (length (vectors s2)))) by reflexivity.
  rewrite E in F. clear E s1.
  exists (fun _ => OtherCs), a. do 2 eexists. split; [reflexivity|]. fold l. rewrite F. repeat split.
Qed.

(** ** A subcase *)
Definition demo : setting := Setting (1 / 10) true (fun _ => None).
Definition demo_nodes : list snode := [SNode 0 10 None; SNode 1 11 (Some 7)].
Definition demo_force : nforce := NForce [0; 1; 1] (fun _ => V3 2 0 0) (fun _ => V3 0 0 3).
Definition demo_support : spc := Spc (NCont [] [] [] []) (fun d => match d with DX => Fixed 0 | DY => Fixed 2 | _ => Free end).
Definition demo_cases : list analysis :=
  [Analysis 1 [(5, [SNodal demo_force; SPressure [20] 4; SLine [20] DY 3 []; SGravity (V3 0 0 (-9))]);
               (6, [SImposed [0] (fun d => match d with DZ => Some 1%R | _ => None end)])] [SSpc [1] demo_support];
   Analysis 2 [] [SSpc [1] demo_support]].
Definition demo_axes (k : Z) : csys := Cart (V3 30 0 0).
Lemma demo_fine : no_repeat demo_cases /\ NoDup (map sn_pos demo_nodes) /\ masters_apart demo demo_cases /\
  (forall a ls k, In a demo_cases -> In ls (an_loads a) -> In k (snd ls) -> writable demo k) /\
  (forall a b, In a demo_cases -> In b demo_cases -> an_spcs a = an_spcs b).
Proof.
  split; [split; [repeat constructor; cbn; intuition discriminate|repeat constructor; cbn; intuition discriminate]|].
  split; [repeat constructor; cbn; intuition discriminate|]. split; [intros H; discriminate H|]. split.
  - intros a ls k _ _ _. unfold writable. destruct k; auto.
  - intros a b [<-|[<-|[]]] [<-|[<-|[]]]; reflexivity.
Qed.
(** Case 1 at node 11 and on cell 20, its acceleration; case 3 has none. *)
Example C94_example : forall f, f = write_subcase demo demo_axes demo_nodes demo_cases ->
  map fst (f_cases f) = [1; 2; 3] /\
  (exists a b, f_nodes f = [a; b] /\ l_id b = 11 /\
     applied f (l_isol b) 1 = [Some [0; 0; 0; 0; 0; 0; 2; 0; 0; 0; 0; 3]%R; Some [0; 0; 0; 0; 0; 0; 2; 0; 0; 0; 0; 3]%R] /\
     applied f (l_isol b) 3 = [] /\
     applied f (l_idisp b) 3 = [Some [4; 0; 0; 0; 0; 0; 0; 2; 0; 0; 0; 0]%R] /\
     applied f (l_idisp a) 2 = [Some [4; 0; 0; 0; 0; 0; 0; 0; 1; 0; 0; 0]%R] /\
     l_iangl a = 0 /\ record (l_iangl b) (f_vectors f) = Some [0; 0; 0; 0; 0; 0; 30; 0; 0]%R /\
     Z.testbit (l_iconst b) 1 = true /\ Z.testbit (l_iconst b) 2 = false) /\
  applied f (f_isol f 20) 1 = [Some [1; 0; 1; 0; 0; 0; 0; 0; 4]%R; Some [1; 0; 0; 0; 0; 0; 0 * 3; 1 * 3; 0 * 3; 0 * 3; 0 * 3; 0 * 3]%R] /\
  (forall v, In (1, v) (f_cases f) -> record v (f_vectors f) = Some [6; 0; 0; 0; 0; 0; 0; 0; 0; 0; -9]%R).
Proof.
  intros f Ef. destruct demo_fine as (D & ND & U & W & S). assert (T : (0 <= tol demo < 1)%R) by (cbn; lra). assert (T0 : (0 <= tol demo)%R) by (cbn; lra).
  split; [apply (C94_numbers demo demo_axes demo_nodes demo_cases f D ND Ef)|]. split; [|split].
  - assert (F := C94_forces_partial demo demo_axes demo_nodes demo_cases f T0 D ND Ef).
    assert (G := C94_displacements_partial demo demo_axes demo_nodes demo_cases f T0 D ND U Ef).
    assert (X := C94_axes demo demo_axes demo_nodes demo_cases f D ND Ef).
    assert (C := C94_codes_partial demo demo_axes demo_nodes demo_cases f D ND Ef S).
    destruct (f_nodes f) as [|a [|b [|c r]]]; inversion F as [|n a' ns l1 (I1 & F1) F' E1 E2]; subst; inversion F' as [|m b' ms l2 (I2 & F2) F'' E3 E4]; subst; try (inversion F''; fail).
    inversion G as [|? ? ? ? G1 G']; subst. inversion G' as [|? ? ? ? G2 _]; subst.
    inversion X as [|? ? ? ? X1 X']; subst. inversion X' as [|? ? ? ? X2 _]; subst.
    inversion C as [|? ? ? ? C1 C']; subst. inversion C' as [|? ? ? ? C2 _]; subst.
    exists a, b. split; [reflexivity|]. split; [exact I2|].
    split; [etransitivity; [exact (F2 0%nat)|]; unfold forces_in, force_rows, row, beyond; cbn; look; reflexivity|].
    split; [etransitivity; [exact (F2 2%nat)|]; reflexivity|].
    split; [etransitivity; [exact (proj1 (G2 2%nat _ _ eq_refl))|]; unfold supports_of, imposed_of, displacement_rows, row, beyond; cbn; look; reflexivity|].
    split; [etransitivity; [exact (proj1 (G1 1%nat _ _ eq_refl))|]; unfold supports_of, imposed_of, displacement_rows, row, beyond; cbn; look; reflexivity|].
    split; [exact X1|]. split; [exact X2|]. split.
    + apply (C2 (Analysis 2 [] [SSpc [1] demo_support]) DY); [now right; left|]. split; [now left|]. eexists. split; [now left|]. left. split; [now left|discriminate].
    + destruct (Z.testbit (l_iconst b) 2) eqn:B; [|reflexivity]. exfalso.
      apply (C2 (Analysis 2 [] [SSpc [1] demo_support]) DZ) in B; [|now right; left]. destruct B as (_ & x & [<-|[]] & [(_ & Q)|(Q & _)]); [now apply Q|discriminate Q].
  - etransitivity; [exact (C94_cells_partial demo demo_axes demo_nodes demo_cases f T D ND Ef W 20 0%nat)|].
    unfold cell_rows. cbn. look. reflexivity.
  - intros v J. assert (A := C94_weight_partial demo demo_axes demo_nodes demo_cases f 0%nat v T0 D ND Ef J).
    unfold accelerations, beyond in A. cbn in A. revert A. look. intros A. apply A.
Qed.
Example C94_resultant_example : (0 <= tol demo)%R /\ resultant (loads_in demo_cases 0) 1 DX = (2 + (2 + 0))%R /\
  length (hits (loads_in demo_cases 0) 1) = 2%nat.
Proof. repeat split. cbn; lra. Qed.

Print Assumptions C94_numbers.
Print Assumptions C94_forces_partial.
Print Assumptions C94_resultant.
Print Assumptions C94_cells_partial.
Print Assumptions C94_weight_partial.
Print Assumptions C94_axes.
Print Assumptions C94_displacements_partial.
Print Assumptions C94_codes_partial.
Print Assumptions C94_moment_refuted.
Print Assumptions C94_line_refuted.
Print Assumptions C94_weights_refuted.
Print Assumptions C94_other_set_refuted.
Print Assumptions C94_codes_refuted.
Print Assumptions C94_amplitude_refuted.
Print Assumptions C94_rotations_refuted.
Print Assumptions C94_repeat_refuted.
