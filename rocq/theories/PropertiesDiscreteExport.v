(** Discrete elements written for Code_Aster (C81).

    The specification is the matrix that Code_Aster makes of a card (documentation
    of AFFE_CARA_ELEM, DISCRET): CARA='K_TR_L' is the upper triangle of the matrix,
    column after column; with SYME='NON' the whole matrix, column after column;
    'K_TR_D_L' are the values a of the diagonal of K, the matrix of the element
    being K -K / -K K; 'K_TR_D_N' the diagonal.  'T' instead of 'TR': translations
    only.  Another number of values is an error.  The mass cards 'M_.._D_.' have
    another layout: no matrix is given to them here. *)
From Coq Require Import Ascii String ZArith List Bool Arith Lia.
From Verif Require Import Base DofModel DofProofs PropertiesDof TokenizerModel RealModel CardModel GridModel LoadCardModel PropCardModel SpringModel PropertiesSprings DiscreteExportModel.
Import ListNotations.
Open Scope Z_scope.
Open Scope list_scope.

(** A degree of freedom of an element: end (false: first), direction. *)
Definition edof : Type := bool * dof.
Section Spec.
Context {V : Type} (vzero : V) (vopp : V -> V).
Definition nc (rot : bool) : nat := if rot then 6%nat else 3%nat.
Definition size_of (c : acard V) : nat := if ac_line c then (2 * nc (ac_rot c))%nat else nc (ac_rot c).
Definition expected (c : acard V) : nat :=
  if ac_diag c then nc (ac_rot c)
  else if ac_sym c then (size_of c * (size_of c + 1) / 2)%nat else (size_of c * size_of c)%nat.
Definition place (c : acard V) (i : edof) : nat := ((if fst i then nc (ac_rot c) else 0) + Z.to_nat (dof_rank (snd i)))%nat.
Definition listed (c : acard V) (i : edof) : bool := (ac_rot c || negb (isRotation (snd i))) && (ac_line c || negb (fst i)).
Definition value_at (c : acard V) (i j : edof) : V :=
  let r := place c i in let s := place c j in
  let at_ k := nth k (ac_values c) vzero in
  if ac_diag c then
    if dof_eqb (snd i) (snd j) then
      let a := at_ (Z.to_nat (dof_rank (snd i))) in if Bool.eqb (fst i) (fst j) then a else vopp a
    else vzero
  else if ac_sym c then at_ (Nat.max r s * (Nat.max r s + 1) / 2 + Nat.min r s)%nat
  else at_ (s * size_of c + r)%nat.
Definition aster_matrix (c : acard V) : option (edof -> edof -> V) :=
  if ac_diag c && match ac_kind c with Mass => true | _ => false end then None
  else if Nat.eqb (length (ac_values c)) (expected c)
       then Some (fun i j => if listed c i && listed c j then value_at c i j else vzero)
       else None.
(** The cards give matrix M for kind k: it is in one of them. *)
Definition gives (l : list (acard V)) (k : kind) (M : edof -> edof -> V) : Prop :=
  exists c, In c l /\ ac_kind c = k /\ aster_matrix c = Some M.
Definition first (i : edof) : Prop := fst i = false.
End Spec.

(** ** The triangle *)
Section Proofs.
Context {V : Type} (vzero : V) (vopp : V -> V) (is_zero : V -> bool) (is_equal : V -> V -> bool) (unavail : V).
Hypothesis zero_is_zero : is_zero vzero = true.
Hypothesis equal_zero : forall v, is_equal v vzero = is_zero v.
Hypothesis equal_sym : forall v w, is_equal v w = is_equal w v.
Hypothesis equal_refl : forall v, is_equal v v = true.
Hypothesis opp_zero : vopp vzero = vzero.

Definition dofs_nc (rot : bool) : list dof := if rot then [DX; DY; DZ; RX; RY; RZ] else [DX; DY; DZ].
Definition endz (b : bool) : Z := if b then 1 else 0.
Definition le_edof (i j : edof) : bool :=
  match fst i, fst j with
  | false, true => true | true, false => false
  | _, _ => dof_rank (snd i) <=? dof_rank (snd j)
  end.
Definition edofs (rot : bool) : list edof := map (pair false) (dofs_nc rot) ++ map (pair true) (dofs_nc rot).
Lemma triangle_ok (find : Z -> Z -> dof -> dof -> V) (rot : bool) :
  triangle find (if rot then 6 else 3) =
  Ok (flat_map (fun j : edof => map (fun i : edof => find (endz (fst i)) (endz (fst j)) (snd i) (snd j)) (filter (fun i => le_edof i j) (edofs rot))) (edofs rot)).
Proof. destruct rot; reflexivity. Qed.
Lemma triangle_at (find : Z -> Z -> dof -> dof -> V) (rot : bool) k s i j : let c := mkACard k rot false true s
    (flat_map (fun j : edof => map (fun i : edof => find (endz (fst i)) (endz (fst j)) (snd i) (snd j)) (filter (fun i => le_edof i j) (edofs rot))) (edofs rot)) in
  le_edof i j = true -> listed c i = true -> listed c j = true ->
  nth (Nat.max (place c i) (place c j) * (Nat.max (place c i) (place c j) + 1) / 2 + Nat.min (place c i) (place c j)) (ac_values c) vzero
  = find (endz (fst i)) (endz (fst j)) (snd i) (snd j).
Proof.
  destruct i as [[] []], j as [[] []], rot; cbv zeta; intros L A B; try discriminate; reflexivity.
Qed.
Lemma triangle_len (find : Z -> Z -> dof -> dof -> V) (rot : bool) :
  length (flat_map (fun j : edof => map (fun i : edof => find (endz (fst i)) (endz (fst j)) (snd i) (snd j)) (filter (fun i => le_edof i j) (edofs rot))) (edofs rot))
  = (if rot then 78 else 21)%nat.
Proof. destruct rot; reflexivity. Qed.
Lemma value_at_sym (c : acard V) i j : ac_diag c = false -> ac_sym c = true -> value_at vzero vopp c i j = value_at vzero vopp c j i.
Proof. intros D S. unfold value_at. rewrite D, S. now rewrite (Nat.max_comm (place c i)), (Nat.min_comm (place c i)). Qed.
Lemma le_total i j : le_edof i j = true \/ le_edof j i = true.
Proof. destruct i as [[] []], j as [[] []]; cbn; auto. Qed.
(** The matrix of a triangle: symmetric, the values where they are expected. *)
Lemma triangle_matrix (find : Z -> Z -> dof -> dof -> V) (rot : bool) k :
  exists M, aster_matrix vzero vopp (mkACard k rot false true true
    (flat_map (fun j : edof => map (fun i : edof => find (endz (fst i)) (endz (fst j)) (snd i) (snd j)) (filter (fun i => le_edof i j) (edofs rot))) (edofs rot))) = Some M /\
  (forall i j, M i j = M j i) /\
  (forall i j, le_edof i j = true -> rot = true \/ (isRotation (snd i) = false /\ isRotation (snd j) = false) -> M i j = find (endz (fst i)) (endz (fst j)) (snd i) (snd j)) /\
  (forall i j, rot = false -> isRotation (snd i) = true \/ isRotation (snd j) = true -> M i j = vzero).
Proof.
  unfold aster_matrix. cbn [ac_diag andb]. rewrite (proj2 (Nat.eqb_eq _ _)).
  2:{ cbn [ac_values]. rewrite triangle_len. destruct rot; reflexivity. }
  eexists. split; [reflexivity|]. cbn beta. split; [|split].
  - intros i j. rewrite (andb_comm (listed _ i)). destruct (listed _ j && listed _ i); [|reflexivity]. now apply value_at_sym.
  - intros i j L R. assert (forall s d, isRotation d = false \/ rot = true -> listed (mkACard k rot false true true
    (flat_map (fun j : edof => map (fun i : edof => find (endz (fst i)) (endz (fst j)) (snd i) (snd j)) (filter (fun i => le_edof i j) (edofs rot))) (edofs rot))) (s, d) = true) as LS.
    { intros s d [H|H]; unfold listed; cbn [ac_rot ac_line snd fst]; rewrite H; [now rewrite orb_true_r|reflexivity]. }
    destruct i as [ei di], j as [ej dj]. cbn [fst snd] in R |- *. rewrite !LS by tauto. cbn [andb]. unfold value_at. cbn [ac_diag ac_sym].
    apply (triangle_at find rot k true (ei, di) (ej, dj) L); apply LS; tauto.
  - intros i j -> R. unfold listed. cbn [ac_rot ac_line orb]. destruct R as [->| ->]; [reflexivity|]. cbn. now rewrite andb_false_r.
Qed.

(** ** Segments *)
Definition component (b : blocks) (i j : edof) : V := findComponent vzero (block b (endz (fst i)) (endz (fst j))) (snd i) (snd j).
Definition part_of (k a m : @blocks V) (kd : kind) : blocks := match kd with Stiff => k | Damp => a | Mass => m end.
Lemma no_rot_block b i j : any_block hasRotations b = false -> isRotation (snd i) = true \/ isRotation (snd j) = true -> component b i j = vzero.
Proof.
  unfold any_block. rewrite !orb_false_iff. intros [[[A B] C] D] R. unfold component.
  apply no_rotation_zero; [|destruct R as [R|R]; [left|right]; exact R]. destruct (fst i), (fst j); assumption.
Qed.
Lemma segment_card t k a m kd : diagonal1 is_zero (Segment1 t k a m) = false -> symmetric1 is_zero is_equal (Segment1 t k a m) = Ok true ->
  exists c M, card1 vzero is_zero is_equal (Segment1 t k a m) kd = Ok c /\ ac_kind c = kd /\ aster_matrix vzero vopp c = Some M /\
    (forall i j, M i j = M j i) /\ (forall i j, le_edof i j = true -> M i j = component (part_of k a m kd) i j).
Proof.
  intros D S. unfold card1. rewrite S, D. cbn [bind vector1]. unfold ncomp1. rewrite triangle_ok. cbn [bind].
  set (rot := rotations1 (Segment1 t k a m)). fold (part_of k a m kd).
  destruct (triangle_matrix (fun i j r c => findComponent vzero (block (part_of k a m kd) i j) r c) rot kd) as (M & E & S1 & S2 & S3).
  eexists. exists M. split; [reflexivity|]. split; [reflexivity|]. split; [exact E|]. split; [exact S1|]. intros i j L.
  destruct rot eqn:R; [apply S2; auto|].
  destruct (isRotation (snd i)) eqn:Ri; [|destruct (isRotation (snd j)) eqn:Rj; [|apply S2; auto]].
  all: rewrite S3 by auto; symmetry; apply no_rot_block; [|auto]; unfold rot in R; cbn [rotations1] in R; rewrite !orb_false_iff in R; destruct R as [[RK RM] RA]; destruct kd; assumption.
Qed.
(** A block is filled when a component is not zero. *)
Definition built (t : matrix_type) (m : dofmatrix V) : Prop := exists h, writes is_zero (newMatrix t) h = Ok m.
Lemma filled_iff t m : built t m -> (filled is_zero m = true <-> exists d1 d2, is_zero (findComponent vzero m d1 d2) = false).
Proof.
  intros (h & E). pose proof (C05_zero_asked vzero is_zero zero_is_zero t h m E) as Z. unfold filled. split.
  - intros F. apply andb_true_iff in F. destruct F as [_ F]. apply negb_true_iff in F.
    destruct (existsb (fun d1 => existsb (fun d2 => negb (is_zero (findComponent vzero m d1 d2))) [DX; DY; DZ; RX; RY; RZ]) [DX; DY; DZ; RX; RY; RZ]) eqn:X.
    + apply existsb_exists in X. destruct X as (d1 & _ & X). apply existsb_exists in X. destruct X as (d2 & _ & X). apply negb_true_iff in X. eauto.
    + exfalso. enough (isZero is_zero m = true) by congruence. apply Z. intros d1 d2.
      assert (existsb (fun d2 => negb (is_zero (findComponent vzero m d1 d2))) [DX; DY; DZ; RX; RY; RZ] = false) as Y.
      { destruct (existsb (fun d2 => negb (is_zero (findComponent vzero m d1 d2))) [DX; DY; DZ; RX; RY; RZ]) eqn:Y; [|reflexivity].
        rewrite <- X. symmetry. apply existsb_exists. exists d1. split; [destruct d1; cbn; tauto|exact Y]. }
      destruct (is_zero (findComponent vzero m d1 d2)) eqn:W; [reflexivity|]. rewrite <- Y. apply existsb_exists. exists d2. split; [destruct d2; cbn; tauto|now rewrite W].
  - intros (d1 & d2 & F). apply andb_true_iff. split; apply negb_true_iff.
    + destruct (comps m) eqn:C; [|reflexivity]. unfold findComponent in F. rewrite C in F. destruct (_ && _); [|destruct (_ && _)]; cbn in F; congruence.
    + destruct (isZero is_zero m) eqn:W; [|reflexivity]. rewrite (proj1 Z eq_refl) in F. discriminate.
Qed.
Definition built_blocks (t : matrix_type) (b : blocks) : Prop := built t (b00 b) /\ built FULL (b01 b) /\ built t (b10 b) /\ built t (b11 b).
Definition nonzero (f : edof -> edof -> V) : Prop := exists i j, is_zero (f i j) = false.
Lemma blocks_filled t b : built_blocks t b -> (any_block (filled is_zero) b = true <-> nonzero (component b)).
Proof.
  intros (A & B & C & D). unfold any_block. rewrite !orb_true_iff, (filled_iff _ _ A), (filled_iff _ _ B), (filled_iff _ _ C), (filled_iff _ _ D). split.
  - intros [[[(x & y & H)|(x & y & H)]|(x & y & H)]|(x & y & H)]; [exists (false, x), (false, y)|exists (false, x), (true, y)|exists (true, x), (false, y)|exists (true, x), (true, y)]; exact H.
  - intros ([[] x] & [[] y] & H); unfold component in H; cbn in H; eauto 8.
Qed.
(** Segments of symmetric type, as those that replace direct matrices: each of the
    three matrices is given when it is not null, and the value of each coefficient
    on or above the diagonal is that of the element.
    Missing: segments without coupling (below). *)
Theorem C81_segment_written_partial : forall k a m, built_blocks SYMMETRIC k -> built_blocks SYMMETRIC a -> built_blocks SYMMETRIC m ->
  nonzero (fun d1 d2 : edof => if fst d1 then vzero else component k (false, snd d1) (true, snd d2)) ->
  exists l, write1 vzero is_zero is_equal unavail (Segment1 SYMMETRIC k a m) = Ok l /\
  forall kd, (kd = Stiff \/ nonzero (component (part_of k a m kd)) ->
      exists M, gives vzero vopp l kd M /\ (forall i j, M i j = M j i) /\ (forall i j, le_edof i j = true -> M i j = component (part_of k a m kd) i j)) /\
    (forall c, In c l -> ac_kind c = kd -> kd = Stiff \/ nonzero (component (part_of k a m kd))).
Proof.
  intros k a m K A Mm ([[] x] & [e y] & N); cbn [fst snd] in N; [congruence|].
  set (d := Segment1 SYMMETRIC k a m). assert (diagonal1 is_zero d = false) as D.
  { unfold d. cbn [diagonal1 matrix_type_eqb orb]. apply andb_false_iff. right. cbn [forallb]. destruct K as (_ & (h & B) & _).
    destruct (isZero is_zero (b01 k)) eqn:Z; [|reflexivity]. rewrite (C05_zero_asked vzero is_zero zero_is_zero _ _ _ B) in Z. unfold component in N. cbn in N. rewrite Z in N. discriminate. }
  destruct (segment_card SYMMETRIC k a m Stiff D eq_refl) as (ck & Mk & Ek & Kk & Xk & Sk & Vk).
  destruct (segment_card SYMMETRIC k a m Damp D eq_refl) as (ca & Ma & Ea & Ka & Xa & Sa & Va).
  destruct (segment_card SYMMETRIC k a m Mass D eq_refl) as (cm & Mx & Em & Km & Xm & Sm & Vm).
  fold d in Ek, Ea, Em. unfold write1. unfold when at 1. rewrite Ek. cbn [bind]. rewrite Ea, Em. cbn [has1 d].
  pose proof (blocks_filled _ _ A) as FA. pose proof (blocks_filled _ _ Mm) as FM.
  destruct (any_block (filled is_zero) a) eqn:Ha, (any_block (filled is_zero) m) eqn:Hm; cbn [when bind app]; eexists; (split; [reflexivity|]);
    intros kd; (split; [intros W; destruct kd; cbn [part_of] in *|intros c I E; cbn [In] in I; destruct kd; cbn [part_of]; auto]).
  all: try (exists Mk; split; [exists ck; cbn [In]; tauto|tauto]); try (exists Ma; split; [exists ca; cbn [In]; tauto|tauto]); try (exists Mx; split; [exists cm; cbn [In]; tauto|tauto]).
  all: try (destruct W as [W|W]; [discriminate|]; apply FA in W; discriminate). all: try (destruct W as [W|W]; [discriminate|]; apply FM in W; discriminate).
  all: try (right; apply FA; reflexivity). all: try (right; apply FM; reflexivity).
  all: exfalso; intuition (subst; congruence).
Qed.
(** Segments of full type found symmetric: the matrix is that of the element within
    the tolerance of the comparison. *)
Lemma transposed_sound b : built FULL (b01 b) -> built FULL (b10 b) -> same_transposed is_zero is_equal b = Ok true ->
  forall d1 d2, is_equal (findComponent vzero (b01 b) d1 d2) (findComponent vzero (b10 b) d2 d1) = true.
Proof.
  intros (h1 & B1) (h2 & B2) S d1 d2. unfold same_transposed in S.
  destruct (transposed_spec vzero is_zero h2 FULL (b10 b) (comps (b10 b)) B2 (Permutation.Permutation_refl _)) as (t & T & _ & _ & C).
  rewrite T in S. cbn [bind] in S. rewrite <- (C d1 d2).
  assert (exists h3, writes is_zero (newMatrix FULL) h3 = Ok t) as (h3 & B3).
  { unfold transposed_in in T. rewrite (writes_type is_zero _ _ _ B2) in T. cbn [newMatrix mtype] in T.
    exists (map (fun kv => (snd (fst kv), fst (fst kv), snd kv)) (comps (b10 b))). rewrite <- T. clear. generalize (@newMatrix V FULL).
    induction (comps (b10 b)) as [|[[p q] v] r IH]; intros x; cbn [map writes foldM fst snd]; [reflexivity|]. destruct (addComponent is_zero x q p v); cbn [bind]; auto. }
  eapply (C05_comparison_sound vzero is_zero is_equal FULL h1 h3); eauto.
Qed.
Theorem C81_full_segment_written : forall k a m, built_blocks FULL k -> built_blocks FULL a -> built_blocks FULL m ->
  diagonal1 is_zero (Segment1 FULL k a m) = false -> symmetric1 is_zero is_equal (Segment1 FULL k a m) = Ok true ->
  exists l, write1 vzero is_zero is_equal unavail (Segment1 FULL k a m) = Ok l /\
  forall kd, kd = Stiff \/ nonzero (component (part_of k a m kd)) ->
    exists M, gives vzero vopp l kd M /\ forall i j, is_equal (M i j) (component (part_of k a m kd) i j) = true.
Proof.
  intros k a m K A Mm D S.
  assert (SY : forall kd i j, is_equal (component (part_of k a m kd) i j) (component (part_of k a m kd) j i) = true).
  { cbn [symmetric1] in S. destruct (forallb _ _) eqn:F; cbn [negb] in S; [|discriminate].
    destruct (same_transposed is_zero is_equal k) as [[]| | |] eqn:TK; cbn [bind negb] in S; try discriminate.
    destruct (same_transposed is_zero is_equal a) as [[]| | |] eqn:TA; cbn [bind negb] in S; try discriminate.
    cbn [forallb] in F. rewrite !andb_true_iff in F. destruct F as (F1 & F2 & F3 & F4 & F5 & F6 & _).
    assert (G : forall b, built_blocks FULL b -> isSymmetric is_zero is_equal (b00 b) = true -> isSymmetric is_zero is_equal (b11 b) = true ->
      same_transposed is_zero is_equal b = Ok true -> forall i j, is_equal (component b i j) (component b j i) = true).
    { intros b (B0 & B1 & B2 & B3) S0 S3 T [[] x] [[] y]; unfold component; cbn [fst snd endz block Z.eqb].
      - destruct B3 as (h & B3). now apply (proj1 (C05_symmetric_asked vzero is_zero is_equal equal_zero equal_sym FULL h _ B3 equal_refl)).
      - rewrite equal_sym. now apply transposed_sound.
      - now apply transposed_sound.
      - destruct B0 as (h & B0). now apply (proj1 (C05_symmetric_asked vzero is_zero is_equal equal_zero equal_sym FULL h _ B0 equal_refl)). }
    intros [] ; cbn [part_of]; apply G; assumption. }
  assert (WR : forall kd, exists c M, card1 vzero is_zero is_equal (Segment1 FULL k a m) kd = Ok c /\ ac_kind c = kd /\ aster_matrix vzero vopp c = Some M /\
    forall i j, is_equal (M i j) (component (part_of k a m kd) i j) = true).
  { intros kd. destruct (segment_card FULL k a m kd D S) as (c & M & E & Kd & X & Sy & Va). exists c, M. split; [exact E|]. split; [exact Kd|]. split; [exact X|].
    intros i j. destruct (le_total i j) as [L|L]; [rewrite (Va _ _ L); apply equal_refl|]. rewrite (Sy i j), (Va _ _ L). apply SY. }
  destruct (WR Stiff) as (ck & Mk & Ek & Kk & Xk & Vk). destruct (WR Damp) as (ca & Ma & Ea & Ka & Xa & Va). destruct (WR Mass) as (cm & Mx & Em & Km & Xm & Vm).
  unfold write1. unfold when at 1. rewrite Ek. cbn [bind]. rewrite Ea, Em. cbn [has1].
  pose proof (blocks_filled _ _ A) as FA. pose proof (blocks_filled _ _ Mm) as FM.
  destruct (any_block (filled is_zero) a) eqn:Ha, (any_block (filled is_zero) m) eqn:Hm; cbn [when bind app]; eexists; (split; [reflexivity|]);
    intros kd W; destruct kd; cbn [part_of] in *.
  all: try (exists Mk; split; [exists ck; cbn [In]; tauto|exact Vk]); try (exists Ma; split; [exists ca; cbn [In]; tauto|exact Va]); try (exists Mx; split; [exists cm; cbn [In]; tauto|exact Vm]).
  all: try (destruct W as [W|W]; [discriminate|]; apply FA in W; discriminate). all: try (destruct W as [W|W]; [discriminate|]; apply FM in W; discriminate).
Qed.

(** ** Elements between two nodes that depend on the relative displacement *)
Definition relative (x : dof -> dof -> V) (i j : edof) : V := if Bool.eqb (fst i) (fst j) then x (snd i) (snd j) else vopp (x (snd i) (snd j)).
Lemma diagonal_matrix kd rot (f : dof -> V) : kd <> Mass -> (rot = false -> forall d, isRotation d = true -> f d = vzero) ->
  exists M, aster_matrix vzero vopp (mkACard kd rot true true true (map f (dofs_nc rot))) = Some M /\
    forall i j, M i j = relative (fun d1 d2 => if dof_eqb d1 d2 then f d1 else vzero) i j.
Proof.
  intros NM R. unfold aster_matrix. cbn [ac_diag ac_kind andb]. replace (match kd with Mass => true | _ => false end) with false by (destruct kd; congruence).
  rewrite (proj2 (Nat.eqb_eq _ _)) by (destruct rot; reflexivity). eexists. split; [reflexivity|]. cbn beta. intros i j. unfold relative.
  assert (Z : forall b : bool, (if b then vzero else vopp vzero) = vzero) by (intros []; auto).
  destruct rot.
  - destruct i as [ei di], j as [ej dj]. unfold listed, value_at. cbn [ac_rot ac_line ac_diag ac_values orb andb fst snd]. destruct (dof_eqb di dj); [destruct di; reflexivity|now rewrite Z].
  - specialize (R eq_refl). destruct i as [ei di], j as [ej dj]. unfold listed, value_at. cbn [ac_rot ac_line ac_diag ac_values orb andb fst snd].
    destruct (dof_eqb di dj) eqn:E.
    + apply dof_eqb_spec in E. subst dj. destruct (isRotation di) eqn:T; cbn [negb andb].
      * rewrite (R _ T). now rewrite Z.
      * destruct di; try discriminate; reflexivity.
    + rewrite Z. destruct (_ && _); reflexivity.
Qed.
(** Diagonal properties of bushes and viscous dampers. *)
Theorem C81_structural_written : forall k a m, built DIAGONAL k -> built DIAGONAL a -> built DIAGONAL m -> filled is_zero m = false ->
  exists l, write1 vzero is_zero is_equal unavail (Structural DIAGONAL k a m) = Ok l /\
  (exists M, gives vzero vopp l Stiff M /\ forall i j, M i j = relative (findComponent vzero k) i j) /\
  ((exists d, is_zero (findComponent vzero a d d) = false) -> exists M, gives vzero vopp l Damp M /\ forall i j, M i j = relative (findComponent vzero a) i j).
Proof.
  intros k a m K A Mm NM. set (d := Structural DIAGONAL k a m).
  assert (DX' : forall x, built DIAGONAL x -> forall i j, relative (fun d1 d2 => if dof_eqb d1 d2 then findComponent vzero x d1 d1 else vzero) i j = relative (findComponent vzero x) i j).
  { intros x (h & B) [ei di] [ej dj]. unfold relative. cbn [fst snd]. destruct (dof_eqb di dj) eqn:E; [apply dof_eqb_spec in E; now subst|].
    rewrite (find_spec vzero x di dj), (writes_type is_zero _ _ _ B). cbn [newMatrix mtype]. now rewrite E. }
  assert (C : forall kd x, kd = Stiff /\ x = k \/ kd = Damp /\ x = a -> exists c M, card1 vzero is_zero is_equal d kd = Ok c /\ ac_kind c = kd /\ aster_matrix vzero vopp c = Some M /\
     forall i j, M i j = relative (findComponent vzero x) i j).
  { intros kd x W. assert (NMk : kd <> Mass) by (destruct W as [[-> _]|[-> _]]; discriminate).
    assert (B : built DIAGONAL x) by (destruct W as [[_ ->]|[_ ->]]; assumption).
    assert (RX' : rotations1 d = false -> hasRotations x = false).
    { unfold d. cbn [rotations1]. rewrite !orb_false_iff. intros [[R1 R2] R3]. destruct W as [[_ ->]|[_ ->]]; assumption. }
    destruct (diagonal_matrix kd (rotations1 d) (fun q => findComponent vzero x q q) NMk) as (M & E & Va).
    { intros R q Q. apply no_rotation_zero; auto. }
    eexists. exists M. split.
    - unfold card1. cbn [symmetric1 d three_symmetric bind]. assert (vector1 vzero is_zero is_equal d kd = diagonal vzero (rotations1 d) x) as -> by (destruct W as [[-> ->]|[-> ->]]; reflexivity).
      rewrite diagonal_spec. replace (dof_list (rotations1 d || hasRotations x)) with (dofs_nc (rotations1 d)); [reflexivity|].
      destruct (rotations1 d); [reflexivity|]. now rewrite RX'.
    - split; [reflexivity|]. split; [exact E|]. intros i j. rewrite Va. apply DX', B. }
  destruct (C Stiff k) as (ck & Mk & Ek & Kk & Xk & Vk); [auto|]. destruct (C Damp a) as (ca & Ma & Ea & Ka & Xa & Va); [auto|].
  unfold write1. unfold when at 1. rewrite Ek. cbn [bind]. rewrite Ea. cbn [has1 d]. rewrite NM. unfold when at 2.
  destruct (filled is_zero a) eqn:Fa; cbn [when bind app]; eexists; (split; [reflexivity|]); (split; [exists Mk; split; [exists ck; cbn [In]; auto|exact Vk]|]); intros (q & Q).
  - exists Ma. split; [exists ca; cbn [In]; auto|exact Va].
  - assert (filled is_zero a = true) by (apply (filled_iff _ _ A); eauto). congruence.
Qed.
(** A spring along one direction, the same at both ends: the coefficients of that
    direction.  Missing: the other coefficients (below). *)
Theorem C81_spring_written_partial : forall k a m d cells, is_zero m = true ->
  exists l, write1 vzero is_zero is_equal unavail (Scalar k a m [((d, d), cells)]) = Ok l /\
  (exists M, gives vzero vopp l Stiff M /\ forall e e', M (e, d) (e', d) = if Bool.eqb e e' then k else vopp k) /\
  (is_zero a = false -> is_equal a unavail = false -> exists M, gives vzero vopp l Damp M /\ forall e e', M (e, d) (e', d) = if Bool.eqb e e' then a else vopp a).
Proof.
  intros k a m d cells MZ. unfold write1, card1. cbn [has1 symmetric1 diagonal1 vector1 bind]. rewrite MZ. unfold when at 1. cbn [bind orb negb]. unfold when at 2.
  assert (G : forall kd v, kd <> Mass -> exists M, aster_matrix vzero vopp (mkACard kd (rotations1 (Scalar k a m [((d, d), cells)])) true true true
     (repeat v (Z.to_nat (ncomp1 (Scalar k a m [((d, d), cells)]))))) = Some M /\ forall e e', M (e, d) (e', d) = if Bool.eqb e e' then v else vopp v).
  { intros kd v NM. unfold aster_matrix. cbn [ac_diag ac_kind andb]. replace (match kd with Mass => true | _ => false end) with false by (destruct kd; congruence).
    rewrite (proj2 (Nat.eqb_eq _ _)) by (unfold expected, ncomp1; cbn [ac_diag ac_rot ac_values]; destruct (rotations1 _); reflexivity).
    eexists. split; [reflexivity|]. intros e e'. destruct d; reflexivity. }
  destruct (G Stiff k) as (Mk & Xk & Vk); [discriminate|]. destruct (G Damp a) as (Ma & Xa & Va); [discriminate|].
  destruct (is_zero a || is_equal a unavail) eqn:Z; cbn [negb when bind app]; eexists; (split; [reflexivity|]); (split; [exists Mk; split; [eexists; split; [now left|split; [reflexivity|exact Xk]]|exact Vk]|]).
  - intros Z0 Z1. rewrite Z0, Z1 in Z. discriminate.
  - intros _ _. exists Ma. split; [|exact Va]. eexists. split; [right; now left|]. split; [reflexivity|exact Xa].
Qed.

(** ** Points *)
Definition point_part (p : @point V) (kd : kind) : dofmatrix V := match kd with Stiff => pt_k p | Damp => pt_a p | Mass => pt_m p end.
Lemma built_symmetric t x : t <> FULL -> built t x -> forall d1 d2, findComponent vzero x d1 d2 = findComponent vzero x d2 d1.
Proof.
  intros T (h & B) d1 d2. rewrite !find_spec, (writes_type is_zero _ _ _ B). cbn [newMatrix mtype]. destruct t; [contradiction| |].
  - replace (norm_key SYMMETRIC d2 d1) with (norm_key SYMMETRIC d1 d2); [reflexivity|]. destruct d1, d2; reflexivity.
  - destruct d1, d2; reflexivity.
Qed.
Theorem C81_point_written : forall p, built (pt_type p) (pt_k p) -> built (pt_type p) (pt_a p) -> built (pt_type p) (pt_m p) ->
  exists l, write_point vzero is_zero is_equal p = Ok l /\
  forall kd, (kd = Stiff \/ (exists d1 d2, is_zero (findComponent vzero (point_part p kd) d1 d2) = false) ->
    exists M, gives vzero vopp l kd M /\ forall d1 d2, is_equal (M (false, d1) (false, d2)) (findComponent vzero (point_part p kd) d1 d2) = true) /\
    (forall c, In c l -> ac_kind c = kd -> kd = Stiff \/ (exists d1 d2, is_zero (findComponent vzero (point_part p kd) d1 d2) = false)).
Proof.
  intros p K A Mm.
  assert (B : forall kd, built (pt_type p) (point_part p kd)) by (intros []; assumption).
  assert (C : forall kd, exists c M, point_card vzero is_zero is_equal p kd (point_part p kd) = Ok c /\ ac_kind c = kd /\ aster_matrix vzero vopp c = Some M /\
     forall d1 d2, is_equal (M (false, d1) (false, d2)) (findComponent vzero (point_part p kd) d1 d2) = true).
  { intros kd. unfold point_card, point_vector. set (rot := point_rotations p). set (x := point_part p kd).
    assert (RE : rot || hasRotations x = rot).
    { unfold rot, x, point_rotations. destruct kd; cbn [point_part]; destruct (hasRotations (pt_k p)), (hasRotations (pt_m p)), (hasRotations (pt_a p)); reflexivity. }
    assert (RZ' : rot = false -> forall d1 d2, isRotation d1 = true \/ isRotation d2 = true -> findComponent vzero x d1 d2 = vzero).
    { intros R d1 d2 Q. apply no_rotation_zero; [rewrite R in RE; exact RE|exact Q]. }
    assert (IL : forall d, rot = true \/ isRotation d = false -> In d (dof_list rot)).
    { intros d [->|Q]; [destruct d; cbn; tauto|]. destruct rot, d; cbn; tauto || discriminate. }
    destruct (point_symmetric is_zero is_equal p) eqn:S.
    - destruct (upper_spec vzero rot x) as (v & E & L & N). rewrite RE in L, N. rewrite E. cbn [bind]. eexists. eexists. split; [reflexivity|]. split; [reflexivity|].
      unfold aster_matrix. cbn [ac_diag ac_kind andb]. rewrite (proj2 (Nat.eqb_eq _ _)) by (cbn [ac_values]; rewrite L; destruct rot; reflexivity). split; [reflexivity|].
      assert (SY : forall d1 d2, is_equal (findComponent vzero x d2 d1) (findComponent vzero x d1 d2) = true).
      { intros d1 d2. unfold point_symmetric, three_symmetric in S. destruct (pt_type p) eqn:T.
        - rewrite !andb_true_iff in S. destruct S as [[S1 S2] S3]. specialize (B kd). fold x in B. destruct B as (h & B).
          apply (proj1 (C05_symmetric_asked vzero is_zero is_equal equal_zero equal_sym FULL h _ B equal_refl)). unfold x. destruct kd; assumption.
        - rewrite (built_symmetric SYMMETRIC x) by (discriminate || apply B). apply equal_refl.
        - rewrite (built_symmetric DIAGONAL x) by (discriminate || apply B). apply equal_refl. }
      intros d1 d2. unfold listed. cbn [ac_rot ac_line fst snd orb negb]. rewrite !andb_true_r.
      destruct (rot || negb (isRotation d1)) eqn:R1; [|apply orb_false_iff in R1; destruct R1 as [R1 Q]; apply negb_false_iff in Q; rewrite RZ' by auto; apply equal_refl].
      destruct (rot || negb (isRotation d2)) eqn:R2; [|apply orb_false_iff in R2; destruct R2 as [R2 Q]; apply negb_false_iff in Q; rewrite RZ' by auto; apply equal_refl].
      assert (I1 : In d1 (dof_list rot)) by (apply IL; apply orb_true_iff in R1; rewrite negb_true_iff in R1; exact R1).
      assert (I2 : In d2 (dof_list rot)) by (apply IL; apply orb_true_iff in R2; rewrite negb_true_iff in R2; exact R2).
      cbn [andb]. unfold value_at, place. cbn [ac_diag ac_sym ac_values fst snd Nat.add].
      destruct (Z.le_ge_cases (dof_rank d1) (dof_rank d2)) as [O|O].
      + specialize (N d1 d2 I1 I2 O). replace (nth _ v vzero) with (findComponent vzero x d1 d2); [apply equal_refl|]. symmetry. apply nth_error_nth.
        rewrite <- N. f_equal. clear -O. destruct d1, d2; reflexivity || (cbn in O; lia).
      + specialize (N d2 d1 I2 I1 O). replace (nth _ v vzero) with (findComponent vzero x d2 d1); [apply SY|]. symmetry. apply nth_error_nth.
        rewrite <- N. f_equal. clear -O. destruct d1, d2; reflexivity || (cbn in O; lia).
    - destruct (columns_full vzero rot x) as (v & E & L & N). rewrite RE in L, N. rewrite E. cbn [bind]. eexists. eexists. split; [reflexivity|]. split; [reflexivity|].
      unfold aster_matrix. cbn [ac_diag ac_kind andb]. rewrite (proj2 (Nat.eqb_eq _ _)) by (cbn [ac_values]; rewrite L; destruct rot; reflexivity). split; [reflexivity|].
      intros d1 d2. unfold listed. cbn [ac_rot ac_line fst snd orb negb]. rewrite !andb_true_r.
      destruct (rot || negb (isRotation d1)) eqn:R1; [|apply orb_false_iff in R1; destruct R1 as [R1 Q]; apply negb_false_iff in Q; rewrite RZ' by auto; apply equal_refl].
      destruct (rot || negb (isRotation d2)) eqn:R2; [|apply orb_false_iff in R2; destruct R2 as [R2 Q]; apply negb_false_iff in Q; rewrite RZ' by auto; apply equal_refl].
      assert (I1 : In d1 (dof_list rot)) by (apply IL; apply orb_true_iff in R1; rewrite negb_true_iff in R1; exact R1).
      assert (I2 : In d2 (dof_list rot)) by (apply IL; apply orb_true_iff in R2; rewrite negb_true_iff in R2; exact R2).
      cbn [andb]. unfold value_at, place. cbn [ac_diag ac_sym ac_values fst snd Nat.add]. specialize (N d1 d2 I1 I2).
      replace (nth _ v vzero) with (findComponent vzero x d1 d2); [apply equal_refl|]. symmetry. apply nth_error_nth. rewrite <- N. f_equal. clear. destruct rot, d1, d2; reflexivity. }
  destruct (C Stiff) as (ck & Mk & Ek & Kk & Xk & Vk). destruct (C Damp) as (ca & Ma & Ea & Ka & Xa & Va). destruct (C Mass) as (cm & Mx & Em & Km & Xm & Vm).
  cbn [point_part] in Ek, Ea, Em. unfold write_point. unfold when at 1. rewrite Ek. cbn [bind]. rewrite Ea, Em.
  pose proof (filled_iff _ _ A) as FA. pose proof (filled_iff _ _ Mm) as FM.
  destruct (filled is_zero (pt_a p)) eqn:Ha, (filled is_zero (pt_m p)) eqn:Hm; cbn [when bind app]; eexists; (split; [reflexivity|]);
    intros kd; (split; [intros W; destruct kd; cbn [point_part] in *|intros c I E; cbn [In] in I; destruct kd; cbn [point_part]; auto]).
  all: try (exists Mk; split; [exists ck; cbn [In]; tauto|exact Vk]); try (exists Ma; split; [exists ca; cbn [In]; tauto|exact Va]); try (exists Mx; split; [exists cm; cbn [In]; tauto|exact Vm]).
  all: try (destruct W as [W|W]; [discriminate|]; apply FA in W; discriminate). all: try (destruct W as [W|W]; [discriminate|]; apply FM in W; discriminate).
  all: try (right; apply FA; reflexivity). all: try (right; apply FM; reflexivity).
  all: exfalso; intuition (subst; congruence).
Qed.
End Proofs.

(** ** What is written wrong *)
Notation wr u := (write1 0 (Z.eqb 0) Z.eqb u).
Notation mat := (aster_matrix 0 Z.opp).
Definition noth {V} (t : matrix_type) : @blocks V := mkBlocks (newMatrix t) (newMatrix FULL) (newMatrix t) (newMatrix t).
Lemma built_new {V} (z : V -> bool) t : built z t (newMatrix t). Proof. now exists []. Qed.
Lemma built_noth {V} (z : V -> bool) t : built_blocks z t (noth t). Proof. repeat split; apply built_new. Qed.
(** A segment without coupling (stiffness 5 at one end): marked as diagonal, but the
    whole triangle is written: 21 values instead of 3. *)
Theorem C81_uncoupled_segment_refuted : forall u, exists k c, built_blocks (Z.eqb 0) SYMMETRIC k /\ component 0 k (false, DX) (false, DX) = 5 /\
  wr u (Segment1 SYMMETRIC k (noth SYMMETRIC) (noth SYMMETRIC)) = Ok [c] /\ ac_kind c = Stiff /\ mat c = None.
Proof.
  intros u. exists (mkBlocks (mkMatrix SYMMETRIC [((DX, DX), 5)]) (newMatrix FULL) (newMatrix SYMMETRIC) (newMatrix SYMMETRIC)). eexists.
  split; [|split; [reflexivity|split; [reflexivity|split; reflexivity]]]. split; [now exists [(DX, DX, 5)]|repeat split; apply built_new].
Qed.
(** A segment with another coefficient above than below: announced as not symmetric,
    but only the triangle is written: 21 values instead of 36. *)
Theorem C81_unsymmetric_segment_refuted : forall u, exists k c, built_blocks (Z.eqb 0) FULL k /\
  component 0 k (false, DX) (true, DX) = 5 /\ component 0 k (true, DX) (false, DX) = 7 /\
  wr u (Segment1 FULL k (noth FULL) (noth FULL)) = Ok [c] /\ ac_kind c = Stiff /\ mat c = None.
Proof.
  intros u. exists (mkBlocks (newMatrix FULL) (mkMatrix FULL [((DX, DX), 5)]) (mkMatrix FULL [((DX, DX), 7)]) (newMatrix FULL)). eexists.
  split; [|repeat split; reflexivity]. split; [apply built_new|]. split; [now exists [(DX, DX, 5)]|]. split; [now exists [(DX, DX, 7)]|apply built_new].
Qed.
(** A stiffness that couples two directions is written as its diagonal. *)
Theorem C81_structural_coupling_refuted : forall u, exists k c M, built (Z.eqb 0) SYMMETRIC k /\
  wr u (Structural SYMMETRIC k (newMatrix SYMMETRIC) (newMatrix SYMMETRIC)) = Ok [c] /\ ac_kind c = Stiff /\ mat c = Some M /\
  findComponent 0 k DX DY = 2 /\ M (false, DX) (false, DY) = 0.
Proof.
  intros u. exists (mkMatrix SYMMETRIC [((DX, DX), 5); ((DX, DY), 2); ((DY, DY), 5)]). eexists. eexists.
  split; [now exists [(DX, DX, 5); (DX, DY, 2); (DY, DY, 5)]|]. split; [reflexivity|]. split; [reflexivity|]. split; [reflexivity|]. split; reflexivity.
Qed.
(** A stiffness that does not is written with the same sign in the four blocks: the
    two ends moving together are held, the ends moving apart are free. *)
Theorem C81_structural_sign_refuted : forall u, exists k c M, built (Z.eqb 0) SYMMETRIC k /\
  wr u (Structural SYMMETRIC k (newMatrix SYMMETRIC) (newMatrix SYMMETRIC)) = Ok [c] /\ ac_kind c = Stiff /\ mat c = Some M /\
  findComponent 0 k DX DX = 5 /\ M (false, DX) (true, DX) = 5.
Proof.
  intros u. exists (mkMatrix SYMMETRIC [((DX, DX), 5)]). eexists. eexists.
  split; [now exists [(DX, DX, 5)]|]. split; [reflexivity|]. split; [reflexivity|]. split; [reflexivity|]. split; reflexivity.
Qed.
(** A structural segment with a mass stops the writer. *)
Theorem C81_structural_mass_stopped : forall V (vzero : V) is_zero is_equal u t k a m, built is_zero t k -> built is_zero t a -> built is_zero t m ->
  filled is_zero m = true -> write1 vzero is_zero is_equal u (Structural t k a m) = Throw.
Proof.
  intros V vzero is_zero is_equal u t k a m _ _ _ F. unfold write1. unfold when at 1.
  assert (X : forall kd, (exists c, card1 vzero is_zero is_equal (Structural t k a m) kd = Ok c) \/ card1 vzero is_zero is_equal (Structural t k a m) kd = Throw).
  { intros kd. unfold card1. cbn [symmetric1 bind vector1]. destruct kd; [| |right; reflexivity].
    - unfold structural_vector. rewrite diagonal_spec. destruct (diagonal1 is_zero _); [left; eexists; reflexivity|]. cbn [symmetric1 bind]. destruct (three_symmetric _ _ _ _ _ _); [|auto].
      unfold ncomp1. rewrite triangle_ok. left. eexists. reflexivity.
    - unfold structural_vector. rewrite diagonal_spec. destruct (diagonal1 is_zero _); [left; eexists; reflexivity|]. cbn [symmetric1 bind]. destruct (three_symmetric _ _ _ _ _ _); [|left; eexists; reflexivity].
      unfold ncomp1. rewrite triangle_ok. left. eexists. reflexivity. }
  destruct (X Stiff) as [(ck & ->)| ->]; [|reflexivity]. cbn [bind has1]. rewrite F.
  destruct (X Damp) as [(ca & ->)| ->]; destruct (filled is_zero a); try reflexivity; cbn [when bind]; unfold card1; cbn [symmetric1 bind vector1]; reflexivity.
Qed.
(** A spring along X: as stiff along Y and Z. *)
Theorem C81_spring_refuted : forall u, u <> 0 -> exists c M, wr u (Scalar 5 0 0 [((DX, DX), [0%nat])]) = Ok [c] /\ ac_kind c = Stiff /\ mat c = Some M /\
  M (false, DY) (false, DY) = 5 /\ M (false, DY) (true, DY) = -5.
Proof. intros u U. do 2 eexists. split; [reflexivity|]. split; [reflexivity|]. split; [reflexivity|]. split; reflexivity. Qed.
(** A spring between the X of an end and the Y of the other: the coefficient that
    ties them is 0 instead of -5. *)
Theorem C81_crossed_spring_refuted : forall u, u <> 0 -> exists c M, wr u (Scalar 5 0 0 [((DX, DY), [0%nat])]) = Ok [c] /\ ac_kind c = Stiff /\ mat c = Some M /\
  M (false, DX) (true, DY) = 0.
Proof. intros u U. do 2 eexists. split; [reflexivity|]. split; [reflexivity|]. split; [reflexivity|]. reflexivity. Qed.
(** A damper (CDAMP1, PDAMP) whose property comes first: the largest double is
    written as its stiffness; with the property last it is 0. *)
Definition as_discrete (u : decimal) (s : spring) : @discrete1d decimal :=
  Scalar (match sp_k s with Some k => k | None => u end) (sp_b s) dzero (sp_dofs s).
Theorem C81_damper_refuted : forall u, exists p e m m' s s', separate [p; e] /\ separate [e; p] /\
  read_cards [p; e] (empty_model [] []) = Ok m /\ springs m = [s] /\ read_cards [e; p] (empty_model [] []) = Ok m' /\ springs m' = [s'] /\
  (exists c l, write1 dzero dec_is_zero (fun a b => dec_is_zero (fst a - fst b, snd a)) u (as_discrete u s) = Ok (c :: l) /\ ac_kind c = Stiff /\ ac_values c = [u; u; u]) /\
  (exists c l, write1 dzero dec_is_zero (fun a b => dec_is_zero (fst a - fst b, snd a)) u (as_discrete u s') = Ok (c :: l) /\ ac_kind c = Stiff /\ ac_values c = [dzero; dzero; dzero]).
Proof.
  intros u. exists (Damping [(8, (3, 0))]), (Uses 8 (mkElement 13 1 DX (Some 2) DX)). do 4 eexists.
  split; [split; [repeat constructor; intros []|intros p _ []]|]. split; [split; [repeat constructor; intros []|intros p _ []]|].
  split; [vm_compute; reflexivity|]. split; [reflexivity|]. split; [vm_compute; reflexivity|]. split; [reflexivity|].
  split; unfold as_discrete, write1, card1; cbn [sp_k sp_b sp_dofs symmetric1 vector1 bind has1 when]; destruct (negb (_ || _)); cbn [when bind app];
    (destruct (negb (_ || _)); cbn [when bind app]; do 2 eexists; (split; [reflexivity|]); split; reflexivity).
Qed.

(** ** Cases *)
Definition seg_k : @blocks Z := mkBlocks (mkMatrix SYMMETRIC [((DX, DX), 5); ((DX, RY), 3)]) (mkMatrix FULL [((DX, DX), -5); ((RZ, DX), 4)]) (newMatrix SYMMETRIC) (mkMatrix SYMMETRIC [((DX, DX), 5)]).
Definition seg_full : @blocks Z := mkBlocks (mkMatrix FULL [((DX, DX), 5)]) (mkMatrix FULL [((DX, DY), -5)]) (mkMatrix FULL [((DY, DX), -5)]) (mkMatrix FULL [((DX, DX), 5)]).
Example C81_case :
  built_blocks (Z.eqb 0) SYMMETRIC seg_k /\ is_true (negb (Z.eqb 0 (component 0 seg_k (false, DX) (true, DX)))) /\
  built_blocks (Z.eqb 0) FULL seg_full /\ diagonal1 (Z.eqb 0) (Segment1 FULL seg_full (noth FULL) (noth FULL)) = false /\
  symmetric1 (Z.eqb 0) Z.eqb (Segment1 FULL seg_full (noth FULL) (noth FULL)) = Ok true /\
  built (Z.eqb 0) DIAGONAL (mkMatrix DIAGONAL [((DX, DX), 5); ((RX, RX), 2)]) /\
  (exists l M, wr 99 (Segment1 SYMMETRIC seg_k (noth SYMMETRIC) (noth SYMMETRIC)) = Ok [l] /\ mat l = Some M /\ M (true, DX) (false, RZ) = 4 /\ M (false, RY) (false, DX) = 3) /\
  (exists c, wr 99 (Structural DIAGONAL (mkMatrix DIAGONAL [((DX, DX), 5); ((RX, RX), 2)]) (newMatrix DIAGONAL) (newMatrix DIAGONAL)) = Ok [c] /\ ac_values c = [5; 0; 0; 2; 0; 0]) /\
  (exists c M, write_point 0 (Z.eqb 0) Z.eqb (mkPoint FULL (mkMatrix FULL [((DX, DY), 5)]) (newMatrix FULL) (newMatrix FULL)) = Ok [c] /\ mat c = Some M /\ M (false, DX) (false, DY) = 5 /\ M (false, DY) (false, DX) = 0).
Proof.
  split; [split; [now exists [(DX, DX, 5); (RY, DX, 3)]|split; [now exists [(DX, DX, -5); (RZ, DX, 4)]|split; [apply built_new|now exists [(DX, DX, 5)]]]]|].
  split; [reflexivity|].
  split; [split; [now exists [(DX, DX, 5)]|split; [now exists [(DX, DY, -5)]|split; [now exists [(DY, DX, -5)]|now exists [(DX, DX, 5)]]]]|].
  split; [reflexivity|]. split; [reflexivity|]. split; [now exists [(DX, DX, 5); (RX, RX, 2)]|].
  split; [do 2 eexists; repeat split|]. split; [eexists; split; reflexivity|]. do 2 eexists. repeat split.
Qed.

Print Assumptions C81_segment_written_partial.
Print Assumptions C81_full_segment_written.
Print Assumptions C81_structural_written.
Print Assumptions C81_spring_written_partial.
Print Assumptions C81_point_written.
Print Assumptions C81_uncoupled_segment_refuted.
Print Assumptions C81_unsymmetric_segment_refuted.
Print Assumptions C81_structural_coupling_refuted.
Print Assumptions C81_structural_sign_refuted.
Print Assumptions C81_structural_mass_stopped.
Print Assumptions C81_spring_refuted.
Print Assumptions C81_crossed_spring_refuted.
Print Assumptions C81_damper_refuted.
