(** C97: elements and groups of the Systus file. *)
From Coq Require Import Ascii String Reals ZArith List Bool Arith Lia Permutation.
Require Import Verif.Base Verif.TextModel Verif.CaseControlModel Verif.MeshCellModel Verif.MeshCellProofs Verif.ConnectModel Verif.GeomModel Verif.OrientModel
  Verif.SystusAxesModel Verif.SystusElementModel Verif.PropertiesConnect Verif.TextProofs Verif.CaseControlProofs Verif.OrientProofs Verif.PropertiesSystusAxes.
Import ListNotations.
Open Scope Z_scope.
Open Scope list_scope.

(** ** Nodes *)
(** Systus walks along the edges: on each face a corner, the middle of the next
    edge, the next corner...; the edges that join the faces come in between. *)
Fixpoint interleave {A} (l m : list A) : list A :=
  match l, m with
  | a :: l, b :: m => a :: b :: interleave l m
  | _, _ => l
  end.
Definition part {A} (from len : nat) (l : list A) : list A := firstn len (skipn from l).
(** A card gives the corners of the lower face, those of the upper one, then the
    middles of the lower edges, of the vertical ones, of the upper ones. *)
Definition prism_walk {A} (k : nat) (card : list A) : list A :=
  interleave (part 0 k card) (part (2 * k) k card) ++ part (3 * k) k card ++
  interleave (part k k card) (part (4 * k) k card).
(** A tetrahedron: three corners, the apex, three lower edges, three others. *)
Definition tetra_walk {A} (card : list A) : list A :=
  interleave (part 0 3 card) (part 4 3 card) ++ part 7 3 card ++ part 3 1 card.
Definition systus_walk (t : ctype) (card : list Z) : list Z :=
  match t with
  | TETRA10 => tetra_walk card
  | PENTA15 => prism_walk 3 card
  | HEXA20 => prism_walk 4 card
  | TRI6 => interleave (part 0 3 card) (part 3 3 card)
  | QUAD8 => interleave (part 0 4 card) (part 4 4 card)
  | _ => card
  end.
Definition known_solid (t : ctype) : Prop := In t [TETRA4; PENTA6; HEXA8; TETRA10; PENTA15; HEXA20].
Definition systus_listing (t : ctype) (nodes : list Z) : outcome (list Z) :=
  match systus_order t with Some p => systus_nodes p nodes | None => Throw end.

Ltac spread n l H :=
  match n with
  | O => destruct l; [clear H|discriminate H]
  | S ?m => let a := fresh "g" in destruct l as [|a l]; [discriminate H|]; cbn [length] in H; spread m l H
  end.

Theorem C97_solids_partial : forall t card, known_solid t -> length card = numNodes t ->
  exists med, parseElem (card_types t) card = Ok (t, med) /\ systus_listing t med = Ok (systus_walk t card).
Proof.
  intros t card H Hl.
  destruct H as [<-|[<-|[<-|[<-|[<-|[<-|[]]]]]]]; cbn [numNodes] in Hl.
  - spread 4%nat card Hl. eexists; split; reflexivity.
  - spread 6%nat card Hl. eexists; split; reflexivity.
  - spread 8%nat card Hl. eexists; split; reflexivity.
  - spread 10%nat card Hl. eexists; split; reflexivity.
  - spread 15%nat card Hl. eexists; split; reflexivity.
  - spread 20%nat card Hl. eexists; split; reflexivity.
Qed.
Theorem C97_shells : forall t card, shell_card t -> length card = numNodes t ->
  parse_shell t card = Ok card /\ systus_listing t card = Ok (systus_walk t card).
Proof.
  intros t card H Hl.
  destruct H as [<-|[<-|[<-|[<-|[]]]]]; cbn [numNodes] in Hl.
  - spread 3%nat card Hl. split; reflexivity.
  - spread 6%nat card Hl. split; reflexivity.
  - spread 4%nat card Hl. split; reflexivity.
  - spread 8%nat card Hl. split; reflexivity.
Qed.
(** A segment is listed from one end to the other: the middle node, last in the
    mesh, comes between the ends. *)
Theorem C97_segments : forall a b mid, systus_listing POINT1 [a] = Ok [a] /\ systus_listing SEG2 [a; b] = Ok [a; b] /\ systus_listing SEG3 [a; b; mid] = Ok [a; mid; b].
Proof. intros a b mid. repeat split. Qed.
(** The pyramid of five nodes is listed as a brick folded on its apex: eight
    nodes; that of thirteen is not known at all. *)
Theorem C97_pyramids_refuted :
  (forall card, length card = 5%nat -> exists med, parseElem (card_types PYRA5) card = Ok (PYRA5, med) /\
     systus_listing PYRA5 med = Ok (card ++ repeat (nth 4 card 0) 3)) /\
  (forall card, length card = 13%nat -> exists med, parseElem (card_types PYRA13) card = Ok (PYRA13, med) /\
     systus_order PYRA13 = None).
Proof.
  split; intros card Hl.
  - spread 5%nat card Hl. eexists; split; reflexivity.
  - spread 13%nat card Hl. eexists; split; reflexivity.
Qed.

(** ** Lines *)
(** The sets that Systus writes elsewhere than among the elements (point masses,
    discrete matrices), or not in this file (relations of other analyses). *)
Definition on_paper (active : list Z) (t : estype) : bool :=
  match t with
  | NodalMass | Discrete0D | Discrete1D => false
  | Lmpc a => if in_dec Z.eq_dec a active then true else false
  | _ => true
  end.
Definition drawable (t : ctype) : bool :=
  match t with
  | SEG4 | SEG5 | TRI7 | QUAD9 | PYRA13 | HEXGP12 | HEXA27 => false
  | POLY n => if le_dec 3 n then if le_dec n 20 then true else false else false
  | _ => true
  end.
(** The elements of Systus: 10nn beams, 24nn shells, 20nn skins, 30nn volumes,
    16nn and 06nn springs, x9nn matrices. *)
Definition family (t : estype) (nodes : nat) : option (Z * Z) :=
  match t with
  | CircularBeam | RectangularBeam | IBeam | GenericBeam => Some (1, 0)
  | ShellSet => Some (2, 4)
  | Skin => Some (2, 0)
  | StructuralSegment => Some (match nodes with 2%nat => 1 | _ => 0 end, 6)
  | ScalarSpring ((a, b) :: _) => Some (1, if Nat.eq_dec a b then 6 else 9)
  | StiffnessMatrix | MassMatrix | DampingMatrix => Some (3, 9)
  | Rbar | Rbe3 | Lmpc _ => Some (1, 9)
  | ScalarSpring [] => None
  | _ => Some (3, 0)
  end.
Definition expected (active : list Z) (sets : list eset) : list (eset * scell) :=
  flat_map (fun s => if on_paper active (s_type s) then map (pair s) (filter (fun c => drawable (c_type c)) (s_cells s)) else []) sets.

Section Lines.
Context (n : nat) (tol tiny : R) (env : systems) (coords : Z -> outcome vec) (active : list Z) (mat lists : Z -> Z).
Definition line_ok (s : eset) (c : scell) (l : sline) : Prop :=
  l_id l = c_id c /\ family (s_type s) (length (c_nodes c)) = Some (l_dim l, l_type l) /\
  l_count l = Z.of_nat (length (c_nodes c)) /\ l_mat l = mat (s_id s) /\ l_list l = lists (c_id c) /\
  systus_listing (c_type c) (c_nodes c) = Ok (l_nodes l) /\
  match c_axes c with
  | None => l_axes l = (0, [])
  | Some f => exists r, element_axes n tol tiny env coords (l_dim l) (l_type l) (l_nodes l) f = Ok (l_axes l, r)
  end.

Lemma order_drawable t : match systus_order t with Some _ => drawable t = true | None => drawable t = false end.
Proof.
  destruct t; cbn; try reflexivity.
  destruct n0 as [|[|[|k]]]; try reflexivity. destruct (Nat.leb_spec (S (S (S k))) 20) as [L|L]; cbn [Nat.leb] in *.
  - cbn in *. replace (k <=? 17)%nat with true by (symmetry; apply Nat.leb_le; lia). cbn.
    destruct (le_dec 3 (S (S (S k)))); [|lia]. destruct (le_dec (S (S (S k))) 20); [reflexivity|lia].
  - cbn in *. replace (k <=? 17)%nat with false by (symmetry; apply Nat.leb_gt; lia). cbn.
    destruct (le_dec 3 (S (S (S k)))); [|lia]. destruct (le_dec (S (S (S k))) 20); [lia|reflexivity].
Qed.
Lemma in_active a : existsb (Z.eqb a) active = if in_dec Z.eq_dec a active then true else false.
Proof.
  destruct (in_dec Z.eq_dec a active) as [I|I].
  - apply existsb_exists. exists a. split; [assumption|apply Z.eqb_refl].
  - destruct (existsb (Z.eqb a) active) eqn:E; [|reflexivity]. apply existsb_exists in E. destruct E as (b & J & B). apply Z.eqb_eq in B. congruence.
Qed.
(** Dimension and type against the table. *)
Lemma code_family t : match set_code active t with
  | Ok None => on_paper active t = false
  | Ok (Some (d, k)) => on_paper active t = true /\
      forall nodes, family t nodes = Some (match t with StructuralSegment => if (nodes =? 2)%nat then 1 else 0 | _ => d end, k)
  | UB => t = ScalarSpring []
  | _ => False
  end.
Proof.
  destruct t; cbn; try (split; [reflexivity|intros; reflexivity]); try reflexivity.
  - split; [reflexivity|]. intros [|[|[|]]]; reflexivity.
  - rewrite in_active. destruct (in_dec Z.eq_dec analysis active); [|reflexivity]. split; reflexivity.
  - destruct pairs as [|[a b] r]; cbn; [reflexivity|]. split; [reflexivity|]. intros _. destruct (Nat.eqb_spec a b), (Nat.eq_dec a b); congruence.
Qed.

Lemma cell_line_spec s d k c r : set_code active (s_type s) = Ok (Some (d, k)) -> cell_line n tol tiny env coords mat lists s d k c = Ok r ->
  match r with
  | None => drawable (c_type c) = false
  | Some l => drawable (c_type c) = true /\ line_ok s c l
  end.
Proof.
  intros C H. pose proof (code_family (s_type s)) as F. rewrite C in F. destruct F as [_ F].
  unfold cell_line in H. pose proof (order_drawable (c_type c)) as O.
  destruct (systus_order (c_type c)) as [p|] eqn:P; [|injection H as <-; assumption].
  destruct (systus_nodes p (c_nodes c)) as [ns| | |] eqn:N; try discriminate. cbn [bind] in H. cbv zeta in H.
  set (dim := match s_type s with StructuralSegment => if (length (c_nodes c) =? 2)%nat then 1 else 0 | _ => d end) in *.
  assert (L : systus_listing (c_type c) (c_nodes c) = Ok ns) by (unfold systus_listing; rewrite P; assumption).
  destruct (c_axes c) as [f|] eqn:A.
  - destruct (element_axes n tol tiny env coords dim k ns f) as [[a m]| | |] eqn:E; try discriminate. cbn in H. injection H as <-.
    split; [assumption|]. repeat split; try assumption; [apply F|]. cbn. rewrite A. exists m. assumption.
  - cbn in H. injection H as <-. split; [assumption|]. repeat split; try assumption; [apply F|]. rewrite A. reflexivity.
Qed.

Lemma mapM_F2 {A B} (f : A -> outcome B) l r : mapM f l = Ok r -> Forall2 (fun a b => f a = Ok b) l r.
Proof.
  revert r. induction l as [|a l IH]; cbn; intros r H; [injection H as <-; constructor|].
  destruct (f a) as [b| | |] eqn:E; try discriminate. cbn in H. destruct (mapM f l) as [s| | |]; try discriminate. cbn in H. injection H as <-.
  constructor; [assumption|apply IH; reflexivity].
Qed.
Lemma set_lines_spec s ls : set_lines n tol tiny env coords active mat lists s = Ok ls ->
  Forall2 (fun p l => line_ok (fst p) (snd p) l) (expected active [s]) ls.
Proof.
  unfold set_lines, expected. cbn [flat_map]. rewrite app_nil_r. pose proof (code_family (s_type s)) as F.
  destruct (set_code active (s_type s)) as [[[d k]|]| | |] eqn:C; try discriminate; cbn [bind].
  2:{ intros H. injection H as <-. rewrite F. constructor. }
  destruct F as [-> _]. intros H. destruct (mapM _ _) as [rs| | |] eqn:M; try discriminate. cbn in H. injection H as <-.
  apply mapM_F2 in M. induction M as [|c r cs rs E M IH]; [constructor|].
  apply (cell_line_spec s d k c r C) in E. unfold catSome. cbn [filter flat_map]. destruct r as [l|].
  - destruct E as [-> E]. cbn. constructor; assumption.
  - rewrite E. cbn. assumption.
Qed.
Lemma expected_cons s sets : expected active (s :: sets) = expected active [s] ++ expected active sets.
Proof. unfold expected. cbn [flat_map]. now rewrite app_nil_r. Qed.

Theorem C97_lines : forall mesh sets k ls,
  write_elements n tol tiny env coords active mat lists mesh sets = Ok (k, ls) ->
  k = Z.of_nat (length mesh) /\ Forall2 (fun p l => line_ok (fst p) (snd p) l) (expected active sets) ls.
Proof.
  intros mesh sets k ls H. unfold write_elements in H. destruct (mapM _ _) as [rs| | |] eqn:M; try discriminate. cbn in H. injection H as <- <-.
  split; [reflexivity|]. apply mapM_F2 in M. induction M as [|s r sets rs E M IH]; [constructor|].
  rewrite expected_cons. cbn [concat]. apply Forall2_app; [apply set_lines_spec; assumption|assumption].
Qed.

(** Nothing stops the writer, provided that springs join two components, cells
    have the nodes of their type and their axes can be written. *)
Lemma order_range t p k : systus_order t = Some p -> In k p -> (k < numNodes t)%nat.
Proof.
  destruct t; cbn; intros H I; try discriminate; try (injection H as <-; cbn in I; intuition (subst; lia)).
  destruct (_ && _); [|discriminate]. injection H as <-. apply in_seq in I. lia.
Qed.
Lemma listing_total t nodes : drawable t = true -> length nodes = numNodes t -> exists ns, systus_listing t nodes = Ok ns.
Proof.
  intros D L. unfold systus_listing. pose proof (order_drawable t) as O. destruct (systus_order t) as [p|] eqn:P; [|congruence].
  unfold systus_nodes. apply mapM_total. intros k I. pose proof (order_range t p k P I). destruct (nth_error nodes k) eqn:E; [eexists; reflexivity|].
  apply nth_error_None in E. lia.
Qed.
Definition writable (s : eset) (c : scell) : Prop :=
  drawable (c_type c) = true -> length (c_nodes c) = numNodes (c_type c) /\
  (forall f ns dim type, c_axes c = Some f -> family (s_type s) (length (c_nodes c)) = Some (dim, type) -> systus_listing (c_type c) (c_nodes c) = Ok ns ->
     exists r, element_axes n tol tiny env coords dim type ns f = Ok r).
Theorem C97_accepted : forall mesh sets,
  (forall s, In s sets -> s_type s <> ScalarSpring [] /\ forall c, In c (s_cells s) -> writable s c) ->
  exists r, write_elements n tol tiny env coords active mat lists mesh sets = Ok r.
Proof.
  intros mesh sets H. unfold write_elements.
  assert (exists l, mapM (set_lines n tol tiny env coords active mat lists) sets = Ok l) as [l ->]; [|eexists; reflexivity].
  apply mapM_total. intros s I. destruct (H s I) as [T W]. unfold set_lines. pose proof (code_family (s_type s)) as F.
  destruct (set_code active (s_type s)) as [[[d k]|]| | |] eqn:C; cbn [bind]; try contradiction; [|eexists; reflexivity].
  destruct F as [_ F]. assert (exists l, mapM (cell_line n tol tiny env coords mat lists s d k) (s_cells s) = Ok l) as [l ->]; [|eexists; reflexivity].
  apply mapM_total. intros c J. specialize (W c J). unfold cell_line, writable in *. pose proof (order_drawable (c_type c)) as O.
  destruct (systus_order (c_type c)) as [p|] eqn:P; [|eexists; reflexivity]. destruct (W O) as [L X].
  destruct (listing_total _ _ O L) as [ns N]. pose proof N as N'. unfold systus_listing in N'. rewrite P in N'. rewrite N'. cbn [bind]. cbv zeta.
  destruct (c_axes c) as [f|] eqn:A; [|eexists; reflexivity].
  edestruct (X f ns _ _ eq_refl (F _) N) as [[a m] Y]. rewrite Y. eexists; reflexivity.
Qed.
End Lines.

(** The number of nodes announced is the number listed, the pyramid aside. *)
Theorem C97_announced_partial : forall t nodes ns, t <> PYRA5 -> length nodes = numNodes t -> systus_listing t nodes = Ok ns ->
  length ns = length nodes /\ forall i, In i ns <-> In i nodes.
Proof.
  intros t nodes ns T L H.
  destruct t; try discriminate H; try congruence; cbn [numNodes] in L;
    try (match type of L with _ = ?k => spread k nodes L end; cbn in H; injection H as <-; split; [reflexivity|]; intros i; cbn; tauto).
  unfold systus_listing in H. cbn in H. destruct (_ && _); [|discriminate].
  assert (ns = nodes); [|subst; split; [reflexivity|tauto]].
  subst n. clear T. assert (G : forall pre l r : list Z, mapM (fun k => of_option (nth_error (pre ++ l) k)) (seq (length pre) (length l)) = Ok r -> r = l).
  { intros pre l. revert pre. induction l as [|a l IH]; cbn; intros pre r E; [congruence|].
    rewrite nth_error_app2, Nat.sub_diag in E by lia. cbn in E.
    specialize (IH (pre ++ [a])). rewrite app_length in IH. cbn [length] in IH. rewrite Nat.add_1_r, <- app_assoc in IH. cbn [app] in IH.
    destruct (mapM _ _) as [x| | |]; try discriminate. cbn in E. injection E as <-. f_equal. apply IH. reflexivity. }
  apply (G [] nodes ns H).
Qed.

(** ** The count of the header *)
(** When each cell of the mesh belongs to exactly one set, the count is that of the
    lines if and only if every cell is written. *)
Theorem C97_header_partial : forall n tol tiny env coords active mat lists mesh sets k ls,
  write_elements n tol tiny env coords active mat lists mesh sets = Ok (k, ls) ->
  Permutation mesh (flat_map s_cells sets) ->
  (k = Z.of_nat (length ls) <->
   forall s c, In s sets -> In c (s_cells s) -> on_paper active (s_type s) = true /\ drawable (c_type c) = true).
Proof.
  intros n tol tiny env coords active mat lists mesh sets k ls H P. apply C97_lines in H. destruct H as [-> F].
  apply Permutation_length in P. rewrite P. assert (length ls = length (expected active sets)) as -> by (clear - F; induction F; cbn; congruence).
  clear F P ls mesh.
  assert (FL : forall s, (length (filter (fun c => drawable (c_type c)) (s_cells s)) <= length (s_cells s))%nat /\
    (length (filter (fun c => drawable (c_type c)) (s_cells s)) = length (s_cells s) <-> forall c, In c (s_cells s) -> drawable (c_type c) = true)).
  { intros s. induction (s_cells s) as [|c cs [IH1 IH2]]; cbn; [split; [lia|split; [intros _ c []|reflexivity]]|].
    destruct (drawable (c_type c)) eqn:D; cbn; (split; [lia|]).
    - split; [intros E c' [<-|I]; [assumption|apply IH2; [lia|assumption]]|intros A; f_equal; apply IH2; intros; apply A; now right].
    - split; [lia|]. intros A. rewrite (A c) in D by now left. discriminate. }
  assert (SL : forall s, (length (expected active [s]) <= length (s_cells s))%nat /\
    (length (expected active [s]) = length (s_cells s) <-> forall c, In c (s_cells s) -> on_paper active (s_type s) = true /\ drawable (c_type c) = true)).
  { intros s. unfold expected. cbn [flat_map]. rewrite app_nil_r. destruct (on_paper active (s_type s)) eqn:O.
    - rewrite map_length. destruct (FL s) as [A B]. split; [assumption|]. rewrite B. split; intros X c I; [split; [reflexivity|auto]|apply X; assumption].
    - cbn. split; [lia|]. split; [intros E c I; destruct (s_cells s); [contradiction|discriminate]|].
      intros X. destruct (s_cells s) as [|c cs]; [reflexivity|]. destruct (X c (or_introl eq_refl)) as [Y _]. discriminate. }
  assert (T : (length (expected active sets) <= length (flat_map s_cells sets))%nat /\
    (length (expected active sets) = length (flat_map s_cells sets) <->
     forall s c, In s sets -> In c (s_cells s) -> on_paper active (s_type s) = true /\ drawable (c_type c) = true)).
  { induction sets as [|s sets [IH1 IH2]]; [cbn; split; [lia|split; [intros _ s c []|reflexivity]]|].
    rewrite expected_cons. cbn [flat_map]. rewrite !app_length. destruct (SL s) as [A B]. split; [lia|]. split.
    - intros E s' c [<-|I] J; [apply B; [lia|assumption]|apply (proj1 IH2); [lia|assumption|assumption]].
    - intros X. assert (length (expected active [s]) = length (s_cells s)) as -> by (apply B; intros c J; apply (X s c); [now left|assumption]).
      f_equal. apply IH2. intros s' c I J. apply (X s' c); [now right|assumption]. }
  destruct T as [_ T]. rewrite <- T. split; lia.
Qed.

(** ** Groups *)
(** The last set that names a group decides. *)
Theorem C97_useful : forall active sets g, useful active sets g = true <->
  exists pre s post, sets = pre ++ s :: post /\ In g (s_groups s) /\ on_paper active (s_type s) = true /\
    forall s', In s' post -> ~ In g (s_groups s').
Proof.
  intros active sets g. unfold useful.
  assert (K : forall s, negb (skipped active (s_type s)) = on_paper active (s_type s)).
  { intros s. destruct (s_type s); try reflexivity. cbn. rewrite in_active. now destruct (in_dec Z.eq_dec analysis active). }
  induction sets as [|s sets IH] using rev_ind.
  - cbn. split; [discriminate|]. intros (pre & s & post & E & _). destruct pre; discriminate.
  - rewrite fold_left_app. cbn [fold_left]. destruct (existsb (is_group g) (s_groups s)) eqn:E.
    + apply existsb_name in E. rewrite K. split.
      * intros P. exists sets, s, []. split; [reflexivity|]. split; [assumption|]. split; [assumption|]. intros s' [].
      * intros (pre & s' & post & X & I & O & N). destruct post as [|p post].
        -- apply app_inj_tail in X. destruct X as [_ ->]. assumption.
        -- exfalso. apply (N s); [|assumption].
           assert (last (sets ++ [s]) s = last (pre ++ s' :: p :: post) s) as L by now rewrite X.
           rewrite last_last in L. rewrite L. clear. revert s'. induction pre as [|x pre IH]; intros s'.
           ++ cbn [app]. change (last (s' :: p :: post) s) with (last (p :: post) s). clear. revert p. induction post as [|q post IH]; intros p; [now left|].
              change (last (p :: q :: post) s) with (last (q :: post) s). right. apply IH.
           ++ cbn [app]. destruct (pre ++ s' :: p :: post) as [|y l] eqn:Y; [destruct pre; discriminate|].
              change (last (x :: y :: l) s) with (last (y :: l) s). rewrite <- Y. apply IH.
    + assert (N : ~ In g (s_groups s)) by (intros I; apply existsb_name in I; change (existsb (str_eqb g) (s_groups s) = false) in E; congruence).
      rewrite IH. split.
      * intros (pre & s' & post & -> & I & O & M). exists pre, s', (post ++ [s]). rewrite <- app_assoc. repeat split; try assumption.
        intros t J. apply in_app_or in J. destruct J as [J|[<-|[]]]; [apply M; assumption|assumption].
      * intros (pre & s' & post & X & I & O & M). destruct post as [|p post _] using rev_ind.
        -- apply app_inj_tail in X. destruct X as [_ ->]. contradiction.
        -- rewrite app_comm_cons, app_assoc in X. apply app_inj_tail in X. destruct X as [-> ->].
           exists pre, s', post. repeat split; try assumption. intros t J. apply M. apply in_or_app. now left.
Qed.

Definition number (l : gline) : Z := match l with Part k _ _ _ => k | Points k _ _ => k end.
Definition kept_groups (active : list Z) (sets : list eset) (gs : list group) : list group :=
  filter (fun g => useful active sets (g_name g)) (filter (fun g => match g_ids g with [] => false | _ => true end) gs).
Definition no_blank (name : str) (out : str) : Prop :=
  Forall2 (fun c d => d = if ascii_dec c " "%char then "_"%char else c) name out.
(** The number a name asks for: the one it ends with, after an underscore. *)
Definition asks (name : str) (p : Z) : Prop :=
  exists base, 0 <= p <= 2147483647 /\ name = base ++ "_"%char :: int_text p.
Definition pid (l : gline) : option Z := match l with Part _ _ p _ => Some p | Points _ _ _ => None end.

Lemma after_last_digits base ds : forallb is_digit ds = true -> after_last (base ++ "_"%char :: ds) = Some ds.
Proof.
  intros D. assert (N : after_last ds = None).
  { induction ds as [|c ds IH]; [reflexivity|]. cbn in D. apply andb_prop in D. destruct D as [D1 D2]. cbn. rewrite (IH D2).
    destruct (Ascii.eqb_spec c "_"%char) as [->|]; [discriminate|reflexivity]. }
  induction base as [|c base IH]; cbn; [now rewrite N|now rewrite IH].
Qed.
(** The search for a number ends: the numbers tried go down. *)
Lemma free_part_total used : forall fuel p auto seen, NoDup seen -> incl seen used -> (forall x, In x seen -> auto < x) ->
  (length used < length seen + fuel)%nat -> exists q a, free_part (S fuel) used p auto = Ok (q, a) /\ ~ In q used /\ a <= auto /\
    (q = p \/ a < q <= auto) /\ (~ In p used -> q = p).
Proof.
  assert (B : forall x, existsb (Z.eqb x) used = true <-> In x used).
  { intros x. split; [intros E; apply existsb_exists in E; destruct E as (y & I & E); apply Z.eqb_eq in E; now subst|].
    intros I. apply existsb_exists. exists x. split; [assumption|apply Z.eqb_refl]. }
  induction fuel as [|fuel IH]; intros p auto seen ND I G L.
  - pose proof (NoDup_incl_length ND I). lia.
  - cbn [free_part]. destruct (existsb (Z.eqb p) used) eqn:E.
    + apply B in E. destruct (existsb (Z.eqb auto) used) eqn:F.
      * apply B in F. destruct (IH auto (auto - 1) (auto :: seen)) as (q & a & X & Y & Z0 & W & _).
        { constructor; [intros J; apply G in J; lia|assumption]. }
        { intros x [<-|J]; [assumption|apply I; assumption]. }
        { intros x [<-|J]; [lia|apply G in J; lia]. }
        { cbn [length]. lia. }
        cbn [free_part] in X. rewrite (proj2 (B auto) F) in X. exists q, a. split; [exact X|]. split; [assumption|]. split; [lia|]. split; [right; lia|contradiction].
      * exists auto, (auto - 1). split; [reflexivity|]. split; [rewrite <- B; congruence|]. split; [lia|]. split; [right; lia|contradiction].
    + exists p, auto. split; [reflexivity|]. split; [rewrite <- B; congruence|]. split; [lia|]. split; [now left|reflexivity].
Qed.
Lemma part_id_spec name used auto : exists q a, part_id name used auto = Ok (q, a) /\ ~ In q used /\ a <= auto /\
  (a < q <= auto \/ exists x, after_last name = Some x /\ stoi x = Ok q) /\ (forall p, asks name p -> ~ In p used -> q = p).
Proof.
  unfold part_id.
  assert (T : forall p auto, exists q a, free_part (S (S (length used))) used p auto = Ok (q, a) /\ ~ In q used /\ a <= auto /\
     (q = p \/ a < q <= auto) /\ (~ In p used -> q = p)).
  { intros p a0. apply (free_part_total used (S (length used)) p a0 []); [constructor|intros x []|intros x []|cbn; lia]. }
  assert (A : forall p, asks name p -> exists x, after_last name = Some x /\ stoi x = Ok p).
  { intros p (base & R & ->). exists (int_text p). split; [apply after_last_digits, int_text_digits; lia|]. apply stoi_text. unfold INT_MAX32. lia. }
  destruct (after_last name) as [x|] eqn:E; [destruct (stoi x) as [p| | |] eqn:F|].
  - destruct (T p auto) as (q & a & X & Y & Z0 & W & V). exists q, a. split; [exact X|]. split; [assumption|]. split; [assumption|]. split.
    + destruct W as [->|W]; [right; eauto|now left].
    + intros p' P N. destruct (A p' P) as (x' & X1 & X2). assert (p' = p) by congruence. subst. auto.
  - destruct (T auto (auto - 1)) as (q & a & X & Y & Z0 & W & V). exists q, a. split; [exact X|]. split; [assumption|]. split; [lia|]. split; [left; lia|].
    intros p' P N. destruct (A p' P) as (x' & X1 & X2). congruence.
  - destruct (T auto (auto - 1)) as (q & a & X & Y & Z0 & W & V). exists q, a. split; [exact X|]. split; [assumption|]. split; [lia|]. split; [left; lia|].
    intros p' P N. destruct (A p' P) as (x' & X1 & X2). congruence.
  - destruct (T auto (auto - 1)) as (q & a & X & Y & Z0 & W & V). exists q, a. split; [exact X|]. split; [assumption|]. split; [lia|]. split; [left; lia|].
    intros p' P N. destruct (A p' P) as (x' & X1 & X2). congruence.
  - destruct (T auto (auto - 1)) as (q & a & X & Y & Z0 & W & V). exists q, a. split; [exact X|]. split; [assumption|]. split; [lia|]. split; [left; lia|].
    intros p' P N. destruct (A p' P) as (x' & X1 & X2). congruence.
Qed.

Lemma dash_spec name : no_blank name (dash name).
Proof.
  unfold no_blank, dash. induction name as [|c r IH]; cbn; constructor; [|assumption].
  destruct (Ascii.eqb_spec c " "%char), (ascii_dec c " "%char); congruence.
Qed.
Definition part_of (g : group) (l : gline) : Prop := exists name p, l = Part (number l) name p (g_ids g) /\ no_blank (g_name g) name.
Definition points_of (g : group) (l : gline) : Prop := exists name, l = Points (number l) name (g_ids g) /\ no_blank (g_name g) name.
(** Numbers granted, one group after another. *)
Fixpoint granted (used : list Z) (high low : Z) (gs : list group) (ls : list gline) : Prop :=
  match gs, ls with
  | g :: gs, l :: ls => exists q, pid l = Some q /\ ~ In q used /\ (forall p, asks (g_name g) p -> ~ In p used -> q = p) /\
      (low < q <= high \/ exists x, after_last (g_name g) = Some x /\ stoi x = Ok q) /\ granted (q :: used) high low gs ls
  | [], [] => True
  | _, _ => False
  end.
Lemma granted_wider used h l gs ls : forall h' l', h <= h' -> l' <= l -> granted used h l gs ls -> granted used h' l' gs ls.
Proof.
  revert used ls. induction gs as [|g gs IH]; intros used [|x ls] h' l' A B H; cbn in *; try exact H.
  destruct H as (q & H1 & H2 & H3 & H4 & H5). exists q. repeat split; try assumption; [destruct H4; [left; lia|now right]|]. apply (IH (q :: used)); assumption.
Qed.
Lemma kept_cons active sets g gs : kept_groups active sets (g :: gs) =
  (if negb (useful active sets (g_name g)) || null (g_ids g) then [] else [g]) ++ kept_groups active sets gs.
Proof.
  unfold kept_groups. cbn. destruct (g_ids g); cbn; [now rewrite orb_true_r|]. rewrite orb_false_r. destruct (useful active sets (g_name g)); reflexivity.
Qed.
Lemma cells_spec active sets : forall gs out used auto, exists parts used' auto',
  foldM (cell_part active sets) gs (out, used, auto) = Ok (out ++ parts, used', auto') /\ auto' <= auto /\
  Forall2 part_of (kept_groups active sets gs) parts /\
  map number parts = map Z.of_nat (seq (S (length out)) (length parts)) /\
  granted used auto auto' (kept_groups active sets gs) parts.
Proof.
  induction gs as [|g gs IH]; intros out used auto.
  - exists [], used, auto. cbn. rewrite app_nil_r. repeat split; [lia|constructor].
  - cbn [foldM]. unfold cell_part at 1. rewrite kept_cons. destruct (negb _ || null _); cbn [bind].
    + destruct (IH out used auto) as (parts & u & a & H). exists parts, u, a. exact H.
    + destruct (part_id_spec (g_name g) used auto) as (q & a & E & N & L & W & K). rewrite E. cbn [bind].
      destruct (IH (out ++ [Part (Z.of_nat (length out) + 1) (dash (g_name g)) q (g_ids g)]) (q :: used) a) as (parts & u & a' & E' & L' & F & M & G).
      exists (Part (Z.of_nat (length out) + 1) (dash (g_name g)) q (g_ids g) :: parts), u, a'.
      rewrite E', <- app_assoc. split; [reflexivity|]. split; [lia|]. split; [|split].
      * constructor; [|assumption]. exists (dash (g_name g)), q. split; [reflexivity|apply dash_spec].
      * cbn [map length seq number]. rewrite M, app_length. cbn [length]. rewrite Nat.add_1_r. f_equal. lia.
      * cbn. exists q. split; [reflexivity|]. split; [assumption|]. split; [assumption|]. split; [destruct W; [left; lia|now right]|].
        eapply granted_wider; [| |exact G]; lia.
Qed.
Definition nonempty (gs : list group) : list group := filter (fun g => match g_ids g with [] => false | _ => true end) gs.
Lemma nodes_spec : forall gs out, exists points, fold_left node_part gs out = out ++ points /\
  Forall2 points_of (nonempty gs) points /\ map number points = map Z.of_nat (seq (S (length out)) (length points)).
Proof.
  induction gs as [|g gs IH]; intros out.
  - exists []. cbn. rewrite app_nil_r. repeat split. constructor.
  - cbn [fold_left]. unfold node_part at 2, nonempty. cbn [filter]. destruct (g_ids g) as [|i r] eqn:I; cbn [null].
    + apply IH.
    + destruct (IH (out ++ [Points (Z.of_nat (length out) + 1) (dash (g_name g)) (i :: r)])) as (points & E & F & M).
      exists (Points (Z.of_nat (length out) + 1) (dash (g_name g)) (i :: r) :: points). rewrite E, <- app_assoc. split; [reflexivity|]. split.
      * constructor; [|assumption]. exists (dash (g_name g)). rewrite I. split; [reflexivity|apply dash_spec].
      * cbn [map length seq number]. rewrite M, app_length. cbn [length]. rewrite Nat.add_1_r. f_equal. lia.
Qed.

(** The block of groups: always written, numbered from 1, cell groups of the
    elements written then groups of nodes, none empty. *)
Theorem C97_groups : forall active sets auto cells nodes, exists parts points auto',
  write_groups active sets auto cells nodes = Ok (Z.of_nat (length (parts ++ points)), parts ++ points, auto') /\
  map number (parts ++ points) = map Z.of_nat (seq 1 (length (parts ++ points))) /\
  Forall2 part_of (kept_groups active sets cells) parts /\ Forall2 points_of (nonempty nodes) points.
Proof.
  intros active sets auto cells nodes. destruct (cells_spec active sets cells [] [] auto) as (parts & u & a & E & L & F & M & G).
  destruct (nodes_spec nodes parts) as (points & E2 & F2 & M2). exists parts, points, a.
  unfold write_groups. rewrite E. cbn [bind app]. rewrite E2. split; [reflexivity|]. split; [|split; assumption].
  rewrite map_app, M, M2, app_length, seq_app, map_app. reflexivity.
Qed.
(** Parts never share a number, and a group whose name ends with a number gets
    that number unless a group before it has it already. *)
Theorem C97_parts : forall active sets auto cells nodes k ls auto',
  write_groups active sets auto cells nodes = Ok (k, ls, auto') ->
  (forall i j p, (i < j)%nat -> option_map pid (nth_error ls i) = Some (Some p) -> option_map pid (nth_error ls j) = Some (Some p) -> False) /\
  (forall pre g post p, kept_groups active sets cells = pre ++ g :: post -> asks (g_name g) p ->
     exists i, (i <= length pre)%nat /\ option_map pid (nth_error ls i) = Some (Some p)).
Proof.
  intros active sets auto cells nodes k ls auto' H.
  destruct (cells_spec active sets cells [] [] auto) as (parts & u & a & E & L & F & M & G).
  destruct (nodes_spec nodes parts) as (points & E2 & F2 & M2).
  unfold write_groups in H. rewrite E in H. cbn [bind app] in H. rewrite E2 in H. injection H as _ <- _.
  assert (P : forall i p, option_map pid (nth_error (parts ++ points) i) = Some (Some p) -> option_map pid (nth_error parts i) = Some (Some p)).
  { intros i p X. destruct (Nat.lt_ge_cases i (length parts)) as [I|I]; [now rewrite nth_error_app1 in X|].
    rewrite nth_error_app2 in X by lia. destruct (nth_error points (i - length parts)) as [l|] eqn:N; [|discriminate].
    apply nth_error_In in N. assert (pid l = None); [|cbn in X; congruence].
    clear - F2 N. induction F2 as [|g x gs xs (nm & -> & _) F2 IH]; [contradiction|]. destruct N as [<-|N]; [reflexivity|auto]. }
  assert (Q : forall gs xs used h l, granted used h l gs xs ->
     (forall i p, option_map pid (nth_error xs i) = Some (Some p) -> ~ In p used) /\
     (forall i j p, (i < j)%nat -> option_map pid (nth_error xs i) = Some (Some p) -> option_map pid (nth_error xs j) = Some (Some p) -> False) /\
     (forall pre g post p, gs = pre ++ g :: post -> asks (g_name g) p ->
        In p used \/ exists i, (i <= length pre)%nat /\ option_map pid (nth_error xs i) = Some (Some p))).
  { clear. induction gs as [|g gs IH]; intros [|x xs] used h l G; cbn in G; try contradiction.
    - split; [intros [|]; discriminate|]. split; [intros [|]; discriminate|]. intros [|]; discriminate.
    - destruct G as (q & G1 & G2 & G3 & _ & G5). destruct (IH xs (q :: used) h l G5) as (A & B & C). split; [|split].
      + intros [|i] p X; [cbn in X; congruence|]. intros I. apply (A i p X). now right.
      + intros [|i] [|j] p O X Y; try lia.
        * cbn in X. apply (A j p Y). left. congruence.
        * apply (B i j p); [lia|assumption|assumption].
      + intros [|g' pre] g0 post p X Y.
        * injection X as <- <-. destruct (in_dec Z.eq_dec p used) as [I|I]; [now left|]. right. exists 0%nat. split; [lia|]. cbn. rewrite G1. now rewrite (G3 p Y I).
        * injection X as <- ->. destruct (C pre g0 post p eq_refl Y) as [[->|I]|(i & I1 & I2)].
          -- right. exists 0%nat. split; [lia|]. cbn. congruence.
          -- now left.
          -- right. exists (S i). split; [cbn; lia|exact I2]. }
  destruct (Q _ _ _ _ _ G) as (_ & B & C). split.
  - intros i j p O X Y. apply (B i j p O); apply P; assumption.
  - intros pre g post p X Y. destruct (C pre g post p X Y) as [[]|(i & I & Z0)]. exists i. split; [assumption|].
    destruct (nth_error parts i) eqn:N; [|discriminate]. rewrite nth_error_app1 by (apply nth_error_Some; congruence). now rewrite N.
Qed.

(** ** What fails *)
(** A point mass has a cell but no line: the count is then too large. *)
Definition beam_cell := mkSCell 7 SEG2 [1; 2] None.
Definition mass_cell := mkSCell 8 POINT1 [2] None.
Definition beam_set := mkSet 1 CircularBeam [beam_cell] [txt "PBAR_4"].
Definition mass_set := mkSet 2 NodalMass [mass_cell] [txt "CONM2_8"].
Definition nowhere (i : Z) : outcome vec := Throw.
Definition no_systems : systems := fun _ => None.
Definition in_file := write_elements 1 0 0 no_systems nowhere [] (fun s => s) (fun _ => 0).
Theorem C97_header_refuted : exists mesh sets k ls, Permutation mesh (flat_map s_cells sets) /\
  in_file mesh sets = Ok (k, ls) /\ k = 2 /\ length ls = 1%nat.
Proof.
  exists [beam_cell; mass_cell], [beam_set; mass_set]. do 2 eexists. split; [apply Permutation_refl|]. split; [reflexivity|]. split; reflexivity.
Qed.
(** A pyramid is announced with five nodes and lists eight. *)
Theorem C97_pyramid_line_refuted : forall n tol tiny env coords active mat lists mesh s c, s_type s = Continuum -> s_cells s = [c] ->
  c_type c = PYRA5 -> length (c_nodes c) = 5%nat -> c_axes c = None ->
  exists k l, write_elements n tol tiny env coords active mat lists mesh [s] = Ok (k, [l]) /\ l_count l = 5 /\ length (l_nodes l) = 8%nat.
Proof.
  intros n tol tiny env coords active mat lists mesh [i t cs gs] [ci ct ns ax] T C Ct L A. cbn in *. subst.
  spread 5%nat ns L. do 2 eexists. split; [reflexivity|]. split; reflexivity.
Qed.
(** Tubular beams and composite shells are written as volumes. *)
Theorem C97_volumes_refuted : forall n tol tiny env coords active mat lists mesh s k ls, s_type s = TubeBeam \/ s_type s = Composite ->
  write_elements n tol tiny env coords active mat lists mesh [s] = Ok (k, ls) -> Forall (fun l => l_dim l = 3 /\ l_type l = 0) ls.
Proof.
  intros n tol tiny env coords active mat lists mesh s k ls T H. apply C97_lines in H. destruct H as [_ F]. revert F.
  unfold expected. cbn [flat_map]. rewrite app_nil_r. replace (on_paper active (s_type s)) with true by (destruct T as [-> | ->]; reflexivity).
  generalize (filter (fun c => drawable (c_type c)) (s_cells s)). intros cs F. remember (map (pair s) cs) as ps eqn:E.
  revert cs E. induction F as [|p l ps ls Hp F IH]; intros [|c cs] E; try discriminate; constructor.
  - injection E as -> _. destruct Hp as (_ & D & _). cbn in D. destruct T as [T|T]; rewrite T in D; cbn in D; injection D as -> ->; split; reflexivity.
  - injection E as _ E. apply (IH cs E).
Qed.
(** A group of elements that are written disappears when a set that is not written
    comes later and names it. *)
Theorem C97_dropped_refuted : forall active sets s g auto ids, on_paper active (s_type s) = false -> In g (s_groups s) ->
  exists auto', write_groups active (sets ++ [s]) auto [mkGroup g ids] [] = Ok (0, [], auto').
Proof.
  intros active sets s g auto ids O I. exists auto. unfold write_groups. cbn [foldM]. unfold cell_part. cbn [g_name].
  destruct (useful active (sets ++ [s]) g) eqn:U; [|reflexivity]. exfalso. apply C97_useful in U.
  destruct U as (pre & s' & post & E & J & P & N). destruct post as [|p post _] using rev_ind.
  - apply app_inj_tail in E. destruct E as [_ ->]. congruence.
  - rewrite app_comm_cons, app_assoc in E. apply app_inj_tail in E. destruct E as [_ ->]. apply (N p); [apply in_or_app; right; now left|assumption].
Qed.
(** Two groups get one name. *)
Theorem C97_same_name_refuted : exists nodes k auto l1 l2, (forall g h, In g nodes -> In h nodes -> g_name g = g_name h -> g = h) /\
  write_groups [] [] 9 [] nodes = Ok (k, [Points 1 (txt "A_B") l1; Points 2 (txt "A_B") l2], auto) /\ l1 <> l2.
Proof.
  exists [mkGroup (txt "A B") [1]; mkGroup (txt "A_B") [2]]. do 4 eexists. split; [|split; [reflexivity|discriminate]].
  intros g h [<-|[<-|[]]] [<-|[<-|[]]] E; try reflexivity; discriminate.
Qed.

(** ** A case *)
(** A beam, a hexahedron of twenty nodes, a point mass; the
    groups PSOLID_5 and PBAR_5 both ask for 5. *)
Definition hex_card := [101; 102; 103; 104; 105; 106; 107; 108; 109; 110; 111; 112; 113; 114; 115; 116; 117; 118; 119; 120].
Definition hex_med := match parseElem (card_types HEXA20) hex_card with Ok (_, m) => m | _ => [] end.
Definition hex_cell := mkSCell 20 HEXA20 hex_med None.
Definition hex_set := mkSet 3 Continuum [hex_cell] [txt "PSOLID_5"].
Definition beam5_set := mkSet 1 CircularBeam [beam_cell] [txt "PBAR_5"].
Example C97_case :
  known_solid HEXA20 /\ length hex_card = numNodes HEXA20 /\ asks (txt "PBAR_5") 5 /\
  (forall s, In s [beam5_set; mass_set; hex_set] -> s_type s <> ScalarSpring [] /\
     forall c, In c (s_cells s) -> writable 1 0 0 no_systems nowhere s c) /\
  in_file [beam_cell; mass_cell; hex_cell] [beam5_set; mass_set; hex_set] =
    Ok (3, [mkSLine 7 1 0 2 1 0 (0, []) [1; 2];
            mkSLine 20 3 0 20 3 0 (0, []) [101; 109; 102; 110; 103; 111; 104; 112; 113; 114; 115; 116; 105; 117; 106; 118; 107; 119; 108; 120]]) /\
  write_groups [] [beam5_set; mass_set; hex_set] 9999 [mkGroup (txt "CONM2_8") [8]; mkGroup (txt "PBAR_5") [7]; mkGroup (txt "PSOLID_5") [20]]
     [mkGroup (txt "bolt ends") [1; 2]; mkGroup (txt "void") []] =
    Ok (3, [Part 1 (txt "PBAR_5") 5 [7]; Part 2 (txt "PSOLID_5") 9999 [20]; Points 3 (txt "bolt_ends") [1; 2]], 9998).
Proof.
  split; [cbn; tauto|]. split; [reflexivity|]. split; [exists (txt "PBAR"); split; [lia|reflexivity]|]. split; [|split; vm_compute; reflexivity].
  intros s [<-|[<-|[<-|[]]]]; (split; [discriminate|]); intros c [<-|[]] _; (split; [reflexivity|discriminate]).
Qed.

Print Assumptions C97_solids_partial.
Print Assumptions C97_shells. Print Assumptions C97_segments.
Print Assumptions C97_pyramids_refuted.
Print Assumptions C97_lines.
Print Assumptions C97_accepted.
Print Assumptions C97_announced_partial.
Print Assumptions C97_header_partial.
Print Assumptions C97_useful.
Print Assumptions C97_groups.
Print Assumptions C97_parts.
Print Assumptions C97_header_refuted.
Print Assumptions C97_pyramid_line_refuted.
Print Assumptions C97_volumes_refuted.
Print Assumptions C97_dropped_refuted.
Print Assumptions C97_same_name_refuted.
