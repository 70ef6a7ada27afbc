(** C119: the option of a Systus file gives the nodes the degrees of freedom the elements need,
    and its subcases hold the analyses of the model, sharing a file only with the same supports. *)
From Coq Require Import Ascii String ZArith List Bool Arith Lia Permutation.
From Verif Require Import Base TextModel TextProofs DofModel SystusCaseModel.
Import ListNotations.
Open Scope Z_scope.
Open Scope list_scope.

(** ** Degrees of freedom *)

(** The element sets whose nodes rotate, by what they are. *)
Definition rotates (k : ekind) : Prop :=
  match k with
  | CircularBeam t | TubeBeam t | RectangularBeam t | IBeam t | GenericBeam t => t = false
  | Shell | CompositeSet | StiffnessMatrix | MassMatrix | DampingMatrix => True
  | LmpcSet r | ScalarSpring r => r = true
  | _ => False
  end.
(** The element sets that are written and only need translations. *)
Definition solid (k : ekind) : Prop :=
  match k with Skin | Continuum => True | LmpcSet r | ScalarSpring r => r = false | _ => False end.
(** The kinds the choice does not know. *)
Definition overlooked (k : ekind) : Prop := match k with TubeBeam _ | CompositeSet => True | _ => False end.

Lemma scan_spec l : (forall k, In k l -> ~ overlooked k) -> forall h6 h3,
  (fst (scan l h6 h3) = true <-> h6 = true \/ exists k, In k l /\ rotates k) /\
  (fst (scan l h6 h3) = true -> (snd (scan l h6 h3) = true <-> h3 = true \/ exists k, In k l /\ solid k)).
Proof.
  induction l as [|k l IH]; intros O h6 h3; cbn [scan].
  - cbn [fst snd]. split; [|intros _]; (split; [auto|intros [H|(k & [] & _)]; exact H]).
  - assert (Ok1 : ~ overlooked k) by (apply O; now left). assert (Ol : forall k', In k' l -> ~ overlooked k') by (intros k' Hk; apply O; now right). specialize (IH Ol).
    assert (T : (fst (fst (tells k h6 h3)) = true <-> h6 = true \/ rotates k) /\ (snd (fst (tells k h6 h3)) = true <-> h3 = true \/ solid k)).
    { clear - Ok1. destruct k; cbn in *; try (destruct truss); try (destruct rot); destruct h6, h3; cbn; intuition congruence. }
    destruct (tells k h6 h3) as [[a b] cont]. cbn [fst snd] in T. destruct T as [T1 T2].
    assert (R : (fst (scan l a b) = true <-> h6 = true \/ exists k', In k' (k :: l) /\ rotates k') /\
      (fst (scan l a b) = true -> (snd (scan l a b) = true <-> h3 = true \/ exists k', In k' (k :: l) /\ solid k'))).
    { destruct (IH a b) as [I1 I2]. split.
      - rewrite I1, T1. split; [intros [[H|H]|(k' & H1 & H2)]; [now left|right; exists k; split; [now left|exact H]|right; exists k'; split; [now right|exact H2]]|].
        intros [H|(k' & [<-|H1] & H2)]; [left; now left|left; now right|right; exists k'; now split].
      - intros F. rewrite (I2 F), T2. split; [intros [[H|H]|(k' & H1 & H2)]; [now left|right; exists k; split; [now left|exact H]|right; exists k'; split; [now right|exact H2]]|].
        intros [H|(k' & [<-|H1] & H2)]; [left; now left|left; now right|right; exists k'; now split]. }
    destruct cont; [exact R|]. destruct (a && b) eqn:AB; [|exact R]. apply andb_true_iff in AB. destruct AB as [-> ->]. cbn [fst snd].
    split; [|intros _]; (split; [intros _|intros _; reflexivity]).
    + destruct (proj1 T1 eq_refl) as [H|H]; [now left|right; exists k; split; [now left|exact H]].
    + destruct (proj1 T2 eq_refl) as [H|H]; [now left|right; exists k; split; [now left|exact H]].
Qed.

(** Without an option, and for models without tube beams and composites, nodes get rotations
    exactly when some element needs them, and solids are announced beside them. *)
Theorem C119_automatic : forall l, (forall k, In k l -> ~ overlooked k) -> exists w opt sub ds n, option_word None = Ok w /\ informations w l = Ok (opt, sub, ds, n) /\
  (opt = SHELL_OPTION <-> exists k, In k l /\ rotates k) /\ (sub = MULTI_SUB <-> (exists k, In k l /\ rotates k) /\ (exists k, In k l /\ solid k)) /\
  (opt = SHELL_OPTION -> ds = ALL_DOFS /\ n = 6) /\ (opt = CONTINUOUS_OPTION -> ds = TRANSLATIONS /\ n = 3).
Proof.
  intros l O. exists (txt "auto"). destruct (scan_spec l O false false) as [S1 S2]. unfold informations. cbn [str_eqb txt list_ascii_of_string option_word Ascii.eqb Bool.eqb andb].
  unfold automatic. destruct (scan l false false) as [h6 h3]. cbn [fst snd] in S1, S2. destruct h6.
  - assert (X : exists k, In k l /\ rotates k) by (destruct (proj1 S1 eq_refl) as [H|H]; [discriminate|exact H]). specialize (S2 eq_refl).
    eexists _, _, _, _. split; [reflexivity|]. split; [reflexivity|]. cbn [fst snd]. split; [split; auto|]. split; [|split; [auto|discriminate]].
    destruct h3; (split; [intros E|intros [_ H]]); try discriminate E; auto.
    + split; [exact X|]. destruct (proj1 S2 eq_refl) as [H|H]; [discriminate|exact H].
    + assert (false = true) by (apply S2; now right). discriminate.
  - eexists _, _, _, _. split; [reflexivity|]. split; [reflexivity|]. cbn [fst snd].
    assert (N : ~ exists k, In k l /\ rotates k) by (intros H; assert (false = true) by (apply S1; now right); discriminate).
    split; [split; [discriminate|intros H; contradiction]|]. split; [split; [discriminate|intros [H _]; contradiction]|]. split; [discriminate|auto].
Qed.

(** A model of tube beams is written with translations only. *)
Theorem C119_tube_refuted : exists l sub n, (exists k, In k l /\ rotates k) /\ informations (txt "auto") l = Ok (CONTINUOUS_OPTION, sub, TRANSLATIONS, n).
Proof. exists [TubeBeam false], NONE_SUB, 3. split; [exists (TubeBeam false); split; [now left|reflexivity]|reflexivity]. Qed.

(** An option of the command line is used as it is, and other words are refused. *)
Theorem C119_option : forall l, informations (txt "shell") l = Ok (SHELL_OPTION, NONE_SUB, ALL_DOFS, 6) /\
  informations (txt "shell-multi") l = Ok (SHELL_OPTION, MULTI_SUB, ALL_DOFS, 6) /\ informations (txt "3D") l = Ok (CONTINUOUS_OPTION, NONE_SUB, TRANSLATIONS, 3).
Proof. intros l. repeat split. Qed.
Theorem C119_option_words : forall w, (In w [txt "auto"; txt "3D"; txt "shell"; txt "shell-multi"] -> option_word (Some w) = Ok w) /\
  (~ In w [txt "auto"; txt "3D"; txt "shell"; txt "shell-multi"] -> option_word (Some w) = Throw).
Proof.
  intros w. unfold option_word. destruct (existsb (str_eqb w) _) eqn:E; split; intros H; try reflexivity; exfalso.
  - apply H. apply existsb_exists in E. destruct E as (x & Hx & E). destruct (str_eqb_spec w x) as [->|]; [exact Hx|discriminate].
  - assert (existsb (str_eqb w) [txt "auto"; txt "3D"; txt "shell"; txt "shell-multi"] = true).
    { apply existsb_exists. exists w. split; [exact H|]. destruct (str_eqb_spec w w); congruence. }
    congruence.
Qed.

(** ** Subcases *)

(** Two analyses that may share a file: static, with the same constraint sets. *)
Definition together (a b : sana) : Prop := sn_type a = STATIC /\ sn_type b = STATIC /\ sn_csets a = sn_csets b.

Lemma zlist_eqb_spec a : forall b, reflect (a = b) (zlist_eqb a b).
Proof.
  induction a as [|x a IH]; intros [|y b]; cbn; try (constructor; congruence). destruct (Z.eqb_spec x y) as [->|N]; cbn [andb]; [|constructor; congruence].
  destruct (IH b) as [->|N]; constructor; congruence.
Qed.
Lemma char_inj a b : characteristic a = characteristic b <-> sn_type a = sn_type b /\ sn_csets a = sn_csets b.
Proof. unfold characteristic. split; [intros [= H1 _ H2]; auto|intros (-> & ->); reflexivity]. Qed.

Lemma find_char_spec c l : forall i n, (n >= i + length l)%nat -> (exists j, find_char c l i n = (i + j)%nat /\ nth_error l j = Some c) \/ (find_char c l i n = n /\ ~ In c l).
Proof.
  induction l as [|d l IH]; intros i n N; cbn [find_char]; [right; split; [reflexivity|intros []]|]. cbn [length] in N.
  destruct (zlist_eqb_spec c d) as [->|D]; [left; exists 0%nat; split; [lia|reflexivity]|].
  destruct (IH (S i) n) as [(j & H1 & H2)|[H1 H2]]; [lia| |].
  - left. exists (S j). split; [lia|exact H2].
  - right. split; [exact H1|]. intros [E|E]; [congruence|contradiction].
Qed.

Fixpoint put_at {A} (l : list (list A)) (i : nat) (x : A) : list (list A) :=
  match l, i with [], _ => [] | s :: r, O => (s ++ [x]) :: r | s :: r, S i => s :: put_at r i x end.
Lemma push_map gs : forall i a, push_at (map (map sn_id) gs) i (sn_id a) = map (map sn_id) (put_at gs i a).
Proof. induction gs as [|g gs IH]; intros [|i] a; cbn; try reflexivity; [now rewrite map_app|now rewrite IH]. Qed.
Lemma put_nth {A} (gs : list (list A)) : forall i a j, nth_error (put_at gs i a) j =
  if (i =? j)%nat then option_map (fun g => g ++ [a]) (nth_error gs j) else nth_error gs j.
Proof.
  induction gs as [|g gs IH]; intros [|i] a [|j]; cbn; try reflexivity; [now destruct (i =? j)%nat|]. rewrite IH. reflexivity.
Qed.
Lemma put_perm {A} (gs : list (list A)) : forall i a, (i < length gs)%nat -> Permutation (concat (put_at gs i a)) (concat gs ++ [a]).
Proof.
  induction gs as [|g gs IH]; intros [|i] a H; cbn [length] in H; try lia; cbn [put_at concat].
  - rewrite <- !app_assoc. apply Permutation_app_head. apply Permutation_app_comm.
  - rewrite <- app_assoc. apply Permutation_app_head. apply IH. lia.
Qed.

(** The groups after some analyses. *)
Record grouped (chars : list (list Z)) (gs : list (list sana)) (l : list sana) : Prop := {
  g_length : length chars = length gs;
  g_chars : forall i c, nth_error chars i = Some c -> exists g h, nth_error gs i = Some g /\ In h g /\ c = characteristic h;
  g_all : Permutation (concat gs) l;
  g_in : forall i g a b, nth_error gs i = Some g -> In a g -> In b g -> a = b \/ together a b;
  g_out : forall i j g g' a b, nth_error gs i = Some g -> nth_error gs j = Some g' -> i <> j -> In a g -> In b g' -> ~ together a b;
  g_order : forall i g, nth_error gs i = Some g -> exists keep, g = filter keep l
}.

Lemma grouped_step chars gs l a : grouped chars gs l -> ~ In (sn_id a) (map sn_id l) -> exists chars' gs',
  add_analysis (chars, map (map sn_id) gs) a = (chars', map (map sn_id) gs') /\ grouped chars' gs' (l ++ [a]).
Proof.
  intros [Ln Ch Al In_ Out Or] New. unfold add_analysis. rewrite map_length.
  assert (Na : forall g i, nth_error gs i = Some g -> ~ In a g).
  { intros g i Hg Ha. apply New. apply in_map. apply (Permutation_in _ Al). apply in_concat. exists g. split; [now apply nth_error_In in Hg|exact Ha]. }
  assert (Keep : forall i g, nth_error gs i = Some g -> exists keep, g = filter keep (l ++ [a])).
  { intros i g Hg. destruct (Or i g Hg) as (keep & E). exists (fun x => keep x && negb (sn_id x =? sn_id a)). rewrite filter_app. cbn [filter]. rewrite Z.eqb_refl, andb_false_r, app_nil_r.
    rewrite E at 1. apply filter_ext_in. intros x Hx. destruct (Z.eqb_spec (sn_id x) (sn_id a)) as [X|_]; [|now rewrite andb_true_r].
    exfalso. apply New. rewrite <- X. now apply in_map. }
  assert (Fresh : (forall i g b, nth_error gs i = Some g -> In b g -> ~ together a b) -> grouped (chars ++ [characteristic a]) (gs ++ [[a]]) (l ++ [a])).
  { intros F. assert (Fs : forall i g b, nth_error gs i = Some g -> In b g -> ~ together b a) by (intros i g b H1 H2 (T1 & T2 & T3); apply (F i g b H1 H2); split; [exact T2|split; congruence]).
    assert (Nt : forall A (xs : list A) x i y, nth_error (xs ++ [x]) i = Some y -> nth_error xs i = Some y /\ (i < length xs)%nat \/ (i = length xs /\ y = x)).
    { intros A xs x i y H. destruct (Nat.lt_ge_cases i (length xs)) as [L|L]; [left; rewrite nth_error_app1 in H by exact L; now split|right].
      rewrite nth_error_app2 in H by exact L. destruct (i - length xs)%nat as [|k] eqn:E; [cbn in H; injection H as <-; split; [lia|reflexivity]|]. destruct k; discriminate H. }
    constructor.
    - rewrite !app_length. cbn. lia.
    - intros i c H. destruct (Nt _ _ _ _ _ H) as [[H1 H2]|[-> ->]].
      + destruct (Ch i c H1) as (g & h & G1 & G2 & G3). exists g, h. split; [rewrite nth_error_app1 by (apply nth_error_Some; congruence); exact G1|auto].
      + exists [a], a. split; [rewrite Ln, nth_error_app2, Nat.sub_diag by lia; reflexivity|]. split; [now left|reflexivity].
    - rewrite concat_app. cbn. apply Permutation_app_tail. exact Al.
    - intros i g x y H X Y. destruct (Nt _ _ _ _ _ H) as [[H1 _]|[_ ->]]; [now apply (In_ i g)|]. destruct X as [<-|[]], Y as [<-|[]]. now left.
    - intros i j g g' x y H H' N X Y. destruct (Nt _ _ _ _ _ H) as [[H1 _]|[E1 ->]], (Nt _ _ _ _ _ H') as [[H2 _]|[E2 ->]].
      + now apply (Out i j g g').
      + destruct Y as [<-|[]]. now apply (Fs i g).
      + destruct X as [<-|[]]. now apply (F j g').
      + lia.
    - intros i g H. destruct (Nt _ _ _ _ _ H) as [[H1 _]|[_ ->]]; [now apply (Keep i)|]. exists (fun x => sn_id x =? sn_id a).
      rewrite filter_app. cbn [filter]. rewrite Z.eqb_refl. replace (filter _ l) with (@nil sana); [reflexivity|]. symmetry.
      clear - New. induction l as [|x l IH]; [reflexivity|]. cbn [filter]. destruct (Z.eqb_spec (sn_id x) (sn_id a)) as [E|_]; [exfalso; apply New; left; exact E|]. apply IH. intros H. apply New. now right. }
  assert (Done : exists chars' gs', (chars ++ [characteristic a], map (map sn_id) gs ++ [[sn_id a]]) = (chars', map (map sn_id) gs') /\ ((forall i g b, nth_error gs i = Some g -> In b g -> ~ together a b) -> grouped chars' gs' (l ++ [a]))).
  { exists (chars ++ [characteristic a]), (gs ++ [[a]]). split; [now rewrite map_app|exact Fresh]. }
  destruct (Z.eqb_spec (sn_type a) STATIC) as [St|St].
  - destruct (find_char_spec (characteristic a) chars 0 (length gs)) as [(i & E & Hi)|[E No]]; [lia| |].
    + cbn [Nat.add] in E. rewrite E. destruct (Ch i _ Hi) as (g & h & G1 & G2 & G3). assert (Li : (i < length gs)%nat) by (apply nth_error_Some; congruence).
      destruct (Nat.eqb_spec i (length gs)) as [X|_]; [lia|]. exists chars, (put_at gs i a). rewrite push_map. split; [reflexivity|].
      apply char_inj in G3. destruct G3 as [G3 G4].
      assert (Ta : forall b, In b g -> together b a).
      { intros b Hb. destruct (In_ i g h b G1 G2 Hb) as [<-|(T1 & T2 & T3)]; repeat split; congruence. }
      assert (To : forall j g' b, nth_error gs j = Some g' -> j <> i -> In b g' -> ~ together b a /\ ~ together a b).
      { intros j g' b Hj N Hb. destruct (Ta h G2) as (A1 & A2 & A3). split; intros (T1 & T2 & T3); apply (Out j i g' g b h Hj G1 N Hb G2); repeat split; congruence. }
      constructor.
      * rewrite Ln. clear. revert i. induction gs as [|x xs IH]; intros [|i]; cbn; auto.
      * intros j c Hj. destruct (Ch j c Hj) as (g' & h' & G1' & G2' & G3'). rewrite put_nth. destruct (i =? j)%nat; [|exists g', h'; auto].
        rewrite G1'. cbn [option_map]. exists (g' ++ [a]), h'. split; [reflexivity|]. split; [apply in_or_app; now left|exact G3'].
      * rewrite (put_perm gs i a Li). apply Permutation_app_tail. exact Al.
      * intros j g' x y Hj X Y. rewrite put_nth in Hj. destruct (Nat.eqb_spec i j) as [<-|N]; [|now apply (In_ j g')]. rewrite G1 in Hj. cbn in Hj. injection Hj as <-.
        apply in_app_or in X, Y. destruct X as [X|[<-|[]]], Y as [Y|[<-|[]]]; [now apply (In_ i g)|right; now apply Ta| |now left].
        right. destruct (Ta y Y) as (A1 & A2 & A3). repeat split; congruence.
      * intros j k g' g'' x y Hj Hk N X Y. rewrite put_nth in Hj, Hk. destruct (Nat.eqb_spec i j) as [<-|Nj], (Nat.eqb_spec i k) as [<-|Nk]; [congruence| | |now apply (Out j k g' g'')].
        -- rewrite G1 in Hj. cbn in Hj. injection Hj as <-. apply in_app_or in X. destruct X as [X|[<-|[]]]; [now apply (Out i k g g'')|]. exact (proj2 (To k g'' y Hk (not_eq_sym Nk) Y)).
        -- rewrite G1 in Hk. cbn in Hk. injection Hk as <-. apply in_app_or in Y. destruct Y as [Y|[<-|[]]]; [now apply (Out j i g' g)|]. exact (proj1 (To j g' x Hj (not_eq_sym Nj) X)).
      * intros j g' Hj. rewrite put_nth in Hj. destruct (Nat.eqb_spec i j) as [<-|N]; [|now apply (Keep j)]. rewrite G1 in Hj. cbn in Hj. injection Hj as <-.
        destruct (Or i g G1) as (keep & Ek). exists (fun x => keep x || (sn_id x =? sn_id a)). rewrite filter_app. cbn [filter]. rewrite Z.eqb_refl, orb_true_r. f_equal.
        rewrite Ek at 1. apply filter_ext_in. intros x Hx. destruct (Z.eqb_spec (sn_id x) (sn_id a)) as [X|_]; [|now rewrite orb_false_r]. exfalso. apply New. rewrite <- X. now apply in_map.
    + rewrite E, Nat.eqb_refl. destruct Done as (chars' & gs' & D1 & D2). exists chars', gs'. split; [exact D1|]. apply D2.
      intros i g b Hg Hb (T1 & T2 & T3). apply No. destruct (nth_error chars i) as [c|] eqn:Hc; [|apply nth_error_None in Hc; assert (i < length gs)%nat by (apply nth_error_Some; congruence); lia].
      destruct (Ch i c Hc) as (g' & h & G1 & G2 & G3). rewrite Hg in G1. injection G1 as <-. apply nth_error_In in Hc. replace (characteristic a) with c; [exact Hc|]. rewrite G3. apply char_inj.
      destruct (In_ i g h b Hg G2 Hb) as [->|(U1 & U2 & U3)]; split; congruence.
  - rewrite Nat.eqb_refl. destruct Done as (chars' & gs' & D1 & D2). exists chars', gs'. split; [exact D1|]. apply D2. intros i g b _ _ (T1 & _). contradiction.
Qed.

Lemma merged_groups l : NoDup (map sn_id l) -> exists chars gs, merged l = map (map sn_id) gs /\ grouped chars gs l.
Proof.
  intros N. unfold merged.
  assert (G : forall r chars gs done, grouped chars gs done -> NoDup (map sn_id (done ++ r)) -> exists chars' gs',
    fold_left add_analysis r (chars, map (map sn_id) gs) = (chars', map (map sn_id) gs') /\ grouped chars' gs' (done ++ r)).
  { induction r as [|a r IH]; intros chars gs done H Nd; [exists chars, gs; rewrite app_nil_r; now split|]. cbn [fold_left].
    destruct (grouped_step chars gs done a H) as (c1 & g1 & E1 & H1).
    { rewrite map_app in Nd. cbn [map] in Nd. apply NoDup_remove_2 in Nd. intros X. apply Nd. apply in_or_app. now left. }
    rewrite E1. replace (done ++ a :: r) with ((done ++ [a]) ++ r) in * by (rewrite <- app_assoc; reflexivity). now apply IH. }
  destruct (G l [] [] []) as (chars & gs & E & H); [|exact N|].
  - constructor; try reflexivity; intros [|i]; intros; discriminate.
  - exists chars, gs. cbn [map app] in *. rewrite E. split; [reflexivity|exact H].
Qed.

(** By default every analysis is in one subcase and one only, subcases follow the order of the
    model, and two analyses share a file exactly when they are static with the same
    constraint sets. *)
Theorem C119_merged : forall l, NoDup (map sn_id l) -> l <> [] -> exists subs, generate_subcases [] l = Ok subs /\
  Permutation (concat subs) (map sn_id l) /\
  (forall s, In s subs -> exists g keep, s = map sn_id g /\ g = filter keep l /\ g <> []) /\
  (forall a b, In a l -> In b l -> (exists s, In s subs /\ In (sn_id a) s /\ In (sn_id b) s) <-> a = b \/ together a b).
Proof.
  intros l N Ne. destruct (merged_groups l N) as (chars & gs & E & [Ln Ch Al In_ Out Or]). unfold generate_subcases. cbn [bind]. rewrite E.
  assert (Gn : map (map sn_id) gs <> []).
  { intros H. destruct gs; [|discriminate]. cbn in Al. apply Permutation_nil in Al. contradiction. }
  exists (map (map sn_id) gs). split; [destruct (map (map sn_id) gs); [congruence|reflexivity]|].
  split; [rewrite <- concat_map; now apply Permutation_map|].
  assert (Id : forall a b, In a l -> In b l -> sn_id a = sn_id b -> a = b).
  { clear - N. induction l as [|x l IH]; intros a b Ha Hb E; [destruct Ha|]. cbn [map] in N. inversion N as [|x' l' N1 N2]; subst.
    destruct Ha as [<-|Ha], Hb as [<-|Hb]; try reflexivity; [exfalso; apply N1; rewrite E; now apply in_map|exfalso; apply N1; rewrite <- E; now apply in_map|now apply IH]. }
  assert (Sub : forall g, In g gs -> forall x, In x g -> In x l).
  { intros g Hg x Hx. apply (Permutation_in _ Al). apply in_concat. exists g. now split. }
  split.
  - intros s Hs. apply in_map_iff in Hs. destruct Hs as (g & <- & Hg). apply In_nth_error in Hg. destruct Hg as (i & Hg). destruct (Or i g Hg) as (keep & Ek). exists g, keep. split; [reflexivity|]. split; [exact Ek|].
    destruct (nth_error chars i) as [c|] eqn:Hc; [|apply nth_error_None in Hc; assert (i < length gs)%nat by (apply nth_error_Some; congruence); lia].
    destruct (Ch i c Hc) as (g' & h & G1 & G2 & _). rewrite Hg in G1. injection G1 as <-. intros ->. destruct G2.
  - intros a b Ha Hb. split.
    + intros (s & Hs & Sa & Sb). apply in_map_iff in Hs. destruct Hs as (g & <- & Hg). apply in_map_iff in Sa, Sb. destruct Sa as (x & X1 & X2), Sb as (y & Y1 & Y2).
      assert (x = a) by (apply Id; eauto). assert (y = b) by (apply Id; eauto). subst x y. apply In_nth_error in Hg. destruct Hg as (i & Hg). now apply (In_ i g).
    + assert (F : forall x, In x l -> exists i g, nth_error gs i = Some g /\ In x g).
      { intros x Hx. apply (Permutation_in _ (Permutation_sym Al)) in Hx. apply in_concat in Hx. destruct Hx as (g & Hg & Hx). apply In_nth_error in Hg. destruct Hg as (i & Hg). eauto. }
      intros [<-|T]; destruct (F a Ha) as (i & g & Hg & Ga).
      * exists (map sn_id g). split; [apply in_map; now apply nth_error_In in Hg|]. split; now apply in_map.
      * destruct (F b Hb) as (j & g' & Hg' & Gb). destruct (Nat.eq_dec i j) as [<-|Nij]; [|exfalso; now apply (Out i j g g' a b)].
        rewrite Hg in Hg'. injection Hg' as <-. exists (map sn_id g). split; [apply in_map; now apply nth_error_In in Hg|]. split; now apply in_map.
Qed.

(** A text of numbers separated by commas, as an option of the command line. *)
Definition number_list (w : str) (v : list Z) : Prop := v <> [] /\ Forall (fun n => 0 <= n <= INT_MAX32) v /\ w = join "," (map int_text v).
Lemma digit_chars n : 0 <= n -> forallb is_digit (int_text n) = true /\ int_text n <> [].
Proof. intros H. unfold int_text. destruct (Z.ltb_spec n 0); [lia|]. destruct (nat_text_spec n H) as (D & _ & N). now split. Qed.
Lemma number_list_read w v : number_list w v -> str_eqb w (txt "single") = false /\ str_eqb w (txt "auto") = false /\ subcase_list w = Ok v.
Proof.
  intros (Ne & R & ->).
  assert (D : forallb (fun c => is_digit c || Ascii.eqb c ",") (join "," (map int_text v)) = true).
  { clear Ne. induction R as [|n v Hn R IH]; [reflexivity|]. destruct (digit_chars n (proj1 Hn)) as [Dn _].
    assert (Dn' : forallb (fun c => is_digit c || Ascii.eqb c ",") (int_text n) = true) by (rewrite forallb_forall in Dn |- *; intros c Hc; now rewrite (Dn c Hc)).
    cbn [map join]. destruct (map int_text v) as [|y ys]; [exact Dn'|]. rewrite forallb_app, Dn'. cbn [forallb andb]. rewrite IH. reflexivity. }
  assert (Word : forall u, existsb (fun c => negb (is_digit c || Ascii.eqb c ",")) u = true -> str_eqb (join "," (map int_text v)) u = false).
  { intros u Hu. destruct (str_eqb_spec (join "," (map int_text v)) u) as [E|_]; [|reflexivity]. rewrite E in D. apply existsb_exists in Hu. destruct Hu as (c & C1 & C2).
    rewrite forallb_forall in D. rewrite (D c C1) in C2. discriminate. }
  split; [now apply Word|]. split; [now apply Word|]. unfold subcase_list. rewrite D. cbn [negb].
  rewrite split_join.
  - clear Ne D Word. induction R as [|n v Hn R IH]; [reflexivity|]. cbn [map mapM]. rewrite lexical_int_text by (unfold INT_MIN32; lia). cbn [bind]. rewrite IH. reflexivity.
  - now destruct v.
  - apply forallb_forall. intros f Hf. apply in_map_iff in Hf. destruct Hf as (n & <- & Hn). rewrite Forall_forall in R. destruct (digit_chars n (proj1 (R n Hn))) as [Dn _].
    apply negb_true_iff. unfold contains. apply not_true_iff_false. intros X. apply existsb_exists in X. destruct X as (c & C1 & C2). apply Ascii.eqb_eq in C2. subst c.
    rewrite forallb_forall in Dn. specialize (Dn _ C1). discriminate Dn.
Qed.
Lemma options_read ws vs : Forall2 number_list ws vs -> forall r acc, subcase_options (ws ++ r) acc = subcase_options r (acc ++ vs).
Proof.
  induction 1 as [|w v ws vs H F IH]; intros r acc; cbn [app]; [now rewrite app_nil_r|]. cbn [subcase_options]. destruct (number_list_read w v H) as (-> & -> & ->). cbn [bind]. rewrite IH, <- app_assoc. reflexivity.
Qed.

(** "single", after any lists: one subcase per analysis; "auto" is the default. *)
Theorem C119_single : forall ws vs r l, Forall2 number_list ws vs -> l <> [] ->
  (exists cfg, subcase_options (ws ++ txt "single" :: r) [] = Ok cfg /\ generate_subcases cfg l = Ok (map (fun a => [sn_id a]) l)) /\
  subcase_options (ws ++ txt "auto" :: r) [] = Ok [] /\ subcase_options [] [] = Ok [].
Proof.
  intros ws vs r l F Ne. rewrite !(options_read ws vs F). split; [|split; reflexivity]. eexists. split; [reflexivity|].
  unfold generate_subcases. cbn [Z.eqb Pos.eqb bind]. destruct l; [congruence|reflexivity].
Qed.

(** The analysis a number of the input means: the first that has it. *)
Inductive means : list sana -> Z -> Z -> Prop :=
| means_here a r o : sn_original a = Some o -> means (a :: r) o (sn_id a)
| means_later a r o i : sn_original a <> Some o -> means r o i -> means (a :: r) o i.
Lemma by_original_spec l o : match by_original l o with Some i => means l o i | None => forall a, In a l -> sn_original a <> Some o end.
Proof.
  induction l as [|a l IH]; [intros a []|]. cbn [by_original]. destruct (sn_original a) as [p|] eqn:E.
  - destruct (Z.eqb_spec p o) as [->|N]; [now constructor|]. destruct (by_original l o); [constructor; [congruence|exact IH]|]. intros b [<-|Hb]; [congruence|now apply IH].
  - destruct (by_original l o); [constructor; [congruence|exact IH]|]. intros b [<-|Hb]; [congruence|now apply IH].
Qed.
Lemma means_fun l o i : means l o i -> forall j, means l o j -> i = j.
Proof. induction 1; intros j J; inversion J; subst; try congruence; auto. Qed.

(** Lists of numbers: subcase by subcase and number by number, the analyses they mean. *)
Theorem C119_lists : forall ws vs iss l, vs <> [] -> Forall2 number_list ws vs -> Forall2 (Forall2 (means l)) vs iss ->
  exists cfg, subcase_options ws [] = Ok cfg /\ generate_subcases cfg l = Ok iss.
Proof.
  intros ws vs iss l Ne F G. exists vs. split; [rewrite <- (app_nil_r ws), (options_read ws vs F); reflexivity|].
  assert (U : user_subcases l vs = iss).
  { unfold user_subcases. clear Ne. assert (Nz : Forall (fun v => v <> []) vs) by (clear - F; induction F as [|w v ws vs (H & _) F IH]; constructor; auto). clear F.
    induction G as [|v is vs iss H G IH]; [reflexivity|]. inversion Nz as [|v' vs' N1 N2]; subst. cbn [map filter].
    assert (E : user_subcase l v = is).
    { clear - H. induction H as [|o i v is M H IH]; [reflexivity|]. unfold user_subcase in *. cbn [flat_map]. pose proof (by_original_spec l o) as S. destruct (by_original l o) as [j|].
      - rewrite IH. cbn [app]. now rewrite (means_fun _ _ _ S _ M).
      - exfalso. clear - S M. induction M as [a r o E|a r o i E M IH]; [exact (S a (or_introl eq_refl) E)|]. apply IH. intros b Hb. apply S. now right. }
    rewrite E. destruct is as [|i is]; [inversion H; subst; congruence|]. cbn [null negb]. f_equal. apply IH; exact N2. }
  assert (Ni : iss <> []) by (intros ->; inversion G; subst; congruence).
  assert (Hd : forall x v r, vs = (x :: v) :: r -> (x =? -1) = false).
  { intros x v r ->. inversion F as [|w vv ws' vs' (_ & Hr & _) _]; subst. inversion Hr as [|? ? Hx _]; subst. destruct (Z.eqb_spec x (-1)); [lia|reflexivity]. }
  assert (R : generate_subcases vs l = do subs <- Ok (user_subcases l vs); Ok (match subs with [] => [[]] | _ => subs end)).
  { unfold generate_subcases. destruct vs as [|v r]; [congruence|]. inversion F as [|w vv ws' vs' (Hn & _) _]; subst. destruct v as [|x v]; [congruence|]. destruct r; [|reflexivity]. now rewrite (Hd x v [] eq_refl). }
  rewrite R, U. cbn [bind]. destruct iss; [congruence|reflexivity].
Qed.

(** A number no analysis has is left out, and a subcase of such numbers is not written. *)
Theorem C119_unknown : forall l vs v s, In s (user_subcases l vs) -> In v vs -> s <> [] /\
  forall i, In i (user_subcase l v) <-> exists o, In o v /\ means l o i.
Proof.
  intros l vs v s H Hv. split.
  - unfold user_subcases in H. apply filter_In in H. destruct H as [_ H]. destruct s; [discriminate H|discriminate].
  - intros i. unfold user_subcase. rewrite in_flat_map. split.
    + intros (o & Ho & Hi). pose proof (by_original_spec l o) as S. destruct (by_original l o); [|destruct Hi]. destruct Hi as [<-|[]]. eauto.
    + intros (o & Ho & M). exists o. split; [exact Ho|]. pose proof (by_original_spec l o) as S. destruct (by_original l o) as [j|].
      * left. exact (means_fun _ _ _ S _ M).
      * exfalso. clear - S M. induction M as [a r o E|a r o i E M IH]; [exact (S a (or_introl eq_refl) E)|]. apply IH. intros b Hb. apply S. now right.
Qed.

(** Other texts are refused: another character than a digit or a comma, or an empty or too
    large number. *)
Theorem C119_list_refused : forall w, w <> txt "single" -> w <> txt "auto" ->
  (exists c, In c w /\ is_digit c = false /\ c <> ","%char) \/ (exists t, In t (split_on "," w) /\ (t = [] \/ INT_MAX32 < digits_val t /\ forallb is_digit t = true)) ->
  subcase_options [w] [] = Throw.
Proof.
  intros w N1 N2 H. cbn [subcase_options]. destruct (str_eqb_spec w (txt "single")); [contradiction|]. destruct (str_eqb_spec w (txt "auto")); [contradiction|].
  unfold subcase_list. destruct (forallb _ w) eqn:A; cbn [negb bind]; [|reflexivity]. destruct H as [(c & Hc & D & C)|(t & Ht & B)].
  - exfalso. rewrite forallb_forall in A. specialize (A c Hc). rewrite D in A. cbn [orb] in A. apply Ascii.eqb_eq in A. contradiction.
  - assert (L : lexical_int t = Throw).
    { destruct B as [->|[B D]]; [reflexivity|]. unfold lexical_int. destruct t as [|c r]; [reflexivity|].
      assert (Dc : is_digit c = true) by (cbn in D; apply andb_true_iff in D; tauto).
      destruct (Ascii.eqb_spec c "-") as [->|_]; [discriminate Dc|]. destruct (Ascii.eqb_spec c "+") as [->|_]; [discriminate Dc|].
      cbn [null orb]. rewrite D. cbn [negb]. destruct (Z.leb_spec (digits_val (c :: r)) INT_MAX32); [lia|]. now rewrite andb_false_r. }
    assert (M : forall ts, In t ts -> (forall u, In u ts -> exists z, lexical_int u = Ok z \/ lexical_int u = Throw) -> mapM lexical_int ts = Throw).
    { induction ts as [|u ts IH]; intros Hi Q; [destruct Hi|]. cbn [mapM]. destruct Hi as [->|Hi]; [now rewrite L|]. destruct (Q u (or_introl eq_refl)) as (z & [E|E]); rewrite E; cbn [bind]; [|reflexivity].
      rewrite IH; [reflexivity|exact Hi|]. intros u' Hu. apply Q. now right. }
    rewrite M; [reflexivity|exact Ht|]. intros u _. unfold lexical_int. destruct (match u with [] => _ | _ => _ end) as [neg ds]. destruct (null ds || _); [exists 0; now right|].
    destruct (_ && _); eexists; [left; reflexivity|right; reflexivity]. Unshelve. all: exact 0.
Qed.

(** Without analyses only the mesh is written, in one file. *)
Theorem C119_mesh_only : generate_subcases [] [] = Ok [[]] /\ generate_subcases [[-1]] [] = Ok [[]].
Proof. split; reflexivity. Qed.

(** ** Examples *)
Definition C119_model : list sana := [mkSana 1 (Some 10) STATIC [4; 7]; mkSana 2 (Some 20) 3 [4; 7]; mkSana 3 None STATIC [4]; mkSana 4 (Some 40) STATIC [4; 7]; mkSana 5 (Some 10) 3 [4; 7]].
Example C119_merged_case : NoDup (map sn_id C119_model) /\ generate_subcases [] C119_model = Ok [[1; 4]; [2]; [3]; [5]].
Proof. split; [repeat constructor; cbn; intuition lia|reflexivity]. Qed.
Example C119_lists_case : Forall2 number_list [txt "40,10"; txt "20"] [[40; 10]; [20]] /\ Forall2 (Forall2 (means C119_model)) [[40; 10]; [20]] [[4; 1]; [2]] /\
  (exists cfg, subcase_options [txt "40,10"; txt "20"] [] = Ok cfg /\ generate_subcases cfg C119_model = Ok [[4; 1]; [2]]).
Proof.
  assert (A : Forall2 number_list [txt "40,10"; txt "20"] [[40; 10]; [20]]) by (repeat constructor; try discriminate; cbn; lia).
  assert (B : Forall2 (Forall2 (means C119_model)) [[40; 10]; [20]] [[4; 1]; [2]]).
  { unfold C119_model.
    assert (M1 : means C119_model 10 1) by (now apply (means_here (mkSana 1 (Some 10) STATIC [4; 7]))).
    assert (M2 : means C119_model 20 2) by (apply means_later; [discriminate|]; now apply (means_here (mkSana 2 (Some 20) 3 [4; 7]))).
    assert (M4 : means C119_model 40 4) by (do 3 (apply means_later; [discriminate|]); now apply (means_here (mkSana 4 (Some 40) STATIC [4; 7]))).
    constructor; [constructor; [exact M4|constructor; [exact M1|constructor]]|constructor; [constructor; [exact M2|constructor]|constructor]]. }
  split; [exact A|]. split; [exact B|]. now apply (C119_lists _ [[40; 10]; [20]]).
Qed.
Example C119_refused_case : subcase_options [txt "1,,2"] [] = Throw /\ subcase_options [txt "1;2"] [] = Throw.
Proof. split; reflexivity. Qed.
Example C119_option_case : informations (txt "auto") [CircularBeam true; Continuum; RBar; LmpcSet true] = Ok (SHELL_OPTION, MULTI_SUB, ALL_DOFS, 6) /\
  informations (txt "auto") [CircularBeam true; Continuum; RBar; LmpcSet false] = Ok (CONTINUOUS_OPTION, NONE_SUB, TRANSLATIONS, 3).
Proof. split; reflexivity. Qed.
Print Assumptions C119_automatic.
Print Assumptions C119_tube_refuted.
Print Assumptions C119_option.
Print Assumptions C119_option_words.
Print Assumptions C119_merged.
Print Assumptions C119_single.
Print Assumptions C119_lists.
Print Assumptions C119_unknown.
Print Assumptions C119_list_refused.
Print Assumptions C119_mesh_only.
