(** C113: results read from an F06 file. *)
From Coq Require Import Ascii String ZArith List Bool Arith Lia.
From Verif Require Import Base TextModel TextProofs CaseControlModel CaseControlProofs RealModel F06Model F06Proofs.
Import ListNotations.
Open Scope nat_scope.
Open Scope list_scope.

(** ** Spec: a file in pages *)

(** A line that says nothing: no mark, no title. *)
Definition titled (t l : str) : Prop := exists a b, forallb is_space a = true /\ forallb is_space b = true /\ l = a ++ t ++ b.
Definition neutral (l : str) : Prop :=
  ~ occurs (txt "SUBCASE") l /\ ~ occurs (txt "LOAD STEP = ") l /\ ~ occurs (txt "FREQUENCY = ") l /\ ~ occurs (txt "S T R E S S E S") l /\
  ~ titled DISPLACEMENTS l /\ ~ titled EIGENVALUES l /\ ~ titled COMPLEX l.
(** The line of subcase [n]. *)
Definition subcase_line (n : Z) (l : str) : Prop := exists a b d,
  l = a ++ txt "SUBCASE" ++ spaces b ++ int_text n ++ spaces d /\ ~ In "S"%char a /\ ~ In "L"%char a /\ ~ In "F"%char a.
(** The mark [m] (LOAD STEP, FREQUENCY) and the word after it. *)
Definition mark_line (m w l : str) : Prop := exists a b d, l = spaces a ++ m ++ spaces b ++ w ++ spaces d.
(** A row: words apart, the line beginning by a space if [lead]. *)
Definition row_of (lead : bool) (ws : list str) (l : str) : Prop :=
  exists items j, l = laid items ++ spaces j /\ map snd items = ws /\ apart items /\
    (lead = true -> match items with (k, _) :: _ => 1 <= k | [] => True end).

Section Spec.
  Context {V : Type} (stod : str -> outcome V) (read : str -> V) (small : V -> bool) (zero minus_one : V).
  Context (to_global : Z -> outcome (V * V * V -> V * V * V)).
  Notation fact := (fact V).
  Definition cleaned (v : V) : V := if small v then zero else v.
  (** Words that say the numbers [vs]. *)
  Definition say (ws : list str) (vs : list V) : Prop :=
    Forall2 (fun w v => w <> [] /\ forallb number_char w = true /\ stod w = Ok v) ws vs.
  Definition a_node (n : Z) : Prop := (0 <= n <= INT_MAX32)%Z.

  (** A row of displacements of the node [n]; in the global system, the tiny ones made 0. *)
  Definition disp_says (step : V) (l : str) (fs : list fact) : Prop :=
    exists n ws a b c d e f g x y z u v w, a_node n /\ row_of true (int_text n :: txt "G" :: ws) l /\ say ws [a; b; c; d; e; f] /\
      to_global n = Ok g /\ g (a, b, c) = (x, y, z) /\ g (d, e, f) = (u, v, w) /\
      fs = [Disp n 0 (cleaned x) step; Disp n 1 (cleaned y) step; Disp n 2 (cleaned z) step;
            Disp n 3 (cleaned u) step; Disp n 4 (cleaned v) step; Disp n 5 (cleaned w) step].
  (** The row of a scalar point says nothing. *)
  Definition scalar_says (l : str) (fs : list fact) : Prop :=
    exists n ws vs, a_node n /\ row_of true (int_text n :: txt "S" :: ws) l /\ say ws vs /\ length vs = 6 /\ fs = [].
  (** A mode: number, extraction order, eigenvalue, pulsation, frequency, mass, stiffness. *)
  Definition mode_says (l : str) (fs : list fact) : Prop :=
    exists n ws o ev ra cy ma st, a_node n /\ row_of false (int_text n :: ws) l /\ say ws [o; ev; ra; cy; ma; st] /\
      fs = [Mode n (cleaned cy) ev ma st].
  (** A complex displacement: the real parts, then the imaginary ones on the next line; as
      they stand. *)
  Definition cplx_says (freq : V) (l : str * str) (fs : list fact) : Prop :=
    exists n ws ws' vs vs', a_node n /\ row_of false (txt "0" :: int_text n :: txt "G" :: ws) (fst l) /\ row_of false ws' (snd l) /\
      say ws vs /\ say ws' vs' /\ length vs = 6 /\ length vs' = 6 /\
      fs = map (fun i => Cplx n i (cleaned (nth i vs zero)) (cleaned (nth i vs' zero)) freq) (seq 0 6).

  (** The sections.  They end at a page header or at any line not made as their rows. *)
  Inductive body (step freq : V) : list str -> list fact -> Prop :=
  | body_disp t h rows fss foot :
      titled DISPLACEMENTS t -> Forall2 (fun l fs => disp_says step l fs \/ scalar_says l fs) rows fss ->
      ~ occurs (txt "SUBCASE") foot -> ~ occurs (txt "DIAGNOSTIC TOOLS") foot ->
      (match foot with c :: _ => is_space c = false | [] => True end \/ length (words foot) <> 8) ->
      body step freq (t :: h :: rows ++ [foot]) (concat fss)
  | body_mode t lead o rows fss foot :
      titled EIGENVALUES t ->
      Forall (fun l => ~ occurs (txt "ORDER") l /\ ~ occurs (txt "AFTER AUGMENTATION OF RESIDUAL VECTORS") l /\
                       ~ occurs (txt "ACTUAL MODES USED IN THE DYNAMIC ANALYSIS") l) lead ->
      occurs (txt "ORDER") o -> Forall2 mode_says rows fss -> ~ occurs (txt "SUBCASE") foot -> length (words foot) <> 7 ->
      body step freq (t :: lead ++ o :: rows ++ [foot]) (concat fss)
  | body_cplx t lead h rows fss foot :
      titled COMPLEX t -> Forall (fun l => ~ occurs COLUMNS l) lead -> occurs COLUMNS h ->
      Forall2 (cplx_says freq) rows fss -> ~ occurs (txt "SUBCASE") foot -> length (words foot) <> 9 ->
      body step freq (t :: lead ++ h :: flat_map (fun p => [fst p; snd p]) rows ++ [foot]) (concat fss).

  (** The lines between that of the subcase and the title: they may give a load step or a
      frequency. *)
  Inductive marks : V -> V -> list str -> V -> V -> Prop :=
  | marks_nil s f : marks s f [] s f
  | marks_neutral s f l r s' f' : neutral l -> marks s f r s' f' -> marks s f (l :: r) s' f'
  | marks_step s f w l r s' f' : solid w -> forallb number_char w = true -> mark_line (txt "LOAD STEP = ") w l ->
      marks (read w) f r s' f' -> marks s f (l :: r) s' f'
  | marks_freq s f w l r s' f' : solid w -> forallb number_char w = true -> mark_line (txt "FREQUENCY = ") w l ->
      marks s (read w) r s' f' -> marks s f (l :: r) s' f'.

  (** A page: header lines, the subcase, its load step or frequency, one section.  With no
      load step the value is -1; the frequency [f] is that of the pages before. *)
  Definition page (f : V) (lines : list str) (n : Z) (fs : list fact) (f' : V) : Prop :=
    exists head sub between step sec, lines = head ++ sub :: between ++ sec /\ Forall neutral head /\ a_node n /\ subcase_line n sub /\
      marks minus_one f between step f' /\ body step f' sec fs.
  Inductive pages : V -> list (list str) -> list (Z * list fact) -> Prop :=
  | pages_nil f : pages f [] []
  | pages_cons f ls n fs f' r rs : page f ls n fs f' -> pages f' r rs -> pages f (ls :: r) ((n, fs) :: rs).
End Spec.

(** ** Reading a line *)

Lemma txt_cons c s : txt (String c s) = c :: txt s.
Proof. reflexivity. Qed.

Lemma titled_trim t l : solid t \/ (exists c p q e, t = c :: p ++ q ++ [e] /\ is_space c = false /\ is_space e = false) -> titled t l -> trim l = t.
Proof.
  intros H (a & b & Ha & Hb & ->). destruct H as [H|(c & p & q & e & -> & Hc & He)]; [now apply trim_solid|].
  rewrite trim_spaces_l, trim_spaces_r by assumption. unfold trim, trim_left. rewrite dropWhile_head by exact Hc.
  rewrite app_assoc. change (c :: (p ++ q) ++ [e]) with ((c :: p ++ q) ++ e :: []). rewrite trim_right_keep by exact He. reflexivity.
Qed.
Ltac title := apply titled_trim; right;
  match goal with |- exists _ _ _ _, ?t = _ /\ _ => let t' := eval vm_compute in t in
    match t' with ?c :: ?p => let q := eval vm_compute in (removelast p) in let e := eval vm_compute in (last p c) in
      exists c, q, [], e; repeat split; reflexivity end end.
Lemma title_disp l : titled DISPLACEMENTS l -> trim l = DISPLACEMENTS.
Proof. title. Qed.
Lemma title_mode l : titled EIGENVALUES l -> trim l = EIGENVALUES.
Proof. title. Qed.
Lemma title_cplx l : titled COMPLEX l -> trim l = COMPLEX.
Proof. title. Qed.
Lemma trim_titled t l : trim l = t -> titled t l.
Proof.
  intros <-. unfold trim, trim_right, trim_left.
  assert (D : forall q m, exists x, m = x ++ dropWhile q m /\ forallb q x = true).
  { intros q m. induction m as [|c m (x & IH & IH')]; [now exists []|]. cbn. destruct (q c) eqn:E; [exists (c :: x); cbn; rewrite E; split; [now f_equal|exact IH']|now exists []]. }
  destruct (D is_space l) as (x & Hx & Hx'). destruct (D is_space (rev (dropWhile is_space l))) as (y & Hy & Hy').
  exists x, (rev y). repeat split; [exact Hx'|now rewrite forallb_rev|]. rewrite Hx at 1. f_equal.
  rewrite <- (rev_involutive (dropWhile is_space l)) at 1. rewrite Hy at 1. now rewrite rev_app_distr.
Qed.

Lemma number_solid w : w <> [] -> forallb number_char w = true -> solid w.
Proof.
  intros H H0. split; [exact H|]. rewrite forallb_forall in *. intros c Hc. rewrite (number_char_solid _ (H0 _ Hc)). reflexivity.
Qed.
Lemma int_text_number n : (0 <= n)%Z -> int_text n <> [] /\ forallb number_char (int_text n) = true.
Proof.
  intros H. unfold int_text. destruct (Z.ltb_spec n 0); [lia|]. destruct (nat_text_spec n H) as (H1 & _ & H2). split; [exact H2|].
  rewrite forallb_forall in *. intros c Hc. unfold number_char. now rewrite (H1 _ Hc).
Qed.

Section Reading.
  Context {V : Type} (stod : str -> outcome V) (read : str -> V) (small : V -> bool) (zero minus_one : V).
  Context (to_global : Z -> outcome (V * V * V -> V * V * V)) (strict : bool) (analyses : list Z).
  Notation fact := (fact V).
  Notation scan := (scan stod read small zero minus_one to_global strict analyses).
  Notation disp_rows := (disp_rows stod small zero to_global).
  Notation mode_rows := (mode_rows stod small zero).
  Notation cplx_rows := (cplx_rows stod small zero).

  Lemma row_facts lead ws l : row_of lead ws l -> Forall (fun w => forallb number_char w = true) ws ->
    after SUBCASE l = None /\ has (txt "DIAGNOSTIC TOOLS") l = false /\ words l = ws /\
    (lead = true -> ws <> [] -> match l with c :: _ => is_space c | [] => false end = true).
  Proof.
    intros (items & j & -> & <- & Ha & Hl) Hn. repeat split.
    - apply after_none. apply (not_char "U"%char); [unfold SUBCASE; cbn; tauto|]. apply numbers_no; [reflexivity|discriminate|exact Hn].
    - apply has_false. apply (not_char "I"%char); [cbn; tauto|]. apply numbers_no; [reflexivity|discriminate|exact Hn].
    - now apply words_laid.
    - intros -> Hw. specialize (Hl eq_refl). destruct items as [|[k w] r]; [now contradiction Hw|].
      destruct k as [|k]; [lia|]. reflexivity.
  Qed.
  Lemma say_numbers ws vs : say stod ws vs -> Forall (fun w => forallb number_char w = true) ws.
  Proof. induction 1 as [|w v ws vs (_ & H & _) _ IH]; constructor; assumption. Qed.

  Lemma stoi_node n : a_node n -> stoi (int_text n) = Ok n.
  Proof. intros H. apply stoi_text. exact H. Qed.

  Ltac saying H := repeat match goal with
    | H : Forall2 _ _ (_ :: _) |- _ => inversion H; subst; clear H
    | H : Forall2 _ _ [] |- _ => inversion H; subst; clear H
    | H : _ /\ _ /\ stod _ = Ok _ |- _ => destruct H as (_ & _ & H) end.

  Lemma disp_step step l fs r : disp_says stod small zero to_global step l fs \/ scalar_says stod l fs ->
    disp_rows step (l :: r) = more fs (disp_rows step r).
  Proof.
    intros [(n & ws & a & b & c & d & e & f & g & x & y & z & u & v & w & Hn & Hr & Hs & Hg & Hg1 & Hg2 & ->)|(n & ws & vs & Hn & Hr & Hs & Hlen & ->)].
    - destruct (row_facts _ _ _ Hr) as (H1 & H2 & H3 & H4).
      { constructor; [apply int_text_number; destruct Hn; assumption|]. constructor; [reflexivity|now apply say_numbers with (vs := [a; b; c; d; e; f])]. }
      cbn [F06Model.disp_rows]. rewrite H2, H1, (H4 eq_refl) by discriminate. cbn [negb]. rewrite H3. unfold say in Hs. saying Hs.
      unfold disp_row. rewrite stoi_node by exact Hn. cbn [bind]. change (negb (str_eqb (txt "G") (txt "G"))) with false. cbn iota.
      repeat match goal with E : stod ?w = Ok _ |- context [stod ?w] => rewrite E; cbn [bind] end. rewrite Hg. cbn [bind]. rewrite Hg1, Hg2. reflexivity.
    - destruct (row_facts _ _ _ Hr) as (H1 & H2 & H3 & H4).
      { constructor; [apply int_text_number; destruct Hn; assumption|]. constructor; [reflexivity|now apply say_numbers with (vs := vs)]. }
      cbn [F06Model.disp_rows]. rewrite H2, H1, (H4 eq_refl) by discriminate. cbn [negb]. rewrite H3. unfold say in Hs.
      destruct vs as [|? [|? [|? [|? [|? [|? [|? ?]]]]]]]; try discriminate. saying Hs.
      unfold disp_row. rewrite stoi_node by exact Hn. cbn [bind]. change (negb (str_eqb (txt "S") (txt "G"))) with true. cbn iota.
      unfold more. cbn [app]. now destruct (disp_rows step r).
  Qed.
  Lemma disp_all step rows fss : Forall2 (fun l fs => disp_says stod small zero to_global step l fs \/ scalar_says stod l fs) rows fss ->
    forall r, disp_rows step (rows ++ r) = more (concat fss) (disp_rows step r).
  Proof.
    induction 1 as [|l fs rows fss H _ IH]; intros r; cbn [app concat].
    - unfold more. cbn [app]. now destruct (disp_rows step r).
    - rewrite (disp_step _ _ _ _ H), IH. unfold more. cbn. now rewrite app_assoc.
  Qed.
  Lemma disp_end step foot r : ~ occurs (txt "SUBCASE") foot -> ~ occurs (txt "DIAGNOSTIC TOOLS") foot ->
    (match foot with c :: _ => is_space c = false | [] => True end \/ length (words foot) <> 8) ->
    disp_rows step (foot :: r) = mkSection [] NO_SUBCASE r false.
  Proof.
    intros H1 H2 H3. apply after_none in H1. apply has_false in H2. cbn [F06Model.disp_rows]. rewrite H2. unfold SUBCASE. rewrite H1.
    destruct H3 as [H3|H3].
    - destruct foot as [|c foot]; [reflexivity|]. now rewrite H3.
    - destruct (negb _); [reflexivity|]. destruct (words foot) as [|? [|? [|? [|? [|? [|? [|? [|? [|]]]]]]]]]; try reflexivity. now contradiction H3.
  Qed.

  Lemma mode_step l fs r : mode_says stod small zero l fs -> mode_rows (l :: r) = more fs (mode_rows r).
  Proof.
    intros (n & ws & o & ev & ra & cy & ma & st & Hn & Hr & Hs & ->).
    destruct (row_facts _ _ _ Hr) as (H1 & H2 & H3 & H4).
    { constructor; [apply int_text_number; destruct Hn; assumption|now apply say_numbers with (vs := [o; ev; ra; cy; ma; st])]. }
    cbn [F06Model.mode_rows]. rewrite H1, H3. unfold say in Hs. saying Hs.
    unfold mode_row. rewrite stoi_node by exact Hn. cbn [bind].
    repeat match goal with E : stod ?w = Ok _ |- context [stod ?w] => rewrite E; cbn [bind] end. reflexivity.
  Qed.
  Lemma mode_all rows fss : Forall2 (mode_says stod small zero) rows fss ->
    forall r, mode_rows (rows ++ r) = more (concat fss) (mode_rows r).
  Proof.
    induction 1 as [|l fs rows fss H _ IH]; intros r; cbn [app concat].
    - unfold more. cbn [app]. now destruct (mode_rows r).
    - rewrite (mode_step _ _ _ H), IH. unfold more. cbn. now rewrite app_assoc.
  Qed.
  Lemma mode_end foot r : ~ occurs (txt "SUBCASE") foot -> length (words foot) <> 7 -> mode_rows (foot :: r) = mkSection [] NO_SUBCASE r false.
  Proof.
    intros H1 H3. apply after_none in H1. cbn [F06Model.mode_rows]. unfold SUBCASE. rewrite H1.
    destruct (words foot) as [|? [|? [|? [|? [|? [|? [|? [|]]]]]]]]; try reflexivity. now contradiction H3.
  Qed.
  Lemma mode_lead lead o r :
    Forall (fun l => ~ occurs (txt "ORDER") l /\ ~ occurs (txt "AFTER AUGMENTATION OF RESIDUAL VECTORS") l /\
                     ~ occurs (txt "ACTUAL MODES USED IN THE DYNAMIC ANALYSIS") l) lead ->
    occurs (txt "ORDER") o -> readEigenvalueSection stod small zero (lead ++ o :: r) = mode_rows r.
  Proof.
    intros H Ho. induction H as [|l lead (H1 & H2 & H3) _ IH]; cbn [app readEigenvalueSection].
    - now rewrite (has_true _ _ Ho).
    - apply has_false in H1, H2, H3. rewrite H1, H2, H3. exact IH.
  Qed.

  Lemma cplx_row_ok freq n ws vs : Forall2 (fun w v => w <> [] /\ forallb number_char w = true /\ stod w = Ok v) ws vs ->
    forall ws' vs' i, Forall2 (fun w v => w <> [] /\ forallb number_char w = true /\ stod w = Ok v) ws' vs' -> length vs = length vs' ->
    cplx_row stod small zero freq n i ws ws' =
    (map (fun k => Cplx n (i + k) (cleaned small zero (nth k vs zero)) (cleaned small zero (nth k vs' zero)) freq) (seq 0 (length vs)), false).
  Proof.
    induction 1 as [|w v ws vs (_ & _ & Hw) _ IH]; intros ws' vs' i H' Hl.
    - destruct vs'; [|discriminate]. inversion H'; subst. reflexivity.
    - destruct H' as [|w' v' ws' vs' (_ & _ & Hw') H']; [discriminate|]. cbn [cplx_row]. rewrite Hw, Hw'.
      rewrite (IH _ _ (S i) H') by (cbn in Hl; lia). cbn [length seq map nth]. rewrite Nat.add_0_r. f_equal. f_equal.
      rewrite <- seq_shift, map_map. apply map_ext. intros k. cbn [nth]. now rewrite Nat.add_succ_r.
  Qed.
  Lemma cplx_step freq l fs r : cplx_says stod small zero freq l fs ->
    cplx_rows freq (fst l :: snd l :: r) = more fs (cplx_rows freq r).
  Proof.
    intros (n & ws & ws' & vs & vs' & Hn & Hr & Hr' & Hs & Hs' & Hv & Hv' & ->).
    destruct (row_facts _ _ _ Hr) as (H1 & _ & H3 & _).
    { constructor; [reflexivity|]. constructor; [apply int_text_number; destruct Hn; assumption|]. constructor; [reflexivity|now apply say_numbers with (vs := vs)]. }
    destruct (row_facts _ _ _ Hr') as (_ & _ & H3' & _); [now apply say_numbers with (vs := vs')|].
    assert (L : length ws = 6) by (rewrite <- Hv; clear - Hs; induction Hs; cbn; congruence).
    assert (L' : length ws' = 6) by (rewrite <- Hv'; clear - Hs'; induction Hs'; cbn; congruence).
    cbn [F06Model.cplx_rows]. rewrite H1, H3, H3'. cbn [length nth skipn]. rewrite L, L'. cbn [Nat.eqb].
    rewrite stoi_node by exact Hn. rewrite (cplx_row_ok _ _ _ _ Hs _ _ 0 Hs') by congruence. rewrite Hv. reflexivity.
  Qed.
  Lemma cplx_all freq rows fss : Forall2 (cplx_says stod small zero freq) rows fss ->
    forall r, cplx_rows freq (flat_map (fun p => [fst p; snd p]) rows ++ r) = more (concat fss) (cplx_rows freq r).
  Proof.
    induction 1 as [|l fs rows fss H _ IH]; intros r; cbn [app concat flat_map].
    - unfold more. cbn [app]. now destruct (cplx_rows freq r).
    - rewrite (cplx_step _ _ _ _ H), IH. unfold more. cbn. now rewrite app_assoc.
  Qed.
  Lemma cplx_end freq foot r : ~ occurs (txt "SUBCASE") foot -> length (words foot) <> 9 -> cplx_rows freq (foot :: r) = mkSection [] NO_SUBCASE r false.
  Proof.
    intros H1 H3. apply after_none in H1. cbn [F06Model.cplx_rows]. unfold SUBCASE. rewrite H1.
    destruct (Nat.eqb_spec (length (words foot)) 9); [contradiction|reflexivity].
  Qed.
  Lemma cplx_lead freq lead h r : Forall (fun l => ~ occurs COLUMNS l) lead -> occurs COLUMNS h ->
    readComplexDisplacementSection stod small zero freq (lead ++ h :: r) = cplx_rows freq r.
  Proof.
    intros H Ho. induction H as [|l lead H1 _ IH]; cbn [app readComplexDisplacementSection].
    - now rewrite (has_true _ _ Ho).
    - apply has_false in H1. rewrite H1. exact IH.
  Qed.

  (** ** The whole file *)

  Lemma eqb_no l t : ~ titled t l -> str_eqb (trim l) t = false.
  Proof. intros H. destruct (str_eqb_spec (trim l) t) as [E|E]; [|reflexivity]. exfalso. now apply H, trim_titled. Qed.
  Lemma after_trim_no p l : ~ occurs p l -> after p (trim l) = None.
  Proof. intros H. apply after_none. intros H0. now apply H, occurs_trim. Qed.
  Lemma stress_no l : ~ occurs (txt "S T R E S S E S") l -> is_stress (trim l) = false.
  Proof. intros H. unfold is_stress, has. now rewrite after_trim_no. Qed.

  Lemma scan_neutral fuel l r sub step freq st : neutral l -> scan (S fuel) (l :: r) sub step freq st = scan fuel r sub step freq st.
  Proof.
    intros (H1 & H2 & H3 & H4 & H5 & H6 & H7). cbn [F06Model.scan]. unfold SUBCASE.
    rewrite (after_trim_no _ _ H1), (after_trim_no _ _ H2), (after_trim_no _ _ H3). cbn [bind].
    rewrite (eqb_no _ _ H5), (eqb_no _ _ H6), (eqb_no _ _ H7), (stress_no _ H4). reflexivity.
  Qed.
  Lemma scan_neutrals head : Forall neutral head -> forall fuel r sub step freq st,
    scan (length head + fuel) (head ++ r) sub step freq st = scan fuel r sub step freq st.
  Proof. induction 1 as [|l head H _ IH]; intros; [reflexivity|]. cbn [length app Nat.add]. rewrite scan_neutral by exact H. apply IH. Qed.

  (** A text that has not one of the letters of [t]. *)
  Lemma eqb_char c l t : In c t -> ~ In c l -> str_eqb l t = false.
  Proof. intros H H0. destruct (str_eqb_spec l t) as [->|]; [contradiction|reflexivity]. Qed.
  Lemma after_char c l p : In c p -> ~ In c l -> after p l = None.
  Proof. intros H H0. apply after_none. now apply (not_char c). Qed.
  Lemma stress_char c l : In c (txt "S O L I D   E L E M E N T S") -> ~ In c l -> is_stress l = false.
  Proof.
    intros H H0. unfold is_stress. replace (has (txt "S O L I D   E L E M E N T S") l) with false; [apply andb_false_r|].
    symmetry. apply has_false. now apply (not_char c).
  Qed.
  Lemma not_in_number c w : number_char c = false -> forallb number_char w = true -> ~ In c w.
  Proof. intros H H0 Hi. rewrite forallb_forall in H0. specialize (H0 _ Hi). congruence. Qed.
  Lemma not_in_spaces c k : c <> " "%char -> ~ In c (spaces k).
  Proof. intros H Hi. unfold spaces in Hi. apply repeat_spec in Hi. congruence. Qed.
  Lemma dropWhile_spaces k : dropWhile is_space (spaces k) = [].
  Proof. apply dropWhile_all, is_space_spaces. Qed.

  Lemma subcase_text sub b n : a_node n -> parseSubcase sub (spaces b ++ int_text n) = Ok n.
  Proof.
    intros Hn. unfold parseSubcase. destruct (int_text_number n) as [H1 H2]; [destruct Hn; assumption|].
    rewrite <- (app_nil_r (int_text n)). rewrite trim_solid; [|apply is_space_spaces|now apply number_solid|reflexivity].
    assert (Hd : forallb (fun c => is_digit c || Ascii.eqb c " ") (int_text n) = true).
    { destruct Hn as [Hn _]. unfold int_text. destruct (Z.ltb_spec n 0); [lia|]. destruct (nat_text_spec n Hn) as (H3 & _).
      rewrite forallb_forall in *. intros c Hc. now rewrite (H3 _ Hc). }
    rewrite Hd. destruct (int_text n) eqn:E; [congruence|]. cbn [null]. rewrite <- E. now apply stoi_node.
  Qed.

  Lemma scan_subcase fuel n l r sub step freq st : a_node n -> subcase_line n l ->
    scan (S fuel) (l :: r) sub step freq st = scan fuel r n minus_one freq st.
  Proof.
    intros Hn (a & b & d & -> & HS & HL & HF). destruct (int_text_number n) as [H1 H2]; [destruct Hn; assumption|].
    assert (E : trim (a ++ txt "SUBCASE" ++ spaces b ++ int_text n ++ spaces d) = dropWhile is_space a ++ txt "SUBCASE" ++ spaces b ++ int_text n).
    { apply (trim_mark a "S" (txt "UBCASE")); [reflexivity|now apply number_solid|apply is_space_spaces]. }
    assert (No : forall c, ~ In c a -> ~ In c (txt "SUBCASE") -> c <> " "%char -> number_char c = false ->
      ~ In c (dropWhile is_space a ++ txt "SUBCASE" ++ spaces b ++ int_text n)).
    { intros c Ha Hp Hs Hc. rewrite !in_app_iff. intros [Hi|[Hi|[Hi|Hi]]].
      - now apply Ha, (dropWhile_in is_space).
      - tauto.
      - now apply (not_in_spaces c b).
      - now apply (not_in_number c (int_text n)). }
    assert (NL : ~ In "L"%char (dropWhile is_space a ++ txt "SUBCASE" ++ spaces b ++ int_text n)).
    { apply No; [exact HL|cbn; intuition discriminate|discriminate|reflexivity]. }
    cbn [F06Model.scan]. rewrite E. unfold SUBCASE at 1.
    replace (after (txt "SUBCASE") _) with (Some (spaces b ++ int_text n));
      [|symmetry; apply (after_found (dropWhile is_space a) "S" (txt "UBCASE")); intros Hi; now apply HS, (dropWhile_in is_space)].
    rewrite subcase_text by exact Hn. cbn [bind].
    rewrite (after_char "L" _ (txt "LOAD STEP = ")); [|cbn; tauto|exact NL].
    rewrite (after_char "F" _ (txt "FREQUENCY = ")); [|cbn; tauto|apply No; [exact HF|cbn; intuition discriminate|discriminate|reflexivity]].
    rewrite (eqb_char "L" _ DISPLACEMENTS), (eqb_char "L" _ EIGENVALUES), (eqb_char "L" _ COMPLEX), (stress_char "L"); try exact NL; try (cbn; tauto).
  Qed.

  Lemma mark_trim c p w l : is_space c = false -> solid w -> mark_line (c :: p) w l -> exists b, trim l = (c :: p) ++ spaces b ++ w.
  Proof.
    intros Hc Hw (a & b & d & ->). exists b. rewrite trim_mark; [|exact Hc|exact Hw|apply is_space_spaces]. now rewrite dropWhile_spaces.
  Qed.
  Lemma mark_not c p b w : ~ In c p -> c <> " "%char -> number_char c = false -> forallb number_char w = true -> ~ In c (p ++ spaces b ++ w).
  Proof.
    intros Hp Hs Hc Hw. rewrite !in_app_iff. intros [Hi|[Hi|Hi]]; [tauto|now apply (not_in_spaces c b)|now apply (not_in_number c w)].
  Qed.
  Lemma scan_marks lines s f s' f' : marks read s f lines s' f' -> forall fuel r sub st,
    scan (length lines + fuel) (lines ++ r) sub s f st = scan fuel r sub s' f' st.
  Proof.
    induction 1 as [s f|s f l r s' f' Hl H IH|s f w l r s' f' Hw Hw' Hl H IH|s f w l r s' f' Hw Hw' Hl H IH]; intros fuel r0 sub st; cbn [length app Nat.add].
    - reflexivity.
    - rewrite scan_neutral by exact Hl. apply IH.
    - apply (mark_trim "L" (txt "OAD STEP = ")) in Hl as [b E]; [|reflexivity|exact Hw]. change ("L"%char :: txt "OAD STEP = ") with (txt "LOAD STEP = ") in E.
      assert (No : forall c, ~ In c (txt "LOAD STEP = ") -> c <> " "%char -> number_char c = false -> ~ In c (txt "LOAD STEP = " ++ spaces b ++ w))
        by (intros; now apply mark_not).
      assert (NI : ~ In "I"%char (txt "LOAD STEP = " ++ spaces b ++ w)) by (apply No; [cbn; intuition discriminate|discriminate|reflexivity]).
      cbn [F06Model.scan]. rewrite E. unfold SUBCASE at 1.
      rewrite (after_char "B" _ (txt "SUBCASE")); [|cbn; tauto|apply No; [cbn; intuition discriminate|discriminate|reflexivity]]. cbn [bind].
      replace (after (txt "LOAD STEP = ") _) with (Some (spaces b ++ w)) by (symmetry; apply (after_found [] "L" (txt "OAD STEP = ")); tauto).
      rewrite (after_char "F" _ (txt "FREQUENCY = ")); [|cbn; tauto|apply No; [cbn; intuition discriminate|discriminate|reflexivity]].
      rewrite (eqb_char "I" _ DISPLACEMENTS), (eqb_char "I" _ EIGENVALUES), (eqb_char "I" _ COMPLEX), (stress_char "I"); try exact NI; try (cbn; tauto).
      replace (trim (spaces b ++ w)) with w by (rewrite <- (app_nil_r w) at 2; symmetry; apply trim_solid; [apply is_space_spaces|exact Hw|reflexivity]).
      apply IH.
    - apply (mark_trim "F" (txt "REQUENCY = ")) in Hl as [b E]; [|reflexivity|exact Hw]. change ("F"%char :: txt "REQUENCY = ") with (txt "FREQUENCY = ") in E.
      assert (No : forall c, ~ In c (txt "FREQUENCY = ") -> c <> " "%char -> number_char c = false -> ~ In c (txt "FREQUENCY = " ++ spaces b ++ w))
        by (intros; now apply mark_not).
      assert (NI : ~ In "I"%char (txt "FREQUENCY = " ++ spaces b ++ w)) by (apply No; [cbn; intuition discriminate|discriminate|reflexivity]).
      cbn [F06Model.scan]. rewrite E. unfold SUBCASE at 1.
      rewrite (after_char "B" _ (txt "SUBCASE")); [|cbn; tauto|apply No; [cbn; intuition discriminate|discriminate|reflexivity]]. cbn [bind].
      rewrite (after_char "L" _ (txt "LOAD STEP = ")); [|cbn; tauto|apply No; [cbn; intuition discriminate|discriminate|reflexivity]].
      replace (after (txt "FREQUENCY = ") _) with (Some (spaces b ++ w)) by (symmetry; apply (after_found [] "F" (txt "REQUENCY = ")); tauto).
      rewrite (eqb_char "I" _ DISPLACEMENTS), (eqb_char "I" _ EIGENVALUES), (eqb_char "I" _ COMPLEX), (stress_char "I"); try exact NI; try (cbn; tauto).
      replace (trim (spaces b ++ w)) with w by (rewrite <- (app_nil_r w) at 2; symmetry; apply trim_solid; [apply is_space_spaces|exact Hw|reflexivity]).
      apply IH.
  Qed.

  Lemma add_found k n fs r (st : state (V := V)) : In n analyses -> n <> NO_SUBCASE ->
    add_section strict analyses k n (more fs (mkSection [] NO_SUBCASE r false)) st = Ok (mkState (kept st ++ map (pair n) fs) (refs st ++ [n])).
  Proof.
    intros Hi Hn. unfold add_section, more. cbn [found next rest failed]. rewrite app_nil_r. cbn [andb].
    destruct (Z.eqb_spec n NO_SUBCASE) as [|_]; [contradiction|].
    assert (E : has_analysis analyses n = true) by (apply existsb_exists; exists n; split; [exact Hi|apply Z.eqb_refl]).
    rewrite E. unfold keep. cbn [found]. destruct (Z.eqb_spec n NO_SUBCASE) as [|_]; [contradiction|]. reflexivity.
  Qed.

  Lemma scan_body step freq sec fs : body stod small zero to_global step freq sec fs -> forall n fuel r st, In n analyses -> n <> NO_SUBCASE ->
    scan (S fuel) (sec ++ r) n step freq st = scan fuel r NO_SUBCASE step freq (mkState (kept st ++ map (pair n) fs) (refs st ++ [n])).
  Proof.
    intros H n fuel r st Hi Hn. destruct H as [t h rows fss foot Ht Hr H1 H2 H3|t lead o rows fss foot Ht Hl Ho Hr H1 H2|t lead h rows fss foot Ht Hl Ho Hr H1 H2];
      cbn [app F06Model.scan].
    - rewrite (title_disp _ Ht). change (after SUBCASE DISPLACEMENTS) with (@None str). change (after (txt "LOAD STEP = ") DISPLACEMENTS) with (@None str).
      change (after (txt "FREQUENCY = ") DISPLACEMENTS) with (@None str). cbn [bind]. change (str_eqb DISPLACEMENTS DISPLACEMENTS) with true. cbn iota.
      unfold readDisplacementSection. cbn [tl]. rewrite <- app_assoc. rewrite (disp_all _ _ _ Hr). cbn [app]. rewrite disp_end by assumption.
      rewrite add_found by assumption. reflexivity.
    - rewrite (title_mode _ Ht). change (after SUBCASE EIGENVALUES) with (@None str). change (after (txt "LOAD STEP = ") EIGENVALUES) with (@None str).
      change (after (txt "FREQUENCY = ") EIGENVALUES) with (@None str). cbn [bind].
      change (str_eqb EIGENVALUES DISPLACEMENTS) with false. change (str_eqb EIGENVALUES EIGENVALUES) with true. cbn iota.
      rewrite <- app_assoc. cbn [app]. rewrite mode_lead by assumption. rewrite <- app_assoc. rewrite (mode_all _ _ Hr). cbn [app]. rewrite mode_end by assumption.
      rewrite add_found by assumption. reflexivity.
    - rewrite (title_cplx _ Ht). change (after SUBCASE COMPLEX) with (@None str). change (after (txt "LOAD STEP = ") COMPLEX) with (@None str).
      change (after (txt "FREQUENCY = ") COMPLEX) with (@None str). cbn [bind].
      change (str_eqb COMPLEX DISPLACEMENTS) with false. change (str_eqb COMPLEX EIGENVALUES) with false. change (str_eqb COMPLEX COMPLEX) with true. cbn iota.
      rewrite <- app_assoc. cbn [app]. rewrite cplx_lead by assumption. rewrite <- app_assoc. rewrite (cplx_all _ _ _ Hr). cbn [app]. rewrite cplx_end by assumption.
      rewrite add_found by assumption. reflexivity.
  Qed.

  (** More fuel changes nothing once there is enough. *)
  Lemma rest_disp step ls : length (rest (disp_rows step ls)) <= length ls.
  Proof.
    induction ls as [|l r IH]; cbn [F06Model.disp_rows]; [reflexivity|].
    destruct (has _ l); [cbn; lia|]. destruct (after SUBCASE l); [unfold ended_by; destruct (parseSubcase _ _); cbn; lia|].
    destruct (negb _); [cbn; lia|]. destruct (words l) as [|? [|? [|? [|? [|? [|? [|? [|? [|]]]]]]]]]; try (cbn; lia).
    destruct (disp_row _ _ _ _ _ _ _ _ _ _ _ _ _); cbn; lia.
  Qed.
  Lemma rest_mode ls : length (rest (mode_rows ls)) <= length ls.
  Proof.
    induction ls as [|l r IH]; cbn [F06Model.mode_rows]; [reflexivity|].
    destruct (after SUBCASE l); [unfold ended_by; destruct (parseSubcase _ _); cbn; lia|].
    destruct (words l) as [|? [|? [|? [|? [|? [|? [|? [|]]]]]]]]; try (cbn; lia).
    destruct (mode_row _ _ _ _ _ _ _ _); cbn; lia.
  Qed.
  Lemma rest_eigen ls : length (rest (readEigenvalueSection stod small zero ls)) <= length ls.
  Proof.
    induction ls as [|l r IH]; cbn [readEigenvalueSection]; [reflexivity|].
    destruct (has (txt "ORDER") l); [pose proof (rest_mode r); cbn; lia|]. destruct (_ || _); cbn; lia.
  Qed.
  Lemma rest_cplx freq k : forall ls, length ls <= k -> length (rest (cplx_rows freq ls)) <= length ls.
  Proof.
    induction k as [|k IH]; intros [|l r] Hk; try (cbn in *; lia). cbn [F06Model.cplx_rows].
    destruct (after SUBCASE l); [unfold ended_by; destruct (parseSubcase _ _); cbn; lia|].
    destruct (_ =? _); [|cbn; lia]. destruct r as [|l' r']; [cbn; lia|]. destruct (_ =? _); [|cbn; lia].
    destruct (stoi _); try (cbn; lia). destruct (cplx_row _ _ _ _ _ _ _ _) as [fs []]; [cbn; lia|].
    cbn in Hk. specialize (IH r' ltac:(lia)). cbn. lia.
  Qed.
  Lemma rest_complex freq ls : length (rest (readComplexDisplacementSection stod small zero freq ls)) <= length ls.
  Proof.
    induction ls as [|l r IH]; cbn [readComplexDisplacementSection]; [reflexivity|].
    destruct (has COLUMNS l); [pose proof (rest_cplx freq _ r (le_n _)); cbn; lia|]. cbn. lia.
  Qed.
  Lemma scan_fuel f1 : forall f2 ls sub step freq st, length ls <= f1 -> length ls <= f2 -> scan f1 ls sub step freq st = scan f2 ls sub step freq st.
  Proof.
    induction f1 as [|f1 IH]; intros [|f2] [|l r] sub step freq st H1 H2; try reflexivity; try (cbn in *; lia). cbn in H1, H2.
    cbn [F06Model.scan]. destruct (match after SUBCASE (trim l) with Some _ => _ | None => _ end) as [[sub' step']| | |]; cbn [bind]; try reflexivity.
    repeat match goal with |- (if ?b then _ else _) = _ => destruct b end; try reflexivity.
    - destruct (add_section _ _ _ _ _ _); cbn [bind]; try reflexivity. unfold readDisplacementSection.
      match goal with |- context [disp_rows ?s (tl r)] => pose proof (rest_disp s (tl r)) end. assert (length (tl r) <= length r) by (destruct r; cbn; lia). apply IH; lia.
    - destruct (add_section _ _ _ _ _ _); cbn [bind]; try reflexivity. pose proof (rest_eigen r). apply IH; lia.
    - destruct (add_section _ _ _ _ _ _); cbn [bind]; try reflexivity.
      match goal with |- context [readComplexDisplacementSection _ _ _ ?s r] => pose proof (rest_complex s r) end. apply IH; lia.
    - apply IH; lia.
  Qed.

  Lemma scan_pages f ps rs : pages stod read small zero minus_one to_global f ps rs -> Forall (fun p => In (fst p) analyses) rs ->
    forall sub step st fuel, length (concat ps) <= fuel ->
    scan fuel (concat ps) sub step f st = Ok (mkState (kept st ++ flat_map (fun p => map (pair (fst p)) (snd p)) rs) (refs st ++ map fst rs)).
  Proof.
    induction 1 as [f|f ls n fs f' r rs (head & sl & between & step' & sec & -> & Hh & Hn & Hs & Hm & Hb) _ IH]; intros Ha sub step st fuel Hf; cbn [concat flat_map map].
    - rewrite !app_nil_r. destruct fuel, st; reflexivity.
    - inversion_clear Ha as [|? ? Hi Ha']. cbn [fst snd] in *.
      assert (Hsec : 1 <= length sec) by (destruct Hb; cbn; lia).
      cbn [concat] in Hf. rewrite !app_length in Hf. cbn in Hf. rewrite !app_length in Hf.
      set (m := length (concat r)) in *.
      rewrite (scan_fuel fuel (length head + S (length between + S (length sec + m)))).
      + rewrite <- app_assoc. rewrite scan_neutrals by exact Hh. cbn [app]. rewrite (scan_subcase _ n) by assumption.
        rewrite <- app_assoc. rewrite (scan_marks _ _ _ _ _ Hm).
        rewrite (scan_body _ _ _ _ Hb); [|exact Hi|destruct Hn; unfold NO_SUBCASE; lia].
        rewrite (IH Ha') by (unfold m; lia). cbn [kept refs]. now rewrite <- !app_assoc.
      + cbn [concat]. rewrite !app_length. cbn. rewrite !app_length. fold m. lia.
      + cbn [concat]. rewrite !app_length. cbn. rewrite !app_length. fold m. lia.
  Qed.
End Reading.

(** ** C113 *)

(** Every result of every page is in the set of the subcase of its page, with its load step
    or its frequency, in the order of the file, and nothing else; each analysis refers to its
    set.  Blank lines do not matter; strict mode neither.  (Missing for the whole claim:
    stresses; complex displacements are not taken to the global system.) *)
Theorem C113_pages_partial V stod read small (zero minus_one : V) to_global strict analyses ps rs file :
  pages stod read small zero minus_one to_global minus_one ps rs -> Forall (fun p => In (fst p) analyses) rs -> with_blanks file (concat ps) ->
  add_assertions stod read small zero minus_one to_global strict analyses file =
    Ok (mkState (flat_map (fun p => map (pair (fst p)) (snd p)) rs) (map fst rs)).
Proof.
  intros H Ha Hf. unfold add_assertions. rewrite (readable_blanks _ _ Hf). rewrite (scan_pages _ _ _ _ _ _ _ _ _ _ _ H Ha) by reflexivity. reflexivity.
Qed.

Section Sound.
  Context {V : Type} (stod : str -> outcome V) (read : str -> V) (small : V -> bool) (zero minus_one : V).
  Context (to_global : Z -> outcome (V * V * V -> V * V * V)) (strict : bool) (analyses : list Z).
  Notation fact := (fact V).

  (** What the file [ls] must have for a fact to be told. *)
  Definition component (i : nat) (a b : V * V * V) : option V :=
    nth_error [fst (fst a); snd (fst a); snd a; fst (fst b); snd (fst b); snd b] i.
  Definition backed (ls : list str) (f : fact) : Prop :=
    match f with
    | Disp n i v _ => exists l id a b c d e f' a' b' c' d' e' f'' g x, In l ls /\ words l = [id; txt "G"; a; b; c; d; e; f'] /\ stoi id = Ok n /\
        stod a = Ok a' /\ stod b = Ok b' /\ stod c = Ok c' /\ stod d = Ok d' /\ stod e = Ok e' /\ stod f' = Ok f'' /\ to_global n = Ok g /\
        component i (g (a', b', c')) (g (d', e', f'')) = Some x /\ v = cleaned small zero x
    | Mode n cy ev ma st => exists l no o ev' ra cy' ma' st' x, In l ls /\ words l = [no; o; ev'; ra; cy'; ma'; st'] /\ stoi no = Ok n /\
        stod ev' = Ok ev /\ stod cy' = Ok x /\ cy = cleaned small zero x /\ stod ma' = Ok ma /\ stod st' = Ok st
    | Cplx n i re im _ => exists l l' a b x y, In l ls /\ In l' ls /\ length (words l) = 9 /\ length (words l') = 6 /\ stoi (nth 1 (words l) []) = Ok n /\
        nth_error (skipn 3 (words l)) i = Some a /\ nth_error (words l') i = Some b /\ stod a = Ok x /\ stod b = Ok y /\
        re = cleaned small zero x /\ im = cleaned small zero y
    end.
  Lemma backed_incl ls ls' f : incl ls ls' -> backed ls f -> backed ls' f.
  Proof.
    intros H. destruct f; cbn; intros Hb.
    - destruct Hb as (l & id & a & b & c & d0 & e & f' & a' & b' & c' & d' & e' & f'' & g & x & Hl & Hb). repeat eexists; [apply H; exact Hl|..]; apply Hb.
    - destruct Hb as (l & no & o & ev' & ra & cy' & ma' & st' & x & Hl & Hb). repeat eexists; [apply H; exact Hl|..]; apply Hb.
    - destruct Hb as (l & l' & a & b & x & y & Hl & Hl' & Hb). exists l, l', a, b, x, y. split; [now apply H|]. split; [now apply H|exact Hb].
  Qed.
  Lemma backed_cons l ls fs : Forall (backed ls) fs -> Forall (backed (l :: ls)) fs.
  Proof. apply Forall_impl. intros f. apply backed_incl. intros x Hx. now right. Qed.

  Lemma disp_row_backed step l r id ty a b c d e f fs : words l = [id; ty; a; b; c; d; e; f] ->
    disp_row stod small zero to_global step id ty a b c d e f = Ok fs -> Forall (backed (l :: r)) fs.
  Proof.
    intros Hw. unfold disp_row. destruct (stoi id) as [n| | |] eqn:En; cbn [bind]; try discriminate.
    destruct (str_eqb_spec ty (txt "G")) as [->|_]; cbn [negb]; [|intros H; injection H as <-; constructor].
    destruct (stod a) as [a'| | |] eqn:Ea; cbn [bind]; try discriminate. destruct (stod b) as [b'| | |] eqn:Eb; cbn [bind]; try discriminate.
    destruct (stod c) as [c'| | |] eqn:Ec; cbn [bind]; try discriminate. destruct (stod d) as [d'| | |] eqn:Ed; cbn [bind]; try discriminate.
    destruct (stod e) as [e'| | |] eqn:Ee; cbn [bind]; try discriminate. destruct (stod f) as [f'| | |] eqn:Ef; cbn [bind]; try discriminate.
    destruct (to_global n) as [g| | |] eqn:Eg; cbn [bind]; try discriminate.
    destruct (g (a', b', c')) as [[x y] z] eqn:E1. destruct (g (d', e', f')) as [[u v] w] eqn:E2. intros H. injection H as <-.
    cbn [numbered].
    repeat constructor; cbn [backed]; exists l, id, a, b, c, d, e, f, a', b', c', d', e', f', g; rewrite E1, E2; cbn [component fst snd nth_error]; eexists;
      (split; [now left|]); repeat (split; [first [eassumption|reflexivity]|]); reflexivity.
  Qed.
  Lemma disp_backed step ls : Forall (backed ls) (found (disp_rows stod small zero to_global step ls)) /\ incl (rest (disp_rows stod small zero to_global step ls)) ls.
  Proof.
    induction ls as [|l r [IH IH']]; cbn [disp_rows]; [split; [constructor|intros x []]|].
    assert (T : incl r (l :: r)) by (intros x Hx; now right).
    destruct (has _ l); [split; [now apply backed_cons|eapply incl_tran; eassumption]|].
    destruct (after SUBCASE l); [unfold ended_by; destruct (parseSubcase _ _); (split; [constructor|exact T])|].
    destruct (negb _); [split; [constructor|exact T]|].
    destruct (words l) as [|? [|? [|? [|? [|? [|? [|? [|? [|]]]]]]]]] eqn:Ew; try (split; [constructor|exact T]).
    destruct (disp_row _ _ _ _ _ _ _ _ _ _ _ _ _) eqn:Er; try (split; [constructor|exact T]).
    cbn [more found rest]. split; [|eapply incl_tran; eassumption]. apply Forall_app. split; [|now apply backed_cons].
    eapply disp_row_backed; eassumption.
  Qed.
  Lemma mode_backed ls : Forall (backed ls) (found (mode_rows stod small zero ls)) /\ incl (rest (mode_rows stod small zero ls)) ls.
  Proof.
    induction ls as [|l r [IH IH']]; cbn [mode_rows]; [split; [constructor|intros x []]|].
    assert (T : incl r (l :: r)) by (intros x Hx; now right).
    destruct (after SUBCASE l); [unfold ended_by; destruct (parseSubcase _ _); (split; [constructor|exact T])|].
    destruct (words l) as [|no [|o [|ev [|ra [|cy [|ma [|st [|]]]]]]]] eqn:Ew; try (split; [constructor|exact T]).
    destruct (mode_row _ _ _ _ _ _ _ _) eqn:Er; try (split; [constructor|exact T]).
    cbn [more found rest app]. split; [|eapply incl_tran; eassumption]. constructor; [|now apply backed_cons].
    unfold mode_row in Er. destruct (stoi no) as [n| | |] eqn:En; cbn [bind] in Er; try discriminate.
    destruct (stod ev) as [ev'| | |] eqn:E1; cbn [bind] in Er; try discriminate. destruct (stod cy) as [cy'| | |] eqn:E2; cbn [bind] in Er; try discriminate.
    destruct (stod ma) as [ma'| | |] eqn:E3; cbn [bind] in Er; try discriminate. destruct (stod st) as [st'| | |] eqn:E4; cbn [bind] in Er; try discriminate.
    injection Er as <-. exists l, no, o, ev, ra, cy, ma, st, cy'. repeat split; try assumption. now left.
  Qed.
  Lemma eigen_backed ls : Forall (backed ls) (found (readEigenvalueSection stod small zero ls)) /\ incl (rest (readEigenvalueSection stod small zero ls)) ls.
  Proof.
    induction ls as [|l r [IH IH']]; cbn [readEigenvalueSection]; [apply mode_backed|].
    assert (T : incl r (l :: r)) by (intros x Hx; now right).
    destruct (has (txt "ORDER") l); [destruct (mode_backed r); split; [now apply backed_cons|eapply incl_tran; eassumption]|].
    destruct (_ || _); [split; [constructor|exact T]|]. split; [now apply backed_cons|eapply incl_tran; eassumption].
  Qed.
  Lemma cplx_row_backed freq n re : forall im k, Forall (fun f => exists i a b x y, f = Cplx n (k + i) (cleaned small zero x) (cleaned small zero y) freq /\
    nth_error re i = Some a /\ nth_error im i = Some b /\ stod a = Ok x /\ stod b = Ok y) (fst (cplx_row stod small zero freq n k re im)).
  Proof.
    induction re as [|a re IH]; intros im k; [constructor|]. destruct im as [|b im]; [constructor|]. cbn [cplx_row].
    destruct (stod a) as [x| | |] eqn:Ea; try constructor. destruct (stod b) as [y| | |] eqn:Eb; try constructor.
    specialize (IH im (S k)). destruct (cplx_row _ _ _ _ _ _ _ _) as [fs e]. cbn [fst] in *. constructor.
    - exists 0, a, b, x, y. rewrite Nat.add_0_r. now repeat split.
    - revert IH. apply Forall_impl. intros f (i & a' & b' & x' & y' & -> & H). exists (S i), a', b', x', y'. rewrite Nat.add_succ_r. now split.
  Qed.
  Lemma cplx_backed freq k : forall ls, length ls <= k ->
    Forall (backed ls) (found (cplx_rows stod small zero freq ls)) /\ incl (rest (cplx_rows stod small zero freq ls)) ls.
  Proof.
    induction k as [|k IH]; intros [|l r] Hk; try (cbn in *; lia); try (split; [constructor|intros x []]). cbn [cplx_rows].
    assert (T : incl r (l :: r)) by (intros x Hx; now right).
    destruct (after SUBCASE l); [unfold ended_by; destruct (parseSubcase _ _); (split; [constructor|exact T])|].
    destruct (Nat.eqb_spec (length (words l)) 9) as [E9|]; [|split; [constructor|exact T]].
    destruct r as [|l' r']; [split; [constructor|exact T]|].
    assert (T' : incl r' (l :: l' :: r')) by (intros x Hx; right; now right).
    destruct (Nat.eqb_spec (length (words l')) 6) as [E6|]; [|split; [constructor|exact T']].
    destruct (stoi _) as [n| | |] eqn:En; try (split; [constructor|exact T']).
    pose proof (cplx_row_backed freq n (skipn 3 (words l)) (words l') 0) as Hb.
    destruct (cplx_row _ _ _ _ _ _ _ _) as [fs e]. cbn [fst] in Hb.
    assert (Hb' : Forall (backed (l :: l' :: r')) fs).
    { revert Hb. apply Forall_impl. intros f (i & a & b & x & y & -> & H1 & H2 & H3 & H4). exists l, l', a, b, x, y.
      repeat split; try assumption; [now left|right; now left]. }
    destruct e; [split; [exact Hb'|exact T']|]. cbn in Hk. destruct (IH r' ltac:(lia)) as [H1 H2]. cbn [more found rest].
    split; [|eapply incl_tran; eassumption]. apply Forall_app. split; [exact Hb'|]. now apply backed_cons, backed_cons.
  Qed.
  Lemma complex_backed freq ls : Forall (backed ls) (found (readComplexDisplacementSection stod small zero freq ls)) /\
    incl (rest (readComplexDisplacementSection stod small zero freq ls)) ls.
  Proof.
    induction ls as [|l r [IH IH']]; cbn [readComplexDisplacementSection]; [apply (cplx_backed freq 0); reflexivity|].
    destruct (has COLUMNS l); [destruct (cplx_backed freq _ r (le_n _)) as [IH1 IH2]; clear IH IH'|].
    all: split; [apply backed_cons; assumption|eapply incl_tran; [eassumption|intros x Hx; now right]].
  Qed.

  Definition sound (ls : list str) (st : state (V := V)) : Prop :=
    Forall (fun a => backed ls (snd a) /\ (fst a = NO_SUBCASE \/ In (fst a) analyses)) (kept st) /\ Forall (fun n => In n analyses) (refs st).
  Lemma add_sound k sub s st st' ls : Forall (backed ls) (found s) -> add_section strict analyses k sub s st = Ok st' -> sound ls st -> sound ls st'.
  Proof.
    intros Hf H [H1 H2]. unfold add_section in H. destruct (_ && _); [discriminate|].
    assert (K : (sub = NO_SUBCASE \/ In sub analyses) -> sound ls (keep sub s st)).
    { intros Hs. split; cbn [keep kept refs].
      - apply Forall_app. split; [exact H1|]. apply Forall_forall. intros a Ha. apply in_map_iff in Ha as (f & <- & Hin). cbn [fst snd].
        split; [|exact Hs]. rewrite Forall_forall in Hf. now apply Hf.
      - destruct (Z.eqb_spec sub NO_SUBCASE); [exact H2|]. apply Forall_app. split; [exact H2|]. constructor; [|constructor]. destruct Hs; [contradiction|assumption]. }
    destruct (Z.eqb_spec sub NO_SUBCASE) as [E|E].
    - assert (D : st' = st \/ st' = keep sub s st).
      { clear - H. destruct k, analyses; try discriminate; injection H as <-; tauto. }
      destruct D as [-> | ->]; [split; assumption|]. apply K. now left.
    - destruct (has_analysis analyses sub) eqn:Ea; [injection H as <-; apply K; right|destruct k; try discriminate; injection H as <-; split; assumption].
      apply existsb_exists in Ea as (x & Hx & Ex). apply Z.eqb_eq in Ex. now subst.
  Qed.
  Lemma add_fuel k sub s (st : state (V := V)) : add_section strict analyses k sub s st <> NoFuel.
  Proof. unfold add_section. destruct (_ && _); [discriminate|]. destruct (_ =? _)%Z; [destruct k, analyses; discriminate|]. destruct (has_analysis _ _); [discriminate|]. destruct k; discriminate. Qed.

  Lemma stoi_fuel l : stoi l <> NoFuel.
  Proof. unfold stoi. repeat match goal with |- context [match ?x with _ => _ end] => destruct x end; discriminate. Qed.
  Lemma scan_sound ls0 fuel : forall ls sub step freq st, length ls <= fuel -> incl ls ls0 -> sound ls0 st ->
    scan stod read small zero minus_one to_global strict analyses fuel ls sub step freq st <> NoFuel /\
    forall st', scan stod read small zero minus_one to_global strict analyses fuel ls sub step freq st = Ok st' -> sound ls0 st'.
  Proof.
    induction fuel as [|fuel IH]; intros [|l r] sub step freq st Hf Hi Hs; try (cbn in Hf; lia); try (split; [discriminate|intros st' H; injection H as <-; exact Hs]).
    cbn in Hf. assert (Hr : incl r ls0) by (intros x Hx; apply Hi; now right).
    cbn [scan]. destruct (match after SUBCASE (trim l) with Some _ => _ | None => _ end) as [[sub' step']| | |] eqn:E; cbn [bind]; try (split; [discriminate|intros; discriminate]).
    2:{ exfalso. destruct (after SUBCASE (trim l)) as [s|]; [|discriminate]. unfold parseSubcase in E. destruct (forallb _ _); [|discriminate].
        destruct (null _); [discriminate|]. pose proof (stoi_fuel (trim s)). destruct (stoi (trim s)); try discriminate. congruence. }
    match goal with |- context [readDisplacementSection _ _ _ _ ?a _] => set (step2 := a) end.
    match goal with |- context [readComplexDisplacementSection _ _ _ ?a _] => set (freq2 := a) end.
    assert (Go : forall k s, length (rest s) <= length r -> Forall (backed ls0) (found s) -> incl (rest s) ls0 ->
      (do st0 <- add_section strict analyses k sub' s st; scan stod read small zero minus_one to_global strict analyses fuel (rest s) (next s) step2 freq2 st0) <> NoFuel /\
      forall st', (do st0 <- add_section strict analyses k sub' s st; scan stod read small zero minus_one to_global strict analyses fuel (rest s) (next s) step2 freq2 st0) = Ok st' -> sound ls0 st').
    { intros k s H1 H2 H3. destruct (add_section strict analyses k sub' s st) as [st1| | |] eqn:Ea; cbn [bind]; try (split; [discriminate|intros; discriminate]).
      - apply IH; [lia|exact H3|]. eapply add_sound; eassumption.
      - exfalso. revert Ea. apply add_fuel. }
    destruct (str_eqb _ DISPLACEMENTS); [|destruct (str_eqb _ EIGENVALUES); [|destruct (str_eqb _ COMPLEX); [|destruct (is_stress _)]]].
    - cbn zeta. unfold readDisplacementSection. assert (Ht : incl (tl r) ls0) by (intros x Hx; apply Hr; destruct r; [destruct Hx|now right]).
      destruct (disp_backed step2 (tl r)) as [H1 H2]. apply Go.
      + pose proof (rest_disp stod small zero to_global step2 (tl r)). assert (length (tl r) <= length r) by (destruct r; cbn; lia). lia.
      + revert H1. apply Forall_impl. intros f. now apply backed_incl.
      + eapply incl_tran; eassumption.
    - cbn zeta. destruct (eigen_backed r) as [H1 H2]. apply Go; [apply rest_eigen|revert H1; apply Forall_impl; intros f; now apply backed_incl|eapply incl_tran; eassumption].
    - cbn zeta. destruct (complex_backed freq2 r) as [H1 H2]. apply Go; [apply rest_complex|revert H1; apply Forall_impl; intros f; now apply backed_incl|eapply incl_tran; eassumption].
    - split; [discriminate|intros; discriminate].
    - apply IH; [lia|exact Hr|exact Hs].
  Qed.
End Sound.

(** Whatever the file, the reading ends; every result told is the one a line of the file
    gives, and goes to the common set or to that of an analysis of the model. *)
Theorem C113_sound V stod read small (zero minus_one : V) to_global strict analyses file :
  add_assertions stod read small zero minus_one to_global strict analyses file <> NoFuel /\
  forall st, add_assertions stod read small zero minus_one to_global strict analyses file = Ok st ->
    Forall (fun a => backed stod small zero to_global file (snd a) /\ (fst a = NO_SUBCASE \/ In (fst a) analyses)) (kept st) /\
    Forall (fun n => In n analyses) (refs st).
Proof.
  unfold add_assertions. apply scan_sound; [reflexivity|intros x Hx; now apply filter_In in Hx|split; constructor].
Qed.

(** The word SUBCASE without a number leaves the subcase as it is. *)
Theorem C113_bare_subcase V stod read small (zero minus_one : V) to_global strict analyses a d file :
  ~ In "S"%char a -> ~ In "L"%char a -> ~ In "F"%char a ->
  add_assertions stod read small zero minus_one to_global strict analyses ((a ++ txt "SUBCASE" ++ spaces d) :: file) =
  add_assertions stod read small zero minus_one to_global strict analyses file.
Proof.
  intros HS HL HF. set (l := a ++ txt "SUBCASE" ++ spaces d).
  assert (Hw : solid (txt "E")) by (repeat split; discriminate).
  assert (E : trim l = dropWhile is_space a ++ txt "SUBCASE").
  { exact (trim_mark a "S" (txt "UBCAS") [] (txt "E") (spaces d) eq_refl Hw (is_space_spaces d)). }
  assert (No : forall c, ~ In c a -> ~ In c (txt "SUBCASE") -> ~ In c (dropWhile is_space a ++ txt "SUBCASE")).
  { intros c Ha Hp. rewrite in_app_iff. intros [Hi|Hi]; [now apply Ha, (dropWhile_in is_space)|tauto]. }
  assert (NL : ~ In "L"%char (dropWhile is_space a ++ txt "SUBCASE")) by (apply No; [exact HL|cbn; intuition discriminate]).
  unfold add_assertions. assert (Er : readable (l :: file) = l :: readable file).
  { unfold readable. cbn [filter]. rewrite E. destruct (dropWhile is_space a); reflexivity. }
  rewrite Er. cbn [length scan]. rewrite E. unfold SUBCASE at 1.
  replace (after (txt "SUBCASE") _) with (Some (@nil ascii));
    [|symmetry; rewrite <- (app_nil_r (txt "SUBCASE")) at 2; apply (after_found (dropWhile is_space a) "S" (txt "UBCASE")); intros Hi; now apply HS, (dropWhile_in is_space)].
  cbn [parseSubcase trim bind].
  rewrite (after_char "L" _ (txt "LOAD STEP = ")); [|cbn; tauto|exact NL].
  rewrite (after_char "F" _ (txt "FREQUENCY = ")); [|cbn; tauto|apply No; [exact HF|cbn; intuition discriminate]].
  rewrite (eqb_char "L" _ DISPLACEMENTS), (eqb_char "L" _ EIGENVALUES), (eqb_char "L" _ COMPLEX), (stress_char "L"); try exact NL; try (cbn; tauto).
Qed.
(** ** A file *)

Definition ex_read (l : str) : decimal := match lexical_double l with Ok d => d | _ => (0, 0)%Z end.
(** Less than 1e-12: written with so small an exponent, or 0. *)
Definition ex_small (d : decimal) : bool := (fst d =? 0)%Z || (snd d <? -18)%Z.
(** The node 7 has its displacements along y, -x. *)
Definition ex_global (n : Z) : outcome (decimal * decimal * decimal -> decimal * decimal * decimal) :=
  if (n =? 7)%Z then Ok (fun v => let '(x, y, z) := v in (((- fst y)%Z, snd y), x, z))
  else if (n <? 10)%Z then Ok (fun v => v) else Throw.
Definition ex_add strict analyses file :=
  add_assertions lexical_double ex_read ex_small (0, 0)%Z (-1, 0)%Z ex_global strict analyses (map txt file).

(** A file of two pages: displacements with a load step, then modes. *)
Definition ex_file : list string :=
  ["1    BEAM                                    PAGE  10"; "";
   "0                                           SUBCASE 2"; " "; "      LOAD STEP =  5.0E-01";
   "                D I S P L A C E M E N T   V E C T O R"; "      POINT ID.   TYPE    T1   T2   T3   R1   R2   R3";
   "             3      G      1.5   -2.0E-03   0.0   0.0   1.0E-25   2.0";
   "             7      G      1.0   2.0   3.0   4.0   5.0   6.0";
   "             4      S      1.0   2.0   3.0   4.0   5.0   6.0";
   "1    BEAM                                    PAGE  11"; "0                                           SUBCASE 3";
   "                R E A L   E I G E N V A L U E S"; "   MODE    EXTRACTION      EIGENVALUE"; "    NO.       ORDER";
   "    1   1   4.0   2.0   0.318   1.0   4.0"; "1    BEAM                                    PAGE  12"]%string.
Example C113_case : ex_add true [2; 3]%Z ex_file = Ok (mkState
  [(2, Disp 3 0 (15, -1) (50, -2)); (2, Disp 3 1 (-20, -4) (50, -2)); (2, Disp 3 2 (0, 0) (50, -2));
   (2, Disp 3 3 (0, 0) (50, -2)); (2, Disp 3 4 (0, 0) (50, -2)); (2, Disp 3 5 (20, -1) (50, -2));
   (2, Disp 7 0 (-20, -1) (50, -2)); (2, Disp 7 1 (10, -1) (50, -2)); (2, Disp 7 2 (30, -1) (50, -2));
   (2, Disp 7 3 (-50, -1) (50, -2)); (2, Disp 7 4 (40, -1) (50, -2)); (2, Disp 7 5 (60, -1) (50, -2));
   (3, Mode 1 (318, -3) (40, -1) (10, -1) (40, -1))]%Z [2; 3]%Z).
Proof. vm_compute. reflexivity. Qed.

Example C113_bare_case : ex_add true [2; 3]%Z ("0         SUBCASE  "%string :: ex_file) = ex_add true [2; 3]%Z ex_file.
Proof. apply (C113_bare_subcase decimal lexical_double ex_read ex_small (0, 0)%Z (-1, 0)%Z ex_global true [2; 3]%Z (txt "0         ") 2); cbn; intuition discriminate. Qed.

(** The first page of that file is as the theorem wants. *)
Ltac absent := apply has_false; vm_compute; reflexivity.
Ltac untitled := let H := fresh in intros H; first [apply title_disp in H|apply title_mode in H|apply title_cplx in H]; vm_compute in H; discriminate H.
Ltac quiet := repeat split; first [absent|untitled].
Example C113_page_case : page lexical_double ex_read ex_small (0, 0)%Z (-1, 0)%Z ex_global (-1, 0)%Z
  (map txt ["1    BEAM                                    PAGE  10";
   "0                                           SUBCASE 2"; "      LOAD STEP =  5.0E-01";
   "                D I S P L A C E M E N T   V E C T O R"; "      POINT ID.   TYPE    T1   T2   T3   R1   R2   R3";
   "             7      G      1.0   2.0   3.0   4.0   5.0   6.0"; "1    BEAM                                    PAGE  11"]%string)
  2 [Disp 7 0 (-20, -1) (50, -2); Disp 7 1 (10, -1) (50, -2); Disp 7 2 (30, -1) (50, -2);
     Disp 7 3 (-50, -1) (50, -2); Disp 7 4 (40, -1) (50, -2); Disp 7 5 (60, -1) (50, -2)]%Z (-1, 0)%Z.
Proof.
  exists [txt "1    BEAM                                    PAGE  10"], (txt "0                                           SUBCASE 2"),
    [txt "      LOAD STEP =  5.0E-01"], (50, -2)%Z.
  exists (map txt ["                D I S P L A C E M E N T   V E C T O R"; "      POINT ID.   TYPE    T1   T2   T3   R1   R2   R3";
   "             7      G      1.0   2.0   3.0   4.0   5.0   6.0"; "1    BEAM                                    PAGE  11"]%string).
  split; [reflexivity|]. split; [constructor; [quiet|constructor]|]. split; [split; discriminate|]. split; [|split].
  - exists (txt "0                                           "), 1, 0. split; [reflexivity|].
    repeat split; apply contains_false; reflexivity.
  - apply (marks_step _ _ _ (txt "5.0E-01")); [split; [discriminate|reflexivity]|reflexivity|exists 6, 1, 0; reflexivity|apply marks_nil].
  - apply (body_disp _ _ _ _ _ _ _ _ [txt "             7      G      1.0   2.0   3.0   4.0   5.0   6.0"]
      [[Disp 7 0 (-20, -1) (50, -2); Disp 7 1 (10, -1) (50, -2); Disp 7 2 (30, -1) (50, -2);
        Disp 7 3 (-50, -1) (50, -2); Disp 7 4 (40, -1) (50, -2); Disp 7 5 (60, -1) (50, -2)]%Z]).
    + exists (spaces 16), []. repeat split.
    + constructor; [|constructor]. left. exists 7%Z, (map txt ["1.0"; "2.0"; "3.0"; "4.0"; "5.0"; "6.0"]%string).
      exists (10, -1)%Z, (20, -1)%Z, (30, -1)%Z, (40, -1)%Z, (50, -1)%Z, (60, -1)%Z.
      eexists. do 6 eexists. split; [split; discriminate|]. split; [|split; [|split; [reflexivity|]]].
      * exists [(13, txt "7"); (6, txt "G"); (6, txt "1.0"); (3, txt "2.0"); (3, txt "3.0"); (3, txt "4.0"); (3, txt "5.0"); (3, txt "6.0")], 0.
        split; [reflexivity|]. split; [reflexivity|]. split; [|intros _; repeat constructor].
        split; repeat constructor; discriminate.
      * repeat constructor; discriminate.
      * split; [reflexivity|]. split; reflexivity.
    + absent.
    + absent.
    + left. reflexivity.
Qed.

(** ** What is not so *)

Definition D3 := "             3      G      1.0   2.0   3.0   4.0   5.0   6.0"%string.
Definition title := "                D I S P L A C E M E N T   V E C T O R"%string.
Definition ctitle := "                C O M P L E X   D I S P L A C E M E N T   V E C T O R"%string.
Definition columns := "      POINT ID.   TYPE          T1             T2             T3             R1             R2             R3"%string.
Definition sets (o : outcome (state (V := decimal))) : list (Z * nat) :=
  match o with Ok st => map (fun a => (fst a, match snd a with Disp _ i _ _ => i | Mode _ _ _ _ _ => 0 | Cplx _ i _ _ _ => i end)) (kept st) | _ => [] end.

(** A result is not always given to the subcase announced last: the second section under
    one subcase goes to the set of every analysis. *)
Theorem C113_second_section_refuted : exists file,
  (forall l, In l file -> forall n, subcase_line n (txt l) -> n = 2%Z) /\
  exists st f, ex_add false [1; 2]%Z file = Ok st /\ In (NO_SUBCASE, f) (kept st).
Proof.
  exists ["0            SUBCASE 2"; title; columns; D3; "1    PAGE 11"; title; columns; D3]%string. split.
  - intros l Hl n (a & b & d & E & Ha & _ & _).
    assert (P : after SUBCASE (txt l) = Some (spaces b ++ int_text n ++ spaces d)).
    { rewrite E. now apply (after_found a "S" (txt "UBCASE")). }
    assert (F : after SUBCASE (txt l) = None \/ after SUBCASE (txt l) = Some (txt " 2")).
    { clear - Hl. cbn [In] in Hl. repeat (destruct Hl as [Hl|Hl]); try contradiction; subst l; vm_compute; tauto. }
    rewrite P in F. clear - F. destruct F as [F|P]; [discriminate|]. injection P as P.
    destruct b as [|[|b]]; cbn in P.
    + unfold int_text in P. destruct (Z.ltb_spec n 0); [cbn in P; discriminate|].
      destruct (nat_text_spec n) as (H1 & _ & H2); [lia|]. destruct (nat_text n) as [|c t]; [congruence|]. cbn in P. injection P as P _. subst c. discriminate H1.
    + unfold int_text in P. injection P as P. destruct (Z.ltb_spec n 0); [cbn in P; discriminate|].
      destruct (nat_text_spec n) as (H1 & H3 & H2); [lia|]. destruct (nat_text n) as [|c [|c' t]]; [congruence| |].
      * cbn in P. injection P as P _. subst c. vm_compute in H3. now subst.
      * cbn in P. injection P as _ P. discriminate.
    + discriminate P.
  - eexists _, _. split; [vm_compute; reflexivity|]. vm_compute. do 6 right. left. reflexivity.
Qed.

(** The load step of one subcase is given to the next, which has none, when the section
    ends at the line of the subcase. *)
Theorem C113_step_refuted :
  ex_add false [1; 2]%Z ["0        SUBCASE 1"; " LOAD STEP = 5.0E-01"; title; columns; "0        SUBCASE 2"; title; columns; D3]%string =
  Ok (mkState [(2, Disp 3 0 (10, -1) (50, -2)); (2, Disp 3 1 (20, -1) (50, -2)); (2, Disp 3 2 (30, -1) (50, -2));
               (2, Disp 3 3 (40, -1) (50, -2)); (2, Disp 3 4 (50, -1) (50, -2)); (2, Disp 3 5 (60, -1) (50, -2))]%Z [1; 2]%Z).
Proof. vm_compute. reflexivity. Qed.

(** A subcase that the model has not makes the program read through a null pointer, whatever
    the displacements. *)
Theorem C113_unknown_subcase_refuted V stod read small (zero minus_one : V) to_global strict analyses n rows :
  a_node n -> ~ In n analyses -> (strict = true -> failed (disp_rows stod small zero to_global minus_one (readable rows)) = false) ->
  add_assertions stod read small zero minus_one to_global strict analyses
    ((txt "SUBCASE " ++ int_text n) :: txt title :: txt columns :: rows) = UB.
Proof.
  intros Hn Hi Hs. unfold add_assertions.
  assert (Hsub : subcase_line n (txt "SUBCASE " ++ int_text n)).
  { exists [], 1, 0. split; [cbn; now rewrite app_nil_r|]. repeat split; intros []. }
  assert (E : readable ((txt "SUBCASE " ++ int_text n) :: txt title :: txt columns :: rows) =
    (txt "SUBCASE " ++ int_text n) :: txt title :: txt columns :: readable rows).
  { unfold readable. cbn [filter]. destruct (trim (txt "SUBCASE " ++ int_text n)) eqn:E; [|reflexivity].
    apply trim_nil_iff in E. cbn in E. discriminate. }
  rewrite E. cbn [length]. rewrite (scan_subcase _ _ _ _ _ _ _ _ _ n) by assumption. cbn [scan].
  change (trim (txt title)) with DISPLACEMENTS. change (after SUBCASE DISPLACEMENTS) with (@None str).
  change (after (txt "LOAD STEP = ") DISPLACEMENTS) with (@None str). cbn [bind]. change (str_eqb DISPLACEMENTS DISPLACEMENTS) with true. cbn iota.
  unfold readDisplacementSection. cbn [tl]. unfold add_section at 1.
  replace (failed _ && strict) with false by (destruct strict; [rewrite Hs; reflexivity|now rewrite andb_false_r]).
  destruct (Z.eqb_spec n NO_SUBCASE) as [->|_]; [unfold a_node, NO_SUBCASE in Hn; lia|].
  destruct (has_analysis analyses n) eqn:Ea; [|reflexivity]. apply existsb_exists in Ea as (x & Hx & Ex). apply Z.eqb_eq in Ex. now subst.
Qed.

(** A page header of nine words after complex displacements hides the line of the subcase
    that follows it. *)
Theorem C113_header_refuted :
  sets (ex_add false [1; 2]%Z ["0        SUBCASE 1"; ctitle; columns; "1  BEAM MODEL  JULY 16, 2013 NASTRAN PAGE 11";
    "0        SUBCASE 2"; title; columns; D3]%string) =
  [(NO_SUBCASE, 0); (NO_SUBCASE, 1); (NO_SUBCASE, 2); (NO_SUBCASE, 3); (NO_SUBCASE, 4); (NO_SUBCASE, 5)].
Proof. vm_compute. reflexivity. Qed.

(** The same numbers at the same node: real displacements are taken to the global system,
    complex ones are not. *)
Theorem C113_complex_refuted : exists n row row' re im re' im',
  ex_add false [1]%Z ["0        SUBCASE 1"; title; columns; row; "1  PAGE 11"; "0        SUBCASE 1"; " FREQUENCY = 1.0"; ctitle; columns; row'; "1.0 2.0 3.0 4.0 5.0 6.0"]%string
    = Ok (mkState (map (pair 1%Z) (re ++ im)) [1; 1]%Z) /\
  hd_error re = Some (Disp n 0 re' (-1, 0)%Z) /\ hd_error im = Some (Cplx n 0 im' im' (10, -1)%Z) /\ re' <> im'.
Proof.
  exists 7%Z, "     7   G   1.0 2.0 3.0 4.0 5.0 6.0"%string, "0    7   G   1.0 2.0 3.0 4.0 5.0 6.0"%string.
  eexists [_; _; _; _; _; _], [_; _; _; _; _; _], _, _. split; [vm_compute; reflexivity|]. split; [reflexivity|]. split; [reflexivity|discriminate].
Qed.

Print Assumptions C113_pages_partial.
Print Assumptions C113_sound.
Print Assumptions C113_bare_subcase.
Print Assumptions C113_second_section_refuted.
Print Assumptions C113_step_refuted.
Print Assumptions C113_unknown_subcase_refuted.
Print Assumptions C113_header_refuted.
Print Assumptions C113_complex_refuted.
