(** Lemmas on the INCLUDE command. *)
From Coq Require Import Ascii String List Bool Arith Lia.
From Verif Require Import Base TextModel OptionsModel OptionsProofs IncludeModel.
Import ListNotations.
Open Scope list_scope.

(** ** Specification: every INCLUDE stands for the commands of its file, read from there. *)
Inductive reads (fs : files) : str -> list command -> list event -> Prop :=
| reads_nil p : reads fs p [] []
| reads_card p t r e : reads fs p r e -> reads fs p (Card t :: r) (Read t :: e)
| reads_missing p t r e : fs (includePath p t) = None -> reads fs p r e ->
    reads fs p (Include t :: r) (Missing (includePath p t) :: e)
| reads_include p t inner es r e : fs (includePath p t) = Some inner -> reads fs (includePath p t) inner es ->
    reads fs p r e -> reads fs p (Include t :: r) (es ++ e).
Definition nothing_missing (es : list event) : Prop := forall p, ~ In (Missing p) es.
(** [q] exists and is included by [p], at once or through other files. *)
Inductive reaches (fs : files) : str -> str -> Prop :=
| reaches_one p cmds t : fs p = Some cmds -> In (Include t) cmds -> fs (includePath p t) <> None -> reaches fs p (includePath p t)
| reaches_more p q r : reaches fs p q -> reaches fs q r -> reaches fs p r.

(** One command. *)
Definition step f mode fs current (c : command) : outcome (list event) :=
  match c with
  | Card t => Ok [Read t]
  | Include rest =>
    match fs (includePath current rest) with
    | Some inner => parseBulk f mode fs (includePath current rest) inner
    | None => match mode with Strict => Throw | _ => Ok [Missing (includePath current rest)] end
    end
  end.
Lemma parse_S f mode fs p cmds : parseBulk (S f) mode fs p cmds = do events <- mapM (step f mode fs p) cmds; Ok (concat events).
Proof. reflexivity. Qed.
Lemma parse_nil f mode fs p : parseBulk (S f) mode fs p [] = Ok [].
Proof. reflexivity. Qed.
Lemma parse_cons f mode fs p c cmds es : parseBulk (S f) mode fs p (c :: cmds) = Ok es <->
  exists a b, step f mode fs p c = Ok a /\ parseBulk (S f) mode fs p cmds = Ok b /\ es = a ++ b.
Proof.
  rewrite !parse_S. cbn [mapM]. destruct (step f mode fs p c) as [a| | |]; cbn [bind];
    [|split; [discriminate|intros (? & ? & ? & _); discriminate]..].
  destruct (mapM (step f mode fs p) cmds) as [l| | |]; cbn [bind];
    [|split; [discriminate|intros (? & ? & _ & ? & _); discriminate]..].
  split.
  - intros H. injection H as <-. exists a, (concat l). repeat split.
  - intros (x & y & Hx & Hy & ->). injection Hx as <-. injection Hy as <-. reflexivity.
Qed.

Lemma parse_more f : forall g mode fs p cmds es, f <= g -> parseBulk f mode fs p cmds = Ok es -> parseBulk g mode fs p cmds = Ok es.
Proof.
  induction f as [|f IH]; intros g mode fs p cmds es L H; [discriminate H|]. destruct g as [|g]; [lia|].
  revert es H. induction cmds as [|c cmds IHc]; intros es H; [exact H|].
  apply parse_cons in H as (a & b & A & B & ->). apply parse_cons. exists a, b. split; [|split; [now apply IHc|reflexivity]].
  destruct c as [t|t]; [exact A|]. cbn in A |- *. destruct (fs (includePath p t)); [|exact A]. apply IH; [lia|exact A].
Qed.

Lemma parse_reads f : forall mode fs p cmds es, parseBulk f mode fs p cmds = Ok es -> reads fs p cmds es /\ (mode = Strict -> nothing_missing es).
Proof.
  induction f as [|f IH]; intros mode fs p cmds es H; [discriminate H|].
  revert es H. induction cmds as [|c cmds IHc]; intros es H.
  - injection H as <-. split; [constructor|]. intros _ q [].
  - apply parse_cons in H as (a & b & A & B & ->). destruct (IHc b B) as [R N]. destruct c as [t|t]; cbn in A.
    + injection A as <-. split; [now constructor|]. intros S q [E|I]; [discriminate E|now apply (N S q)].
    + destruct (fs (includePath p t)) as [inner|] eqn:E.
      * destruct (IH _ _ _ _ _ A) as [R' N']. split; [now apply reads_include with inner|].
        intros S q I. apply in_app_or in I as [I|I]; [now apply (N' S q)|now apply (N S q)].
      * destruct mode; try discriminate A; injection A as <-; (split; [now constructor|discriminate]).
Qed.
Lemma reads_parse fs mode p cmds es : reads fs p cmds es -> (mode = Strict -> nothing_missing es) -> exists f, parseBulk f mode fs p cmds = Ok es.
Proof.
  intros R. induction R as [p|p t r e R IH|p t r e E R IH|p t inner es r e E R1 IH1 R2 IH2]; intros N.
  - exists 1. reflexivity.
  - destruct IH as [f F]. { intros S q I. apply (N S q). now right. }
    exists (S f). apply parse_cons. exists [Read t], e. split; [reflexivity|]. split; [|reflexivity]. apply parse_more with f; [lia|assumption].
  - destruct IH as [f F]. { intros S q I. apply (N S q). now right. }
    exists (S f). apply parse_cons. exists [Missing (includePath p t)], e. split; [|split; [apply parse_more with f; [lia|assumption]|reflexivity]].
    cbn. rewrite E. destruct mode; try reflexivity. exfalso. now apply (N eq_refl (includePath p t)); left.
  - destruct IH1 as [f F]. { intros S q I. apply (N S q). apply in_or_app. now left. }
    destruct IH2 as [g G]. { intros S q I. apply (N S q). apply in_or_app. now right. }
    exists (S (f + g)). apply parse_cons. exists es, e. split; [|split; [apply parse_more with g; [lia|assumption]|reflexivity]].
    cbn. rewrite E. apply parse_more with f; [lia|assumption].
Qed.
Lemma reads_fun fs p cmds es : reads fs p cmds es -> forall es', reads fs p cmds es' -> es = es'.
Proof.
  intros R. induction R; intros es' R'; inversion R'; subst; try congruence.
  - f_equal. auto.
  - f_equal. auto.
  - assert (inner0 = inner) by congruence. subst inner0. f_equal; auto.
Qed.
Lemma parse_in f mode fs p cmds es t q : parseBulk (S f) mode fs p cmds = Ok es -> In (Include t) cmds -> fs (includePath p t) = Some q ->
  exists es', parseBulk f mode fs (includePath p t) q = Ok es'.
Proof.
  revert es. induction cmds as [|c cmds IH]; intros es H I E; [destruct I|]. apply parse_cons in H as (a & b & A & B & _).
  destruct I as [->|I]; [|now apply (IH b)]. cbn in A. rewrite E in A. eauto.
Qed.
Lemma reaches_less fs p q : reaches fs p q -> forall f mode cmds es, fs p = Some cmds -> parseBulk f mode fs p cmds = Ok es ->
  exists g cmds' es', g < f /\ fs q = Some cmds' /\ parseBulk g mode fs q cmds' = Ok es'.
Proof.
  intros R. induction R as [p cmds t E I X|p q r R1 IH1 R2 IH2]; intros f mode cmds' es E' H.
  - assert (cmds' = cmds) by congruence. subst cmds'. destruct f as [|f]; [discriminate H|]. destruct (fs (includePath p t)) as [inner|] eqn:F; [|congruence].
    destruct (parse_in _ _ _ _ _ _ _ _ H I F) as [es' H']. exists f, inner, es'. repeat split; [lia|assumption].
  - destruct (IH1 f mode cmds' es E' H) as (g & c1 & e1 & L1 & E1 & H1). destruct (IH2 g mode c1 e1 E1 H1) as (h & c2 & e2 & L2 & E2 & H2).
    exists h, c2, e2. repeat split; [lia|assumption..].
Qed.
(** The commands depend on their file through its directory alone. *)
Lemma reads_dir fs p cmds es : reads fs p cmds es -> forall q, parent_path q = parent_path p -> reads fs q cmds es.
Proof.
  intros R. induction R as [p|p t r e R IH|p t r e E R IH|p t inner es r e E R1 IH1 R2 IH2]; intros q Q.
  - constructor.
  - constructor. auto.
  - assert (includePath p t = includePath q t) as X by (unfold includePath; now rewrite Q). rewrite X in *. constructor; auto.
  - assert (includePath p t = includePath q t) as X by (unfold includePath; now rewrite Q). rewrite X in *. apply reads_include with inner; auto.
Qed.
Lemma reads_app fs p a b es : reads fs p (a ++ b) es <-> exists x y, reads fs p a x /\ reads fs p b y /\ es = x ++ y.
Proof.
  revert es. induction a as [|c a IH]; intros es; cbn [app].
  - split; [intros H; exists [], es; repeat split; [constructor|assumption]|intros (x & y & X & Y & ->)]. inversion X; subst. exact Y.
  - split.
    + intros H. inversion H as [|? t r e R|? t r e E R|? t inner e1 r e E R1 R]; subst; apply IH in R as (x & y & X & Y & ->).
      * exists (Read t :: x), y. repeat split; [now constructor|assumption].
      * exists (Missing (includePath p t) :: x), y. repeat split; [now constructor|assumption].
      * exists (e1 ++ x), y. split; [now apply reads_include with inner|]. split; [assumption|apply app_assoc].
    + intros (x & y & X & Y & ->). inversion X as [|? t r e R|? t r e E R|? t inner e1 r e E R1 R]; subst; cbn [app].
      * constructor. apply IH. eauto 6.
      * constructor; [assumption|]. apply IH. eauto 6.
      * rewrite <- app_assoc. apply reads_include with inner; [assumption..|]. apply IH. eauto 6.
Qed.

(** ** Names *)
Lemma after_sep_app n d : forallb (fun c => negb (is_sep c)) n = true -> after_sep (n ++ "/"%char :: d) = Some d.
Proof.
  induction n as [|c n IH]; intros H; [reflexivity|]. cbn in H |- *. apply andb_true_iff in H as [H1 H2]. apply negb_true_iff in H1. rewrite H1. auto.
Qed.
Lemma after_sep_none n : forallb (fun c => negb (is_sep c)) n = true -> after_sep n = None.
Proof.
  induction n as [|c n IH]; intros H; [reflexivity|]. cbn in H |- *. apply andb_true_iff in H as [H1 H2]. apply negb_true_iff in H1. rewrite H1. auto.
Qed.
Lemma forallb_rev {A} (p : A -> bool) l : forallb p (rev l) = forallb p l.
Proof. induction l as [|a l IH]; [reflexivity|]. cbn. rewrite forallb_app. cbn. rewrite IH, andb_true_r. apply andb_comm. Qed.
Lemma parent_of d f : d <> [] -> forallb (fun c => negb (is_sep c)) f = true -> parent_path (d ++ "/"%char :: f) = d.
Proof.
  intros D F. unfold parent_path. rewrite rev_app_distr. cbn [rev]. rewrite <- app_assoc. cbn [app]. rewrite after_sep_app by now rewrite forallb_rev.
  destruct (rev d) as [|c r] eqn:E; [|rewrite <- E; apply rev_involutive]. exfalso. apply D. rewrite <- (rev_involutive d), E. reflexivity.
Qed.
Lemma parent_plain f : forallb (fun c => negb (is_sep c)) f = true -> parent_path f = [].
Proof. intros F. unfold parent_path. rewrite after_sep_none by now rewrite forallb_rev. reflexivity. Qed.
