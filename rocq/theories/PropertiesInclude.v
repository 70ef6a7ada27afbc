(** C126: an INCLUDE stands for the commands of the file it names. *)
From Coq Require Import Ascii String List Bool Arith Lia.
From Verif Require Import Base TextModel OptionsModel OptionsProofs CaseControlProofs IncludeModel IncludeProofs.
Import ListNotations.
Open Scope list_scope.

(** The reader returns exactly when the files can be laid out as one sequence of commands,
    and then does that sequence, in order; in strict mode no file is missing. *)
Theorem C126_paste fs mode p cmds es :
  (exists fuel, parseBulk fuel mode fs p cmds = Ok es) <-> reads fs p cmds es /\ (mode = Strict -> nothing_missing es).
Proof.
  split.
  - intros [f H]. now apply (parse_reads f).
  - intros [R N]. now apply reads_parse.
Qed.
(** There is at most one such sequence. *)
Theorem C126_one fs p cmds es es' : reads fs p cmds es -> reads fs p cmds es' -> es = es'.
Proof. intros R R'. now apply (reads_fun fs p cmds). Qed.

(** Writing the commands of a file of the same directory in place of the INCLUDE changes
    nothing. *)
Theorem C126_inline fs p before t inner after es : fs (includePath p t) = Some inner ->
  parent_path (includePath p t) = parent_path p ->
  reads fs p (before ++ Include t :: after) es <-> reads fs p (before ++ inner ++ after) es.
Proof.
  intros E D. rewrite !reads_app. split.
  - intros (x & y & X & Y & ->). inversion Y as [| |? ? ? ? E'|? ? inner' e1 ? e E' R1 R2]; subst; [congruence|].
    assert (inner' = inner) by congruence. subst inner'. exists x, (e1 ++ e). split; [assumption|]. split; [|reflexivity].
    apply reads_app. exists e1, e. split; [|split; [assumption|reflexivity]]. apply reads_dir with (includePath p t); [assumption|now symmetry].
  - intros (x & y & X & Y & ->). apply reads_app in Y as (e1 & e & R1 & R2 & ->). exists x, (e1 ++ e). split; [assumption|]. split; [|reflexivity].
    apply reads_include with inner; [assumption| |assumption]. now apply reads_dir with p.
Qed.

(** A file that comes back to itself is never read to the end, in any mode. *)
Theorem C126_cycle fs p cmds : fs p = Some cmds -> reaches fs p p -> forall fuel mode es, parseBulk fuel mode fs p cmds <> Ok es.
Proof.
  intros E R fuel mode. induction fuel as [fuel IH] using lt_wf_ind. intros es H.
  destruct (reaches_less fs p p R fuel mode cmds es E H) as (g & c & e & L & E' & H'). assert (c = cmds) by congruence. subst c. now apply (IH g L e).
Qed.
(** Files that can be ranked, none including one of its rank or above, are read to the end. *)
Theorem C126_ends fs mode (rank : str -> nat) : mode <> Strict ->
  (forall p cmds t, fs p = Some cmds -> In (Include t) cmds -> fs (includePath p t) <> None -> rank (includePath p t) < rank p) ->
  forall p cmds, fs p = Some cmds -> exists fuel es, parseBulk fuel mode fs p cmds = Ok es.
Proof.
  intros NS D. assert (G : forall n p cmds, rank p < n -> fs p = Some cmds -> exists es, reads fs p cmds es).
  { induction n as [|n IH]; intros p cmds L E; [lia|].
    assert (H : forall l, incl l cmds -> exists es, reads fs p l es).
    { induction l as [|c l IHl]; intros I; [exists []; constructor|]. destruct IHl as [e R]; [intros x X; apply I; now right|].
      destruct c as [t|t]; [exists (Read t :: e); now constructor|]. destruct (fs (includePath p t)) as [inner|] eqn:F.
      - destruct (IH (includePath p t) inner) as [e1 R1]; [|assumption|].
        + assert (rank (includePath p t) < rank p); [|lia]. apply (D p cmds t); [assumption|apply I; now left|congruence].
        + exists (e1 ++ e). now apply reads_include with inner.
      - exists (Missing (includePath p t) :: e). now constructor. }
    apply H, incl_refl. }
  intros p cmds E. destruct (G (S (rank p)) p cmds) as [es R]; [lia|assumption|].
  destruct (reads_parse fs mode p cmds es R) as [f F]; [congruence|]. eauto.
Qed.

(** ** The name *)

(** The name on the line, between blanks, bare or in single quotes. *)
Definition names (rest name : str) : Prop :=
  exists a b, forallb is_blank a = true /\ forallb is_blank b = true /\
  ((rest = a ++ name ++ b /\ trim name = name /\ hd " "%char name <> "'"%char) \/ rest = a ++ ("'"%char :: name ++ ["'"%char]) ++ b).
Lemma names_file rest name : names rest name -> fileName rest = name.
Proof.
  intros (a & b & A & B & [(-> & T & Q)| ->]); unfold fileName.
  - rewrite trim_padded by assumption. destruct name as [|c r]; [reflexivity|]. cbn in Q. unfold unquote.
    destruct (is_quote c) eqn:E; [|reflexivity]. apply Ascii.eqb_eq in E. congruence.
  - rewrite trim_padded; [|assumption|assumption|now apply trim_ends]. unfold unquote. rewrite app_comm_cons, last_last. cbn. apply removelast_last.
Qed.
(** A relative name is looked for in the directory of the file that holds the INCLUDE. *)
Theorem C126_name rest name d f : names rest name -> name <> [] -> hd "/"%char name <> "/"%char ->
  forallb (fun c => negb (is_sep c)) f = true ->
  (d <> [] -> last d " "%char <> "/"%char -> includePath (d ++ "/"%char :: f) rest = d ++ "/"%char :: name) /\ includePath f rest = name.
Proof.
  intros N NE H F. unfold includePath. rewrite (names_file rest name N). destruct name as [|c r]; [congruence|]. cbn in H.
  assert (is_sep c = false) as C by (apply Ascii.eqb_neq; congruence). split.
  - intros D L. rewrite parent_of by assumption. unfold join. rewrite C.
    assert (is_sep (last d " "%char) = false) as -> by (apply Ascii.eqb_neq; congruence). destruct d; [congruence|reflexivity].
  - rewrite parent_plain by assumption. reflexivity.
Qed.
(** A name in double quotes is looked for with its quotes: the file is missing though it
    exists (names in double quotes are accepted on the command line). *)
Definition quoted_files : files := fun p => if list_eq_dec ascii_dec p (txt "m/a.dat") then Some [Card (txt "GRID")] else None.
Definition dq : ascii := Ascii.ascii_of_nat 34.
Theorem C126_double_quotes_refuted : exists fs p name, fs (parent_path p ++ "/"%char :: name) <> None /\
  parseBulk 2 BestEffort fs p [Include (" "%char :: "'"%char :: name ++ ["'"%char])] = Ok [Read (txt "GRID")] /\
  parseBulk 2 BestEffort fs p [Include (" "%char :: dq :: name ++ [dq])] = Ok [Missing (txt "m/" ++ dq :: name ++ [dq])] /\
  parseBulk 2 Strict fs p [Include (" "%char :: dq :: name ++ [dq])] = Throw.
Proof.
  exists quoted_files, (txt "m/main.dat"), (txt "a.dat"). split; [vm_compute; discriminate|]. split; [vm_compute; reflexivity|]. split; vm_compute; reflexivity.
Qed.

(** ** Examples *)
Definition tree : files := fun p =>
  if list_eq_dec ascii_dec p (txt "m/main.dat") then Some [Card (txt "A"); Include (txt " 'sub/b.dat' "); Card (txt "D")]
  else if list_eq_dec ascii_dec p (txt "m/sub/b.dat") then Some [Card (txt "B"); Include (txt " c.dat"); Include (txt " gone.dat")]
  else if list_eq_dec ascii_dec p (txt "m/sub/c.dat") then Some [Card (txt "C")]
  else None.
Example C126_tree : parseBulk 3 BestEffort tree (txt "m/main.dat") [Card (txt "A"); Include (txt " 'sub/b.dat' "); Card (txt "D")] =
  Ok [Read (txt "A"); Read (txt "B"); Read (txt "C"); Missing (txt "m/sub/gone.dat"); Read (txt "D")] /\
  parseBulk 3 Strict tree (txt "m/main.dat") [Card (txt "A"); Include (txt " 'sub/b.dat' "); Card (txt "D")] = Throw.
Proof. split; vm_compute; reflexivity. Qed.
Example C126_same_directory : tree (includePath (txt "m/sub/b.dat") (txt " c.dat")) = Some [Card (txt "C")] /\
  parent_path (includePath (txt "m/sub/b.dat") (txt " c.dat")) = parent_path (txt "m/sub/b.dat").
Proof. split; vm_compute; reflexivity. Qed.
(** The rank of the example: the depth below each file. *)
Example C126_tree_ends : exists fuel es, parseBulk fuel MeshAtLeast tree (txt "m/sub/b.dat") [Card (txt "B"); Include (txt " c.dat"); Include (txt " gone.dat")] = Ok es.
Proof.
  apply (C126_ends tree MeshAtLeast (fun p => if list_eq_dec ascii_dec p (txt "m/main.dat") then 2 else if list_eq_dec ascii_dec p (txt "m/sub/b.dat") then 1 else 0)); [discriminate| |vm_compute; reflexivity].
  intros p cmds t E I X. unfold tree in E. repeat destruct list_eq_dec in E; subst; try discriminate E; injection E as <-; cbn [In] in I;
    repeat match goal with H : _ \/ _ |- _ => destruct H | H : False |- _ => destruct H | H : Card _ = _ |- _ => discriminate H end;
    match goal with H : Include _ = Include _ |- _ => injection H as <- end; vm_compute in X |- *; try lia; congruence.
Qed.
Definition loop_files : files := fun p =>
  if list_eq_dec ascii_dec p (txt "a") then Some [Include (txt " b")] else if list_eq_dec ascii_dec p (txt "b") then Some [Card (txt "X"); Include (txt " 'a'")] else None.
Example C126_loop : reaches loop_files (txt "a") (txt "a").
Proof.
  apply reaches_more with (txt "b").
  - change (txt "b") with (includePath (txt "a") (txt " b")). apply reaches_one with [Include (txt " b")]; [reflexivity|now left|vm_compute; discriminate].
  - change (txt "a") with (includePath (txt "b") (txt " 'a'")). apply reaches_one with [Card (txt "X"); Include (txt " 'a'")]; [reflexivity|right; now left|vm_compute; discriminate].
Qed.
Example C126_names : names (txt "  'my file.dat' ") (txt "my file.dat") /\ names (txt " a.dat") (txt "a.dat").
Proof.
  split.
  - exists (txt "  "), (txt " "). repeat split. now right.
  - exists (txt " "), []. split; [reflexivity|]. split; [reflexivity|]. left. split; [reflexivity|]. split; [reflexivity|discriminate].
Qed.

Print Assumptions C126_paste.
Print Assumptions C126_one.
Print Assumptions C126_inline.
Print Assumptions C126_cycle.
Print Assumptions C126_ends.
Print Assumptions C126_name.
Print Assumptions C126_double_quotes_refuted.
