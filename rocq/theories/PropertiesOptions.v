(** C123: the options of the command line are read as documented, and the exit code
    of a conversion says what it is meant to say. *)
From Coq Require Import Ascii String ZArith Reals List Bool Lia Lra.
From Verif Require Import Base TextModel TextProofs TokenizerModel RealModel CaseControlModel CaseControlProofs
  OptionsModel OptionsProofs MeshStatsModel.
Import ListNotations.
Open Scope nat_scope.
Open Scope list_scope.

(** ** What can be given *)

(** The words of the six options that take one, with the default. *)
Definition worded (d : str) (allowed : list str) (given : option str) (v : str) : Prop :=
  (given = None /\ v = d) \/ (given = Some v /\ In v allowed).

(** An accepted command line keeps the words given and takes the documented default
    of the others. *)
Theorem C123_words o s : read_parameters o = Ok s ->
  worded (txt "cosmic95") [txt "cosmic95"; txt "modern"] (o_dialect o) (s_dialect s) /\
  worded (txt "penalty") [txt "lagrangian"; txt "penalty"] (o_rbe2 o) (s_rbe2 s) /\
  worded (txt "auto") [txt "auto"; txt "3D"; txt "shell"; txt "shell-multi"] (o_analysis o) (s_analysis s) /\
  worded (txt "systus") [txt "systus"; txt "topaze"] (o_product o) (s_product s) /\
  worded (txt "auto") [txt "auto"; txt "direct"; txt "modal"] (o_method o) (s_method s) /\
  worded (txt "table") [txt "table"; txt "file"] (o_matrix o) (s_matrix s).
Proof.
  intros H. apply read_parameters_inv in H as (_ & _ & _ & H1 & H2 & _ & H3 & H4 & H5 & H6 & _).
  apply choice_spec in H1, H2, H3, H4, H5, H6. unfold worded. repeat split; try assumption.
  destruct H5 as [H5|[H5 I]]; [now left|right]. split; [assumption|]. cbn in I |- *. tauto.
Qed.

(** A command line is accepted exactly when: best effort is alone, every word is one of
    the documented ones, the size of matrices is at least two, and the texts of the
    subcases ask for something. *)
Definition word_of (allowed : list str) (given : option str) : Prop :=
  match given with None => True | Some v => In v allowed end.
Theorem C123_accepted o :
  (exists s, read_parameters o = Ok s) <->
  (o_best o = true -> o_mesh o = false /\ o_strict o = false) /\
  word_of [txt "cosmic95"; txt "modern"] (o_dialect o) /\
  word_of [txt "lagrangian"; txt "penalty"] (o_rbe2 o) /\
  word_of [txt "auto"; txt "3D"; txt "shell"; txt "shell-multi"] (o_analysis o) /\
  word_of [txt "systus"; txt "topaze"] (o_product o) /\
  word_of [txt "auto"; txt "direct"; txt "modal"] (o_method o) /\
  word_of [txt "table"; txt "file"] (o_matrix o) /\
  (forall n, o_size o = Some n -> (2 <= n)%Z) /\
  (forall l, o_subcases o = Some l -> exists v, asks l v).
Proof.
  assert (W : forall d a g v, worded d a g v -> word_of a g).
  { intros d a g v [[-> _]|[-> I]]; [exact I|exact I]. }
  assert (C : forall d a g, word_of a g -> exists v, read_choice d a g = Ok v).
  { intros d a [v|] I; [|now exists d]. exists v. apply choice_spec. right. split; [reflexivity|exact I]. }
  split.
  - intros [s H]. pose proof (C123_words o s H) as (A1 & A2 & A3 & A4 & A5 & A6).
    apply read_parameters_inv in H as (_ & M & _ & _ & _ & _ & _ & _ & _ & _ & Sz & Sb).
    split; [|split; [exact (W _ _ _ _ A1)|split; [exact (W _ _ _ _ A2)|split; [exact (W _ _ _ _ A3)|
      split; [exact (W _ _ _ _ A4)|split; [exact (W _ _ _ _ A5)|split; [exact (W _ _ _ _ A6)|split]]]]]]].
    + intros B. rewrite B in M. destruct (o_mesh o), (o_strict o); cbn in M; try discriminate M; auto.
    + intros n E. rewrite E in Sz. cbn in Sz. destruct (Z.ltb_spec n 2); [discriminate Sz|assumption].
    + intros l E. rewrite E in Sb. apply read_subcases_asks in Sb. eauto.
  - intros (M & W1 & W2 & W3 & W4 & W5 & W6 & Sz & Sb).
    assert (W5' : word_of [txt "direct"; txt "modal"; txt "auto"] (o_method o)).
    { destruct (o_method o); [|exact I]. cbn in W5 |- *. tauto. }
    unfold read_parameters.
    assert (exists m, read_mode (o_best o) (o_mesh o) (o_strict o) = Ok m) as [m ->].
    { destruct (o_best o); [destruct (M eq_refl) as [-> ->]; cbn; eauto|]. destruct (o_mesh o), (o_strict o); cbn; eauto. }
    cbn [bind].
    destruct (C (txt "cosmic95") _ _ W1) as [v1 ->]. cbn [bind]. destruct (C (txt "penalty") _ _ W2) as [v2 ->]. cbn [bind].
    destruct (read_rigid _ _ _ _ _) as [k c].
    destruct (C (txt "auto") _ _ W3) as [v3 ->]. cbn [bind]. destruct (C (txt "systus") _ _ W4) as [v4 ->]. cbn [bind].
    destruct (C (txt "auto") _ _ W5') as [v5 ->]. cbn [bind]. destruct (C (txt "table") _ _ W6) as [v6 ->]. cbn [bind].
    assert (exists n, read_size v6 (o_size o) = Ok n) as [n ->].
    { unfold read_size. destruct (o_size o) as [n|]; [|eauto]. specialize (Sz n eq_refl).
      destruct (Z.ltb_spec n 2); [lia|eauto]. }
    cbn [bind]. destruct (o_subcases o) as [l|]; [|cbn; eauto].
    destruct (Sb l eq_refl) as [v A]. apply read_subcases_asks in A. rewrite A. cbn. eauto.
Qed.

(** ** Subcases *)

(** The subcases are those asked for by the texts. *)
Theorem C123_subcases o s l : read_parameters o = Ok s -> o_subcases o = Some l -> asks l (s_subcases s).
Proof.
  intros H E. apply read_parameters_inv in H as (_ & _ & _ & _ & _ & _ & _ & _ & _ & _ & _ & H).
  rewrite E in H. now apply read_subcases_asks.
Qed.
(** Lists of analyses written as "n1,n2,..." come back as they were. *)
Theorem C123_subcases_text o s ls : read_parameters o = Ok s ->
  (forall ns, In ns ls -> ns <> [] /\ forall n, In n ns -> (0 <= n < 2 ^ 31)%Z) ->
  o_subcases o = Some (map (fun ns => join "," (map int_text ns)) ls) -> s_subcases s = ls.
Proof.
  intros H B E. apply read_parameters_inv in H as (_ & _ & _ & _ & _ & _ & _ & _ & _ & _ & _ & H).
  rewrite E in H. assert (A : asks (map (fun ns => join "," (map int_text ns)) ls) ls).
  { left. clear H E. induction ls as [|ns ls IH]; constructor; [|apply IH; intros; apply B; now right].
    destruct (B ns (or_introl eq_refl)) as [N P]. exists (map int_text ns).
    split; [now destruct ns|]. split; [reflexivity|]. clear - P. induction ns as [|n ns IH]; constructor; [|apply IH; intros; apply P; now right].
    specialize (P n (or_introl eq_refl)). destruct (int_text_digits n (proj1 P)) as [D _].
    apply stoi_numeral; [assumption|]. apply stoi_text. unfold INT_MAX32. lia. }
  apply read_subcases_asks in A. congruence.
Qed.
(** The mark of "one file for each analysis" is set by the word "single" only, and no
    subcase at all means that nothing or "auto" was asked for. *)
Theorem C123_single_mark o s : read_parameters o = Ok s ->
  (s_subcases s = [[(-1)%Z]] -> exists l, o_subcases o = Some l /\ In (txt "single") l) /\
  (s_subcases s = [] -> o_subcases o = None \/ o_subcases o = Some [] \/ exists l, o_subcases o = Some l /\ In (txt "auto") l).
Proof.
  intros H. pose proof (C123_subcases o s) as A. destruct (o_subcases o) as [l|] eqn:E.
  - specialize (A l H eq_refl). split; intros V; rewrite V in A; destruct A as [A|(pre & vs & w & rest & -> & _ & [[-> W]|[-> W]])];
      try discriminate W.
    + exfalso. inversion A as [|? ? ? ? D _]; subst. apply (denotes_nonneg _ _ (-1)%Z) in D; [lia|now left].
    + eexists. split; [reflexivity|]. apply in_or_app. right. now left.
    + inversion A. subst. right. now left.
    + right. right. eexists. split; [reflexivity|]. apply in_or_app. right. now left.
  - split; [|now left]. intros V. apply read_parameters_inv in H as (_ & _ & _ & _ & _ & _ & _ & _ & _ & _ & _ & H).
    rewrite E in H. injection H as H. rewrite V in H. discriminate H.
Qed.

Definition no_options : options :=
  mkOptions None false false false false false None None None None None None None None None None None None.
Definition with_subcases (l : list str) : options :=
  mkOptions None false false false false false None None None None None None None None None None None (Some l).
Example C123_subcases_case : exists s, read_parameters (with_subcases [txt "1,2"; txt "007"]) = Ok s /\ s_subcases s = [[1; 2]; [7]]%Z.
Proof. eexists. vm_compute. split; reflexivity. Qed.
Example C123_refused : read_parameters (with_subcases [txt "1,,2"]) = Throw /\ read_parameters (with_subcases [txt "1;2"]) = Throw /\
  read_parameters (with_subcases [txt "2147483648"]) = Throw /\ read_parameters (with_subcases [txt "Single"]) = Throw.
Proof. vm_compute. repeat split. Qed.

(** A malformed text is not always refused: after "single" or "auto" the rest is not
    read.  And lists given before these words are dropped. *)
Theorem C123_malformed_refuted : exists o s l w, read_parameters o = Ok s /\ o_subcases o = Some l /\ In w l /\
  w <> txt "single" /\ w <> txt "auto" /\ forall ns, ~ denotes w ns.
Proof.
  exists (with_subcases [txt "auto"; txt "1;2"]). eexists. exists [txt "auto"; txt "1;2"], (txt "1;2").
  split; [vm_compute; reflexivity|]. split; [reflexivity|]. split; [right; now left|]. split; [discriminate|]. split; [discriminate|].
  intros ns D. apply denotes_chars in D. discriminate D.
Qed.
Theorem C123_dropped_refuted : exists o s l w ns, read_parameters o = Ok s /\ o_subcases o = Some l /\ In w l /\
  denotes w ns /\ ~ In ns (s_subcases s).
Proof.
  exists (with_subcases [txt "1,2"; txt "auto"]). eexists. exists [txt "1,2"; txt "auto"], (txt "1,2"), [1; 2]%Z.
  split; [vm_compute; reflexivity|]. split; [reflexivity|]. split; [now left|]. split; [|intros []].
  apply numbers_denotes; vm_compute; reflexivity.
Qed.

(** ** Translation mode and exit code *)

(** The mode is strict when strict is asked for, the mesh at least when it alone is, and
    best effort otherwise; best effort is accepted alone only. *)
Theorem C123_mode o s : read_parameters o = Ok s ->
  (s_mode s = Strict <-> o_strict o = true) /\
  (s_mode s = MeshAtLeast <-> o_mesh o = true /\ o_strict o = false) /\
  (o_best o = true -> s_mode s = BestEffort).
Proof.
  intros H. apply read_parameters_inv in H as (_ & H & _).
  destruct (o_best o), (o_mesh o), (o_strict o); cbn in H; try discriminate H; injection H as <-; intuition discriminate.
Qed.
(** Two modes can be given although the program says only one may be. *)
Theorem C123_exclusive_refuted : exists o s, o_mesh o = true /\ o_strict o = true /\ read_parameters o = Ok s.
Proof.
  exists (mkOptions None false false true true false None None None None None None None None None None None None).
  eexists. vm_compute. repeat split.
Qed.
Example C123_mode_case :
  read_parameters (mkOptions None false true false true false None None None None None None None None None None None None) = Throw /\
  exists s, read_parameters no_options = Ok s /\ s_mode s = BestEffort /\ s_level s = LvInfo /\ s_size s = 9%Z /\ s_subcases s = [].
Proof. split; [reflexivity|]. eexists. vm_compute. repeat split. Qed.

(** The conversion ends well exactly when both formats are known and, in strict mode,
    the model is valid and written entirely; whenever it ends well the model is
    written, and an invalid model is not written in strict mode. *)
Theorem C123_exit mode out in_ valid written : let r := convertStudy mode out in_ valid written in
  (fst r = ExitOk <-> out = true /\ in_ = true /\ (mode = Strict -> valid = true /\ written = true)) /\
  (snd r = true <-> out = true /\ in_ = true /\ (mode = Strict -> valid = true)) /\
  (fst r = ExitInvalid <-> out = false \/ in_ = false) /\
  (fst r = ExitValidation <-> out = true /\ in_ = true /\ mode = Strict /\ valid = false) /\
  (fst r = ExitIncomplete -> snd r = true).
Proof.
  destruct mode, out, in_, valid, written; cbn; repeat split; intros; try discriminate; try tauto; try congruence;
    repeat match goal with
    | H : _ /\ _ |- _ => destruct H
    | H : _ \/ _ |- _ => destruct H
    | H : ?m = ?m -> _ |- _ => specialize (H eq_refl)
    end; try discriminate; auto.
Qed.
(** With the strict option, ending well is a promise. *)
Theorem C123_strict o s out in_ valid written : read_parameters o = Ok s -> o_strict o = true ->
  fst (convertStudy (s_mode s) out in_ valid written) = ExitOk -> valid = true /\ written = true.
Proof. intros H S E. apply C123_mode in H as [H _]. apply C123_exit in E as (_ & _ & E). apply E, H, S. Qed.
(** Without it, ending well promises nothing. *)
Theorem C123_exit_refuted : exists o s, read_parameters o = Ok s /\ o_strict o = false /\
  convertStudy (s_mode s) true true false false = (ExitOk, true).
Proof. exists no_options. eexists. vm_compute. repeat split. Qed.
Example C123_exit_case : convertStudy Strict true true false true = (ExitValidation, false) /\
  convertStudy Strict true true true false = (ExitIncomplete, true) /\ convertStudy MeshAtLeast true false true true = (ExitInvalid, false).
Proof. repeat split. Qed.

(** ** Verbosity and graph *)

Definition level_words : list (str * loglevel) :=
  [(txt "ERROR", LvError); (txt "WARN", LvWarn); (txt "INFO", LvInfo); (txt "DEBUG", LvDebug); (txt "TRACE", LvTrace)].
(** A word of the documentation, in any case, sets the level; nothing sets INFO; debug
    raises a lower level to DEBUG and leaves the others. *)
Theorem C123_level o s : read_parameters o = Ok s ->
  exists l, s_level s = (if o_debug o then match l with LvTrace => LvTrace | _ => LvDebug end else l) /\
    (o_verbosity o = None -> l = LvInfo) /\
    forall v w, o_verbosity o = Some v -> In w level_words -> to_upper v = fst w -> l = snd w.
Proof.
  intros H. apply read_parameters_inv in H as (-> & _). exists (read_level (o_verbosity o) false).
  split; [|split; [now intros ->|]].
  - unfold read_level. destruct (o_verbosity o); [|now destruct (o_debug o)].
    repeat (destruct str_eqb; [now destruct (o_debug o)|]). now destruct (o_debug o).
  - intros v w -> I E. unfold read_level. rewrite E. cbn in I. repeat (destruct I as [<-|I]; [reflexivity|]). destruct I.
Qed.
(** An unknown word is not refused. *)
Theorem C123_unknown_level_refuted : exists o s v, read_parameters o = Ok s /\ o_verbosity o = Some v /\
  (forall w, In w level_words -> to_upper v <> fst w) /\ s_level s = LvInfo.
Proof.
  exists (mkOptions (Some (txt "warning")) false false false false false None None None None None None None None None None None None).
  eexists. exists (txt "warning"). split; [vm_compute; reflexivity|]. split; [reflexivity|]. split; [|reflexivity].
  intros w I E. cbn in I. repeat (destruct I as [<-|I]; [discriminate E|]). destruct I.
Qed.
(** A graph is drawn only if asked for, and at the level TRACE only. *)
Theorem C123_graph o s : read_parameters o = Ok s -> s_graph s = true <-> o_graph o = true /\ s_level s = LvTrace.
Proof.
  intros H. apply read_parameters_inv in H as (_ & _ & -> & _). unfold read_graph. rewrite andb_true_iff.
  destruct (s_level s); cbn; intuition discriminate.
Qed.
Theorem C123_graph_refuted : exists o s, read_parameters o = Ok s /\ o_graph o = true /\ o_debug o = true /\ s_graph s = false.
Proof.
  exists (mkOptions None true false false false true None None None None None None None None None None None None).
  eexists. vm_compute. repeat split.
Qed.
Example C123_level_case : exists s,
  read_parameters (mkOptions (Some (txt "Trace")) true false false false true None None None None None None None None None None None None) = Ok s /\
  s_level s = LvTrace /\ s_graph s = true.
Proof. eexists. vm_compute. repeat split. Qed.

(** ** Size of matrices *)

Theorem C123_size o s : read_parameters o = Ok s -> (2 <= s_size s)%Z /\
  (forall n, o_size o = Some n -> s_size s = n) /\
  (o_size o = None -> s_size s = (if str_eqb (s_matrix s) (txt "file") then 20 else 9)%Z).
Proof.
  intros H. apply read_parameters_inv in H as (_ & _ & _ & _ & _ & _ & _ & _ & _ & _ & H & _). unfold read_size in H.
  destruct (o_size o) as [n|].
  - destruct (Z.ltb_spec n 2); [discriminate H|]. injection H as <-. split; [assumption|]. split; [now intros ? [= ->]|discriminate].
  - injection H as <-. split; [destruct str_eqb; lia|]. split; [discriminate|reflexivity].
Qed.
(** Matrices of more than nine nodes can be asked for in tables, whose codes have one
    digit for each node. *)
Theorem C123_table_size_refuted : exists o s, read_parameters o = Ok s /\ s_matrix s = txt "table" /\ (9 < s_size s)%Z.
Proof.
  exists (mkOptions None false false false false false None None None None None None None None None None (Some 12%Z) None).
  eexists. vm_compute. repeat split.
Qed.
Example C123_size_case : exists s,
  read_parameters (mkOptions None false false false false false None None None None None None None None None (Some (txt "file")) None None) = Ok s /\
  s_size s = 20%Z.
Proof. eexists. vm_compute. split; reflexivity. Qed.

(** ** Rigid elements *)

Open Scope R_scope.
(** In lagrangian mode the number given to a rigid element is the coefficient, else the
    deprecated one, else 1000, whatever the stiffnesses. *)
Theorem C123_lagrangian o s computed : read_parameters o = Ok s -> s_rbe2 s = txt "lagrangian" ->
  rigid_value true (s_coefficient s) (s_stiffness s) computed =
  Some (match o_coefficient o, o_lagrangian o with Some c, _ => c | None, Some l => l | None, None => 1000 end).
Proof.
  intros H E. apply read_parameters_inv in H as (_ & _ & _ & _ & _ & H & _). rewrite E in H. unfold read_rigid in H. cbn in H.
  unfold rigid_value. destruct (o_lagrangian o), (o_rigidity o), (o_stiffness o), (o_coefficient o); injection H as Hk Hc; try rewrite <- Hk; try rewrite <- Hc; reflexivity.
Qed.
(** In penalty mode, without the deprecated options: the stiffness given, else the
    automatic one, multiplied by the coefficient given, else by ten. *)
Theorem C123_penalty o s computed : read_parameters o = Ok s -> s_rbe2 s = txt "penalty" ->
  o_lagrangian o = None -> o_rigidity o = None ->
  let c := match o_coefficient o with Some c => c | None => 10 end in
  rigid_value false (s_coefficient s) (s_stiffness s) computed =
  match o_stiffness o with Some k => Some (c * k) | None => option_map (Rmult c) computed end.
Proof.
  intros H E L G. apply read_parameters_inv in H as (_ & _ & _ & _ & _ & H & _). rewrite E, L, G in H. unfold read_rigid in H. cbn in H.
  unfold rigid_value. destruct (o_stiffness o), (o_coefficient o); injection H as Hk Hc; try rewrite <- Hk; try rewrite <- Hc; reflexivity.
Qed.
(** The deprecated rigidity alone is the stiffness itself. *)
Theorem C123_rigidity o s computed r : read_parameters o = Ok s -> s_rbe2 s = txt "penalty" ->
  o_rigidity o = Some r -> o_stiffness o = None -> o_coefficient o = None ->
  rigid_value false (s_coefficient s) (s_stiffness s) computed = Some r.
Proof.
  intros H E L G K. apply read_parameters_inv in H as (_ & _ & _ & _ & _ & H & _). rewrite E, L, G, K in H. unfold read_rigid in H. cbn in H.
  unfold rigid_value. destruct (o_lagrangian o); injection H as Hk Hc; rewrite <- Hk, <- Hc; f_equal; lra.
Qed.
(** In lagrangian mode the deprecated rigidity changes nothing. *)
Theorem C123_rigidity_ignored o s : read_parameters o = Ok s -> s_rbe2 s = txt "lagrangian" ->
  s_stiffness s = match o_stiffness o, o_lagrangian o with Some k, _ => Some k | None, Some _ => Some 1 | None, None => None end.
Proof.
  intros H E. apply read_parameters_inv in H as (_ & _ & _ & _ & _ & H & _). rewrite E in H. unfold read_rigid in H. cbn in H.
  destruct (o_lagrangian o), (o_rigidity o), (o_stiffness o), (o_coefficient o); injection H as Hk Hc; try rewrite <- Hk; try rewrite <- Hc; reflexivity.
Qed.
(** The deprecated coefficient, documented for lagrangian translations, replaces the
    automatic stiffness of the penalty ones: the value no longer depends on the model. *)
Theorem C123_lagrangian_in_penalty_refuted : exists o s l, read_parameters o = Ok s /\ s_rbe2 s = txt "penalty" /\
  o_lagrangian o = Some l /\ o_stiffness o = None /\
  forall k, rigid_value false (s_coefficient s) (s_stiffness s) (Some k) = Some l.
Proof.
  exists (mkOptions None false false false false false None None (Some 5) None None None None None None None None None).
  eexists. exists 5. repeat split. intros k. cbn. f_equal. lra.
Qed.
Example C123_rigid_case : exists s,
  read_parameters (mkOptions None false false false false false None None None None (Some 3) None None None None None None None) = Ok s /\
  s_rbe2 s = txt "penalty" /\ rigid_value false (s_coefficient s) (s_stiffness s) None = Some 30.
Proof. eexists. repeat split. cbn. f_equal. lra. Qed.
Example C123_lagrangian_case : exists s,
  read_parameters (mkOptions None false false false false false None (Some (txt "lagrangian")) (Some 7) (Some 2) None None None None None None None None) = Ok s /\
  s_rbe2 s = txt "lagrangian" /\ rigid_value true (s_coefficient s) (s_stiffness s) None = Some 7.
Proof. eexists. repeat split. Qed.
Close Scope R_scope.

(** ** Paths *)

(** Quotes around a path are removed, a path without leading quote is kept. *)
Theorem C123_path q p : (q = """"%char \/ q = "'"%char) -> normalize_path (q :: p ++ [q]) = Ok p.
Proof.
  intros Q. unfold normalize_path. assert (Ascii.eqb q """" || Ascii.eqb q "'" = true) as -> by (destruct Q as [->| ->]; reflexivity).
  destruct (p ++ [q]) as [|c r] eqn:E; [now destruct p|]. rewrite <- E. now rewrite removelast_last.
Qed.
Theorem C123_plain_path c p : c <> """"%char -> c <> "'"%char -> normalize_path (c :: p) = Ok (c :: p).
Proof.
  intros N1 N2. unfold normalize_path. destruct (Ascii.eqb_spec c """"); [contradiction|]. destruct (Ascii.eqb_spec c "'"); [contradiction|]. reflexivity.
Qed.
(** A leading quote takes the last character away even if it is not a quote, and an
    empty path (as "--output-dir=") is undefined behaviour. *)
Theorem C123_path_refuted : (exists p r, ~ In """"%char p /\ normalize_path ("'"%char :: p) = Ok r /\ r <> p /\ length r < length p) /\
  normalize_path [] = UB /\ normalize_path ["'"%char] = Throw.
Proof.
  split; [|split; reflexivity]. exists (txt "a.nas"), (txt "a.na"). repeat split; [|discriminate|cbn; lia].
  cbn. intros H. repeat (destruct H as [H|H]; [discriminate H|]). destruct H.
Qed.
Example C123_path_case : normalize_path (txt "'dir/a.nas'") = Ok (txt "dir/a.nas").
Proof. reflexivity. Qed.

Print Assumptions C123_words.
Print Assumptions C123_accepted.
Print Assumptions C123_subcases.
Print Assumptions C123_subcases_text.
Print Assumptions C123_single_mark.
Print Assumptions C123_malformed_refuted.
Print Assumptions C123_dropped_refuted.
Print Assumptions C123_mode.
Print Assumptions C123_exclusive_refuted.
Print Assumptions C123_exit.
Print Assumptions C123_strict.
Print Assumptions C123_exit_refuted.
Print Assumptions C123_level.
Print Assumptions C123_unknown_level_refuted.
Print Assumptions C123_graph.
Print Assumptions C123_graph_refuted.
Print Assumptions C123_size.
Print Assumptions C123_table_size_refuted.
Print Assumptions C123_lagrangian.
Print Assumptions C123_penalty.
Print Assumptions C123_rigidity.
Print Assumptions C123_rigidity_ignored.
Print Assumptions C123_lagrangian_in_penalty_refuted.
Print Assumptions C123_path.
Print Assumptions C123_plain_path.
Print Assumptions C123_path_refuted.
