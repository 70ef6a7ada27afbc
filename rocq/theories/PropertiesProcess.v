(** C131: the exit code of the tool tells how the translation ended. *)
From Coq Require Import ZArith List Bool Lia.
From Verif Require Import Base ProcessModel.
Import ListNotations.
Open Scope Z_scope.

(** A call gets as far as the conversion, with its settings. *)
Definition reaches (c : call) (debug run : bool) : Prop :=
  c_options c = Done tt /\ c_version c = false /\ c_help c = false /\ c_config c = Done tt /\ c_input c = true /\
  c_settings c = Done (debug, run) /\ c_results c <> Some false /\ c_exists c = true /\ (c_outdir c = true \/ c_create c = Done true) /\ c_format c = Done tt.
(** The codes of a conversion and of a solver fit in a byte. *)
Definition codes (c : call) : Prop := (forall n, c_convert c = Done n -> 0 <= n < 256) /\ (forall n, c_solver c = Done n -> 0 <= n < 256).

Lemma process_reaches c debug run : reaches c debug run -> exists before, ~ In Converts before /\ ~ In RunsSolver before /\
  process c = try_step debug (c_convert c) (before ++ [Converts]) (fun n =>
    if (n =? 0) && run then try_step debug (c_solver c) ((before ++ [Converts]) ++ [RunsSolver]) (fun m => (Done m, (before ++ [Converts]) ++ [RunsSolver])) else (Done n, before ++ [Converts])).
Proof.
  intros (H1 & H2 & H3 & H4 & H5 & H6 & H7 & H8 & H9 & H10). unfold process. rewrite H1, H2, H3, H4, H5, H6, H8. cbn [try_step negb].
  assert (X : forall d, convert_and_run c debug run d = try_step debug (c_convert c) (d ++ [Converts]) (fun n =>
    if (n =? 0) && run then try_step debug (c_solver c) ((d ++ [Converts]) ++ [RunsSolver]) (fun m => (Done m, (d ++ [Converts]) ++ [RunsSolver])) else (Done n, d ++ [Converts]))).
  { intros d. unfold convert_and_run. rewrite H10. reflexivity. }
  assert (R : forall A (x y : A), match c_results c with Some false => x | _ => y end = y) by (intros; destruct (c_results c) as [[]|]; congruence).
  rewrite R. destruct (c_outdir c) eqn:O.
  - exists []. split; [intros []|]. split; [intros []|]. apply X.
  - destruct H9 as [H9|H9]; [discriminate H9|]. rewrite H9. exists [MakesDirectory]. cbn [try_step]. rewrite X. split; [intros [E|[]]; discriminate E|]. split; [intros [E|[]]; discriminate E|reflexivity].
Qed.
(** A call that does not get there ends without conversion. *)
Lemma reaches_or c : (exists debug run, reaches c debug run) \/
  (~ In Converts (snd (process c)) /\ ~ In RunsSolver (snd (process c)) /\
   (fst (process c) = Done 0 -> c_options c = Done tt /\ (c_version c = true \/ c_help c = true))).
Proof.
  unfold process, reaches. destruct (c_options c) as [[]|e|] eqn:E1; cbn [try_step]; [|right; cbn; repeat split; try tauto; discriminate..].
  destruct (c_version c) eqn:E2; [right; cbn; tauto|]. destruct (c_help c) eqn:E3; [right; cbn; tauto|].
  destruct (c_config c) as [[]|e|] eqn:E4; cbn [try_step]; [|right; cbn; repeat split; try tauto; discriminate..].
  destruct (c_input c) eqn:E5; cbn [negb]; [|right; cbn; repeat split; try tauto; discriminate].
  destruct (c_settings c) as [[debug run]|e|] eqn:E6; cbn [try_step]; [|right; cbn; repeat split; try tauto; discriminate..].
  destruct (c_results c) as [[]|] eqn:E7; [|right; cbn; repeat split; try tauto; discriminate|].
  all: destruct (c_exists c) eqn:E8; cbn [negb]; [|right; cbn; repeat split; try tauto; discriminate].
  all: destruct (c_outdir c) eqn:E9; [|destruct (c_create c) as [[]|e|] eqn:E10; cbn [try_step]; [|right; cbn; repeat split; try tauto; try discriminate; destruct debug, e; discriminate..]].
  all: unfold convert_and_run; destruct (c_format c) as [[]|e|] eqn:E11; cbn [try_step];
    [left; exists debug, run; repeat split; auto; discriminate|right; split; [cbn; intuition discriminate|split; [cbn; intuition discriminate|]]..].
  all: cbn [fst]; intros X; first [discriminate X|destruct debug, e; discriminate X].
Qed.

(** The tool ends with code 0 exactly when it was asked for its version or for help, or
    converted the study and, when asked to, ran the solver, both with success. *)
Theorem C131_zero : forall c, codes c -> main true c = 0 <->
  (c_options c = Done tt /\ (c_version c = true \/ c_help c = true)) \/
  exists debug run, reaches c debug run /\ c_convert c = Done 0 /\ (run = true -> c_solver c = Done 0).
Proof.
  intros c [K1 K2]. unfold main. cbn [negb]. split.
  - intros M. destruct (reaches_or c) as [(debug & run & R)|(_ & _ & Z0)].
    + right. exists debug, run. split; [exact R|]. destruct (process_reaches c debug run R) as (b & _ & _ & P). rewrite P in M. clear P.
      destruct (c_convert c) as [n|e|] eqn:C; cbn [try_step fst] in M; [|destruct debug, e; discriminate M|discriminate M].
      assert (n = 0 -> run = true -> c_solver c = Done 0).
      { intros -> ->. cbn [Z.eqb andb] in M. destruct (c_solver c) as [m|e|] eqn:S; cbn [try_step fst] in M; [|destruct debug, e; discriminate M|discriminate M].
        specialize (K2 m eq_refl). rewrite Z.mod_small in M by exact K2. now subst m. }
      assert (n = 0) as ->; [|auto]. destruct (Z.eqb_spec n 0) as [E|E]; [exact E|]. cbn in M. specialize (K1 n eq_refl). now rewrite Z.mod_small in M by exact K1.
    + left. apply Z0. destruct (fst (process c)) as [n|e|] eqn:F; try discriminate M. f_equal.
      (* the codes of process itself *)
      revert F. unfold process. destruct (c_options c) as [[]|e|] eqn:E1; cbn [try_step fst]; try (destruct e; discriminate); [|discriminate].
      destruct (c_version c); [cbn; congruence|]. destruct (c_help c); [cbn; congruence|].
      destruct (c_config c) as [[]|e|]; cbn [try_step fst]; try (destruct e; discriminate); [|discriminate].
      destruct (c_input c); cbn [negb fst]; [|intros X; injection X as <-; discriminate M].
      destruct (c_settings c) as [[debug run]|e|]; cbn [try_step fst]; try (destruct e; discriminate); [|discriminate].
      assert (Y : forall e, handle debug e = Done n -> n = 0) by (intros e X; destruct debug, e; try discriminate X; injection X as <-; discriminate M).
      assert (W : forall d, fst (convert_and_run c debug run d) = Done n -> n = 0).
      { intros d. unfold convert_and_run. destruct (c_format c) as [[]|e|]; cbn [try_step fst]; [|apply Y|discriminate].
        destruct (c_convert c) as [k|e|] eqn:C; cbn [try_step fst]; [|apply Y|discriminate]. destruct ((k =? 0) && run).
        - destruct (c_solver c) as [m|e|] eqn:S; cbn [try_step fst]; [|apply Y|discriminate]. intros X. injection X as ->. specialize (K2 n eq_refl). now rewrite Z.mod_small in M by exact K2.
        - intros X. injection X as ->. specialize (K1 n eq_refl). now rewrite Z.mod_small in M by exact K1. }
      assert (V : fst (if negb (c_exists c) then (Done NO_INPUT_FILE, []) else if c_outdir c then convert_and_run c debug run [] else
        try_step debug (c_create c) [] (fun made => if made then convert_and_run c debug run [MakesDirectory] else (Done OUTPUT_DIR_NOT_CREATED, []))) = Done n -> n = 0).
      { destruct (c_exists c); cbn [negb fst]; [|intros X; injection X as <-; discriminate M]. destruct (c_outdir c); [apply W|].
        destruct (c_create c) as [[]|e|]; cbn [try_step fst]; [apply W|intros X; injection X as <-; discriminate M|apply Y|discriminate]. }
      destruct (c_results c) as [[]|]; [exact V|cbn; intros X; injection X as <-; discriminate M|exact V].
  - intros [[O X]|(debug & run & R & C & S)].
    + unfold process. rewrite O. cbn [try_step]. destruct (c_version c); [reflexivity|]. destruct X as [X|X]; [discriminate X|]. now rewrite X.
    + destruct (process_reaches c debug run R) as (b & _ & _ & ->). rewrite C. cbn [try_step Z.eqb andb]. destruct run; [|reflexivity]. rewrite (S eq_refl). reflexivity.
Qed.

(** Below the level of DEBUG each kind of error of the conversion has its code. *)
Theorem C131_errors : forall c run e, reaches c false run -> c_convert c = Raise e ->
  main true c = match e with InvalidArgument => INVALID_COMMAND_LINE | Parsing => PARSING_EXCEPTION | Writing => WRITING_EXCEPTION | _ => GENERIC_EXCEPTION end.
Proof. intros c run e R C. unfold main. destruct (process_reaches c false run R) as (b & _ & _ & ->). rewrite C. destruct e; reflexivity. Qed.
(** And each failure of the conversion or of the solver is the code of the tool. *)
Theorem C131_failures : forall c debug run n, codes c -> reaches c debug run ->
  (c_convert c = Done n -> n <> 0 -> main true c = n) /\ (c_convert c = Done 0 -> run = true -> c_solver c = Done n -> main true c = n).
Proof.
  intros c debug run n [K1 K2] R. unfold main. destruct (process_reaches c debug run R) as (b & _ & _ & ->). split.
  - intros C N. rewrite C. cbn [try_step negb]. destruct (Z.eqb_spec n 0); [contradiction|]. apply Z.mod_small. now apply K1.
  - intros C -> S. rewrite C, S. cbn. apply Z.mod_small. now apply K2.
Qed.
(** A study is converted only when everything it needs is there, and the solver runs
    exactly when asked to and after a successful conversion. *)
Theorem C131_effects : forall c, (In Converts (snd (process c)) <-> exists debug run, reaches c debug run) /\
  (In RunsSolver (snd (process c)) <-> exists debug, reaches c debug true /\ c_convert c = Done 0).
Proof.
  intros c. destruct (reaches_or c) as [(debug & run & R)|(N1 & N2 & _)].
  - destruct (process_reaches c debug run R) as (b & B1 & B2 & P). rewrite P. clear P.
    assert (I1 : In Converts (b ++ [Converts])) by (apply in_or_app; right; now left).
    assert (I2 : ~ In RunsSolver (b ++ [Converts])) by (intros X; apply in_app_or in X as [X|[X|[]]]; [auto|discriminate X]).
    assert (U : forall d r, reaches c d r -> d = debug /\ r = run) .
    { intros d r X. destruct R as (_ & _ & _ & _ & _ & R & _), X as (_ & _ & _ & _ & _ & X & _). rewrite R in X. injection X as <- <-. auto. }
    destruct (c_convert c) as [n|e|] eqn:C; cbn [try_step snd].
    + destruct (Z.eqb_spec n 0) as [->|E]; cbn [andb].
      * destruct run.
        -- assert (I3 : snd (try_step debug (c_solver c) ((b ++ [Converts]) ++ [RunsSolver]) (fun m => (Done m, (b ++ [Converts]) ++ [RunsSolver]))) = (b ++ [Converts]) ++ [RunsSolver]) by (destruct (c_solver c); reflexivity).
           rewrite I3. split; (split; [intros _; eauto|intros _; apply in_or_app]); [now left|right; now left].
        -- cbn [snd]. split; (split; [intros X|intros X]); [eauto|exact I1|contradiction|]. destruct X as (d & X & _). apply U in X as [_ X]. discriminate X.
      * cbn [snd]. split; (split; [intros X|intros X]); [eauto|exact I1|contradiction|]. destruct X as (d & _ & X). congruence.
    + split; (split; [intros X|intros X]); [eauto|exact I1|contradiction|]. destruct X as (d & _ & X). congruence.
    + split; (split; [intros X|intros X]); [eauto|exact I1|contradiction|]. destruct X as (d & _ & X). congruence.
  - assert (N : forall d r, ~ reaches c d r).
    { intros d r R. destruct (process_reaches c d r R) as (b & _ & _ & P). apply N1. rewrite P. assert (In Converts (b ++ [Converts])) by (apply in_or_app; right; now left).
      destruct (c_convert c); cbn [try_step snd]; auto. destruct (_ && _); [|exact H]. destruct (c_solver c); cbn [try_step snd]; apply in_or_app; now left. }
    split; (split; [contradiction|]); [intros (d & r & X)|intros (d & X & _)]; now apply N in X.
Qed.

(** A wrong option ends with the code of a crash, and not with that of a wrong command
    line: until the settings are read the handlers throw again. *)
Definition fine : call := mkCall (Done tt) false false (Done tt) true (Done (false, true)) None true false (Done true) (Done tt) (Done 0) (Done 105).
Definition with_settings (c : call) (o : step unit) (s : step (bool * bool)) (r : step Z) : call :=
  mkCall o (c_version c) (c_help c) (c_config c) (c_input c) s (c_results c) (c_exists c) (c_outdir c) (c_create c) (c_format c) r (c_solver c).
Theorem C131_options_refuted : exists c, c_settings c = Raise InvalidArgument /\ main true c <> INVALID_COMMAND_LINE /\ main true c = CHILD_CRASHED.
Proof. exists (with_settings fine (Done tt) (Raise InvalidArgument) (Done 0)). repeat split. discriminate. Qed.
Theorem C131_options_crash : forall c e, c_options c = Raise e \/ (c_options c = Done tt /\ c_version c = false /\ c_help c = false /\ c_config c = Done tt /\ c_input c = true /\ c_settings c = Raise e) ->
  main true c = CHILD_CRASHED.
Proof. intros c e [H|(H1 & H2 & H3 & H4 & H5 & H6)]; unfold main, process; [now rewrite H|]. rewrite H1, H2, H3, H4, H5, H6. reflexivity. Qed.
(** So does an error of the input file at the level of DEBUG. *)
Theorem C131_debug_refuted : exists c run, reaches c true run /\ c_convert c = Raise Parsing /\ main true c <> PARSING_EXCEPTION.
Proof. exists (with_settings fine (Done tt) (Done (true, false)) (Raise Parsing)), false. repeat split; try discriminate. now right. Qed.

(** A study converted, then refused by the checks of the solver. *)
Example C131_study : codes fine /\ reaches fine false true /\ main true fine = 105 /\ process fine = (Done 105, [MakesDirectory; Converts; RunsSolver]).
Proof. repeat split; try discriminate; cbn in *; try (injection H as <-; lia). now right. Qed.
Example C131_unreadable : main true (with_settings fine (Done tt) (Done (false, true)) (Raise Parsing)) = 6.
Proof. reflexivity. Qed.

Print Assumptions C131_zero.
Print Assumptions C131_errors.
Print Assumptions C131_failures.
Print Assumptions C131_effects.
Print Assumptions C131_options_refuted.
Print Assumptions C131_options_crash.
Print Assumptions C131_debug_refuted.
