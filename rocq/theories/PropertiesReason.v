(** C131: every failure comes with its reason. *)
From Coq Require Import String ZArith List Bool Lia.
From Verif Require Import Base OptionsModel RunnerModel ProcessModel PropertiesProcess ReasonModel.
Import ListNotations.
Open Scope Z_scope.

(** The codes there are: those of process, of a conversion and of a run of a solver. *)
Definition known (n : Z) : Prop := In n [1; 2; 3; 6; 7] \/ (exists e, n = conversion_number e) \/ (exists e, n = exit_number e).
(** A conversion and a run end with their own codes. *)
Definition own_codes (c : call) : Prop :=
  (forall n, c_convert c = Done n -> exists e, n = conversion_number e) /\ (forall n, c_solver c = Done n -> exists e, n = exit_number e).

Lemma handle_known debug e n : handle debug e = Done n -> known n.
Proof. destruct debug, e; cbn; intros X; try discriminate X; injection X as <-; first [left; cbn; tauto|right; left; now exists ExitInvalid]. Qed.
Lemma run_known c debug run d n : own_codes c -> fst (convert_and_run c debug run d) = Done n -> known n.
Proof.
  intros [A B]. unfold convert_and_run. destruct (c_format c) as [u|e|]; cbn [try_step]; [|apply handle_known|discriminate].
  destruct (c_convert c) as [m|e|]; cbn [try_step]; [|apply handle_known|discriminate].
  destruct ((m =? 0) && run).
  - destruct (c_solver c) as [k|e|]; cbn [try_step fst]; [|apply handle_known|discriminate]. intros X. injection X as <-. right. right. now apply B.
  - cbn [fst]. intros X. injection X as <-. right. left. now apply A.
Qed.
Lemma process_known c n : own_codes c -> fst (process c) = Done n -> known n.
Proof.
  intros K. assert (Z0 : known 0) by (right; left; now exists ExitOk). assert (Z2 : known 2) by (left; cbn; tauto). assert (Z3 : known 3) by (left; cbn; tauto).
  unfold process. destruct (c_options c) as [u|e|]; cbn [try_step]; [|apply handle_known|discriminate].
  destruct (c_version c); [cbn; congruence|]. destruct (c_help c); [cbn; congruence|].
  destruct (c_config c) as [v|e|]; cbn [try_step]; [|apply handle_known|discriminate].
  destruct (c_input c); cbn [negb]; [|cbn; unfold NO_INPUT_FILE; congruence].
  destruct (c_settings c) as [[debug run]|e|]; cbn [try_step]; [|apply handle_known|discriminate].
  destruct (c_results c) as [[]|]; [|cbn; unfold NO_INPUT_FILE; congruence|].
  all: destruct (c_exists c); cbn [negb]; [|cbn; unfold NO_INPUT_FILE; congruence].
  all: destruct (c_outdir c); [now apply run_known|].
  all: destruct (c_create c) as [[]|e|]; cbn [try_step]; [now apply run_known|cbn; unfold OUTPUT_DIR_NOT_CREATED; congruence|apply handle_known|discriminate].
Qed.
Lemma known_listed n : known n -> In n (map fst reasons).
Proof. intros [H|[[e ->]|[e ->]]]; [cbn in *; intuition|destruct e; cbn; tauto..]. Qed.
Lemma reasons_listed n : In n (map fst reasons) -> In (n, exitCodeToString n) reasons.
Proof. intros H. repeat (destruct H as [<-|H]; [cbn; tauto|]). destruct H. Qed.
Lemma reasons_unknown s : In s (map snd reasons) -> s <> "UNKNOWN FAILURE"%string.
Proof. intros H. repeat (destruct H as [<-|H]; [discriminate|]). destruct H. Qed.
Lemma reasons_nodup : NoDup (map snd reasons).
Proof. repeat constructor; cbn; intuition discriminate. Qed.

(** Every failure that is not a crash is printed with its code and with a reason, and two
    failures with the same reason have the same code. *)
Theorem C131_reasons : forall c, own_codes c -> match fst (process c) with
  | Done n => n <> 0 -> exists s, printed c = Some (s, n) /\ s <> "UNKNOWN FAILURE"%string /\ s <> "OK"%string
  | _ => printed c = None end.
Proof.
  intros c K. destruct (fst (process c)) as [n|e|] eqn:P; [|unfold printed; now rewrite P..].
  intros N. exists (exitCodeToString n). unfold printed. rewrite P. destruct (Z.eqb_spec n 0) as [|_]; [contradiction|]. split; [reflexivity|].
  pose proof (reasons_listed n (known_listed n (process_known c n K P))) as I. split.
  - apply reasons_unknown. apply in_map_iff. now exists (n, exitCodeToString n).
  - intros E. rewrite E in I. cbn in I. repeat (destruct I as [I|I]; [injection I; intros; try congruence; now subst n|]). destruct I.
Qed.
Theorem C131_reasons_apart : forall c c' s n n', own_codes c -> own_codes c' -> printed c = Some (s, n) -> printed c' = Some (s, n') -> n = n'.
Proof.
  intros c c' s n n' K K'. unfold printed. destruct (fst (process c)) as [m|e|] eqn:P; [|discriminate..]. destruct (fst (process c')) as [m'|e|] eqn:P'; [|discriminate..].
  destruct (m =? 0); [discriminate|]. destruct (m' =? 0); [discriminate|]. intros X X'. injection X as E <-. injection X' as E' <-.
  pose proof (reasons_listed m (known_listed m (process_known c m K P))) as I. pose proof (reasons_listed m' (known_listed m' (process_known c' m' K' P'))) as I'.
  rewrite E in I. rewrite E' in I'. clear - I I'. pose proof reasons_nodup as D. revert D I I'. induction reasons as [|[k t] r IH]; cbn; [tauto|].
  intros D. inversion D as [|? ? N D']; subst. intros [X|X] [Y|Y].
  - congruence.
  - injection X as -> ->. exfalso. apply N. apply in_map_iff. now exists (m', s).
  - injection Y as -> ->. exfalso. apply N. apply in_map_iff. now exists (m, s).
  - now apply IH.
Qed.
(** A model refused by the validation. *)
Example C131_reasons_case : exists c, own_codes c /\ printed c = Some ("Validation of model failed."%string, 5).
Proof.
  exists (mkCall (Done tt) false false (Done tt) true (Done (false, false)) None true true (Done true) (Done tt) (Done 5) (Done 0)). split; [|reflexivity].
  split; cbn; intros n X; injection X as <-; [now exists ExitValidation|now exists RunOk].
Qed.
Print Assumptions C131_reasons.
Print Assumptions C131_reasons_apart.
