(** C131, put together with C130: what code 0 says of the run of the solver. *)
From Coq Require Import Ascii String ZArith List Bool Lia.
From Verif Require Import Base TextModel CaseControlModel RunnerModel PropertiesRunner ProcessModel PropertiesProcess.
Import ListNotations.
Open Scope Z_scope.
Open Scope list_scope.

Lemma zero_run c debug e : codes c -> reaches c debug true -> c_solver c = Done (exit_number e) -> (main true c = 0 <-> c_convert c = Done 0 /\ e = RunOk).
Proof.
  intros K R X. rewrite (C131_zero c K). split.
  - intros [[_ [V|V]]|(b & r & R' & C & Q)].
    + destruct R as (_ & R & _). congruence.
    + destruct R as (_ & _ & R & _). congruence.
    + split; [exact C|]. assert (r = true) as -> by (destruct R as (_ & _ & _ & _ & _ & R & _), R' as (_ & _ & _ & _ & _ & R' & _); congruence).
      specialize (Q eq_refl). rewrite X in Q. injection Q as Q. destruct e; try discriminate Q. reflexivity.
  - intros [C ->]. right. exists debug, true. split; [exact R|]. split; [exact C|]. intros _. exact X.
Qed.

(** Put together with the run of Code_Aster: when a translation that runs the solver ends
    with code 0, the solver ended well on the command file of the study and left a result
    file, which was not there before, without a failed check; and conversely. *)
Definition step_of (o : outcome (Z * dir)) : step Z := match o with Ok (n, _) => Done n | Throw => Raise LogicError | _ => Crash end.
Theorem C131_aster_run : forall c debug solve base d, codes c -> reaches c debug true -> c_solver c = step_of (runSolver (Some (aster_exec true solve base d))) ->
  exists d0 i out d1, solve (base ++ txt ".export") d0 = (i, out, d1) /\ file d0 (base ++ txt ".resu") = None /\
  (main true c = 0 <-> c_convert c = Done 0 /\ i = 0 /\
    exists ls, file d1 (base ++ txt ".resu") = Some ls /\ forall l, In l ls -> ~ contains (txt "NOOK") l).
Proof.
  intros c debug solve base d K R S.
  assert (exists e d', aster_exec true solve base d = Ok (e, d')) as (e & d' & A).
  { unfold aster_exec. cbn [negb]. destruct (shell _ _ _ _) as [i d1]. destruct (convertExecResult i); try (eexists; eexists; reflexivity).
    destruct (file _ _); eexists; eexists; reflexivity. }
  destruct (C130_aster solve base d e d' A) as (d0 & i & out & d1 & E & F & _ & G & _). exists d0, i, out, d1. split; [exact E|]. split; [exact F|].
  rewrite <- G. assert (X : c_solver c = Done (exit_number e)) by (rewrite S, A; reflexivity).
  now apply (zero_run c debug).
Qed.
Example C131_aster_case : exists c d, codes c /\ reaches c false true /\ main true c = 0 /\
  c_solver c = step_of (runSolver (Some (aster_exec true (fun _ x => (0, [], (txt "a.resu", [txt " OK "]) :: x)) (txt "a") d))).
Proof.
  exists (mkCall (Done tt) false false (Done tt) true (Done (false, true)) None true true (Done true) (Done tt) (Done 0) (Done 0)), [].
  repeat split; try discriminate; cbn in *; try (injection H as <-; lia). now left.
Qed.

(** The same for Systus: the solver ended well, printed no error, and left results of the
    study without a failed check. *)
Theorem C131_systus_run : forall c debug solve name d e d', codes c -> reaches c debug true ->
  systus_exec true true solve name d = Ok (e, d') -> c_solver c = step_of (runSolver (Some (Ok (e, d')))) ->
  let prefix := before (txt "_ALL") name in exists d0 i out d1, solve (name ++ txt ".DAT") d0 = (i, out, d1) /\
  (main true c = 0 <-> c_convert c = Done 0 /\ i = 0 /\ clean_output out /\
    (exists f, In f d' /\ (result_of prefix (txt ".TIT") f \/ result_of prefix (txt ".fdb") f)) /\ no_failed_check prefix d').
Proof.
  intros c debug solve name d e d' K R A S prefix.
  destruct (C130_systus solve name d e d' A) as (d0 & i & out & d1 & E & _ & _ & G). exists d0, i, out, d1. split; [exact E|].
  unfold prefix. rewrite <- G. assert (X : c_solver c = Done (exit_number e)) by (rewrite S; reflexivity). now apply (zero_run c debug).
Qed.
Example C131_systus_case : exists c d e d', codes c /\ reaches c false true /\ main true c = 105 /\
  systus_exec true true (fun _ x => (0, [], (txt "a_1.TIT", []) :: (txt "a_1.RESU", [txt "NOOK"]) :: x)) (txt "a_ALL") d = Ok (e, d') /\
  c_solver c = step_of (runSolver (Some (Ok (e, d')))).
Proof.
  exists (mkCall (Done tt) false false (Done tt) true (Done (false, true)) None true true (Done true) (Done tt) (Done 0) (Done 105)), []. eexists. eexists.
  repeat split; try discriminate; cbn in *; try (injection H as <-; lia). now left.
Qed.

Print Assumptions C131_aster_run.
Print Assumptions C131_systus_run.
