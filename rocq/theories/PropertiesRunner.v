(** C130: what the tool reports of a run of the solver. *)
From Coq Require Import Ascii String ZArith List Bool Lia.
From Verif Require Import Base TextModel TextProofs CaseControlModel F06Proofs RunnerModel.
Import ListNotations.
Open Scope Z_scope.
Open Scope list_scope.

Definition contains (p l : str) : Prop := exists a b, l = a ++ p ++ b.
Definition begins_with (p l : str) : Prop := exists b, l = p ++ b.
Definition ends_with (p l : str) : Prop := exists a, l = a ++ p.

Lemma infix_iff p l : has_infix p l = true <-> contains p l.
Proof.
  unfold contains. induction l as [|c l IH]; cbn [has_infix].
  - rewrite orb_false_r, has_prefix_iff. split.
    + intros [b E]. now exists [], b.
    + intros (a & b & E). destruct a; [eauto|discriminate E].
  - rewrite orb_true_iff, has_prefix_iff, IH. split.
    + intros [[b E]|(a & b & E)]; [now exists [], b|]. exists (c :: a), b. cbn. now rewrite E.
    + intros (a & b & E). destruct a as [|x a]; [left; now exists b|]. injection E as <- E. right. eauto.
Qed.
Lemma ends_iff p l : ends p l = true <-> ends_with p l.
Proof.
  unfold ends, ends_with. rewrite has_prefix_iff. split; intros [b E].
  - exists (rev b). rewrite <- (rev_involutive l), E, rev_app_distr. now rewrite rev_involutive.
  - exists (rev b). now rewrite E, rev_app_distr.
Qed.
Lemma nook_iff ls : nook ls = false <-> forall l, In l ls -> ~ contains (txt "NOOK") l.
Proof.
  unfold nook. split.
  - intros H l I C. apply infix_iff in C. assert (existsb (has_infix (txt "NOOK")) ls = true) by (apply existsb_exists; eauto). congruence.
  - intros H. destruct (existsb _ ls) eqn:E; [|reflexivity]. apply existsb_exists in E as (l & I & E). apply infix_iff in E. now apply H in E.
Qed.
Lemma file_put n ls d m : file (put n ls d) m = if str_eqb m n then Some ls else file d m.
Proof.
  unfold file, put, remove_if. cbn [find fst]. destruct (str_eqb_spec n m) as [E|N].
  - subst m. destruct (str_eqb_spec n n); [reflexivity|congruence].
  - destruct (str_eqb_spec m n); [congruence|].
    f_equal. induction d as [|[k v] d IH]; [reflexivity|]. cbn. destruct (str_eqb_spec k n) as [->|K]; cbn.
    + rewrite IH. destruct (str_eqb_spec n m); [contradiction|reflexivity].
    + destruct (str_eqb_spec k m); [reflexivity|exact IH].
Qed.
Lemma file_remove p d m : file (remove_if p d) m = if p m then None else file d m.
Proof.
  unfold file, remove_if. induction d as [|[k v] d IH]; cbn; [now destruct (p m)|]. destruct (p k) eqn:P; cbn.
  - rewrite IH. destruct (str_eqb_spec k m) as [->|]; [now rewrite P|reflexivity].
  - destruct (str_eqb_spec k m) as [<-|]; [now rewrite P|exact IH].
Qed.
Lemma in_remove p d f : In f (remove_if p d) <-> In f d /\ p (fst f) = false.
Proof. unfold remove_if. rewrite filter_In. destruct (p (fst f)); cbn; intuition discriminate. Qed.

(** The status of a command that ended with a code. *)
Theorem C130_status : forall c, 0 <= c < 256 -> let e := convertExecResult (c * 256) in
  (e = RunOk <-> c = 0) /\ (e = SolverNotFound <-> c = 127) /\ (e = SolverKilled <-> 128 < c <= 165) /\
  (e = ExitNotZero <-> c <> 0 /\ c <> 127 /\ ~ 128 < c <= 165).
Proof.
  intros c B. unfold convertExecResult. cbv zeta.
  assert (Z.shiftr (Z.land (c * 256) 65280) 8 = c) as ->.
  { rewrite Z.shiftr_land. rewrite (Z.shiftr_div_pow2 (c * 256)) by lia. change (2 ^ 8) with 256. rewrite Z.div_mul by lia.
    change (Z.shiftr 65280 8) with (Z.ones 8). rewrite Z.land_ones by lia. apply Z.mod_small. exact B. }
  destruct (Z.eqb_spec (c * 256) 0) as [E|E].
  - assert (c = 0) by lia. subst c. repeat split; intros; try discriminate; try lia.
  - destruct (Z.eqb_spec c 127) as [F|F]; [repeat split; intros; try discriminate; try lia; auto|].
    destruct (Z.ltb_spec 128 c) as [G|G]; destruct (Z.leb_spec c 165) as [K|K]; cbn [andb];
      destruct (Z.eqb_spec (c * 256) (-1)); try lia; repeat split; intros; try discriminate; try lia; auto.
Qed.
Lemma status_zero i : convertExecResult i = RunOk <-> i = 0.
Proof.
  unfold convertExecResult. destruct (Z.eqb_spec i 0); [tauto|]. split; [|contradiction].
  destruct (_ =? 127); [discriminate|]. destruct (_ && _); [discriminate|]. destruct (_ =? -1); discriminate.
Qed.

(** Code_Aster: the tool reports a success exactly when the solver ends well and leaves a
    result file without failed check; what an earlier run left does not count. *)
Theorem C130_aster : forall run base d e d', aster_exec true run base d = Ok (e, d') -> exists d0 i out d1,
  run (base ++ txt ".export") d0 = (i, out, d1) /\
  file d0 (base ++ txt ".resu") = None /\ (forall n, file d0 n <> None -> file d0 n = file d n) /\
  (e = RunOk <-> i = 0 /\ exists ls, file d1 (base ++ txt ".resu") = Some ls /\ forall l, In l ls -> ~ contains (txt "NOOK") l) /\
  (e = TestFail <-> i = 0 /\ exists ls l, file d1 (base ++ txt ".resu") = Some ls /\ In l ls /\ contains (txt "NOOK") l) /\
  (e = ResultNotFound <-> i = 0 /\ file d1 (base ++ txt ".resu") = None).
Proof.
  intros run base d e d' H. unfold aster_exec in H. cbn [negb] in H. set (d0 := deletePrevious _ _ d) in H. unfold shell in H.
  destruct (run (base ++ txt ".export") d0) as [[i out] d1] eqn:R. exists d0, i, out, d1. split; [exact R|].
  split. { unfold d0, deletePrevious. rewrite file_remove. cbn [existsb]. destruct (str_eqb_spec (base ++ txt ".resu") (base ++ txt ".resu")); [|congruence]. now rewrite !orb_true_r. }
  split. { intros n. unfold d0, deletePrevious. rewrite file_remove. destruct (existsb _ _); congruence. }
  assert (N : str_eqb (base ++ txt ".resu") (base ++ txt ".stdout") = false).
  { destruct (str_eqb_spec (base ++ txt ".resu") (base ++ txt ".stdout")) as [E|]; [|reflexivity]. apply app_inv_head in E. discriminate E. }
  rewrite file_put, N in H. pose proof (status_zero i) as Z0.
  destruct (convertExecResult i) eqn:C.
  { assert (i = 0) as I0 by (apply Z0; reflexivity). destruct (file d1 (base ++ txt ".resu")) as [ls|] eqn:F.
    - injection H as <- _. destruct (nook ls) eqn:K.
      + split; [split; [discriminate|]|split; [split|split; [discriminate|]]].
        * intros (_ & x & E & A). injection E as <-. apply nook_iff in A. congruence.
        * intros _. split; [exact I0|]. unfold nook in K. apply existsb_exists in K as (l & I & K). apply infix_iff in K. eauto.
        * reflexivity.
        * intros [_ E]. discriminate E.
      + split; [split; [|reflexivity]|split; [split; [discriminate|]|split; [discriminate|]]].
        * intros _. split; [exact I0|]. exists ls. split; [reflexivity|]. now apply nook_iff.
        * intros (_ & x & l & E & I & A). injection E as <-. exfalso. now apply (proj1 (nook_iff ls) K l I).
        * intros [_ E]. discriminate E.
    - injection H as <- _. split; [split; [discriminate|]|split; [split; [discriminate|]|split; [auto|reflexivity]]].
      + intros (_ & x & E & _). discriminate E.
      + intros (_ & x & l & E & _). discriminate E. }
  all: assert (i <> 0) as I0 by (intros E; apply Z0 in E; discriminate E); injection H as <- _; destruct (i =? 4);
    (split; [split; [discriminate|tauto]|split; [split; [discriminate|tauto]|split; [discriminate|tauto]]]) || idtac.
  all: exfalso; revert C; unfold convertExecResult; destruct (i =? 0); [discriminate|]; destruct (_ =? 127); [discriminate|]; destruct (_ && _); [discriminate|]; destruct (i =? -1); discriminate.
Qed.
(** The code 4 of Code_Aster stands for an error of syntax, but the tool compares it with
    the status, in which the code is shifted: it reports another error. *)
Theorem C130_syntax_refuted : exists run base d, (forall n x, fst (fst (run n x)) = 4 * 256) /\ exists d', aster_exec true run base d = Ok (ExitNotZero, d').
Proof. exists (fun _ d => (1024, [], d)), (txt "a"), []. split; [reflexivity|]. eexists. reflexivity. Qed.
Theorem C130_syntax_never : forall run base d c e d', (forall n x, fst (fst (run n x)) = c * 256) -> 0 <= c < 256 ->
  aster_exec true run base d = Ok (e, d') -> e <> SyntaxError.
Proof.
  intros run base d c e d' R B H. unfold aster_exec, shell in H. cbn [negb] in H. set (d0 := deletePrevious _ _ d) in H.
  specialize (R (base ++ txt ".export") d0). destruct (run (base ++ txt ".export") d0) as [[i out] d1]. cbn in R. subst i.
  destruct (Z.eqb_spec (c * 256) 4); [lia|].
  destruct (C130_status c B) as (S1 & S2 & S3 & S4). destruct (convertExecResult (c * 256)) eqn:C.
  - destruct (file _ _) as [ls|]; injection H as <- _; [destruct (nook ls)|]; discriminate.
  - injection H as <- _. discriminate.
  - exfalso. assert (N : SyntaxError <> ExitNotZero) by discriminate. apply N, S4. repeat split; intros X;
      [apply S1 in X|apply S2 in X|apply S3 in X]; discriminate X.
  - injection H as <- _. discriminate.
  - injection H as <- _. discriminate.
  - injection H as <- _. discriminate.
  - injection H as <- _. discriminate.
Qed.

(** Nastran: the status of the command only. *)
Theorem C130_nastran : forall run base d e d', nastran_exec true run base d = Ok (e, d') -> exists d0 i out d1,
  run (base ++ txt ".nas") d0 = (i, out, d1) /\ file d0 (base ++ txt ".f06") = None /\ (e = RunOk <-> i = 0) /\ e = convertExecResult i.
Proof.
  intros run base d e d' H. unfold nastran_exec, shell in H. cbn [negb] in H. set (d0 := deletePrevious _ _ d) in H.
  destruct (run (base ++ txt ".nas") d0) as [[i out] d1] eqn:R. exists d0, i, out, d1. injection H as <- _. split; [exact R|]. split; [|split; [apply status_zero|reflexivity]].
  unfold d0, deletePrevious. rewrite file_remove. cbn [existsb]. destruct (str_eqb_spec (base ++ txt ".f06") (base ++ txt ".f06")); [|congruence]. now rewrite !orb_true_r.
Qed.

(** The results of a study of Systus. *)
Definition result_of (prefix ext : str) (f : str * list str) : Prop := begins_with prefix (fst f) /\ ends_with ext (fst f).
Definition clean_output (ls : list str) : Prop := forall l, In l ls -> contains (txt "ERROR") l -> contains (txt "NO ERROR") l.
Definition no_failed_check (prefix : str) (d : dir) : Prop := forall f l, In f d -> result_of prefix (txt ".RESU") f -> In l (snd f) -> ~ contains (txt "NOOK") l.
Lemma result_iff prefix ext d : some_result prefix ext d = true <-> exists f, In f d /\ result_of prefix ext f.
Proof.
  unfold some_result, result_of, begins_with. rewrite existsb_exists. split; intros (f & I & X); exists f; (split; [exact I|]).
  - apply andb_true_iff in X as [X Y]. apply ends_iff in X. now apply has_prefix_iff in Y.
  - destruct X as [X Y]. apply andb_true_iff. split; [now apply ends_iff|now apply has_prefix_iff].
Qed.
Lemma clean_iff ls : existsb error_line ls = false <-> clean_output ls.
Proof.
  unfold clean_output, error_line. split.
  - intros H l I C. apply infix_iff. destruct (has_infix (txt "NO ERROR") l) eqn:E; [reflexivity|]. exfalso. apply infix_iff in C.
    assert (existsb (fun l => has_infix (txt "ERROR") l && negb (has_infix (txt "NO ERROR") l)) ls = true) by (apply existsb_exists; exists l; rewrite C, E; auto). congruence.
  - intros H. destruct (existsb _ ls) eqn:E; [|reflexivity]. apply existsb_exists in E as (l & I & E). apply andb_true_iff in E as [E1 E2].
    apply infix_iff in E1. apply (H l I), infix_iff in E1. rewrite E1 in E2. discriminate E2.
Qed.
Lemma checks_iff prefix d : existsb (fun f => ends (txt ".RESU") (fst f) && has_prefix prefix (fst f) && nook (snd f)) d = false <-> no_failed_check prefix d.
Proof.
  unfold no_failed_check, result_of, begins_with. split.
  - intros H f l I [P S] J C. apply ends_iff in S. apply has_prefix_iff in P.
    assert (nook (snd f) = true) as K by (unfold nook; apply existsb_exists; exists l; split; [exact J|now apply infix_iff]).
    assert (existsb (fun f => ends (txt ".RESU") (fst f) && has_prefix prefix (fst f) && nook (snd f)) d = true) by (apply existsb_exists; exists f; rewrite S, P, K; auto). congruence.
  - intros H. destruct (existsb _ d) eqn:E; [|reflexivity]. apply existsb_exists in E as (f & I & E). apply andb_true_iff in E as [E K]. apply andb_true_iff in E as [S P].
    apply ends_iff in S. apply has_prefix_iff in P. unfold nook in K. apply existsb_exists in K as (l & J & K). apply infix_iff in K. exfalso. now apply (H f l I (conj P S) J).
Qed.
Lemma results_ok product prefix out status d ls : file d out = Some ls -> systus_results product prefix out status d = Ok RunOk <->
  status = Some RunOk /\ clean_output ls /\ (product = true -> exists f, In f d /\ (result_of prefix (txt ".TIT") f \/ result_of prefix (txt ".fdb") f)) /\ no_failed_check prefix d.
Proof.
  intros F. unfold systus_results. rewrite F. rewrite <- clean_iff, <- checks_iff. destruct (existsb error_line ls); [split; [discriminate|intros (_ & X & _); discriminate X]|].
  destruct status as [[]|]; try (split; [discriminate|intros (X & _); discriminate X]).
  assert (P : product && negb (some_result prefix (txt ".TIT") d) && negb (some_result prefix (txt ".fdb") d) = false <->
     (product = true -> exists f, In f d /\ (result_of prefix (txt ".TIT") f \/ result_of prefix (txt ".fdb") f))).
  { destruct product; cbn [andb]; [|split; [discriminate|reflexivity]]. rewrite andb_false_iff, !negb_false_iff, !result_iff. split.
    - intros [(f & I & X)|(f & I & X)] _; eauto.
    - intros X. destruct (X eq_refl) as (f & I & [Y|Y]); eauto. }
  destruct (product && _ && _).
  - split; [discriminate|]. intros (_ & _ & X & _). apply P in X. discriminate X.
  - destruct (existsb _ d); [split; [discriminate|intros (_ & _ & _ & X); discriminate X]|]. split; [|reflexivity]. intros _. repeat split. now apply P.
Qed.

(** Systus: the tool reports a success exactly when the solver ends well, prints no error,
    leaves a result of the study, and no check of the study failed; the results of earlier
    runs are not there when the solver starts. *)
Theorem C130_systus : forall run name d e d', systus_exec true true run name d = Ok (e, d') ->
  let prefix := before (txt "_ALL") name in exists d0 i out d1, run (name ++ txt ".DAT") d0 = (i, out, d1) /\ incl d0 d /\
  (forall f, In f d0 -> ~ result_of prefix (txt ".TIT") f /\ ~ result_of prefix (txt ".fdb") f /\ ~ result_of prefix (txt ".RESU") f) /\
  (e = RunOk <-> i = 0 /\ clean_output out /\ (exists f, In f d' /\ (result_of prefix (txt ".TIT") f \/ result_of prefix (txt ".fdb") f)) /\ no_failed_check prefix d').
Proof.
  intros run name d e d' H prefix. unfold systus_exec in H. cbn [negb] in H. fold prefix in H. set (d0 := remove_if (previous prefix) d) in H. unfold shell in H.
  destruct (run (name ++ txt ".DAT") d0) as [[i out] d1] eqn:R. exists d0, i, out, d1. split; [exact R|].
  destruct (systus_results _ _ _ _ _) as [x| | |] eqn:S; try discriminate H. cbn in H. injection H as -> <-.
  split; [intros f I; now apply in_remove in I|]. split.
  - intros f I. apply in_remove in I as [_ P]. unfold previous in P. apply orb_false_iff in P as [P _]. unfold result_of, begins_with.
    repeat split; intros [A B]; apply has_prefix_iff in A; apply ends_iff in B; rewrite A, B in P; cbn in P; rewrite ?orb_true_r in P; discriminate P.
  - assert (F : file (put (name ++ txt ".stdout") out d1) (name ++ txt ".stdout") = Some out).
    { rewrite file_put. destruct (str_eqb_spec (name ++ txt ".stdout") (name ++ txt ".stdout")); congruence. }
    pose proof (results_ok true prefix _ (Some (convertExecResult i)) _ _ F) as O. rewrite S in O.
    assert (e = RunOk <-> Ok e = Ok RunOk) as -> by (split; congruence). rewrite O, <- status_zero. split.
    + intros (A & B & C & D). injection A as A. auto.
    + intros (A & B & C & D). rewrite A. auto.
Qed.

(** The failures of Systus are told apart: an error printed, the status of the command, no
    result of the study, a failed check. *)
Lemma results_failures product prefix out x d ls : file d out = Some ls ->
  let results := exists f, In f d /\ (result_of prefix (txt ".TIT") f \/ result_of prefix (txt ".fdb") f) in
  exists e, systus_results product prefix out (Some x) d = Ok e /\
  (~ clean_output ls -> e = ExitNotZero) /\ (clean_output ls -> x <> RunOk -> e = x) /\
  (clean_output ls -> x = RunOk -> product = true -> ~ results -> e = ResultNotFound) /\
  (clean_output ls -> x = RunOk -> product = false \/ results -> ~ no_failed_check prefix d -> e = TestFail).
Proof.
  intros F results. unfold systus_results. rewrite F. destruct (existsb error_line ls) eqn:EL.
  - assert (N : ~ clean_output ls) by (intros X; apply clean_iff in X; congruence). exists ExitNotZero. repeat split; intros; contradiction.
  - assert (K : clean_output ls) by now apply clean_iff.
    destruct x; try (eexists; split; [reflexivity|]; repeat split; intros; congruence).
    destruct (product && negb (some_result prefix (txt ".TIT") d) && negb (some_result prefix (txt ".fdb") d)) eqn:P.
    + apply andb_true_iff in P as [P P3]. apply andb_true_iff in P as [P1 P2]. apply negb_true_iff in P2. apply negb_true_iff in P3.
      exists ResultNotFound. repeat split; try congruence; try contradiction. intros _ _ [X|(f & I & [X|X])]; [congruence| |]; exfalso.
      * assert (some_result prefix (txt ".TIT") d = true) by (apply result_iff; eauto). congruence.
      * assert (some_result prefix (txt ".fdb") d = true) by (apply result_iff; eauto). congruence.
    + eexists. split; [reflexivity|]. split; [contradiction|]. split; [congruence|]. split.
      * intros _ _ -> N. exfalso. cbn [andb] in P. apply N. apply andb_false_iff in P as [P|P]; apply negb_false_iff, result_iff in P as (f & I & X); exists f; auto.
      * intros _ _ _ N. destruct (existsb _ d) eqn:EK; [reflexivity|]. exfalso. now apply N, checks_iff.
Qed.
Theorem C130_systus_failures : forall run name d e d', systus_exec true true run name d = Ok (e, d') ->
  let prefix := before (txt "_ALL") name in let results := exists f, In f d' /\ (result_of prefix (txt ".TIT") f \/ result_of prefix (txt ".fdb") f) in
  exists d0 i out d1, run (name ++ txt ".DAT") d0 = (i, out, d1) /\
  (~ clean_output out -> e = ExitNotZero) /\ (clean_output out -> i <> 0 -> e = convertExecResult i) /\
  (clean_output out -> i = 0 -> ~ results -> e = ResultNotFound) /\
  (clean_output out -> i = 0 -> results -> ~ no_failed_check prefix d' -> e = TestFail).
Proof.
  intros run name d e d' H prefix results. unfold systus_exec in H. cbn [negb] in H. fold prefix in H. set (d0 := remove_if (previous prefix) d) in H. unfold shell in H.
  destruct (run (name ++ txt ".DAT") d0) as [[i out] d1] eqn:R. exists d0, i, out, d1. split; [exact R|].
  destruct (systus_results _ _ _ _ _) as [x| | |] eqn:S; try discriminate H. cbn in H. injection H as -> <-.
  assert (F : file (put (name ++ txt ".stdout") out d1) (name ++ txt ".stdout") = Some out).
  { rewrite file_put. destruct (str_eqb_spec (name ++ txt ".stdout") (name ++ txt ".stdout")); congruence. }
  destruct (results_failures true prefix _ (convertExecResult i) _ _ F) as (y & Y & A & B & C & D). rewrite S in Y. injection Y as <-.
  pose proof (status_zero i) as Z0. split; [exact A|]. split; [intros K N; apply B; [exact K|intros E; apply N, Z0, E]|]. split.
  - intros K N. apply C; [exact K|now apply Z0|reflexivity].
  - intros K N X. apply D; [exact K|now apply Z0|right; exact X].
Qed.

(** The other product: every command file of the study is run, and all end well. *)
Inductive runs (run : solver) (out : str) : list str -> dir -> dir -> Prop :=
| no_run d : runs run out [] d d
| one_run c r d ls d1 d2 : run c d = (0, ls, d1) -> runs run out r (put out ls d1) d2 -> runs run out (c :: r) d d2.
Lemma run_all_ok run out cs : forall last d s d', run_all run out cs last d = (s, d', false) -> runs run out cs d d' /\ s = match cs with [] => last | _ => Some RunOk end.
Proof.
  induction cs as [|c cs IH]; intros last d s d' H; cbn in H.
  - injection H as <- <-. split; [constructor|reflexivity].
  - unfold shell in H. destruct (run c d) as [[i ls] d1] eqn:R. pose proof (status_zero i) as Z0. destruct (convertExecResult i); try discriminate H.
    assert (i = 0) by (apply Z0; reflexivity). subst i. destruct (IH _ _ _ _ H) as [A B]. split; [econstructor; eauto|]. rewrite B. now destruct cs.
Qed.
Lemma run_all_stop run out cs : forall last d s d', run_all run out cs last d = (s, d', true) -> exists e, s = Some e /\ e <> RunOk.
Proof.
  induction cs as [|c cs IH]; intros last d s d' H; cbn in H; [discriminate H|]. destruct (shell run out c d) as [i d1].
  destruct (convertExecResult i); try (injection H as <- _; eexists; split; [reflexivity|discriminate]). eauto.
Qed.
Theorem C130_topaze : forall run name d d', systus_exec true false run name d = Ok (RunOk, d') ->
  let prefix := before (txt "_ALL") name in exists d0 cs, incl d0 d /\ cs <> [] /\ runs run (name ++ txt ".stdout") cs d0 d' /\
  (forall c, In c cs <-> (exists ls, In (c, ls) d0) /\ begins_with prefix c /\ ends_with (txt ".DAT") c) /\ no_failed_check prefix d'.
Proof.
  intros run name d d' H prefix. unfold systus_exec in H. cbn [negb] in H. fold prefix in H. set (d0 := remove_if (previous prefix) d) in H.
  set (cs := filter _ _) in H. exists d0, cs. destruct (run_all run _ cs None d0) as [[s d1] stop] eqn:R. split; [intros f I; now apply in_remove in I|].
  destruct stop.
  - apply run_all_stop in R as (e & -> & N). injection H as -> _. contradiction.
  - apply run_all_ok in R as [A B]. assert (X : (do e <- systus_results false prefix (name ++ txt ".stdout") s d1; Ok (e, d1)) = Ok (RunOk, d')) by (destruct s; exact H). clear H.
    destruct (systus_results _ _ _ _ _) as [x| | |] eqn:S; try discriminate X. cbn in X. injection X as -> <-.
    assert (s = Some RunOk /\ no_failed_check prefix d1) as [Y Q].
    { unfold systus_results in S. destruct (if existsb error_line _ then _ else s) as [[]|] eqn:E; try discriminate S. destruct (existsb error_line _); [discriminate E|].
      split; [exact E|]. cbn [andb] in S. apply checks_iff. destruct (existsb _ d1); [discriminate S|reflexivity]. }
    split. { intros E. rewrite E in B. congruence. } split; [exact A|]. split; [|exact Q].
    intros c. unfold cs. rewrite filter_In, in_map_iff, andb_true_iff, ends_iff, has_prefix_iff. unfold begins_with. split.
    + intros [([n ls] & <- & I) [Y1 Y2]]. split; [exists ls; exact I|auto].
    + intros [[ls I] [Y1 Y2]]. split; [exists (c, ls); auto|auto].
Qed.

(** Without command file the tool returns a code that was never set. *)
Theorem C130_no_command_refuted : exists run name d, systus_exec true false run name d = UB.
Proof. exists (fun _ d => (0, [], d)), (txt "a_ALL"), []. reflexivity. Qed.
(** All the command files print into the same file: an error printed by one is lost when
    another follows. *)
Definition first_fails : solver := fun c d => (0, if str_eqb c (txt "a_SC1.DAT") then [txt "ERROR"] else [], d).
Theorem C130_lost_error_refuted : exists run name d d' c, In c (map fst d) /\ (forall x, exists l, In l (snd (fst (run c x))) /\ contains (txt "ERROR") l /\ ~ contains (txt "NO ERROR") l) /\
  systus_exec true false run name d = Ok (RunOk, d').
Proof.
  exists first_fails, (txt "a_ALL"), [(txt "a_SC1.DAT", []); (txt "a_SC2.DAT", [])]. eexists. exists (txt "a_SC1.DAT"). split; [now left|]. split; [|reflexivity].
  intros x. exists (txt "ERROR"). split; [now left|]. split; [now exists [], []|]. intros X. apply infix_iff in X. discriminate X.
Qed.
(** A run removes the results of every study whose name begins in the same way. *)
Theorem C130_other_study_refuted : exists run d d' e, (forall c x, snd (run c x) = x) /\ file d (txt "ab_1.RESU") <> None /\
  systus_exec true true run (txt "a_ALL") d = Ok (e, d') /\ file d' (txt "ab_1.RESU") = None.
Proof. exists (fun _ d => (0, [], d)), [(txt "ab_1.RESU", [txt "OK"])]. eexists. eexists. split; [reflexivity|]. split; [discriminate|]. split; reflexivity. Qed.

(** The tool ends with code 0 exactly when the run is a success, and tells failures apart. *)
Theorem C130_number : forall r n d, runSolver (Some r) = Ok (n, d) -> exists e, r = Ok (e, d) /\ (n = 0 <-> e = RunOk) /\
  forall e', exit_number e' = n -> e' = e.
Proof.
  intros r n d H. cbn in H. destruct r as [[e d1]| | |]; try discriminate H. cbn in H. injection H as <- <-. exists e. split; [reflexivity|].
  split; [destruct e; cbn; split; intros; try discriminate; reflexivity|]. intros e'. destruct e, e'; cbn; intros; try discriminate; reflexivity.
Qed.
Theorem C130_no_runner_refuted : exists r, r = None /\ runSolver r = UB.
Proof. exists None. split; reflexivity. Qed.

(** A run of each solver. *)
Example C130_aster_case : exists d', aster_exec true (fun _ d => (0, [], (txt "a.resu", [txt " OK "; txt "NOOK x"]) :: d)) (txt "a") [(txt "a.resu", [txt "OK"])] = Ok (TestFail, d').
Proof. eexists. reflexivity. Qed.
Example C130_nastran_case : exists d', nastran_exec true (fun _ d => (32512, [], d)) (txt "a") [] = Ok (SolverNotFound, d').
Proof. eexists. reflexivity. Qed.
Example C130_systus_case : exists d', systus_exec true true (fun _ d => (0, [txt "NO ERROR"], (txt "a_1.TIT", []) :: (txt "a_1.RESU", [txt "OK"]) :: d)) (txt "a_ALL")
  [(txt "a_1.RESU", [txt "NOOK"])] = Ok (RunOk, d').
Proof. eexists. reflexivity. Qed.
Example C130_topaze_case : exists d', systus_exec true false (fun _ d => (0, [], d)) (txt "a_ALL") [(txt "a_SC1.DAT", []); (txt "b.DAT", [])] = Ok (RunOk, d').
Proof. eexists. reflexivity. Qed.
Example C130_stale_case : exists d', systus_exec true true (fun _ d => (0, [], d)) (txt "a") [(txt "a_1.TIT", [])] = Ok (ResultNotFound, d').
Proof. eexists. reflexivity. Qed.

Print Assumptions C130_status.
Print Assumptions C130_aster.
Print Assumptions C130_syntax_refuted.
Print Assumptions C130_syntax_never.
Print Assumptions C130_nastran.
Print Assumptions C130_systus.
Print Assumptions C130_systus_failures.
Print Assumptions C130_topaze.
Print Assumptions C130_no_command_refuted.
Print Assumptions C130_lost_error_refuted.
Print Assumptions C130_other_study_refuted.
Print Assumptions C130_number.
Print Assumptions C130_no_runner_refuted.
