(** C128: the command files of Systus solve the analyses of their subcase. *)
From Coq Require Import ZArith List Bool Lia Permutation.
From Verif Require Import Base OptionsModel SystusCaseModel PropertiesSystusCase SystusDatModel.
Import ListNotations.
Open Scope Z_scope.

(** The commands that solve an analysis. *)
Inductive solving (a : sana) : block -> Prop :=
| by_static : sn_type a = STATIC -> solving a SolveStatic
| by_modes : sn_type a = MODAL -> solving a SolveModal
| by_direct : sn_type a = DYNA_MODAL -> solving a (SolveDynaDirect (sn_id a))
| by_modal_base : sn_type a = DYNA_MODAL -> solving a (SolveDynaModal (sn_id a)).
(** The types that have commands, or are ignored with a comment. *)
Definition known (a : sana) : Prop := In (sn_type a) [COMBINATION; STATIC; MODAL; DYNA_MODAL].

Lemma get_in l i a : get_analysis l i = Some a -> In a l /\ sn_id a = i.
Proof. intros H. apply find_some in H as [I E]. now apply Z.eqb_eq in E. Qed.
Lemma get_self l a : NoDup (map sn_id l) -> In a l -> get_analysis l (sn_id a) = Some a.
Proof.
  unfold get_analysis. induction l as [|b l IH]; intros N I; [destruct I|]. cbn. inversion N as [|? ? N1 N2]; subst. destruct I as [->|I].
  - now rewrite Z.eqb_refl.
  - destruct (Z.eqb_spec (sn_id b) (sn_id a)) as [E|_]; [|auto]. exfalso. apply N1. rewrite E. now apply in_map.
Qed.
Lemma assertions_spec mode asserted l ids bs : write_assertions mode asserted l ids = Ok bs ->
  (forall b, In b bs -> exists j, b = Assertions j) /\ forall j, In (Assertions j) bs <-> In j ids /\ asserted j = true.
Proof.
  unfold write_assertions. revert bs. induction ids as [|i ids IH]; intros bs H.
  - injection H as <-. split; [intros b []|]. cbn. tauto.
  - cbn in H. destruct (get_analysis l i); [|destruct mode; discriminate H]. cbn in H. destruct (mapM _ ids) as [r| | |]; try discriminate H. cbn in H.
    injection H as <-. destruct (IH (concat r) eq_refl) as [A B]. split.
    + intros b I. apply in_app_or in I as [I|I]; [|now apply A]. destruct (asserted i); [destruct I as [<-|[]]; eauto|destruct I].
    + intros j. rewrite in_app_iff, B. destruct (asserted i) eqn:E; cbn [In].
      * split; [intros [[H|[]]|[H1 H2]]; [injection H as <-; auto|auto]|intros [[->|H] H2]; auto].
      * split; [tauto|]. intros [[->|H] H2]; [congruence|auto].
Qed.
(** One command file. *)
Lemma writeDat_inv mode topaze method asserted l i ids file marks : writeDat mode topaze method asserted l i ids = Ok (file, marks) ->
  (ids = [] /\ file = [Header i] /\ marks = []) \/
  exists first rest a, ids = first :: rest /\ get_analysis l first = Some a /\
  ((sn_type a = COMBINATION /\ file = [Header i; Ignored (sn_id a)] /\ marks = [sn_id a]) \/
   (sn_type a <> COMBINATION /\ exists more, file = Header i :: more /\
    (forall b, In b more -> (exists c, solving c b) -> solving a b) /\
    (mode = Strict -> exists b, In b file /\ solving a b) /\
    (forall j, In (Assertions j) file <-> In j ids /\ asserted j = true) /\
    (known a -> marks = [sn_id a]) /\ (~ known a -> marks = []))).
Proof.
  intros H. destruct ids as [|first rest]; [injection H as <- <-; left; auto|right]. unfold writeDat in H.
  destruct (get_analysis l first) as [a|] eqn:G; [|destruct mode; discriminate H]. exists first, rest, a. split; [reflexivity|]. split; [exact G|].
  destruct (Z.eqb_spec (sn_type a) COMBINATION) as [E|E]; [left; injection H as <- <-; auto|right]. split; [exact E|].
  destruct (write_solve mode topaze method a) as [[[[[solve s] reload] clean] mark]| | |] eqn:W; try discriminate H. cbn [bind] in H.
  destruct (write_assertions mode asserted l (first :: rest)) as [checks| | |] eqn:C; try discriminate H. cbn [bind] in H.
  set (tail := [Save; Convert s]) in H. assert (Tl : tail = [Save; Convert s]) by reflexivity. clearbody tail. injection H as <- <-.
  destruct (assertions_spec _ _ _ _ _ C) as [C1 C2]. clear C.
  assert (S : (forall b, In b solve -> solving a b) /\ (mode = Strict -> exists b, In b solve /\ solving a b) /\ (mark = true <-> known a)).
  { unfold write_solve in W. unfold known. destruct (Z.eqb_spec (sn_type a) STATIC) as [E1|E1].
    { injection W as <- <- <- <- <-. split; [intros b [<-|[]]; now constructor|]. split; [intros _; exists SolveStatic; split; [now left|now constructor]|]. rewrite E1. cbn. tauto. }
    destruct (Z.eqb_spec (sn_type a) MODAL) as [E2|E2].
    { injection W as <- <- <- <- <-. split; [intros b [<-|[]]; now constructor|]. split; [intros _; exists SolveModal; split; [now left|now constructor]|]. rewrite E2. cbn. tauto. }
    destruct (Z.eqb_spec (sn_type a) DYNA_MODAL) as [E3|E3].
    { destruct method.
      - injection W as <- <- <- <- <-. split; [intros b [<-|[]]; now constructor|]. split; [intros _; eexists; split; [now left|now constructor]|]. rewrite E3. cbn. tauto.
      - injection W as <- <- <- <- <-. split; [intros b [<-|[]]; now constructor|]. split; [intros _; eexists; split; [now left|now constructor]|]. rewrite E3. cbn. tauto.
      - destruct mode; cbn in W; try discriminate W; injection W as <- <- <- <- <-; (split; [intros b []|]); (split; [discriminate|]); rewrite E3; cbn; tauto. }
    destruct mode; cbn in W; try discriminate W; injection W as <- <- <- <- <-; (split; [intros b []|]); (split; [discriminate|]);
      (split; [discriminate|]); cbn [In]; intros [X|[X|[X|[X|[]]]]]; congruence. }
  destruct S as (S1 & S2 & S3). eexists. split; [reflexivity|]. split; [|split; [|split; [|split]]].
  - intros b I (c & X). rewrite !in_app_iff in I. destruct I as [I|[I|[I|[I|I]]]].
    + now apply S1.
    + rewrite Tl in I. destruct I as [<-|[<-|[]]]; inversion X.
    + destruct reload; [destruct I as [<-|[]]; inversion X|destruct I].
    + destruct clean; [destruct I as [<-|[]]; inversion X|destruct I].
    + apply C1 in I as [j ->]. inversion X.
  - intros M. destruct (S2 M) as (b & I & X). exists b. split; [right; apply in_or_app; now left|exact X].
  - intros j. rewrite <- C2. split.
    + intros [I|I]; [discriminate I|]. rewrite !in_app_iff in I. destruct I as [I|[I|[I|[I|I]]]]; [| | | |exact I]; exfalso.
      * apply S1 in I. inversion I.
      * rewrite Tl in I. destruct I as [I|[I|[]]]; discriminate I.
      * destruct reload; [destruct I as [I|[]]; discriminate I|destruct I].
      * destruct clean; [destruct I as [I|[]]; discriminate I|destruct I].
    + intros I. right. rewrite !in_app_iff. tauto.
  - intros K. apply S3 in K. now rewrite K.
  - intros K. destruct mark; [|reflexivity]. exfalso. now apply K, S3.
Qed.
Lemma subcases_nth mode topaze method asserted l subs : forall i files marks, write_subcases mode topaze method asserted l i subs = Ok (files, marks) ->
  length files = length subs /\ (forall j ids, nth_error subs j = Some ids -> exists file ms, nth_error files j = Some file /\
    writeDat mode topaze method asserted l (i + j)%nat ids = Ok (file, ms) /\ incl ms marks) /\
  (forall k, In k marks -> exists j ids file ms, nth_error subs j = Some ids /\ writeDat mode topaze method asserted l (i + j)%nat ids = Ok (file, ms) /\ In k ms).
Proof.
  induction subs as [|s r IH]; intros i files marks H.
  - injection H as <- <-. split; [reflexivity|]. split; [intros [|j] ids E; discriminate E|intros k []].
  - cbn in H. destruct (writeDat mode topaze method asserted l i s) as [[f ms]| | |] eqn:W; try discriminate H. cbn [bind] in H.
    destruct (write_subcases mode topaze method asserted l (S i) r) as [[fs mr]| | |] eqn:R; try discriminate H. cbn in H. injection H as <- <-.
    destruct (IH _ _ _ R) as (L & N & K). split; [cbn; now rewrite L|]. split.
    + intros [|j] ids E.
      * injection E as <-. exists f, ms. rewrite Nat.add_0_r. split; [reflexivity|]. split; [exact W|]. now apply incl_appl.
      * destruct (N j ids E) as (file & m & E1 & E2 & E3). exists file, m. split; [exact E1|]. rewrite Nat.add_succ_r. split; [exact E2|now apply incl_appr].
    + intros k I. apply in_app_or in I as [I|I].
      * exists O, s, f, ms. rewrite Nat.add_0_r. auto.
      * destruct (K k I) as (j & ids & file & m & E1 & E2 & E3). exists (S j), ids, file, m. rewrite Nat.add_succ_r. auto.
Qed.

(** There is one command file for each subcase, numbered in order, which solves no other
    analysis than the first of its subcase and checks the assertions of all of them. *)
Theorem C128_files mode topaze method asserted cfg l subs files marks : generate_subcases cfg l = Ok subs ->
  write_dats mode topaze method asserted cfg l = Ok (files, marks) -> length files = length subs /\
  forall j first rest a, nth_error subs j = Some (first :: rest) -> get_analysis l first = Some a -> sn_type a <> COMBINATION ->
  exists more, nth_error files j = Some (Header j :: more) /\ (forall b c, In b more -> solving c b -> solving a b) /\
    (mode = Strict -> exists b, In b more /\ solving a b) /\
    forall k, In (Assertions k) more <-> In k (first :: rest) /\ asserted k = true.
Proof.
  intros G H. unfold write_dats in H. rewrite G in H. cbn [bind] in H.
  destruct (write_subcases mode topaze method asserted l 0 subs) as [[fs ms]| | |] eqn:W; try discriminate H. cbn in H. injection H as <- _.
  destruct (subcases_nth _ _ _ _ _ _ _ _ _ W) as (L & N & _). split; [exact L|]. intros j first rest a E F T.
  destruct (N j _ E) as (file & m & E1 & E2 & _). cbn [Nat.add] in E2.
  apply writeDat_inv in E2 as [(X & _)|(f & r & a' & X & Y & Z)]; [discriminate X|]. injection X as <- <-. assert (a' = a) by congruence. subst a'.
  destruct Z as [(Z & _)|(_ & more & -> & A & B & C & _)]; [contradiction|]. exists more. split; [exact E1|]. split; [|split].
  - intros b c I S. apply A; [exact I|eauto].
  - intros M. destruct (B M) as (b & [<-|I] & S); [inversion S|eauto].
  - intros k. rewrite <- C. cbn. split; [auto|]. intros [X|X]; [discriminate X|exact X].
Qed.

(** In strict mode with automatic subcases every analysis is solved by the commands of its
    type, combinations aside. *)
Theorem C128_solved topaze method asserted l files marks : NoDup (map sn_id l) -> l <> [] ->
  write_dats Strict topaze method asserted [] l = Ok (files, marks) ->
  forall a, In a l -> sn_type a <> COMBINATION -> exists file b, In file files /\ In b file /\ solving a b.
Proof.
  intros N NE H a I T. destruct (C119_merged l N NE) as (subs & G & P & _ & Q).
  destruct (C128_files _ _ _ _ _ _ _ _ _ G H) as [_ F].
  assert (In (sn_id a) (concat subs)) as J by (apply (Permutation_in _ (Permutation_sym P)); now apply in_map).
  apply in_concat in J as (s & Js & J). destruct s as [|first rest]; [destruct J|].
  assert (In first (map sn_id l)) as K by (apply (Permutation_in _ P), in_concat; exists (first :: rest); split; [exact Js|now left]).
  apply in_map_iff in K as (b & <- & Ib).
  assert (a = b \/ together a b) as AB. { apply Q; try assumption. exists (sn_id b :: rest). split; [exact Js|]. split; [exact J|now left]. }
  apply In_nth_error in Js as [j Ej].
  assert (sn_type b <> COMBINATION) as Tb. { destruct AB as [->|(X & Y & _)]; [exact T|]. rewrite Y. discriminate. }
  destruct (F j _ rest b Ej (get_self l b N Ib) Tb) as (more & E & _ & S & _). destruct (S eq_refl) as (c & Ic & Sc).
  exists (Header j :: more), c. split; [now apply nth_error_In in E|]. split; [now right|].
  destruct AB as [->|(X & Y & _)]; [exact Sc|]. inversion Sc as [Z|Z|Z|Z]; rewrite Y in Z; try discriminate Z. now constructor.
Qed.

(** With one subcase for each analysis the marks are those of the known types. *)
Theorem C128_single_marks mode topaze method asserted l files marks : NoDup (map sn_id l) -> l <> [] ->
  write_dats mode topaze method asserted [[-1]] l = Ok (files, marks) ->
  forall a, In a l -> In (sn_id a) marks <-> known a.
Proof.
  intros N NE H a I. unfold write_dats in H.
  assert (generate_subcases [[-1]] l = Ok (map (fun a => [sn_id a]) l)) as G by (destruct l; [congruence|reflexivity]). rewrite G in H. cbn [bind] in H.
  destruct (write_subcases mode topaze method asserted l 0 _) as [[fs ms]| | |] eqn:W; try discriminate H. cbn in H. injection H as _ <-.
  destruct (subcases_nth _ _ _ _ _ _ _ _ _ W) as (_ & F & K). split.
  - intros J. destruct (K _ J) as (j & ids & file & m & E1 & E2 & E3). apply nth_error_In, in_map_iff in E1 as (b & <- & Ib).
    apply writeDat_inv in E2 as [(X & _)|(f & r & a' & X & Y & Z)]; [discriminate X|]. injection X as <- <-. rewrite get_self in Y by assumption. injection Y as <-.
    destruct Z as [(Z & _ & ->)|(_ & more & _ & _ & _ & _ & A & B)].
    + destruct E3 as [E3|[]]. assert (b = a) as <-; [|unfold known; rewrite Z; now left].
      pose proof (get_self l b N Ib) as X. rewrite E3, get_self in X by assumption. congruence.
    + destruct (in_dec Z.eq_dec (sn_type b) [COMBINATION; STATIC; MODAL; DYNA_MODAL]) as [Kb|Kb].
      * rewrite (A Kb) in E3. destruct E3 as [E3|[]]. pose proof (get_self l b N Ib) as X. rewrite E3, get_self in X by assumption. injection X as ->. exact Kb.
      * rewrite (B Kb) in E3. destruct E3.
  - intros Ka. assert (In [sn_id a] (map (fun a => [sn_id a]) l)) as J by (apply in_map_iff; eauto). apply In_nth_error in J as [j Ej].
    destruct (F j _ Ej) as (file & m & _ & E2 & E3). apply E3.
    apply writeDat_inv in E2 as [(X & _)|(f & r & a' & X & Y & Z)]; [discriminate X|]. injection X as <- <-. rewrite get_self in Y by assumption. injection Y as <-.
    destruct Z as [(_ & _ & ->)|(_ & more & _ & _ & _ & _ & A & _)]; [now left|]. rewrite (A Ka). now left.
Qed.
(** With automatic subcases every analysis is marked: out of strict mode an analysis that
    nothing solves passes for written. *)
Definition buckling : list sana := [mkSana 1 (Some 10) 2 [7]].
Theorem C128_marked_refuted : exists l files marks a, write_dats BestEffort false ModalBase (fun _ => false) [] l = Ok (files, marks) /\
  In a l /\ In (sn_id a) marks /\ (forall file b, In file files -> In b file -> ~ solving a b) /\ files = [[Header 0; Save; Convert NOSOLVER]].
Proof.
  exists buckling, [[Header 0; Save; Convert NOSOLVER]], [1], (mkSana 1 (Some 10) 2 [7]). split; [reflexivity|]. split; [now left|]. split; [now left|]. split; [|reflexivity].
  intros file b [<-|[]] [<-|[<-|[<-|[]]]] S; inversion S.
Qed.
(** With the subcases of the user only the first analysis of each is marked, though the
    others are solved with it. *)
Definition two_statics : list sana := [mkSana 1 (Some 10) STATIC [7]; mkSana 2 (Some 20) STATIC [7]].
Theorem C128_unmarked_refuted : exists cfg l files a, write_dats Strict false ModalBase (fun _ => false) cfg l = Ok (files, [1]) /\
  In a l /\ sn_id a = 2 /\ exists file, files = [file] /\ In SolveStatic file /\ solving a SolveStatic /\ generate_subcases cfg l = Ok [[1; 2]].
Proof.
  exists [[10; 20]], two_statics, [[Header 0; SolveStatic; Save; Convert RESU]], (mkSana 2 (Some 20) STATIC [7]).
  split; [reflexivity|]. split; [right; now left|]. split; [reflexivity|]. eexists. split; [reflexivity|]. split; [right; now left|]. split; [now constructor|reflexivity].
Qed.

Example C128_case : write_dats Strict true ModalBase (fun i => i =? 2) []
  [mkSana 1 None STATIC [7]; mkSana 2 None STATIC [7]; mkSana 3 None DYNA_MODAL [7]; mkSana 4 None COMBINATION []] =
  Ok ([[Header 0; SolveStatic; Save; Convert RESU; Assertions 2]; [Header 1; SolveDynaModal 3; Save; Convert TRAN; Reload; Clean]; [Header 2; Ignored 4]], [1; 2; 3; 4; 1; 3; 4]).
Proof. reflexivity. Qed.
Example C128_single : exists files, write_dats MeshAtLeast false Direct (fun _ => false) [[-1]] (buckling ++ [mkSana 2 None MODAL []]) = Ok (files, [2]).
Proof. eexists. reflexivity. Qed.

Print Assumptions C128_files.
Print Assumptions C128_solved.
Print Assumptions C128_single_marks.
Print Assumptions C128_marked_refuted.
Print Assumptions C128_unmarked_refuted.
