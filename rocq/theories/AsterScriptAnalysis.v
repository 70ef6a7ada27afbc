(** * One analysis of the command file *)
From Coq Require Import Ascii String ZArith List Bool Arith Lia.
From Verif Require Import Base DofModel TextModel AsterScriptModel AsterScriptProofs AsterScriptReady.
Import ListNotations.
Open Scope Z_scope.
Open Scope list_scope.

(** The kind of a name, as a number: names of different kinds differ. *)
Definition tag (n : name) : nat :=
  match n with
  | Modmeca => 0 | Chmat => 1 | Cael => 2 | Blank => 3 | Number _ => 4 | FreqList => 5
  | One p _ => match p with RESU => 6 | MO => 7 | MOD => 8 | URESU => 9 | UMO => 10 | IRESU => 11 | IMO => 12 | JRESU => 13 | JMO => 14 | PFREQ => 15 | MOSTA => 16 | RESVE => 17 | MODES => 18 | NDDL => 19 | RIEL => 20 | RIGI => 21 | RGEL => 22 | RIGE => 23 | MAEL => 24 | MASS => 25 | AMEL => 26 | AMOR => 27 | AMST => 28 | DEP => 29 | LAUTO => 30 | RAMP => 31 | IRAMP => 32 | NDDLG => 33 | MASSG => 34 | RIGIG => 35 | AMORG => 36 | AMMOI => 37 | AMMOS => 38 | AMMOT => 39 | AMMO => 40 | EFREQ => 41 | GENE => 42 | FSIG => 43 | TBCRT => 44 | CRESU => 45 | TBLO => 46 | ULOC => 47 | RETB => 48 | UNIT => 49 | LSPR => 50 | LSIP => 51 | LST => 52 | FCT => 53 | BL => 54 | BLF => 55 | CN => 56 | CHMEC => 57 | CHMEF => 58 | LOCXX => 59 | LOCYY => 60 | LOCXY => 61 | TSAI => 62 end
  | Two p _ _ => match p with VE => 63 | FX => 64 | VG => 65 | DD => 66 | CL => 67 | GI => 68 | GMX => 69 | GMY => 70 | GMZ => 71 end
  | Three p _ _ _ => match p with LLOC => 72 | LTSAI => 73 end
  end%nat.
Fixpoint nodupb (l : list nat) : bool := match l with [] => true | x :: l => negb (existsb (Nat.eqb x) l) && nodupb l end.
Lemma nodupb_ok l : nodupb l = true -> NoDup l.
Proof.
  induction l as [|x l IH]; cbn; intros H; [constructor|]. apply andb_true_iff in H. destruct H as [H1 H2]. constructor; [|auto].
  intros I. apply negb_true_iff in H1. rewrite <- not_true_iff_false in H1. apply H1, existsb_exists. exists x. split; [exact I|apply Nat.eqb_refl].
Qed.
Lemma tags_nodup (l : list name) : nodupb (map tag l) = true -> NoDup l.
Proof. intros H. apply (NoDup_map_inv tag). now apply nodupb_ok. Qed.
(** A list of names of some kinds among names of other kinds. *)
Definition among (ks : list nat) (l : list name) : Prop := Forall (fun n => In (tag n) ks) l.
Lemma nodup_insert (a f b : list name) : NoDup (a ++ b) -> NoDup f -> (forall x, In x f -> In x (a ++ b) -> False) -> NoDup (a ++ f ++ b).
Proof.
  intros N F D. induction a as [|x a IH].
  - cbn in *. apply NoDup_app3; assumption.
  - cbn in *. inversion N as [|? ? N1 N2]; subst. constructor.
    + rewrite !in_app_iff in *. intros [H|[H|H]]; [tauto| |tauto]. apply (D x H). now left.
    + apply IH; [exact N2|]. intros y Y Z. apply (D y Y). now right.
Qed.
Lemma tags_apart (f r : list name) ks : among ks f -> forallb (fun n => negb (existsb (Nat.eqb (tag n)) ks)) r = true -> forall x, In x f -> In x r -> False.
Proof.
  intros F R x X Y. unfold among in F. rewrite Forall_forall in F. rewrite forallb_forall in R. specialize (R x Y). apply negb_true_iff in R.
  rewrite <- not_true_iff_false in R. apply R, existsb_exists. exists (tag x). split; [apply F, X|apply Nat.eqb_refl].
Qed.
Lemma NoDup_flat {A} (key : A -> Z) (f : A -> list name) : forall l, NoDup (map key l) -> (forall x, In x l -> NoDup (f x)) ->
  (forall x y n, In x l -> In y l -> In n (f x) -> In n (f y) -> key x = key y) -> NoDup (flat_map f l).
Proof.
  induction l as [|x l IH]; intros K N D; [constructor|]. cbn [flat_map map] in *. inversion K as [|? ? K1 K2]; subst. apply NoDup_app3.
  - apply N. now left.
  - apply IH; [exact K2|intros y Y; apply N; now right|]. intros y z n Y Z. apply D; now right.
  - intros n H1 H2. apply in_flat_map in H2. destruct H2 as (y & Y & H2). apply K1. rewrite (D x y n); [now apply in_map|now left|now right|exact H1|exact H2].
Qed.

(** ** Names an analysis may define *)
Definition analysis_prefix (p : prefix) : bool :=
  match p with LSPR | LSIP | LST | FCT | BL | BLF | CN | CHMEC | CHMEF | LOCXX | LOCYY | LOCXY | TSAI => false | _ => true end.
Definition mine (a : analysis) (n : name) : Prop :=
  match n with
  | One p i => if analysis_prefix p then i = a_id a else p = LST /\ In i (step_value a)
  | Two p i _ => match p with VE | FX | VG | DD => i = a_id a | _ => False end
  | Three _ i _ _ => i = a_id a
  | _ => False
  end.
Definition transient (n : name) : Prop :=
  match n with One p _ => match p with LSPR | LOCXX | LOCYY | LOCXY | TSAI => True | _ => False end | Two CL _ _ => True | _ => False end.
Definition good (n : name) : Prop :=
  match n with
  | Blank | Number _ | FreqList => False
  | One _ i => 0 <= i | Two _ i j => 0 <= i /\ 0 <= j | Three _ i j k => 0 <= i /\ 0 <= j /\ 0 <= k
  | _ => True
  end.

(** ** Parts *)
Definition EX := [63; 64]%nat.
Definition EV := [65]%nat.
Definition exdefs (i : Z) (l : list (Z * Z * Z)) : list name := flat_map (fun x : Z * Z * Z => let '(e, _, _) := x in [Two VE i e; Two FX i e]) l.
Definition vgdefs (i : Z) (l : list (Z * Z * Z)) : list name := map (fun x : Z * Z * Z => let '(e, _, _) := x in Two VG i e) l.
Lemma ex_defs m i b l : defs (fst (parts (writeExcitation m i b) l)) = exdefs i l.
Proof.
  unfold parts, exdefs. cbn [fst]. rewrite defs_flat. apply flat_map_ext. intros [[e s] t]. cbn [writeExcitation fst]. rewrite defs_app, !defs_cmd. reflexivity.
Qed.
Lemma ex_drops m i b l : snd (parts (writeExcitation m i b) l) = exdefs i l.
Proof. unfold parts, exdefs. cbn [snd]. apply flat_map_ext. intros [[e s] t]. reflexivity. Qed.
Lemma ex_nodup i l : NoDup (map (fun x : Z * Z * Z => fst (fst x)) l) -> NoDup (exdefs i l).
Proof.
  intros N. apply (NoDup_flat (fun x : Z * Z * Z => fst (fst x))); [exact N| |].
  - intros [[e s] t] _. apply tags_nodup. reflexivity.
  - intros [[e s] t] [[e' s'] t'] n _ _ H H'. cbn in *. destruct H as [<-|[<-|[]]]; destruct H' as [H'|[H'|[]]]; try discriminate H'; injection H' as ->; reflexivity.
Qed.
Lemma vg_nodup i l : NoDup (map (fun x : Z * Z * Z => fst (fst x)) l) -> NoDup (vgdefs i l).
Proof.
  intros N. apply (NoDup_map_inv (fun n => match n with Two _ _ e => e | _ => 0 end)). unfold vgdefs. rewrite map_map.
  erewrite map_ext; [exact N|]. intros [[e s] t]. reflexivity.
Qed.
Lemma ex_among i l : among EX (exdefs i l).
Proof. apply Forall_forall. intros n H. apply in_flat_map in H. destruct H as ([[e s] t] & _ & H). cbn in *. destruct H as [<-|[<-|[]]]; cbn; tauto. Qed.
Lemma vg_among i l : among EV (vgdefs i l).
Proof. apply Forall_forall. intros n H. apply in_map_iff in H. destruct H as ([[e s] t] & <- & _). cbn. tauto. Qed.
Lemma ex_fx i l e s t : In (e, s, t) l -> In (Two FX i e) (exdefs i l).
Proof. intros H. apply in_flat_map. exists (e, s, t). split; [exact H|cbn; tauto]. Qed.
Lemma vg_in i l e s t : In (e, s, t) l -> In (Two VG i e) (vgdefs i l).
Proof. intros H. apply in_map_iff. now exists (e, s, t). Qed.
Lemma ex_closed m i b l (S : name -> Prop) : Forall S (material m) -> S Cael -> S (One NDDL b) -> (forall e s t, In (e, s, t) l -> S (One CHMEC s)) ->
  closed S (fst (parts (writeExcitation m i b) l)).
Proof.
  intros M C N H. unfold parts. cbn [fst]. apply closed_flat. intros [[e s] t] I. cbn [writeExcitation fst]. apply closed_cmd.
  - apply Forall_app. split; [exact M|]. repeat constructor; [exact C|exact (H _ _ _ I)].
  - apply closed_cmd'. apply Forall_cons; [now left|apply Forall_cons; [right; exact N|constructor]].
Qed.

Lemma when_drops b l : fst (when b (drops l)) = [].
Proof. destruct b; reflexivity. Qed.
(** Assembly. *)
Definition is_buckling (a : analysis) : bool := match a_kind a with Buckling _ => true | _ => false end.
Definition asdefs (a : analysis) : list name :=
  let i := a_id a in [One NDDL i; One RIEL i; One RIGI i] ++ if is_buckling a then [One RGEL i; One RIGE i] else [One MAEL i; One MASS i; One AMEL i; One AMOR i].
Lemma as_defs m a r : defs (fst (writeAssemblage m a r)) = asdefs a.
Proof.
  unfold writeAssemblage, asdefs. fold (is_buckling a). rewrite !seq_fst, !defs_app. unfold writes, when. cbn [fst].
  rewrite !defs_app, !defs_cmd. destruct r, (is_buckling a); rewrite ?seq_fst, ?defs_app; unfold writes; cbn [fst]; rewrite ?defs_app, ?defs_cmd; reflexivity.
Qed.
Lemma as_drops m a r : snd (writeAssemblage m a r) = if r then [] else asdefs a.
Proof. unfold writeAssemblage, asdefs. fold (is_buckling a). rewrite !seq_snd. destruct r, (is_buckling a); reflexivity. Qed.
Ltac known := repeat first [assumption | left; reflexivity | right]; fail.
Ltac here := unfold add; repeat first [assumption | left; reflexivity | right].
Ltac each := repeat first [apply Forall_nil | apply Forall_cons; [solve [here]|] | apply Forall_app; split].
Lemma Forall_weak (S S' : name -> Prop) l : (forall n, S n -> S' n) -> Forall S l -> Forall S' l.
Proof. intros H F. eapply Forall_impl; [exact H|exact F]. Qed.
Ltac weak := match goal with H : Forall ?S ?l |- Forall _ ?l => apply (Forall_weak S); [intros ? ?; here|exact H] end.
Lemma as_closed m a r (S : name -> Prop) : S Modmeca -> Forall S (map (fun s => One BL (cs_id s)) (a_csets a)) -> Forall S (material m) -> S Cael ->
  (is_buckling a = true -> S (One FSIG (a_id a))) -> closed S (fst (writeAssemblage m a r)).
Proof.
  intros HM HB HC HA HF. unfold writeAssemblage. fold (is_buckling a). rewrite !seq_fst, when_drops. unfold writes. cbn [fst app]. rewrite <- !app_assoc.
  apply closed_cmd; [each; exact HB|]. apply closed_cmd; [each; weak|]. apply closed_cmd; [each|].
  destruct (is_buckling a).
  - specialize (HF eq_refl). rewrite !seq_fst, when_drops, app_nil_r. cbn [fst]. apply closed_cmd; [each; weak|]. apply closed_cmd'; each.
  - rewrite !seq_fst, when_drops, app_nil_r. cbn [fst]. apply closed_cmd; [each; weak|]. apply closed_cmd; [each|]. apply closed_cmd; [each; weak|].
    apply closed_cmd'; each.
Qed.

(** ** What is written before the analyses *)
Lemma pre_defs m : defs (preamble m) =
  [Modmeca] ++ flat_map (fun v => defs (fst (writeValue v))) (m_values m) ++ (if m_materials m then [Chmat] else []) ++ (if m_elements m then [Cael] else []) ++
  flat_map (fun s => defs (writeConstraints s)) (m_csets m) ++ flat_map (fun s => defs (writeLoads s)) (m_lsets m) ++ flat_map (fun s => defs (writeContact s)) (m_csets m).
Proof. unfold preamble. rewrite !defs_app, !defs_flat. destruct (m_materials m), (m_elements m); reflexivity. Qed.
Definition base (m : model) (S : name -> Prop) : Prop := forall n, In n (defs (preamble m)) -> S n.
Section Base.
  Context (m : model) (S : name -> Prop) (B : base m S) (R : ready m).
  Lemma pre_modmeca : S Modmeca.
  Proof. apply B. rewrite pre_defs. now left. Qed.
  Lemma pre_material : Forall S (material m).
  Proof.
    unfold material. destruct (m_materials m) eqn:E; constructor; [|constructor]. apply B. rewrite pre_defs, E. rewrite !in_app_iff. right. right. left. now left.
  Qed.
  Lemma pre_chmat : m_materials m = true -> S Chmat.
  Proof. intros E. pose proof pre_material as F. unfold material in F. rewrite E in F. now inversion F. Qed.
  Lemma pre_cael : S Cael.
  Proof. apply B. rewrite pre_defs, (rd_elements _ R). rewrite !in_app_iff. right. right. right. left. now left. Qed.
  Lemma pre_constraint s n : In s (m_csets m) -> In n (defs (writeConstraints s)) -> S n.
  Proof. intros I H. apply B. rewrite pre_defs, !in_app_iff. do 4 right. left. apply in_flat_map. now exists s. Qed.
  Lemma pre_loading s n : In s (m_lsets m) -> In n (defs (writeLoads s)) -> S n.
  Proof. intros I H. apply B. rewrite pre_defs, !in_app_iff. do 5 right. left. apply in_flat_map. now exists s. Qed.
  Lemma pre_contact s n : In s (m_csets m) -> In n (defs (writeContact s)) -> S n.
  Proof. intros I H. apply B. rewrite pre_defs, !in_app_iff. do 6 right. apply in_flat_map. now exists s. Qed.
  Lemma pre_value v n : In v (m_values m) -> In n (defs (fst (writeValue v))) -> S n.
  Proof. intros I H. apply B. rewrite pre_defs, !in_app_iff. right. left. apply in_flat_map. now exists v. Qed.
  Lemma pre_list i : listed m i -> S (One LST i).
  Proof. intros [H|H]; apply (pre_value _ _ H); now left. Qed.
  Lemma pre_table i : tabled m i -> S (One FCT i).
  Proof. intros H. apply (pre_value _ _ H). now left. Qed.
  Lemma assembled_written s : (exists c, In c (cs_list s) /\ is_contact c = false) -> cs_written s = true.
  Proof.
    intros (c & I & C). unfold cs_written, cs_empty. destruct (cs_list s) as [|c0 l] eqn:E; [destruct I|]. cbn [negb andb].
    destruct (forallb is_contact (c0 :: l)) eqn:F; [|reflexivity]. rewrite forallb_forall in F. rewrite (F c I) in C. discriminate C.
  Qed.
  Lemma pre_bl l : incl l (m_csets m) -> Forall assembled l -> Forall S (map (fun s => One BL (cs_id s)) l).
  Proof.
    intros I A. rewrite Forall_forall in *. intros n H. apply in_map_iff in H. destruct H as (s & <- & H). destruct (A s H) as [W F].
    apply (pre_constraint s); [apply I, H|]. unfold writeConstraints, plain_name. rewrite (assembled_written _ W), F, defs_cmd. now left.
  Qed.
  Lemma pre_charge s : In s (m_csets m) -> cs_empty s = false -> S (charge_of s).
  Proof.
    intros I E. unfold charge_of. rewrite E. cbn [negb andb]. destruct (cs_contacts s) eqn:C.
    - apply (pre_contact s _ I). unfold writeContact. rewrite E, C. cbn [orb negb]. rewrite !defs_app, !in_app_iff. do 3 right. now left.
    - assert (cs_written s = true) as W.
      { unfold cs_written. rewrite E. cbn [negb andb]. unfold cs_empty in E. unfold cs_contacts in C. destruct (cs_list s) as [|c l]; [discriminate|].
        cbn [existsb forallb] in *. destruct (is_contact c); [discriminate C|reflexivity]. }
      rewrite W. apply (pre_constraint s _ I). unfold writeConstraints. rewrite W, defs_cmd. now left.
  Qed.
  Lemma loading_written s : loading_set s -> ls_written s = true.
  Proof.
    intros (D & l & I & N). unfold ls_written. rewrite D. destruct (ls_list s) as [|l0 r]; [destruct I|]. cbn [negb andb].
    destruct (forallb is_temperature (l0 :: r)) eqn:F; [|reflexivity]. rewrite forallb_forall in F. specialize (F l I). destruct l; try discriminate F. congruence.
  Qed.
  Lemma pre_load s : In s (m_lsets m) -> loading_set s -> S (load_of s).
  Proof. intros I L. apply loading_written in L. apply (pre_loading s _ I). unfold load_of, writeLoads. rewrite L, defs_cmd. now left. Qed.
  Lemma pre_chmec s : In s (m_lsets m) -> loading_set s -> ls_functions s = false -> S (One CHMEC (ls_id s)).
  Proof. intros I L F. pose proof (pre_load s I L) as H. unfold load_of, load_name in H. now rewrite (loading_written _ L), F in H. Qed.
End Base.

(** ** The commands of an analysis *)
Definition POST : list nat := map tag [One CRESU 0; One TBLO 0; One ULOC 0; One RETB 0; One UNIT 0; One LOCXX 0; One LOCYY 0; One LOCXY 0; One TSAI 0;
  Two CL 0 0; Three LLOC 0 0 0; Three LTSAI 0 0 0].
Record main_ok (m : model) (a : analysis) (S : name -> Prop) (p : part) : Prop := {
  mo_closed : closed S (fst p);
  mo_nodup : NoDup (defs (fst p));
  mo_drops : NoDup (snd p);
  mo_incl : incl (snd p) (defs (fst p));
  mo_mine : forall n, In n (defs (fst p)) -> (mine a n \/ transient n /\ In n (snd p)) /\ good n /\ existsb (Nat.eqb (tag n)) POST = false;
  mo_resu : In (One RESU (a_id a)) (defs (fst p)) /\ ~ In (One RESU (a_id a)) (snd p);
  mo_kept : canBeReused m a = true -> a_kind a = Modal -> forall q, In q [NDDL; RIGI; MASS; AMOR] -> In (One q (a_id a)) (defs (fst p)) /\ ~ In (One q (a_id a)) (snd p);
  mo_modes : match a_kind a with ModalFreq _ _ _ => a_reuse a = None -> In (One MO (a_id a)) (defs (fst p)) /\ In (One UMO (a_id a)) (defs (fst p)) | _ => True end
}.
Ltac notin := let H := fresh in intros H; cbn in H; repeat (destruct H as [H|H]; [discriminate H|]); try exact H.
Ltac isin := cbn; repeat first [left; reflexivity | right]; fail.
Ltac inn := cbn [In app]; repeat first [left; reflexivity | right].
Section Kinds.
  Context (m : model) (S : name -> Prop) (B : base m S) (R : ready m) (done : list analysis) (a : analysis) (A : analysis_ready m done a) (P : 0 <= a_id a).
  Context (Prev : forall q, In q done -> usedInNext m q = true \/ canBeReused m q = true -> S (One RESU (a_id q))).
  Context (Kept : forall q, In q done -> canBeReused m q = true -> a_kind q = Modal -> forall x, In x [NDDL; RIGI; MASS; AMOR] -> S (One x (a_id q))).
  Context (Split : exists rest, m_analyses m = done ++ a :: rest).

  Lemma refers_used i : refers a i = true -> forall q, In q done -> a_id q = i -> usedInNext m q = true.
  Proof.
    intros H q Q <-. destruct Split as (rest & E). unfold usedInNext. apply existsb_exists. exists a. split; [|exact H]. rewrite E. apply in_or_app. right. now left.
  Qed.
  Lemma previous_resu i : refers a i = true -> In i (map a_id done) -> S (One RESU i).
  Proof. intros H I. apply in_map_iff in I. destruct I as (q & <- & Q). apply (Prev q Q). left. now apply (refers_used _ H). Qed.

  Lemma combination_ok subs : a_kind a = Combination subs -> main_ok m a S (writeAnalysis m a).
  Proof.
    intros K. unfold writeAnalysis. rewrite K. destruct A as (_ & _ & _ & _ & _ & KR). unfold kind_ready in KR. rewrite K in KR. destruct KR as (M & N & D).
    assert (DF : defs (fst (writeCombination (a_id a) subs)) = map (fun s => Two DD (a_id a) s) subs ++ [One DEP (a_id a); One RESU (a_id a)]).
    { unfold writeCombination. cbn [writes fst]. rewrite !defs_app, defs_flat, !defs_cmd. reflexivity. }
    constructor; rewrite ?DF.
    - unfold writeCombination. cbn [writes fst]. apply closed_app.
      + apply closed_flat. intros s I. apply closed_cmd'. constructor; [|constructor]. apply previous_resu; [|apply D, I]. unfold refers. rewrite K.
        apply existsb_exists. exists s. split; [exact I|apply Z.eqb_refl].
      + apply closed_cmd.
        * constructor; [left; now apply (pre_modmeca m S B)|]. apply Forall_forall. intros n I. right. rewrite defs_flat. apply in_map_iff in I. destruct I as (s & <- & I).
          apply in_flat_map. exists s. split; [exact I|]. rewrite defs_cmd. now left.
        * apply closed_cmd'. constructor; [now left|]. constructor; [right; left; now apply (pre_modmeca m S B)|]. constructor; [right; left; now apply (pre_chmat m S B)|constructor].
    - apply (nodup_insert [] (map (fun s => Two DD (a_id a) s) subs) [One DEP (a_id a); One RESU (a_id a)]).
      + apply tags_nodup. reflexivity.
      + apply (NoDup_map_inv (fun n => match n with Two _ _ s => s | _ => 0 end)). now rewrite map_map, map_id.
      + intros x X Y. apply in_map_iff in X. destruct X as (s & <- & _). cbn in Y. destruct Y as [Y|[Y|[]]]; discriminate Y.
    - constructor.
    - intros n [].
    - intros n I. apply in_app_or in I. destruct I as [I|[<-|[<-|[]]]].
      + apply in_map_iff in I. destruct I as (s & <- & I). split; [left; reflexivity|]. split; [|reflexivity]. cbn. split; [exact P|].
        apply D in I. pose proof (rd_positive _ R) as RP. rewrite Forall_forall in RP. apply RP. apply in_or_app. left. destruct Split as (rest & E). rewrite E, map_app. apply in_or_app. now left.
      + repeat split; [now left|exact P].
      + repeat split; [now left|exact P].
    - split; [apply in_or_app; right; cbn; tauto|]. intros [].
    - congruence.
    - now rewrite K.
  Qed.

  Lemma static_ok : a_kind a = Static -> main_ok m a S (writeAnalysis m a).
  Proof.
    intros K. unfold writeAnalysis. rewrite K. destruct A as (CI & LI & _ & _ & _ & KR). unfold kind_ready in KR. rewrite K in KR. rewrite Forall_forall in KR.
    unfold writeStatic. constructor; cbn [writes fst snd]; rewrite ?defs_cmd.
    - apply closed_cmd'. constructor; [now apply (pre_modmeca m S B)|]. apply Forall_app. split; [now apply pre_material|].
      constructor; [now apply (pre_cael m S B R)|]. apply Forall_app. split; apply Forall_forall; intros n I; apply in_map_iff in I; destruct I as (s & <- & I).
      + apply (pre_load m S B); [apply LI, I|apply KR, I].
      + apply filter_In in I. destruct I as [I E]. apply (pre_charge m S B); [apply CI, I|]. now apply negb_true_iff.
    - apply tags_nodup. reflexivity.
    - constructor.
    - intros n [].
    - intros n [<-|[]]. repeat split; [now left|exact P].
    - split; [now left|intros []].
    - congruence.
    - now rewrite K.
  Qed.

  Lemma find_done i q : In q done -> a_id q = i -> find_analysis m i = Some q.
  Proof.
    intros Q <-. destruct Split as (rest & E). unfold find_analysis. assert (I : In q (m_analyses m)) by (rewrite E; apply in_or_app; now left).
    pose proof (rd_analyses _ R) as N. clear -I N. induction (m_analyses m) as [|x l IH]; [destruct I|]. cbn [map] in N. inversion N as [|? ? N1 N2]; subst. cbn [find].
    destruct I as [->|I]; [now rewrite Z.eqb_refl|]. destruct (Z.eqb_spec (a_id x) (a_id q)) as [X|_]; [|now apply IH].
    exfalso. apply N1. rewrite X. now apply in_map.
  Qed.
  Lemma done_ready q : In q done -> exists d, analysis_ready m d q.
  Proof.
    intros Q. destruct Split as (rest & E). destruct (in_split _ _ Q) as (l1 & l2 & F). exists l1. apply (rd_each _ R l1 q (l2 ++ a :: rest)). rewrite E, F, <- app_assoc. reflexivity.
  Qed.

  Lemma nonlinear_ok p v : a_kind a = NonLinear p v -> main_ok m a S (writeAnalysis m a).
  Proof.
    intros K. unfold writeAnalysis. rewrite K. destruct A as (CI & LI & _ & _ & _ & KR). unfold kind_ready in KR. rewrite K in KR. destruct KR as (L & (i & ->) & Q).
    rewrite Forall_forall in L. unfold writeNonLinear. cbn [writeValue writes fst snd].
    set (before := match p with Some p => match find_analysis m p with Some q => a_loads q | None => [] end | None => [] end).
    assert (HB : forall s, In s before -> S (load_of s)).
    { unfold before. destruct p as [j|]; [|intros s []]. destruct (Q j eq_refl) as (q & Qd & <- & QL). rewrite (find_done _ q Qd eq_refl). intros s I.
      rewrite Forall_forall in QL. destruct (done_ready q Qd) as (d & (_ & LQ & _)). apply (pre_load m S B); [apply LQ, I|apply QL, I]. }
    assert (HP : match p with Some j => S (One RESU j) | None => True end).
    { destruct p as [j|]; [|exact I]. apply previous_resu; [unfold refers; rewrite K; apply Z.eqb_refl|]. destruct (Q j eq_refl) as (q & Qd & <- & _). now apply in_map. }
    assert (DF : defs (cmd (One LST i) [] ++ cmd (One LAUTO (a_id a)) [One LST i] ++ cmd (One RAMP (a_id a)) [] ++
      (if match p with Some _ => true | None => false end then cmd (One IRAMP (a_id a)) [] else []) ++
      cmd (One RESU (a_id a)) (Modmeca :: material m ++ [Cael] ++ flat_map (fun s => [load_of s; One IRAMP (a_id a)]) before ++
       flat_map (fun s => [load_of s; One RAMP (a_id a)]) (a_loads a) ++
       map charge_of (filter (fun s => negb (cs_contacts s) && negb (cs_empty s)) (a_csets a)) ++
       map charge_of (filter (fun s => negb (cs_empty s) && cs_contacts s) (m_csets m)) ++
       [One LAUTO (a_id a); One LST i] ++ match p with Some p => [One RESU p] | None => [] end)) =
      [One LST i; One LAUTO (a_id a); One RAMP (a_id a)] ++ match p with Some _ => [One IRAMP (a_id a)] | None => [] end ++ [One RESU (a_id a)]).
    { rewrite !defs_app, !defs_cmd. destruct p; reflexivity. }
    constructor; cbn [writes fst snd]; rewrite ?DF.
    - apply closed_cmd; [constructor|]. apply closed_cmd; [constructor; [now left|constructor]|]. apply closed_cmd; [constructor|].
      assert (U : forall (S' : name -> Prop), (forall n, S n -> S' n) -> S' (One RAMP (a_id a)) -> S' (One LAUTO (a_id a)) -> S' (One LST i) -> (p <> None -> S' (One IRAMP (a_id a))) ->
        Forall S' (Modmeca :: material m ++ [Cael] ++ flat_map (fun s => [load_of s; One IRAMP (a_id a)]) before ++
       flat_map (fun s => [load_of s; One RAMP (a_id a)]) (a_loads a) ++
       map charge_of (filter (fun s => negb (cs_contacts s) && negb (cs_empty s)) (a_csets a)) ++
       map charge_of (filter (fun s => negb (cs_empty s) && cs_contacts s) (m_csets m)) ++
       [One LAUTO (a_id a); One LST i] ++ match p with Some p => [One RESU p] | None => [] end)).
      { intros S' W U1 U2 U3 U4. constructor; [now apply W, (pre_modmeca m S B)|]. apply Forall_app. split; [apply (Forall_weak S); [exact W|now apply pre_material]|].
        constructor; [now apply W, (pre_cael m S B R)|]. repeat (apply Forall_app; split).
        - apply Forall_forall. intros n I. apply in_flat_map in I. destruct I as (s & I & [<-|[<-|[]]]); [apply W, HB, I|]. apply U4. intros ->. exact I.
        - apply Forall_forall. intros n I. apply in_flat_map in I. destruct I as (s & I & [<-|[<-|[]]]); [|exact U1]. apply W, (pre_load m S B); [apply LI, I|apply L, I].
        - apply Forall_forall. intros n I. apply in_map_iff in I. destruct I as (s & <- & I). apply filter_In in I. destruct I as [I E]. apply andb_true_iff in E.
          apply W, (pre_charge m S B); [apply CI, I|]. now apply negb_true_iff.
        - apply Forall_forall. intros n I. apply in_map_iff in I. destruct I as (s & <- & I). apply filter_In in I. destruct I as [I E]. apply andb_true_iff in E.
          apply W, (pre_charge m S B); [exact I|]. now apply negb_true_iff.
        - constructor; [exact U2|]. constructor; [exact U3|constructor].
        - destruct p; [constructor; [apply W, HP|constructor]|constructor]. }
      destruct p as [j|].
      + apply closed_cmd; [constructor|]. apply closed_cmd'. apply U; [intros n N; here|here..|intros _; here].
      + cbn [app]. apply closed_cmd'. apply U; [intros n N; here|here..|intros X; congruence].
    - apply tags_nodup. destruct p; reflexivity.
    - constructor.
    - intros n [].
    - assert (0 <= i) as PI.
      { pose proof (rd_positive _ R) as RP. rewrite Forall_forall in RP. apply RP. rewrite !in_app_iff. do 4 right. apply in_flat_map. exists a. destruct Split as (rest & E).
        rewrite E. split; [apply in_or_app; right; now left|]. unfold step_value. rewrite K. now left. }
      intros n I. assert (mine a (One LST i)) by (cbn; split; [reflexivity|unfold step_value; rewrite K; now left]).
      destruct p; cbn in I; repeat (destruct I as [<-|I]; [split; [left; (assumption || reflexivity)|split; [assumption|reflexivity]]|]); destruct I.
    - split; [apply in_or_app; right; apply in_or_app; right; now left|intros []].
    - congruence.
    - now rewrite K.
  Qed.

  (** A list of names of the analysis, with concrete kinds. *)
  Definition own (l : list name) : Prop := Forall (fun n => mine a n /\ good n /\ existsb (Nat.eqb (tag n)) POST = false) l.
  Lemma own_app l r : own l -> own r -> own (l ++ r).
  Proof. intros L H. apply Forall_app. now split. Qed.
  Lemma own_in l (drops : list name) : own l -> forall n, In n l -> (mine a n \/ transient n /\ In n drops) /\ good n /\ existsb (Nat.eqb (tag n)) POST = false.
  Proof. intros L n I. unfold own in L. rewrite Forall_forall in L. destruct (L n I) as (H1 & H2 & H3). auto. Qed.
  Ltac owns := unfold own; repeat first [apply Forall_nil | apply Forall_cons; [split; [reflexivity|split; [exact P|reflexivity]]|]].
  Lemma own_as : own (asdefs a).
  Proof. unfold asdefs. apply own_app; [owns|]. destruct (is_buckling a); owns. Qed.
  Lemma own_ex l : (forall e s t, In (e, s, t) l -> 0 <= e) -> own (exdefs (a_id a) l).
  Proof.
    intros H. apply Forall_forall. intros n I. apply in_flat_map in I. destruct I as ([[e s] t] & I & [<-|[<-|[]]]); (split; [reflexivity|split; [split; [exact P|exact (H _ _ _ I)]|reflexivity]]).
  Qed.
  Lemma own_vg l : (forall e s t, In (e, s, t) l -> 0 <= e) -> own (vgdefs (a_id a) l).
  Proof.
    intros H. apply Forall_forall. intros n I. apply in_map_iff in I. destruct I as ([[e s] t] & <- & I). split; [reflexivity|split; [split; [exact P|exact (H _ _ _ I)]|reflexivity]].
  Qed.
  Lemma as_nodup : NoDup (asdefs a).
  Proof. apply tags_nodup. unfold asdefs. destruct (is_buckling a); reflexivity. Qed.
  Lemma excited_chmec : excited m a -> forall e s t, In (e, s, t) (excitations a) -> S (One CHMEC s).
  Proof. intros (_ & X) e s t I. destruct (X e s t I) as (_ & _ & l & L1 & <- & L2 & L3). now apply (pre_chmec m S B). Qed.
  Lemma excited_fct : excited m a -> forall e s t, In (e, s, t) (excitations a) -> S (One FCT t).
  Proof. intros (_ & X) e s t I. destruct (X e s t I) as (_ & T & _). now apply (pre_table m S B). Qed.

  Lemma direct_ok s f : a_kind a = Direct s f -> main_ok m a S (writeAnalysis m a).
  Proof.
    intros K. unfold writeAnalysis. rewrite K. destruct A as (CI & LI & _ & _ & _ & KR). unfold kind_ready in KR. rewrite K in KR. destruct KR as (AS & X & FL).
    assert (BK : is_buckling a = false) by (unfold is_buckling; now rewrite K).
    unfold writeDirect. set (r := canBeReused m a). set (i := a_id a).
    assert (DF : defs (fst (writeAssemblage m a r >> when s (writes (cmd (One AMST i) [One RIGI i])) >> parts (writeExcitation m i i) (excitations a) >>
      writes (cmd (One RESU i) ([One MASS i; One RIGI i; if s then One AMST i else One AMOR i; One LST (freq_value f)] ++
        flat_map (fun x : Z * Z * Z => let '(e, _, t) := x in [Two FX i e; One FCT t]) (excitations a))))) =
      (asdefs a ++ (if s then [One AMST i] else [])) ++ exdefs i (excitations a) ++ [One RESU i]).
    { rewrite !seq_fst, !defs_app, as_defs, ex_defs. cbn [writes fst]. rewrite defs_cmd. rewrite <- !app_assoc. destruct s; reflexivity. }
    assert (SF : snd (writeAssemblage m a r >> when s (writes (cmd (One AMST i) [One RIGI i])) >> parts (writeExcitation m i i) (excitations a) >>
      writes (cmd (One RESU i) ([One MASS i; One RIGI i; if s then One AMST i else One AMOR i; One LST (freq_value f)] ++
        flat_map (fun x : Z * Z * Z => let '(e, _, t) := x in [Two FX i e; One FCT t]) (excitations a)))) =
      (if r then [] else asdefs a) ++ exdefs i (excitations a)).
    { rewrite !seq_snd, as_drops, ex_drops. cbn [writes snd]. rewrite app_nil_r. destruct s; reflexivity. }
    assert (U : Forall (fun n => In n (asdefs a)) [One NDDL i; One RIGI i; One MASS i; One AMOR i]) by (unfold asdefs; rewrite BK; repeat constructor; isin).
    constructor; rewrite ?DF, ?SF.
    - rewrite !seq_fst. apply closed_app.
      { apply as_closed; [now apply (pre_modmeca m S B)|now apply (pre_bl m S B)|now apply pre_material|now apply (pre_cael m S B R)|rewrite BK; discriminate]. }
      rewrite as_defs. rewrite Forall_forall in U. assert (U' : forall n, In n [One NDDL i; One RIGI i; One MASS i; One AMOR i] -> S n \/ In n (asdefs a)) by (intros n N; right; now apply U).
      apply closed_app. { destruct s; [|exact I]. apply closed_cmd'. constructor; [apply U'; isin|constructor]. }
      apply closed_app.
      { apply ex_closed; [apply (Forall_weak S); [intros; now do 2 left|now apply pre_material]|do 2 left; now apply (pre_cael m S B R)|left; apply U'; isin|].
        intros e sx t I. do 2 left. now apply (excited_chmec X e sx t). }
      cbn [writes fst]. apply closed_cmd'. constructor; [do 2 left; apply U'; isin|]. constructor; [do 2 left; apply U'; isin|].
      constructor; [destruct s; [left; right; now left|do 2 left; apply U'; isin]|]. constructor; [do 3 left; now apply (pre_list m S B)|].
      apply Forall_forall. intros n N. apply in_flat_map in N. destruct N as ([[e sx] t] & N & [<-|[<-|[]]]); [right; rewrite ex_defs; now apply (ex_fx _ _ e sx t)|].
      do 3 left. now apply (excited_fct X e sx t).
    - apply nodup_insert.
      + apply tags_nodup. unfold asdefs. rewrite BK. destruct s; reflexivity.
      + apply ex_nodup. exact (proj1 X).
      + apply (tags_apart _ _ EX); [apply ex_among|]. unfold asdefs. rewrite BK. destruct s; reflexivity.
    - apply NoDup_app3; [destruct r; [constructor|apply as_nodup]|apply ex_nodup; exact (proj1 X)|]. intros n N1 N2. refine (tags_apart (exdefs i (excitations a)) _ EX _ _ n N2 N1); [apply ex_among|].
      unfold asdefs. rewrite BK. destruct r; reflexivity.
    - intros n N. apply in_app_or in N. rewrite !in_app_iff. destruct N as [N|N]; [left; left; destruct r; [destruct N|exact N]|right; now left].
    - apply own_in. apply own_app; [apply own_app; [apply own_as|destruct s; owns]|apply own_app; [|owns]]. apply own_ex. intros e sx t I. exact (proj1 (proj2 X e sx t I)).
    - split; [rewrite !in_app_iff; right; right; now left|]. intros N. apply in_app_or in N. destruct N as [N|N].
      + destruct r; [exact N|]. unfold asdefs in N. rewrite BK in N. revert N. notin.
      + apply in_flat_map in N. destruct N as ([[e sx] t] & _ & [N|[N|[]]]); discriminate N.
    - congruence.
    - now rewrite K.
  Qed.

  Definition modefs : list name :=
    let i := a_id a in asdefs a ++ (if is_modal a then [One URESU i; One RESU i; One IRESU i; One JRESU i] else [One UMO i; One MO i; One IMO i; One JMO i]) ++ [One PFREQ i].
  Definition modrops (r : bool) : list name :=
    let i := a_id a in (if r then [] else asdefs a) ++ (if negb (is_modal a) && negb r then [One MO i] else []) ++
    (if is_modal a then [One URESU i; One IRESU i; One JRESU i] else [One UMO i; One IMO i; One JMO i]).
  Lemma mo_defs r : a_reuse a = None -> defs (fst (writeModal m a r)) = modefs.
  Proof.
    intros N. unfold writeModal, modal_name, modefs. rewrite N. rewrite !seq_fst, !defs_app, as_defs. unfold writes, drops, when. cbn [fst]. rewrite !defs_app, !defs_cmd.
    destruct (is_modal a); cbn [negb andb]; [|destruct r]; cbn [app fst defs flat_map nothing]; rewrite <- !app_assoc; reflexivity.
  Qed.
  Lemma mo_snd r : a_reuse a = None -> snd (writeModal m a r) = modrops r.
  Proof.
    intros N. unfold writeModal, modal_name, modrops. rewrite N. rewrite !seq_snd, as_drops. unfold writes, drops, when. cbn [snd]. rewrite <- !app_assoc.
    destruct (is_modal a); cbn [negb andb]; [|destruct r]; reflexivity.
  Qed.
  Lemma mo_closed1 r : a_reuse a = None -> is_buckling a = false -> Forall assembled (a_csets a) -> closed S (fst (writeModal m a r)).
  Proof.
    intros N BK AS. destruct A as (CI & _). unfold writeModal, modal_name. rewrite N. rewrite !seq_fst. unfold writes, drops. cbn [fst]. rewrite when_drops. cbn [app].
    rewrite <- !app_assoc. apply closed_app.
    { apply as_closed; [now apply (pre_modmeca m S B)|now apply (pre_bl m S B)|now apply pre_material|now apply (pre_cael m S B R)|rewrite BK; discriminate]. }
    rewrite as_defs. assert (U : forall n, In n [One NDDL (a_id a); One RIGI (a_id a); One MASS (a_id a); One AMOR (a_id a)] -> S n \/ In n (asdefs a)).
    { intros n I. right. unfold asdefs. rewrite BK. cbn in *. destruct I as [<-|[<-|[<-|[<-|[]]]]]; isin. }
    apply closed_cmd; [constructor; [apply U; isin|constructor; [apply U; isin|constructor]]|]. cbn [app].
    apply closed_cmd; [each|]. apply closed_cmd; [each|]. cbn [app closed]. split; [here|]. apply closed_cmd; [each|]. cbn [app closed]. split; [here|].
    apply closed_cmd'. each.
  Qed.
  Lemma modal_ok : a_kind a = Modal -> main_ok m a S (writeAnalysis m a).
  Proof.
    intros K. unfold writeAnalysis. rewrite K. destruct A as (CI & LI & _ & _ & N & KR). unfold kind_ready in KR. rewrite K in KR, N.
    assert (BK : is_buckling a = false) by (unfold is_buckling; now rewrite K). assert (MD : is_modal a = true) by (unfold is_modal; now rewrite K).
    set (r := canBeReused m a). constructor; rewrite ?(mo_defs _ N), ?(mo_snd _ N).
    - now apply mo_closed1.
    - apply tags_nodup. unfold modefs, asdefs. rewrite BK, MD. reflexivity.
    - apply tags_nodup. unfold modrops, asdefs. rewrite BK, MD. destruct r; reflexivity.
    - intros n H. unfold modrops in H. unfold modefs. rewrite MD in *. cbn [negb andb app] in H. apply in_app_or in H. rewrite !in_app_iff.
      destruct H as [H|H]; [left; destruct r; [destruct H|exact H]|]. right. left. cbn in *. tauto.
    - apply own_in. unfold modefs. apply own_app; [apply own_as|]. rewrite MD. owns.
    - unfold modefs, modrops, asdefs. rewrite BK, MD. split; [isin|]. destruct r; notin.
    - intros H _ q Q. unfold r. rewrite H. unfold modefs, modrops, asdefs. rewrite BK, MD. cbn in Q. destruct Q as [<-|[<-|[<-|[<-|[]]]]]; (split; [isin|notin]).
    - now rewrite K.
  Qed.

  Lemma buckling_ok s : a_kind a = Buckling s -> main_ok m a S (writeAnalysis m a).
  Proof.
    intros K. unfold writeAnalysis. rewrite K. destruct A as (CI & LI & _ & _ & N & KR). unfold kind_ready in KR. rewrite K in KR, N. destruct KR as (AS & SD).
    assert (BK : is_buckling a = true) by (unfold is_buckling; now rewrite K).
    assert (HS : S (One RESU s)) by (apply previous_resu; [unfold refers; rewrite K; apply Z.eqb_refl|exact SD]).
    set (r := canBeReused m a). unfold writeBuckling.
    assert (DF : forall x y, defs (fst (writes (cmd (One FSIG (a_id a)) [One RESU s]) >> writeAssemblage m a r >>
      writes (cmd (One RESU (a_id a)) x ++ [Use (One RESU (a_id a))] ++ cmd (One TBCRT (a_id a)) y ++ [Use (One TBCRT (a_id a))]) >>
      drops [One FSIG (a_id a); One TBCRT (a_id a)])) = One FSIG (a_id a) :: asdefs a ++ [One RESU (a_id a); One TBCRT (a_id a)]).
    { intros x y. rewrite !seq_fst, !defs_app, as_defs. unfold writes, drops. cbn [fst]. rewrite !defs_app, !defs_cmd. reflexivity. }
    constructor; rewrite ?DF, ?seq_snd, ?as_drops; cbn [writes drops snd app].
    - rewrite !seq_fst. unfold writes, drops. cbn [fst]. rewrite app_nil_r. apply closed_cmd; [each|]. apply closed_app.
      { apply as_closed; [right; now apply (pre_modmeca m S B)|apply (Forall_weak S); [intros; now right|now apply (pre_bl m S B)]|
          apply (Forall_weak S); [intros; now right|now apply pre_material]|right; now apply (pre_cael m S B R)|intros _; now left]. }
      rewrite as_defs. assert (U : forall n, In n [One RIGI (a_id a); One RIGE (a_id a)] -> add (One FSIG (a_id a)) S n \/ In n (asdefs a)).
      { intros n I. right. unfold asdefs. rewrite BK. cbn in *. destruct I as [<-|[<-|[]]]; isin. }
      apply closed_cmd; [constructor; [apply U; isin|constructor; [apply U; isin|constructor]]|]. cbn [app closed]. split; [now left|].
      apply closed_cmd; [each|]. cbn [app closed]. split; [here|exact I].
    - apply tags_nodup. unfold asdefs. rewrite BK. reflexivity.
    - apply tags_nodup. unfold asdefs. rewrite BK. destruct r; reflexivity.
    - intros n H. apply in_app_or in H. cbn [In]. rewrite in_app_iff. destruct H as [H|H]; [destruct r; [destruct H|auto]|]. cbn in *. tauto.
    - apply own_in. apply (own_app [One FSIG (a_id a)]); [owns|]. apply own_app; [apply own_as|owns].
    - split; [right; apply in_or_app; right; now left|]. unfold asdefs. rewrite BK. destruct r; notin.
    - congruence.
    - now rewrite K.
  Qed.

  (** What the modal response defines and destroys. *)
  Definition mfA (residual : bool) : list name :=
    let i := a_id a in (match a_reuse a with None => modefs | Some _ => [One PFREQ i] end) ++ (if residual then [One MOSTA i; One RESVE i; One MODES i] else [One MODES i]).
  Definition mfB (damp : option (damping * Z)) : list name :=
    let i := a_id a in [One NDDLG i; One MASSG i; One RIGIG i] ++ match damp with None => [One AMORG i] | Some _ => [] end.
  Definition mfC (damp : option (damping * Z)) (f : excit) : list name :=
    let i := a_id a in match damp with None => [] | Some _ => [One AMMOI i; One AMMOS i; One AMMOT i; One AMMO i] end ++
    match freq_kind f with FSpread => [One LSPR (freq_id f)] | _ => [] end ++ [One GENE i; One RESU i].
  Definition mdA (r residual : bool) : list name :=
    let i := a_id a in (match a_reuse a with None => modrops r | Some _ => [] end) ++ (if residual then [One RESVE i; One MOSTA i] else []).
  Definition mdB (damp : option (damping * Z)) : list name :=
    let i := a_id a in [One NDDLG i; One RIGIG i; One MASSG i] ++ match damp with None => [One AMORG i] | Some _ => [] end.
  Definition mdC (damp : option (damping * Z)) (f : excit) : list name :=
    let i := a_id a in match damp with None => [] | Some _ => [One AMMOI i; One AMMOT i] end ++
    match freq_kind f with FSpread => [One LSPR (freq_id f)] | _ => [] end ++ [One GENE i].
  Lemma uses_fx_defs l : defs (map (fun x : Z * Z * Z => let '(e, _, _) := x in Use (Two FX (a_id a) e)) l) = [].
  Proof. induction l as [|[[e s] t] l IH]; [reflexivity|exact IH]. Qed.
  Lemma defs_vg l : defs (map (fun x : Z * Z * Z => let '(e, _, _) := x in Def (Two VG (a_id a) e)) l) = vgdefs (a_id a) l.
  Proof. induction l as [|[[e s] t] l IH]; [reflexivity|]. cbn [map defs flat_map app vgdefs]. now f_equal. Qed.
  Lemma mf_reuse_defs r b : a_reuse a = Some b -> defs (fst (writeModal m a r)) = [One PFREQ (a_id a)].
  Proof. intros N. unfold writeModal, modal_name. rewrite N. rewrite seq_fst. cbn [nothing fst app writes]. now rewrite defs_cmd. Qed.
  Lemma mf_reuse_snd r b : a_reuse a = Some b -> snd (writeModal m a r) = [].
  Proof. intros N. unfold writeModal, modal_name. now rewrite N. Qed.
  Lemma mf_defs residual damp f r : freq_kind f <> FInterpolate -> (forall t, damp <> Some (DampG, t)) ->
    defs (fst (writeModalFreq m a residual damp f r)) = mfA residual ++ exdefs (a_id a) (excitations a) ++ mfB damp ++ vgdefs (a_id a) (excitations a) ++ mfC damp f.
  Proof.
    intros FI DG. unfold writeModalFreq. destruct (modal_name m a) as [b n]. rewrite !seq_fst, !defs_app, ex_defs. unfold mfA, mfB, mfC.
    replace (defs (fst (writeModal m a r))) with (match a_reuse a with None => modefs | Some _ => [One PFREQ (a_id a)] end).
    2:{ destruct (a_reuse a) eqn:N; symmetry; [now apply (mf_reuse_defs _ z)|now apply mo_defs]. }
    rewrite <- !app_assoc. f_equal. unfold writes, drops. cbn [fst]. rewrite !defs_app, uses_fx_defs, defs_vg, !defs_cmd. cbn [app].
    destruct residual; rewrite ?seq_fst; cbn [fst app]; rewrite ?defs_app, ?defs_cmd; cbn [app].
    all: destruct damp as [[[|] t]|]; [|exfalso; exact (DG t eq_refl)|]; cbn [defs flat_map map app]; rewrite ?seq_fst; cbn [fst app nothing]; rewrite ?defs_app, ?defs_cmd; cbn [app].
    all: destruct (freq_kind f); [| |congruence]; rewrite ?seq_fst; cbn [fst app nothing]; rewrite ?app_nil_r, ?defs_cmd; cbn [defs flat_map app]; reflexivity.
  Qed.
  Lemma mf_snd residual damp f r : freq_kind f <> FInterpolate -> (forall t, damp <> Some (DampG, t)) ->
    snd (writeModalFreq m a residual damp f r) = mdA r residual ++ exdefs (a_id a) (excitations a) ++ mdB damp ++ vgdefs (a_id a) (excitations a) ++ mdC damp f.
  Proof.
    intros FI DG. unfold writeModalFreq. destruct (modal_name m a) as [b n]. rewrite !seq_snd, ex_drops. unfold mdA, mdB, mdC.
    replace (snd (writeModal m a r)) with (match a_reuse a with None => modrops r | Some _ => [] end).
    2:{ destruct (a_reuse a) eqn:N; symmetry; [now apply (mf_reuse_snd _ z)|now apply mo_snd]. }
    rewrite <- !app_assoc. f_equal. unfold writes, drops. cbn [snd app]. fold (vgdefs (a_id a) (excitations a)).
    destruct residual; rewrite ?seq_snd; cbn [snd app]; destruct damp as [[[|] t]|]; try (exfalso; exact (DG t eq_refl)); cbn [app snd nothing seq fst];
      destruct (freq_kind f); try congruence; cbn [app snd nothing seq fst]; reflexivity.
  Qed.

  Lemma reused_here : forall l q rest, NoDup (map a_id (l ++ q :: rest)) -> In a rest -> a_reuse a = Some (a_id q) -> reused_after (l ++ q :: rest) (a_id q) false = true.
  Proof.
    intros l q rest N I E. induction l as [|x l IH].
    - cbn [app reused_after]. rewrite Z.eqb_refl. cbn [app map] in N. inversion N as [|? ? N1 N2]; subst.
      clear N2. induction rest as [|y rest IH]; [destruct I|]. cbn [reused_after]. cbn [map In] in N1. destruct (Z.eqb_spec (a_id y) (a_id q)) as [X|_]; [tauto|]. cbn [negb].
      destruct I as [->|I]; [rewrite E, Z.eqb_refl; reflexivity|].
      assert (reused_after rest (a_id q) true = true) as H. { apply IH; [|exact I|tauto]. cbn [map] in *. inversion N as [|? ? M1 M2]; subst. inversion M2; subst. constructor; [intros X; apply M1; now right|assumption]. }
      destruct (a_reuse y) as [b|]; [rewrite H; apply orb_true_r|exact H].
    - cbn [app reused_after]. cbn [app map] in N. inversion N as [|? ? N1 N2]; subst. destruct (Z.eqb_spec (a_id x) (a_id q)) as [X|_].
      + exfalso. apply N1. rewrite X, map_app. apply in_or_app. right. now left.
      + cbn [negb]. now apply IH.
  Qed.
  Lemma reuse_kept q : In q done -> a_reuse a = Some (a_id q) -> canBeReused m q = true.
  Proof.
    intros Q E. destruct Split as (rest & F). destruct (in_split _ _ Q) as (l1 & l2 & G). unfold canBeReused. pose proof (rd_analyses _ R) as N.
    assert (X : m_analyses m = l1 ++ q :: (l2 ++ a :: rest)) by (rewrite F, G, <- app_assoc; reflexivity). rewrite X in N |- *.
    apply reused_here; [exact N| |exact E]. apply in_or_app. right. now left.
  Qed.

  Lemma modalfreq_ok residual damp f : a_kind a = ModalFreq residual damp f -> main_ok m a S (writeAnalysis m a).
  Proof.
    intros K. unfold writeAnalysis. rewrite K. destruct A as (CI & LI & OUT & _ & _ & KR). unfold kind_ready in KR. rewrite K in KR. destruct KR as (RU & X & FQ & DA).
    assert (BK : is_buckling a = false) by (unfold is_buckling; now rewrite K). assert (MD : is_modal a = false) by (unfold is_modal; now rewrite K).
    assert (FI : freq_kind f <> FInterpolate) by (intros E; now rewrite E in FQ).
    assert (DG : forall t, damp <> Some (DampG, t)) by (intros t ->; exact DA).
    set (r := canBeReused m a).
    assert (EP : forall e s t, In (e, s, t) (excitations a) -> 0 <= e) by (intros e s t I; exact (proj1 (proj2 X e s t I))).
    (* where the modes come from *)
    assert (MN : exists b n, modal_name m a = (b, n) /\
      (forall S' : name -> Prop, (forall k, S k -> S' k) -> (forall k, In k (defs (fst (writeModal m a r))) -> S' k) -> S' n /\ Forall (fun x => S' (One x b)) [NDDL; RIGI; MASS; AMOR])).
    { unfold modal_name. destruct (a_reuse a) as [b|] eqn:N.
      - destruct RU as (q & Q & <- & QK). rewrite (find_done _ q Q eq_refl). unfold is_modal. rewrite QK. do 2 eexists. split; [reflexivity|]. intros S' W _.
        pose proof (reuse_kept q Q N) as KP. split; [apply W; apply (Prev q Q); now right|]. rewrite Forall_forall. intros x I. apply W. exact (Kept q Q KP QK x I).
      - rewrite MD. do 2 eexists. split; [reflexivity|]. intros S' _ W. rewrite (mo_defs _ N) in W. unfold modefs, asdefs in W. rewrite BK, MD in W.
        split; [apply W; isin|]. repeat (constructor; [apply W; isin|]). constructor. }
    assert (MC : closed S (fst (writeModal m a r))).
    { destruct (a_reuse a) as [b|] eqn:N; [|now apply mo_closed1]. destruct MN as (b' & n & E & H). unfold writeModal. rewrite E, N. cbn [seq nothing fst app writes].
      apply closed_cmd'. constructor; [|constructor]. unfold modal_name in E. rewrite N in E. destruct RU as (q & Q & <- & QK). rewrite (find_done _ q Q eq_refl) in E.
      unfold is_modal in E. rewrite QK in E. injection E as <- <-. apply (Prev q Q). right. now apply reuse_kept. }
    assert (PF : In (One PFREQ (a_id a)) (defs (fst (writeModal m a r)))).
    { destruct (a_reuse a) as [b|] eqn:N; [rewrite (mf_reuse_defs _ b N); now left|]. rewrite (mo_defs _ N). unfold modefs. rewrite !in_app_iff. right. right. now left. }
    assert (EM : forall n, In n (defs (fst (writeModal m a r))) <-> In n (match a_reuse a with None => modefs | Some _ => [One PFREQ (a_id a)] end)).
    { intros n. destruct (a_reuse a) eqn:N; [now rewrite (mf_reuse_defs _ z N)|now rewrite (mo_defs _ N)]. }
    constructor; rewrite ?(mf_defs _ _ _ _ FI DG), ?(mf_snd _ _ _ _ FI DG).
    - unfold writeModalFreq. destruct MN as (b & n & -> & H). rewrite !seq_fst.
      apply closed_app; [exact MC|]. set (S1 := fun k => S k \/ In k (defs (fst (writeModal m a r)))).
      destruct (H S1 ltac:(intros; now left) ltac:(intros; now right)) as (Hn & HF). inversion HF as [|? ? F1 HF1]; subst. inversion HF1 as [|? ? F2 HF2]; subst.
      inversion HF2 as [|? ? F3 HF3]; subst. inversion HF3 as [|? ? F4 _]; subst. clear HF HF1 HF2 HF3.
      apply closed_app.
      { destruct residual; rewrite ?seq_fst; unfold writes, drops; cbn [fst app]; rewrite <- ?app_assoc; repeat (apply closed_cmd; [each|]); apply closed_cmd'; each. }
      match goal with |- closed (fun k => S1 k \/ In k (defs ?x)) _ => set (D2 := x); assert (MO2 : In (One MODES (a_id a)) (defs D2)) end.
      { unfold D2. destruct residual; rewrite ?seq_fst; unfold writes, drops; cbn [fst app]; rewrite ?defs_app, ?defs_cmd; [rewrite !in_app_iff|]; cbn; tauto. }
      set (S2 := fun k => S1 k \/ In k (defs D2)). assert (W12 : forall k, S1 k -> S2 k) by (intros k Hk; now left). assert (W02 : forall k, S k -> S2 k) by (intros k Hk; left; now left).
      apply closed_app.
      { apply ex_closed; [apply (Forall_weak S); [exact W02|now apply pre_material]|apply W02; now apply (pre_cael m S B R)|apply W12, F1|].
        intros e s t I. apply W02. now apply (excited_chmec X e s t). }
      rewrite ex_defs. set (S3 := fun k => S2 k \/ In k (exdefs (a_id a) (excitations a))). assert (W23 : forall k, S2 k -> S3 k) by (intros k Hk; now left).
      unfold writes at 1. cbn [fst].
      apply closed_app.
      { apply closed_uses; [constructor; [left; right; exact MO2|constructor; [apply W23, W12, F3|constructor; [apply W23, W12, F2|constructor]]]|].
        assert (T : forall (l' : list event) (S' : name -> Prop), (forall k, S3 k -> S' k) -> closed S' (map (fun x : Z * Z * Z => let '(e, _, _) := x in Use (Two FX (a_id a) e)) (excitations a) ++ map Def [One NDDLG (a_id a); One MASSG (a_id a); One RIGIG (a_id a)] ++ l' ++ map (fun x : Z * Z * Z => let '(e, _, _) := x in Def (Two VG (a_id a) e)) (excitations a)) <-> closed (add (One RIGIG (a_id a)) (add (One MASSG (a_id a)) (add (One NDDLG (a_id a)) S'))) (l' ++ map (fun x : Z * Z * Z => let '(e, _, _) := x in Def (Two VG (a_id a) e)) (excitations a))).
        { intros l' S' W. assert (Q : forall l rest, (forall e s t, In (e, s, t) l -> S' (Two FX (a_id a) e)) -> (closed S' (map (fun x : Z * Z * Z => let '(e, _, _) := x in Use (Two FX (a_id a) e)) l ++ rest) <-> closed S' rest)).
          { induction l as [|[[e s] t] l IH]; intros rest Q; [reflexivity|]. cbn [map app closed]. rewrite IH by (intros e' s' t' I'; apply (Q e' s' t'); now right).
            split; [tauto|]. intros Y. split; [apply (Q e s t); now left|exact Y]. }
          rewrite Q by (intros e s t I; apply W; right; now apply (ex_fx _ _ e s t)). reflexivity. }
        assert (VGC : forall l (S' : name -> Prop), closed S' (map (fun x : Z * Z * Z => let '(e, _, _) := x in Def (Two VG (a_id a) e)) l)).
        { induction l as [|[[e s] t] l IH]; intros S'; [exact I|]. cbn [map closed]. apply IH. }
        destruct damp as [[[|] t]|]; [|exfalso; exact (DG t eq_refl)|].
        - apply (proj2 (T [] S3 ltac:(auto))). apply VGC.
        - refine (conj (W23 _ (W12 _ F4)) _). apply (proj2 (T [Def (One AMORG (a_id a))] S3 ltac:(auto))). apply (VGC (excitations a)). }
      rewrite !defs_app, uses_fx_defs, defs_vg. cbn [map defs flat_map app].
      match goal with |- closed (fun k => S3 k \/ In k ?x) _ => set (D4 := x) end.
      assert (D4a : In (One MASSG (a_id a)) D4 /\ In (One RIGIG (a_id a)) D4 /\ (damp = None -> In (One AMORG (a_id a)) D4) /\ forall e s t, In (e, s, t) (excitations a) -> In (Two VG (a_id a) e) D4).
      { unfold D4. assert (V : forall e s t, In (e, s, t) (excitations a) -> In (Two VG (a_id a) e) (vgdefs (a_id a) (excitations a))) by (intros; eapply vg_in; eassumption).
        destruct damp as [[[|] t]|]; cbn; (split; [tauto|split; [tauto|split; [try congruence; tauto|]]]); intros e s t0 I; specialize (V e s t0 I); tauto. }
      destruct D4a as (G1 & G2 & G3 & G4).
      set (S4 := fun k => S3 k \/ In k D4). assert (W34 : forall k, S3 k -> S4 k) by (intros k Hk; now left). assert (W04 : forall k, S k -> S4 k) by (intros; apply W34, W23, W02; assumption).
      assert (P4 : S4 (One PFREQ (a_id a))) by (apply W34, W23, W12; right; exact PF).
      unfold drops at 1. cbn [fst]. cbn [app].
      apply closed_app.
      { destruct damp as [[[|] t]|]; [|exfalso; exact (DG t eq_refl)|exact I]. rewrite !seq_fst. unfold writes, drops. cbn [fst app]. rewrite <- ?app_assoc.
        apply closed_cmd; [constructor; [apply W04; now apply (pre_table m S B)|constructor; [exact P4|constructor]]|]. repeat (apply closed_cmd; [each|]). exact I. }
      match goal with |- closed (fun k => S4 k \/ In k (defs ?x)) _ => set (D5 := x); assert (AM : damp <> None -> In (One AMMO (a_id a)) (defs D5)) end.
      { intros ND. unfold D5. destruct damp as [[[|] t]|]; [|exfalso; exact (DG t eq_refl)|congruence]. rewrite !seq_fst. unfold writes, drops. cbn [fst]. rewrite !defs_app, !defs_cmd. rewrite !in_app_iff. cbn. tauto. }
      set (S5 := fun k => S4 k \/ In k (defs D5)). assert (W45 : forall k, S4 k -> S5 k) by (intros k Hk; now left).
      apply closed_app.
      { destruct (freq_kind f); [exact I| |congruence]. rewrite seq_fst. unfold writes, drops. cbn [fst]. rewrite app_nil_r. apply closed_cmd'. constructor; [apply W45, P4|constructor]. }
      unfold writes, drops. cbn [fst]. rewrite app_nil_r. apply closed_cmd.
      + constructor; [left; apply W45; right; exact G1|]. constructor; [left; apply W45; right; exact G2|]. constructor.
        { destruct damp as [d|]; [left; right; apply AM; discriminate|left; apply W45; right; now apply G3]. }
        constructor.
        { destruct (freq_kind f) eqn:FK; [left; apply W45, W04; now apply (pre_list m S B)| |congruence]. right. destruct FQ as [<- _]. rewrite seq_fst. cbn [fst]. rewrite app_nil_r, defs_cmd. now left. }
        apply Forall_forall. intros k I. apply in_flat_map in I. destruct I as ([[e s] t] & I & [<-|[<-|[]]]); [left; apply W45; right; now apply (G4 e s t)|].
        left. apply W45, W04. now apply (excited_fct X e s t).
      + apply closed_cmd'. constructor; [now left|]. apply Forall_forall. intros k I. apply in_map_iff in I. destruct I as (o & <- & I). right. left. apply W45, W04. apply (pre_list m S B). now apply OUT.
    - apply nodup_insert.
      + rewrite app_assoc. apply nodup_insert.
        * apply tags_nodup. unfold mfA, mfB, mfC, modefs, asdefs. rewrite BK, MD. destruct (a_reuse a), residual, damp, (freq_kind f); reflexivity.
        * apply vg_nodup. exact (proj1 X).
        * apply (tags_apart _ _ EV); [apply vg_among|]. unfold mfA, mfB, mfC, modefs, asdefs. rewrite BK, MD. destruct (a_reuse a), residual, damp, (freq_kind f); reflexivity.
      + apply ex_nodup. exact (proj1 X).
      + intros n N1 N2. rewrite !in_app_iff in N2. assert (N3 : In n (mfA residual ++ mfB damp ++ mfC damp f) \/ In n (vgdefs (a_id a) (excitations a))) by (rewrite !in_app_iff; tauto).
        destruct N3 as [N3|N3].
        * refine (tags_apart (exdefs (a_id a) (excitations a)) _ EX _ _ n N1 N3); [apply ex_among|]. unfold mfA, mfB, mfC, modefs, asdefs. rewrite BK, MD. destruct (a_reuse a), residual, damp, (freq_kind f); reflexivity.
        * pose proof (ex_among (a_id a) (excitations a)) as E1. pose proof (vg_among (a_id a) (excitations a)) as E2. unfold among in *. rewrite Forall_forall in E1, E2.
          specialize (E1 n N1). specialize (E2 n N3). unfold EX, EV in *. cbn [In] in E1, E2. destruct E2 as [E2|[]]. rewrite <- E2 in E1. cbn in E1. destruct E1 as [E1|[E1|[]]]; discriminate E1.
    - apply nodup_insert.
      + rewrite app_assoc. apply nodup_insert.
        * apply tags_nodup. unfold mdA, mdB, mdC, modrops, asdefs. rewrite BK, MD. destruct (a_reuse a), residual, damp, (freq_kind f), r; reflexivity.
        * apply vg_nodup. exact (proj1 X).
        * apply (tags_apart _ _ EV); [apply vg_among|]. unfold mdA, mdB, mdC, modrops, asdefs. rewrite BK, MD. destruct (a_reuse a), residual, damp, (freq_kind f), r; reflexivity.
      + apply ex_nodup. exact (proj1 X).
      + intros n N1 N2. rewrite !in_app_iff in N2. assert (N3 : In n (mdA r residual ++ mdB damp ++ mdC damp f) \/ In n (vgdefs (a_id a) (excitations a))) by (rewrite !in_app_iff; tauto).
        destruct N3 as [N3|N3].
        * refine (tags_apart (exdefs (a_id a) (excitations a)) _ EX _ _ n N1 N3); [apply ex_among|]. unfold mdA, mdB, mdC, modrops, asdefs. rewrite BK, MD. destruct (a_reuse a), residual, damp, (freq_kind f), r; reflexivity.
        * pose proof (ex_among (a_id a) (excitations a)) as E1. pose proof (vg_among (a_id a) (excitations a)) as E2. unfold among in *. rewrite Forall_forall in E1, E2.
          specialize (E1 n N1). specialize (E2 n N3). unfold EX, EV in *. cbn [In] in E1, E2. destruct E2 as [E2|[]]. rewrite <- E2 in E1. cbn in E1. destruct E1 as [E1|[E1|[]]]; discriminate E1.
    - assert (I1 : incl (mdA r residual) (mfA residual)).
      { unfold mdA, mfA, modrops, modefs, asdefs. rewrite BK, MD. intros n I. cbn [negb andb] in I. destruct (a_reuse a), residual, r; cbn in *; tauto. }
      assert (I2 : incl (mdB damp) (mfB damp)) by (unfold mdB, mfB; intros n I; destruct damp; cbn in *; tauto).
      assert (I3 : incl (mdC damp f) (mfC damp f)) by (unfold mdC, mfC; intros n I; destruct damp, (freq_kind f); cbn in *; tauto).
      intros n I. rewrite !in_app_iff in *. destruct I as [I|[I|[I|[I|I]]]]; [left; now apply I1|right; now left|right; right; left; now apply I2|do 3 right; now left|do 4 right; now apply I3].
    - intros n I. assert (OA : own (mfA residual)).
      { unfold mfA. apply own_app; [|destruct residual; owns]. destruct (a_reuse a); [owns|]. unfold modefs. apply own_app; [apply own_as|]. rewrite MD. owns. }
      assert (OB : own (mfB damp)) by (unfold mfB; destruct damp; owns).
      rewrite !in_app_iff in I. destruct I as [I|[I|[I|[I|I]]]].
      + now apply (own_in _ _ OA).
      + now apply (own_in _ _ (own_ex _ EP)).
      + now apply (own_in _ _ OB).
      + now apply (own_in _ _ (own_vg _ EP)).
      + unfold mfC in I. rewrite !in_app_iff in I. destruct I as [I|[I|I]].
        * destruct damp; cbn in I; repeat (destruct I as [<-|I]; [repeat split; [now left|exact P]|]); destruct I.
        * unfold mdC. rewrite !in_app_iff. destruct (freq_kind f) eqn:FK; try (destruct I; fail). destruct I as [<-|[]]. destruct FQ as [_ FP]. split; [right; split; [exact I|]|split; [exact FP|reflexivity]].
          do 5 right. left. now left.
        * cbn in I. destruct I as [<-|[<-|[]]]; (repeat split; [now left|exact P]).
    - split; [unfold mfC; rewrite !in_app_iff; do 6 right; cbn; tauto|]. intros I. rewrite !in_app_iff in I. destruct I as [I|[I|[I|[I|I]]]].
      + unfold mdA, modrops, asdefs in I. rewrite BK, MD in I. destruct (a_reuse a), residual, r; revert I; notin.
      + apply in_flat_map in I. destruct I as ([[e sx] t] & _ & [N|[N|[]]]); discriminate N.
      + unfold mdB in I. destruct damp; revert I; notin.
      + apply in_map_iff in I. destruct I as ([[e sx] t] & N & _). discriminate N.
      + unfold mdC in I. destruct damp, (freq_kind f); revert I; notin.
    - congruence.
    - rewrite K. intros N. unfold mfA, modefs. rewrite N, MD. rewrite !in_app_iff. cbn. tauto.
  Qed.
End Kinds.
