(** * Lemmas on the command file: definitions, uses, destructions *)
From Coq Require Import Ascii String ZArith List Bool Arith Lia.
From Verif Require Import Base DofModel TextModel AsterScriptModel.
Import ListNotations.
Open Scope Z_scope.
Open Scope list_scope.

Definition defs (l : list event) : list name := flat_map (fun e => match e with Def n => [n] | _ => [] end) l.
Lemma defs_app l r : defs (l ++ r) = defs l ++ defs r.
Proof. apply flat_map_app. Qed.
Lemma defs_uses l : defs (map Use l) = [].
Proof. induction l; [reflexivity|exact IHl]. Qed.
Lemma defs_cmd n u : defs (cmd n u) = [n].
Proof. unfold cmd. rewrite defs_app, defs_uses. reflexivity. Qed.
Lemma defs_flat {A} (f : A -> list event) l : defs (flat_map f l) = flat_map (fun x => defs (f x)) l.
Proof. induction l; [reflexivity|]. cbn [flat_map]. rewrite defs_app. now f_equal. Qed.

(** A list without destruction whose uses are in [S] or defined before. *)
Definition add (n : name) (S : name -> Prop) : name -> Prop := fun m => m = n \/ S m.
Fixpoint closed (S : name -> Prop) (l : list event) : Prop :=
  match l with
  | [] => True
  | Use n :: l => S n /\ closed S l
  | Def n :: l => closed (add n S) l
  | Del _ :: _ => False
  end.
Lemma closed_mono : forall l (S S' : name -> Prop), (forall n, S n -> S' n) -> closed S l -> closed S' l.
Proof.
  induction l as [|[n|n|n] l IH]; intros S S' H C; cbn [closed] in *; auto.
  - destruct C as [C1 C2]. split; [apply H, C1|]. exact (IH _ _ H C2).
  - apply (IH (add n S)); [|exact C]. intros m [->|M]; [now left|right; apply H, M].
Qed.
Lemma closed_app : forall l r (S : name -> Prop), closed S l -> closed (fun n => S n \/ In n (defs l)) r -> closed S (l ++ r).
Proof.
  induction l as [|[n|n|n] l IH]; intros r S L R; cbn [closed app] in *.
  - apply (closed_mono r (fun n => S n \/ In n [])); [intros n [H|[]]; exact H|exact R].
  - destruct L as [L1 L2]. split; [exact L1|]. apply IH; [exact L2|]. apply (closed_mono r _ _ (fun n H => H)). exact R.
  - apply IH; [exact L|]. apply (closed_mono r (fun m => S m \/ In m (defs (Def n :: l)))); [|exact R].
    intros m [M|M]; [left; right; exact M|]. cbn in M. destruct M as [<-|M]; [left; now left|right; exact M].
  - destruct L.
Qed.
Lemma closed_uses l r (S : name -> Prop) : Forall S l -> closed S r -> closed S (map Use l ++ r).
Proof. intros F C. induction F; [exact C|]. cbn. split; assumption. Qed.
Lemma closed_uses' l (S : name -> Prop) : Forall S l -> closed S (map Use l).
Proof. intros F. rewrite <- (app_nil_r (map Use l)). apply closed_uses; [exact F|exact I]. Qed.
Lemma closed_cmd n u r (S : name -> Prop) : Forall S u -> closed (add n S) r -> closed S (cmd n u ++ r).
Proof. intros F C. unfold cmd. rewrite <- app_assoc. apply closed_uses; [exact F|exact C]. Qed.
Lemma closed_cmd' n u (S : name -> Prop) : Forall S u -> closed S (cmd n u).
Proof. intros F. rewrite <- (app_nil_r (cmd n u)). apply closed_cmd; [exact F|exact I]. Qed.
Lemma closed_flat {A} (f : A -> list event) : forall l (S : name -> Prop), (forall x, In x l -> closed S (f x)) -> closed S (flat_map f l).
Proof.
  induction l as [|x l IH]; intros S H; [exact I|]. cbn [flat_map]. apply closed_app; [apply H; now left|].
  apply IH. intros y Hy. apply (closed_mono _ S); [intros n Hn; now left|apply H; now right].
Qed.

(** The set of alive names after a list. *)
Fixpoint after (S : name -> Prop) (l : list event) : name -> Prop :=
  match l with
  | [] => S
  | Use _ :: l => after S l
  | Def n :: l => after (add n S) l
  | Del n :: l => after (fun m => S m /\ m <> n) l
  end.
Fixpoint validN (good : name -> Prop) (S : name -> Prop) (l : list event) : Prop :=
  match l with
  | [] => True
  | Use n :: l => S n /\ validN good S l
  | Def n :: l => (~ S n /\ good n) /\ validN good (add n S) l
  | Del n :: l => S n /\ validN good (fun m => S m /\ m <> n) l
  end.
Lemma valid_ext g : forall l (S S' : name -> Prop), (forall n, S n <-> S' n) -> validN g S l -> validN g S' l.
Proof.
  induction l as [|[n|n|n] l IH]; intros S S' H V; cbn [validN] in *; auto; destruct V as [V1 V2].
  - split; [now apply H|exact (IH _ _ H V2)].
  - destruct V1 as [V1 G]. split; [split; [intros X; apply V1; now apply H|exact G]|]. apply (IH (add n S)); [|exact V2]. intros m. unfold add. now rewrite H.
  - split; [now apply H|]. apply (IH (fun m => S m /\ m <> n)); [|exact V2]. intros m. now rewrite H.
Qed.
Lemma valid_app g : forall l r (S : name -> Prop), validN g S l -> validN g (after S l) r -> validN g S (l ++ r).
Proof.
  induction l as [|[n|n|n] l IH]; intros r S L R; cbn [validN app after] in *; auto; destruct L as [L1 L2]; split; auto.
Qed.
Lemma after_app : forall l r (S : name -> Prop) n, after S (l ++ r) n <-> after (after S l) r n.
Proof. induction l as [|[m|m|m] l IH]; intros r S n; cbn [app after]; [reflexivity|apply IH..]. Qed.
Lemma after_ext : forall l (S S' : name -> Prop), (forall n, S n <-> S' n) -> forall n, after S l n <-> after S' l n.
Proof.
  induction l as [|[m|m|m] l IH]; intros S S' H n; cbn [after]; [apply H|now apply IH|..]; apply IH; intros k; unfold add; now rewrite H.
Qed.

(** A body without destruction, then destructions. *)
Lemma body_valid g : forall b (S : name -> Prop), closed S b -> NoDup (defs b) -> (forall n, In n (defs b) -> ~ S n /\ g n) -> validN g S b.
Proof.
  induction b as [|[n|n|n] b IH]; intros S C N F; cbn [closed validN] in *; auto.
  - destruct C as [C1 C2]. split; [exact C1|]. apply IH; assumption.
  - cbn [defs flat_map app] in N, F. inversion N as [|? ? N1 N2]; subst. split; [apply F; now left|]. apply IH; [exact C|exact N2|].
    intros m M. destruct (F m) as [F1 F2]; [now right|]. split; [|exact F2]. intros [->|X]; [exact (N1 M)|exact (F1 X)].
  - destruct C.
Qed.
Lemma body_after : forall b (S : name -> Prop), closed S b -> forall n, after S b n <-> S n \/ In n (defs b).
Proof.
  induction b as [|[m|m|m] b IH]; intros S C n; cbn [closed after defs flat_map app In] in *.
  - tauto.
  - destruct C as [_ C]. apply IH, C.
  - rewrite (IH _ C). unfold add. change (flat_map _ b) with (defs b). split; intros H; [destruct H as [[->|H]|H]; auto|destruct H as [H|[->|H]]; auto].
  - destruct C.
Qed.
Lemma dels_valid g : forall ds (S : name -> Prop), NoDup ds -> (forall d, In d ds -> S d) -> validN g S (map Del ds).
Proof.
  induction ds as [|d ds IH]; intros S N H; cbn [map validN]; [exact I|]. inversion N as [|? ? N1 N2]; subst. split; [apply H; now left|].
  apply IH; [exact N2|]. intros e E. split; [apply H; now right|]. intros ->. exact (N1 E).
Qed.
Lemma dels_after : forall ds (S : name -> Prop) n, after S (map Del ds) n <-> S n /\ ~ In n ds.
Proof.
  induction ds as [|d ds IH]; intros S n; cbn [map after In]; [tauto|]. rewrite IH. split; intros H.
  - destruct H as [[H1 H2] H3]. split; [exact H1|]. intros [->|X]; [now apply H2|exact (H3 X)].
  - destruct H as [H1 H2]. repeat split; [exact H1| |]; intros X; apply H2; auto.
Qed.
Lemma unit_valid g b ds (S : name -> Prop) : closed S b -> NoDup (defs b) -> (forall n, In n (defs b) -> ~ S n /\ g n) -> NoDup ds -> (forall d, In d ds -> In d (defs b)) ->
  validN g S (b ++ map Del ds) /\ forall n, after S (b ++ map Del ds) n <-> (S n \/ In n (defs b)) /\ ~ In n ds.
Proof.
  intros C N F ND SD. split.
  - apply valid_app; [now apply body_valid|]. apply dels_valid; [exact ND|]. intros d D. apply body_after; [exact C|]. right. now apply SD.
  - intros n. rewrite after_app, dels_after, (body_after _ _ C). reflexivity.
Qed.

(** ** Destructions and definitions of parts *)
Lemma seq_fst p q : fst (p >> q) = fst p ++ fst q. Proof. reflexivity. Qed.
Lemma seq_snd p q : snd (p >> q) = snd p ++ snd q. Proof. reflexivity. Qed.
Lemma NoDup_app3 {A} (l r : list A) : NoDup l -> NoDup r -> (forall x, In x l -> In x r -> False) -> NoDup (l ++ r).
Proof.
  intros L R D. induction L as [|x l X L IH]; [exact R|]. cbn. constructor.
  - rewrite in_app_iff. intros [H|H]; [exact (X H)|exact (D x (or_introl eq_refl) H)].
  - apply IH. intros y Y. apply D. now right.
Qed.
