(** Lemmas about real fields. *)
From Coq Require Import Ascii String ZArith List Bool Arith Lia.
From Verif Require Import Base TextModel TextProofs TokenizerModel RealModel.
Import ListNotations.
Open Scope nat_scope.
Open Scope list_scope.

Lemma take_digits_app d r : forallb is_digit d = true -> (match r with c :: _ => is_digit c = false | [] => True end) ->
  take_digits (d ++ r) = (d, r).
Proof.
  intros Hd Hr. induction d as [|c d IH]; cbn [app take_digits].
  - destruct r as [|c r]; [reflexivity|]. cbn [take_digits]. now rewrite Hr.
  - cbn [forallb] in Hd. apply andb_true_iff in Hd. destruct Hd as [-> Hd]. now rewrite IH.
Qed.
Lemma digit_not_sign c : is_digit c = true -> Ascii.eqb c "-" = false /\ Ascii.eqb c "+" = false /\ Ascii.eqb c "." = false /\ is_e c = false
  /\ Ascii.eqb c "d" = false /\ Ascii.eqb c "D" = false /\ Ascii.eqb c " " = false /\ is_space c = false.
Proof.
  intros H. unfold is_e.
  assert (forall x, is_digit x = false -> Ascii.eqb c x = false) as K by (intros x Hx; destruct (Ascii.eqb_spec c x); [subst; congruence|reflexivity]).
  repeat split; try (rewrite ?K by reflexivity; reflexivity).
  unfold is_digit, is_space in *. apply andb_true_iff in H. rewrite !Nat.leb_le in H.
  destruct (Nat.eqb_spec (nat_of_ascii c) 32); [lia|]. destruct (Nat.leb_spec 9 (nat_of_ascii c)), (Nat.leb_spec (nat_of_ascii c) 13); try reflexivity; lia.
Qed.

(** The parts of a real text. *)
Definition sign_text (s : option bool) : str := match s with None => [] | Some true => ["-"%char] | Some false => ["+"%char] end.
Definition is_neg (s : option bool) : bool := match s with Some true => true | _ => false end.
Definition signed (neg : bool) (v : Z) : Z := if neg then (- v)%Z else v.
Definition mant_text (s : option bool) (ip : str) (dot : bool) (fp : str) : str :=
  sign_text s ++ ip ++ (if dot then "."%char :: fp else []).

Definition mant_ok (ip : str) (dot : bool) (fp : str) : Prop :=
  forallb is_digit ip = true /\ forallb is_digit fp = true /\ ip ++ fp <> [] /\ (dot = false -> fp = []).

Lemma take_sign_app s r : (match r with c :: _ => is_digit c = true \/ c = "."%char | [] => True end) ->
  take_sign (sign_text s ++ r) = (is_neg s, r).
Proof.
  destruct s as [[]|]; cbn; try reflexivity. destruct r as [|c r]; [reflexivity|].
  intros [H| ->]; cbn; [|reflexivity]. destruct (digit_not_sign c H) as (-> & -> & _). reflexivity.
Qed.

Lemma mant_head ip dot fp r : mant_ok ip dot fp ->
  match ip ++ (if dot then "."%char :: fp else []) ++ r with c :: _ => is_digit c = true \/ c = "."%char | [] => True end.
Proof.
  intros (H1 & H2 & H3 & H4). destruct ip as [|c ip].
  - cbn. destruct dot; [now right|]. exfalso. apply H3. rewrite H4 by reflexivity. reflexivity.
  - cbn in *. left. now destruct (is_digit c).
Qed.

(** Reading a mantissa followed by [r], which does not begin with a digit or a point. *)
Lemma lexical_mant s ip dot fp r :
  mant_ok ip dot fp -> (match r with c :: _ => is_digit c = false /\ Ascii.eqb c "." = false | [] => True end) ->
  lexical_double (mant_text s ip dot fp ++ r) =
  (let m := signed (is_neg s) (digits_val (ip ++ fp)) in
   let f := Z.of_nat (length fp) in
   match r with
   | [] => Ok (m, - f)%Z
   | c :: r => if Ascii.eqb c "e" || Ascii.eqb c "E" then
      let '(eneg, r) := take_sign r in
      let '(ed, r) := take_digits r in
      if null ed || negb (null r) then Throw
      else Ok (m, (if eneg then - digits_val ed else digits_val ed) - f)%Z
    else Throw
   end).
Proof.
  intros Hm Hr. pose proof (mant_head ip dot fp r Hm) as Hh. destruct Hm as (H1 & H2 & H3 & H4).
  unfold lexical_double, mant_text. rewrite <- !app_assoc. rewrite take_sign_app by exact Hh.
  assert (Hn : null (ip ++ fp) = false) by (destruct (ip ++ fp); [congruence|reflexivity]).
  destruct dot; cbn [app].
  - rewrite take_digits_app by (auto; reflexivity). cbv iota. rewrite Ascii.eqb_refl.
    rewrite take_digits_app; [|exact H2|destruct r; [trivial|apply Hr]]. rewrite Hn. reflexivity.
  - rewrite (H4 eq_refl) in *. cbn [app]. rewrite app_nil_r in *.
    rewrite take_digits_app; [|exact H1|destruct r; [trivial|apply Hr]].
    destruct r as [|c r]; [now rewrite app_nil_r, Hn|]. destruct Hr as [_ Hp]. rewrite Hp, app_nil_r, Hn. reflexivity.
Qed.

Lemma lexical_mant_exp s ip dot fp e es ed :
  mant_ok ip dot fp -> is_e e = true -> forallb is_digit ed = true -> ed <> [] ->
  lexical_double (mant_text s ip dot fp ++ e :: sign_text es ++ ed) =
  Ok (signed (is_neg s) (digits_val (ip ++ fp)), (signed (is_neg es) (digits_val ed) - Z.of_nat (length fp))%Z).
Proof.
  intros Hm He Hd Hn.
  assert (is_digit e = false /\ Ascii.eqb e "." = false) as Hr.
  { unfold is_e in He. apply orb_true_iff in He. destruct He as [He|He]; apply Ascii.eqb_eq in He; subst e; split; reflexivity. }
  rewrite lexical_mant by assumption. cbv zeta. unfold is_e in He. rewrite He.
  rewrite take_sign_app. 2:{ destruct ed as [|c ed]; [trivial|]. left. cbn in Hd. now destruct (is_digit c). }
  rewrite <- (app_nil_r ed) at 1. rewrite take_digits_app by auto.
  destruct ed; [congruence|]. cbn [null negb orb]. destruct (is_neg es); reflexivity.
Qed.

(** Characters of the parts. *)
Definition chars_ok (p : ascii -> bool) (l : str) : Prop := forallb p l = true.
Lemma find_first_none p l : forallb (fun c => negb (p c)) l = true -> find_first p l = None.
Proof. induction l as [|c l IH]; cbn; [reflexivity|]. rewrite andb_true_iff, negb_true_iff. intros [-> H]. now rewrite IH. Qed.
Lemma find_first_app p l c r : forallb (fun c => negb (p c)) l = true -> p c = true -> find_first p (l ++ c :: r) = Some (length l).
Proof.
  intros Hl Hc. induction l as [|x l IH]; cbn; [now rewrite Hc|]. cbn in Hl. apply andb_true_iff in Hl. destruct Hl as [Hx Hl].
  apply negb_true_iff in Hx. rewrite Hx, IH by exact Hl. reflexivity.
Qed.
Lemma find_first_app_none p l r : forallb (fun c => negb (p c)) l = true -> find_first p (l ++ r) = option_map (Nat.add (length l)) (find_first p r).
Proof.
  intros Hl. induction l as [|x l IH]; cbn; [now destruct (find_first p r)|]. cbn in Hl. apply andb_true_iff in Hl. destruct Hl as [Hx Hl].
  apply negb_true_iff in Hx. rewrite Hx, IH by exact Hl. now destruct (find_first p r).
Qed.

Lemma digits_no p d : (forall c, is_digit c = true -> p c = false) -> forallb is_digit d = true -> forallb (fun c => negb (p c)) d = true.
Proof. intros H Hd. apply forallb_forall. intros c Hc. rewrite forallb_forall in Hd. rewrite (H c (Hd c Hc)). reflexivity. Qed.

Lemma mant_no p s ip dot fp : mant_ok ip dot fp -> (forall c, is_digit c = true -> p c = false) -> p "."%char = false ->
  forallb (fun c => negb (p c)) (sign_text s) = true -> forallb (fun c => negb (p c)) (mant_text s ip dot fp) = true.
Proof.
  intros (H1 & H2 & H3 & H4) Hp Hd Hs. unfold mant_text. rewrite !forallb_app, Hs, (digits_no p ip Hp H1). cbn [andb].
  destruct dot; [|reflexivity]. cbn [forallb]. rewrite Hd. cbn. now apply digits_no.
Qed.

Lemma is_sign_digit c : is_digit c = true -> is_sign c = false.
Proof. intros H. unfold is_sign. destruct (digit_not_sign c H) as (-> & -> & _). reflexivity. Qed.
Lemma is_e_digit c : is_digit c = true -> is_e c = false.
Proof. intros H. now destruct (digit_not_sign c H) as (_ & _ & _ & -> & _). Qed.

(** The mantissa without its first character has no sign. *)
Lemma mant_split s ip dot fp : mant_ok ip dot fp -> exists c r, mant_text s ip dot fp = c :: r /\
  forallb (fun c => negb (is_sign c)) r = true /\ forallb (fun c => negb (is_e c)) r = true.
Proof.
  intros Hm.
  assert (Hb : forallb (fun c => negb (is_sign c)) (ip ++ (if dot then "."%char :: fp else [])) = true).
  { apply (mant_no is_sign None); [exact Hm|exact is_sign_digit|reflexivity|reflexivity]. }
  assert (Hb' : forallb (fun c => negb (is_e c)) (ip ++ (if dot then "."%char :: fp else [])) = true).
  { apply (mant_no is_e None); [exact Hm|exact is_e_digit|reflexivity|reflexivity]. }
  unfold mant_text. destruct s as [[]|]; cbn [sign_text app].
  - exists "-"%char. eauto.
  - exists "+"%char. eauto.
  - destruct (ip ++ (if dot then "."%char :: fp else [])) as [|c r] eqn:E.
    + exfalso. destruct Hm as (H1 & H2 & H3 & H4). destruct ip; [|discriminate]. destruct dot; [discriminate|]. exfalso. apply H3. rewrite H4 by reflexivity. reflexivity.
    + exists c, r. split; [reflexivity|]. cbn in Hb, Hb'. apply andb_true_iff in Hb. apply andb_true_iff in Hb'. tauto.
Qed.

Lemma insert_e_plain s ip dot fp : mant_ok ip dot fp -> insert_e (mant_text s ip dot fp) = mant_text s ip dot fp.
Proof.
  intros Hm. destruct (mant_split s ip dot fp Hm) as (c & r & E & H1 & H2). rewrite E. cbn [insert_e]. now rewrite find_first_none.
Qed.
Lemma insert_e_short s ip dot fp es ed : mant_ok ip dot fp -> is_sign es = true ->
  insert_e (mant_text s ip dot fp ++ es :: ed) = mant_text s ip dot fp ++ "E"%char :: es :: ed.
Proof.
  intros Hm He. destruct (mant_split s ip dot fp Hm) as (c & r & E & H1 & H2). rewrite E. cbn [app insert_e].
  rewrite find_first_app by assumption.
  assert (Hne : (S (length r) =? match find_first is_e (r ++ es :: ed) with Some q => S (S q) | None => 0 end) = false).
  { rewrite find_first_app_none by exact H2. cbn [find_first].
    assert (is_e es = false) as ->. { unfold is_sign in He. apply orb_true_iff in He. destruct He as [He|He]; apply Ascii.eqb_eq in He; subst es; reflexivity. }
    destruct (find_first is_e ed); cbn; [apply Nat.eqb_neq; lia|reflexivity]. }
  rewrite Hne. cbn [firstn skipn app]. f_equal.
  rewrite firstn_app, Nat.sub_diag, firstn_O, app_nil_r, firstn_all. rewrite skipn_app, Nat.sub_diag, skipn_all. reflexivity.
Qed.
Lemma insert_e_full s ip dot fp e es ed : mant_ok ip dot fp -> is_e e = true -> forallb is_digit ed = true ->
  insert_e (mant_text s ip dot fp ++ e :: sign_text es ++ ed) = mant_text s ip dot fp ++ e :: sign_text es ++ ed.
Proof.
  intros Hm He Hd. destruct (mant_split s ip dot fp Hm) as (c & r & E & H1 & H2). rewrite E. cbn [app insert_e].
  assert (Hes : is_sign e = false) by (unfold is_e in He; apply orb_true_iff in He; destruct He as [He|He]; apply Ascii.eqb_eq in He; subst e; reflexivity).
  rewrite find_first_app_none by exact H1. cbn [find_first]. rewrite Hes.
  rewrite (find_first_app is_e r) by assumption.
  assert (Hn : find_first is_sign ed = None) by (apply find_first_none, digits_no; [exact is_sign_digit|exact Hd]).
  destruct es as [[]|]; cbn [sign_text app find_first]; [change (is_sign "-") with true|change (is_sign "+") with true|rewrite Hn]; cbn [option_map].
  - rewrite Nat.add_1_r, Nat.eqb_refl. reflexivity.
  - rewrite Nat.add_1_r, Nat.eqb_refl. reflexivity.
  - reflexivity.
Qed.

(** d/D and blanks. *)
Definition is_d (c : ascii) : bool := Ascii.eqb c "d" || Ascii.eqb c "D".
Lemma replace_d_none l : forallb (fun c => negb (is_d c)) l = true -> replace_d l = l.
Proof.
  intros H. unfold replace_d. rewrite <- (map_id l) at 2. apply map_ext_in. intros c Hc. rewrite forallb_forall in H. specialize (H c Hc).
  unfold is_d in H. apply negb_true_iff, orb_false_iff in H. destruct H as [-> ->]. reflexivity.
Qed.
Lemma replace_d_app a b : replace_d (a ++ b) = replace_d a ++ replace_d b.
Proof. apply map_app. Qed.
Lemma is_d_digit c : is_digit c = true -> is_d c = false.
Proof. intros H. unfold is_d. destruct (digit_not_sign c H) as (_ & _ & _ & _ & -> & -> & _). reflexivity. Qed.
Lemma replace_d_mant s ip dot fp : mant_ok ip dot fp -> replace_d (mant_text s ip dot fp) = mant_text s ip dot fp.
Proof. intros Hm. apply replace_d_none, mant_no; [exact Hm|exact is_d_digit|reflexivity|]. now destruct s as [[]|]. Qed.
Lemma replace_d_digits d : forallb is_digit d = true -> replace_d d = d.
Proof. intros H. apply replace_d_none, digits_no; [exact is_d_digit|exact H]. Qed.

Lemma replace_d_erase l : erase_char " " (replace_d l) = replace_d (erase_char " " l).
Proof.
  unfold erase_char, replace_d. induction l as [|c l IH]; cbn; [reflexivity|].
  destruct (Ascii.eqb_spec c "d") as [->|H1]; [cbn; now rewrite IH|]. destruct (Ascii.eqb_spec c "D") as [->|H2]; [cbn; now rewrite IH|].
  destruct (Ascii.eqb c " ") eqn:E; cbn; [exact IH|]. destruct (Ascii.eqb_spec c "d"); [congruence|]. destruct (Ascii.eqb_spec c "D"); [congruence|]. now rewrite IH.
Qed.
