(** Property C99: the executive and case control section written for a model and
    read back. *)
From Coq Require Import Ascii String ZArith List Bool Arith Lia.
From Verif Require Import Base TextModel TextProofs TokenizerModel TokenizerProofs RealModel CaseControlModel CaseControlProofs PropertiesCaseControl NextIntsProofs PropertiesCaseControl2 NastranControlModel NastranControlProofs.
Import ListNotations.
Open Scope nat_scope.
Open Scope list_scope.

(** ** The specification *)
(** The last element of a list that has a property. *)
Definition last_is {A} (q : A -> Prop) (l : list A) (x : A) : Prop := exists a b, l = a ++ x :: b /\ q x /\ Forall (fun y => ~ q y) b.
(** What an analysis written is read back as using: of each type the last set, the
    last displacement output if it has exactly one group. *)
Definition uses (w : wanalysis) (s : selection) : Prop :=
  match s with
  | SelSPC n => exists r, last_is (fun r => r_type r = KSpc) (w_constraints w) r /\ n = best r
  | SelMPC n => exists r, last_is (fun r => r_type r = KMpc) (w_constraints w) r /\ n = best r
  | SelLOAD n => exists r, last_is (fun r => r_type r = LLoad) (w_loads w) r /\ n = best r
  | SelDLOAD n => exists r, last_is (fun r => r_type r = LDload) (w_loads w) r /\ n = best r
  | SelLOADSET n => exists r, last_is (fun r => r_type r = LLoadset) (w_loads w) r /\ n = best r
  | SelDISP n phase => phase = false /\ n <> 0%Z /\ exists before, w_disp w = before ++ [[n]]
  | SelCONTACT _ | SelOFREQ _ | SelSTRESS _ => False
  end.
Definition static_again (w : wanalysis) (a : analysis) : Prop :=
  a_id a = Some (w_id w) /\ a_kind a = LinearMecaStat /\ forall s, In s (a_sel a) <-> uses w s.
Definition analysis_ok (w : wanalysis) : Prop :=
  ranged (w_id w) /\ Forall (fun r => ranged (best r)) (w_loads w) /\ Forall (fun r => ranged (best r)) (w_constraints w) /\ Forall (Forall ranged) (w_disp w).
Definition model_ok (m : wmodel) : Prop :=
  token (m_name m) /\ Forall set_ok (m_node_groups m) /\ Forall set_ok (m_cell_groups m) /\
  Forall (fun o => match o with Some l => Forall ranged l | None => True end) (m_stress m) /\ Forall analysis_ok (m_analyses m).

(** ** Contexts *)
Definition known : list str := map txt
  ["ID"; "SOL"; "APP"; "TIME"; "STRESS(VONMISES)"; "LOAD"; "DLOAD"; "EXCITEID"; "LOADSET"; "ALL"; "SPC"; "MPC"; "CONTACT"; "DISP"; "MAXLINES"; "TITLE"]%string.
Definition fine (kv : str * str) : Prop := In (fst kv) known /\ exists n, selected_id (snd kv) = Ok n.
Definition ctx_ok (label : str) (c : context) : Prop := sorted c /\ Forall fine c /\ cfind c (txt "SOL") = Some label.
Definition chosen : list str := map txt ["SPC"; "MPC"; "LOAD"; "DLOAD"; "LOADSET"; "DISP"]%string.
Definition bare (c : context) : Prop := forall k, In k chosen -> cfind c k = None.

Lemma ctx_cset label c k v : ctx_ok label c -> k <> txt "SOL" -> fine (k, v) -> ctx_ok label (cset c k v).
Proof.
  intros (S & F & L) N H. split; [now apply sorted_cset|]. split.
  - rewrite Forall_forall in *. intros e He. apply in_cset in He as [->|He]; auto.
  - rewrite cfind_cset. destruct (str_eqb_spec (txt "SOL") k); [congruence|exact L].
Qed.
Lemma ctx_cmds label cmds : forall c, ctx_ok label c -> Forall (fun kv => fst kv <> txt "SOL" /\ fine kv) cmds -> ctx_ok label (set_cmds c cmds).
Proof.
  induction cmds as [|[k v] cmds IH]; intros c H F; [exact H|]. inversion F as [|? ? [N X] F']; subst. cbn. apply IH; [|exact F']. now apply ctx_cset.
Qed.
Fixpoint last_cmd (k : str) (cmds : list (str * str)) : option str :=
  match cmds with
  | [] => None
  | (k', v) :: r => match last_cmd k r with Some x => Some x | None => if str_eqb k k' then Some v else None end
  end.
Lemma find_cmds cmds k : forall c, cfind (set_cmds c cmds) k = match last_cmd k cmds with Some v => Some v | None => cfind c k end.
Proof.
  induction cmds as [|[k' v] cmds IH]; intros c; [reflexivity|]. cbn [last_cmd]. change (set_cmds c ((k', v) :: cmds)) with (set_cmds (cset c k' v) cmds).
  rewrite IH, cfind_cset. destruct (last_cmd k cmds); [reflexivity|]. now destruct (str_eqb k k').
Qed.
Lemma last_cmd_app k a b : last_cmd k (a ++ b) = match last_cmd k b with Some v => Some v | None => last_cmd k a end.
Proof.
  induction a as [|[k' v] a IH]; cbn [app last_cmd]; [now destruct (last_cmd k b)|]. rewrite IH. now destruct (last_cmd k b).
Qed.
Lemma last_cmd_none k cmds : (forall kv, In kv cmds -> fst kv <> k) -> last_cmd k cmds = None.
Proof.
  induction cmds as [|[k' v] cmds IH]; intros H; [reflexivity|]. cbn [last_cmd]. rewrite IH by (intros; apply H; now right).
  destruct (str_eqb_spec k k'); [|reflexivity]. exfalso. apply (H (k', v)); [now left|]. now symmetry.
Qed.
Lemma last_is_cons {A} (q : A -> Prop) x l y : last_is q (x :: l) y <-> last_is q l y \/ (x = y /\ q y /\ Forall (fun z => ~ q z) l).
Proof.
  split.
  - intros ([|z a] & b & E & Q & F); cbn [app] in E; injection E as -> ->; [right; auto|left; exists a, b; auto].
  - intros [(a & b & -> & Q & F)|(-> & Q & F)]; [exists (x :: a), b|exists [], l]; auto.
Qed.
Lemma last_cmd_map {A} (key val : A -> str) k l : (forall v, last_cmd k (map (fun x => (key x, val x)) l) = Some v <-> exists x, last_is (fun x => key x = k) l x /\ val x = v) /\
  (last_cmd k (map (fun x => (key x, val x)) l) = None <-> Forall (fun x => key x <> k) l).
Proof.
  induction l as [|x l [IH1 IH2]]; cbn [map last_cmd].
  - split; [|split; [constructor|reflexivity]]. intros v. split; [discriminate|]. intros (x & (a & b & E & _) & _). destruct a; discriminate.
  - destruct (last_cmd k (map (fun x => (key x, val x)) l)) as [v0|] eqn:E.
    + split.
      * intros v. split.
        -- intros H. injection H as <-. destruct (proj1 (IH1 v0) eq_refl) as (y & Hy & <-). exists y. split; [|reflexivity]. apply last_is_cons. now left.
        -- intros (y & Hy & <-). apply last_is_cons in Hy as [Hy|(-> & Q & F)]; [apply (IH1 (val y)); exists y; auto|].
           exfalso. apply IH2 in F. discriminate.
      * split; [discriminate|]. intros F. inversion F; subst. exfalso. apply IH2 in H2. discriminate.
    + pose proof (proj1 IH2 eq_refl) as F. destruct (str_eqb_spec k (key x)) as [K|K].
      * split; [|split; [discriminate|intros G; inversion G; subst; congruence]]. intros v. split.
        -- intros H. injection H as <-. exists x. split; [|reflexivity]. apply last_is_cons. right. auto.
        -- intros (y & Hy & <-). apply last_is_cons in Hy as [Hy|(-> & Q & _)]; [|reflexivity].
           exfalso. destruct Hy as (a & b & -> & Q & _). rewrite Forall_forall in F. apply (F y); [apply in_app_iff; right; now left|exact Q].
      * split; [|split; [constructor; auto|reflexivity]]. intros v. split; [discriminate|].
        intros (y & Hy & <-). apply last_is_cons in Hy as [Hy|(-> & Q & _)]; [|exfalso; congruence].
        exfalso. destruct Hy as (a & b & -> & Q & _). rewrite Forall_forall in F. apply (F y); [apply in_app_iff; right; now left|exact Q].
Qed.

(** What an entry selects. *)
Definition sel_of (k : str) (n : Z) : list selection :=
  if str_eqb k (txt "SPC") then [SelSPC n] else if str_eqb k (txt "MPC") then [SelMPC n] else if str_eqb k (txt "LOADSET") then [SelLOADSET n]
  else if str_eqb k (txt "LOAD") then [SelLOAD n] else if str_eqb k (txt "DLOAD") then [SelDLOAD n]
  else if str_eqb k (txt "DISP") then (if (n =? 0)%Z then [] else [SelDISP n false]) else [].
Lemma select_known k v n : In k known -> selected_id v = Ok n -> select_entry erase_end_libstdcxx (k, v) = Ok (sel_of k n).
Proof.
  intros H E. unfold select_entry. cbn [fst snd]. rewrite E. cbn [bind]. clear E. unfold known in H. cbn [map In] in H.
  repeat (destruct H as [<-|H]; [reflexivity|]). destruct H.
Qed.
Lemma sel_of_in k n s : In s (sel_of k n) <->
  match s with
  | SelSPC m => k = txt "SPC" /\ m = n | SelMPC m => k = txt "MPC" /\ m = n | SelLOADSET m => k = txt "LOADSET" /\ m = n
  | SelLOAD m => k = txt "LOAD" /\ m = n | SelDLOAD m => k = txt "DLOAD" /\ m = n
  | SelDISP m p => k = txt "DISP" /\ m = n /\ n <> 0%Z /\ p = false
  | _ => False
  end.
Proof.
  unfold sel_of.
  destruct (str_eqb_spec k (txt "SPC")) as [->|N1]; [destruct s; cbn; intuition congruence|].
  destruct (str_eqb_spec k (txt "MPC")) as [->|N2]; [destruct s; cbn; intuition congruence|].
  destruct (str_eqb_spec k (txt "LOADSET")) as [->|N3]; [destruct s; cbn; intuition congruence|].
  destruct (str_eqb_spec k (txt "LOAD")) as [->|N4]; [destruct s; cbn; intuition congruence|].
  destruct (str_eqb_spec k (txt "DLOAD")) as [->|N5]; [destruct s; cbn; intuition congruence|].
  destruct (str_eqb_spec k (txt "DISP")) as [->|N6].
  - destruct (Z.eqb_spec n 0); destruct s; cbn; intuition congruence.
  - destruct s; cbn; intuition congruence.
Qed.
Lemma mapM_fine c : Forall fine c -> exists ss, mapM (select_entry erase_end_libstdcxx) c = Ok ss.
Proof.
  induction 1 as [|[k v] c [K [n E]] F [ss IH]]; [exists []; reflexivity|]. cbn [fst snd] in *. cbn [mapM]. rewrite (select_known k v n K E). cbn [bind].
  rewrite IH. eexists. reflexivity.
Qed.
Lemma select_ctx label c : ctx_ok label c -> exists ss, selections erase_end_libstdcxx c = Ok ss /\
  forall s, In s ss <-> exists k v n, cfind c k = Some v /\ selected_id v = Ok n /\ In s (sel_of k n).
Proof.
  intros (S & F & _). destruct (mapM_fine c F) as [ss E]. assert (X : selections erase_end_libstdcxx c = Ok (concat ss)) by (unfold selections; now rewrite E).
  exists (concat ss). split; [exact X|]. intros s. rewrite (selections_in _ _ _ X). rewrite Forall_forall in F. split.
  - intros ([k v] & l & I1 & E1 & I2). destruct (F _ I1) as [K [n N]]. cbn [fst snd] in *. rewrite (select_known k v n K N) in E1. injection E1 as <-.
    exists k, v, n. split; [now apply sorted_in|]. auto.
  - intros (k & v & n & C & N & I1). apply sorted_in in C; [|exact S]. destruct (F _ C) as [K _]. exists (k, v), (sel_of k n). split; [exact C|]. split; [now apply select_known|exact I1].
Qed.

Lemma none_known q c : Forall fine c -> forallb (fun k => negb (q k)) known = true -> Forall (fun e => q (fst e) = false) c.
Proof.
  intros F H. rewrite Forall_forall in *. intros e He. destruct (F e He) as [K _]. rewrite forallb_forall in H. apply H in K. now apply negb_true_iff.
Qed.
Lemma first_none p c : Forall (fun e => has_infix (txt p) (fst e) = false) c -> first_containing p c = Ok None.
Proof.
  intros F. unfold first_containing. assert (find (fun e => has_infix (txt p) (fst e)) c = None) as ->; [|reflexivity].
  induction F as [|e c H F IH]; [reflexivity|]. cbn. now rewrite H.
Qed.
Lemma last_zero q c : Forall (fun e : str * str => q (fst e) = false) c -> last_matching q c = Ok 0%Z.
Proof.
  intros F. unfold last_matching. induction F as [|e c H F IH]; [reflexivity|]. cbn [foldM]. rewrite H. exact IH.
Qed.
Definition is_static (k : akind) : bool := match k with AStatic => true | _ => false end.
Lemma choose_ctx cosmic k c previous kn : ctx_ok (sol_label cosmic k) c ->
  choose_analysis c previous kn = if is_static k then Ok (Some LinearMecaStat) else if null (sol_label cosmic k) then Ok None else Throw.
Proof.
  intros (_ & F & L). unfold choose_analysis. rewrite L.
  destruct cosmic, k; try reflexivity; cbn [sol_label is_static].
  - change (null (trim (txt "103"))) with false. change (label_find (trim (txt "103"))) with (Some MODES). cbn iota. cbn [nastran_analysis_eqb make_analysis].
    rewrite first_none; [reflexivity|]. apply none_known; [exact F|reflexivity].
  - change (null (trim (txt "106"))) with false. change (label_find (trim (txt "106"))) with (Some NLSTATIC). cbn iota. cbn [nastran_analysis_eqb make_analysis].
    destruct (cfind c (txt "NLPARM")) as [v|] eqn:E; [|reflexivity]. exfalso.
    assert (X : In (txt "NLPARM", v) c).
    { clear - E. induction c as [|[k w] c IH]; [discriminate|]. cbn [cfind] in E. destruct (str_eqb_spec (txt "NLPARM") k); [injection E as ->; left; congruence|right; auto]. }
    rewrite Forall_forall in F. destruct (F _ X) as [K _]. cbn [fst] in K. unfold known in K. cbn [map In] in K. repeat (destruct K as [K|K]; [discriminate|]). exact K.
  - change (null (trim (txt "111"))) with false. change (label_find (trim (txt "111"))) with (Some MFREQ). cbn iota. cbn [nastran_analysis_eqb make_analysis].
    rewrite (last_zero (has_prefix (txt "METHOD"))) by (apply none_known; [exact F|reflexivity]). cbn [bind].
    rewrite (last_zero (has_prefix (txt "SDAMPING"))) by (apply none_known; [exact F|reflexivity]). cbn [bind].
    rewrite (last_zero (has_prefix (txt "FREQ"))) by (apply none_known; [exact F|reflexivity]). reflexivity.
Qed.
Lemma add_ctx cosmic k c id as_ : ctx_ok (sol_label cosmic k) c ->
  if is_static k then exists ss, add_analysis id c as_ = Ok (as_ ++ [mkAnalysis id LinearMecaStat ss]) /\
    forall s, In s ss <-> exists k v n, cfind c k = Some v /\ selected_id v = Ok n /\ In s (sel_of k n)
  else add_analysis id c as_ = Ok as_.
Proof.
  intros H. unfold add_analysis. rewrite (choose_ctx cosmic k c _ _ H). destruct (is_static k) eqn:E.
  - destruct (select_ctx _ c H) as (ss & S & I1). rewrite S. cbn [bind]. exists ss. auto.
  - destruct (null (sol_label cosmic k)); reflexivity.
Qed.

(** ** The header *)
Lemma token_app a b : token a -> (forall c, In c b -> is_space c = false /\ ~ In c ["="%char; "\"%char; "$"%char]) -> token (a ++ b).
Proof. intros [N H] B. split; [destruct a; [congruence|discriminate]|]. intros c Hc. apply in_app_iff in Hc as [Hc|Hc]; auto. Qed.
Definition head_ctx (name label : str) : context :=
  cset (cset (cset (cset [] (txt "ID") (name ++ txt ",NASTRAN")) (txt "SOL") label) (txt "APP") (txt "DISP")) (txt "TIME") (txt "10000").
Lemma head_ok name label : token name -> (exists n, selected_id label = Ok n) -> ctx_ok label (head_ctx name label) /\ bare (head_ctx name label).
Proof.
  intros T L. assert (N : selected_id (name ++ txt ",NASTRAN") = Ok 0%Z).
  { assert (T' : token (name ++ txt ",NASTRAN")) by (apply token_app; [exact T|]; intros c Hc; cbn in Hc; intuition (subst; try reflexivity; cbn in *; intuition discriminate)).
    unfold selected_id. rewrite trim_nospace by apply (token_free _ T'). rewrite forallb_app. cbn [txt forallb]. now rewrite !andb_false_r. }
  split; [|intros k Hk; unfold chosen in Hk; cbn [map In] in Hk; repeat (destruct Hk as [<-|Hk]; [reflexivity|]); destruct Hk].
  unfold head_ctx. split; [repeat apply sorted_cset; constructor|]. split.
  - change (cset (cset (cset (cset [] (txt "ID") (name ++ txt ",NASTRAN")) (txt "SOL") label) (txt "APP") (txt "DISP")) (txt "TIME") (txt "10000")) with
      [(txt "APP", txt "DISP"); (txt "ID", name ++ txt ",NASTRAN"); (txt "SOL", label); (txt "TIME", txt "10000")].
    assert (K : forall k, existsb (str_eqb k) known = true -> In k known).
    { intros k Hk. apply existsb_exists in Hk as (x & Hx & E). destruct (str_eqb_spec k x); [now subst|discriminate]. }
    constructor; [split; [now apply K|exists 0%Z; reflexivity]|]. constructor; [split; [now apply K|exists 0%Z; exact N]|].
    constructor; [split; [now apply K|exact L]|]. constructor; [split; [now apply K|exists 10000%Z; reflexivity]|]. constructor.
  - reflexivity.
Qed.
Definition header (cosmic : bool) (m : wmodel) (a : wanalysis) : list str :=
  [txt "$ " ++ m_name m; txt "ID " ++ m_name m ++ txt ",NASTRAN"] ++ write_sol cosmic (w_kind a) (w_described a) ++
  [txt "APP   DISP"; txt "TIME  10000"; txt "CEND"].
Lemma exec_header cosmic m a rest fuel : token (m_name m) -> length (header cosmic m a ++ rest) < fuel ->
  exists fuel', length rest < fuel' /\
  exec_loop fuel [] false [] [] (header cosmic m a ++ rest) = exec_loop fuel' (head_ctx (m_name m) (sol_label cosmic (w_kind a))) false [] [] rest.
Proof.
  intros T Hf. unfold header in *. cbn [app] in *. rewrite exec_skip by (left; reflexivity).
  assert (T' : token (m_name m ++ txt ",NASTRAN")) by (apply token_app; [exact T|]; intros c Hc; cbn in Hc; intuition (subst; try reflexivity; cbn in *; intuition discriminate)).
  assert (TI : token (txt "ID")) by (split; [discriminate|]; intros c Hc; cbn in Hc; intuition (subst; try reflexivity; cbn in *; intuition discriminate)).
  destruct fuel as [|fuel]; [lia|]. cbn [length] in Hf.
  erewrite exec_plain; [|apply (next_pair [] (txt "ID") [" "%char] (m_name m ++ txt ",NASTRAN")); try assumption; try reflexivity; [discriminate|intros c [<-|[]]; now left]|reflexivity|].
  2:{ unfold exec_command. cbn [null].
      destruct (token_free _ T') as (D & S & _ & N).
      assert (FQ : free (is_any_of ["="%char]) (txt "ID" ++ [" "%char] ++ m_name m ++ txt ",NASTRAN")).
      { apply free_app; [reflexivity|]. apply free_app; [reflexivity|]. apply free_in. intros c Hc. destruct T' as [_ T']. destruct (T' c Hc) as [_ X].
        unfold is_any_of. cbn. rewrite orb_false_r. apply Ascii.eqb_neq. intros ->. apply X. cbn. auto. }
      rewrite (split_compress_free _ _ FQ).
      rewrite (split_compress_word (is_any_of [" "%char]) (txt "ID") [" "%char]); [|reflexivity|discriminate|reflexivity|].
      - rewrite split_compress_free; [reflexivity|]. apply free_in. intros c Hc. apply free_in with (c := c) in S; [|exact Hc].
        unfold is_any_of. cbn. rewrite orb_false_r. apply Ascii.eqb_neq. intros ->. discriminate S.
      - destruct (m_name m ++ txt ",NASTRAN") as [|c r]; [congruence|]. apply free_in with (c := c) in S; [|now left].
        unfold is_any_of. cbn. rewrite orb_false_r. apply Ascii.eqb_neq. intros ->. discriminate S. }
  set (c0 := cset [] _ _). unfold write_sol in *.
  assert (SK : forall f r, exec_loop f c0 false [] [] (((if null (sol_label cosmic (w_kind a)) then [txt "$ WARN analysis " ++ w_described a ++ txt " not supported. Skipping."] else []) ++ [txt "SOL " ++ sol_label cosmic (w_kind a)]) ++ r) =
    exec_loop f c0 false [] [] ((txt "SOL " ++ sol_label cosmic (w_kind a)) :: r)).
  { intros f r. destruct (null _); cbn [app]; [|reflexivity]. apply exec_skip. left. reflexivity. }
  rewrite <- !app_assoc in *. specialize (SK fuel ([txt "APP   DISP"; txt "TIME  10000"; txt "CEND"] ++ rest)). rewrite <- !app_assoc in SK. rewrite SK. clear SK.
  assert (Hl : 4 + length rest < fuel) by (rewrite !app_length in Hf; cbn [length] in Hf; lia). clear Hf.
  destruct fuel as [|[|[|[|fuel]]]]; try lia.
  assert (S : forall ls, exists raw fields, nextCaseLine ((txt "SOL " ++ sol_label cosmic (w_kind a)) :: ls) = Some (raw, txt "SOL" :: fields, ls) /\
    exec_command c0 raw (txt "SOL" :: fields) = Ok (cset c0 (txt "SOL") (sol_label cosmic (w_kind a)))).
  { intros ls. destruct cosmic, (w_kind a); (eexists; eexists; split; [reflexivity|reflexivity]). }
  destruct (S ([txt "APP   DISP"; txt "TIME  10000"; txt "CEND"] ++ rest)) as (raw & fields & S1 & S2).
  rewrite (exec_plain _ _ _ _ _ _ _ _ _ _ _ S1 eq_refl S2). cbn [app].
  erewrite exec_plain; [|reflexivity|reflexivity|reflexivity]. erewrite exec_plain; [|reflexivity|reflexivity|reflexivity].
  erewrite exec_silent; [|reflexivity|left; reflexivity]. exists fuel. split; [lia|]. reflexivity.
Qed.

(** ** Stresses *)
Definition stress_text (o : option (list Z)) : str := match o with None => txt "ALL" | Some l => commas (map int_text l) end.
Definition stress_cmd (o : option (list Z)) : str * str :=
  (txt "STRESS(VONMISES)", match stress_text o with [] => [] | v => " "%char :: v end).
Definition stress_ok (o : option (list Z)) : Prop := match o with Some l => Forall ranged l | None => True end.
Lemma ranged_nonneg l : Forall ranged l -> Forall (fun n => (0 <= n)%Z) l.
Proof. apply Forall_impl. unfold ranged. intros. lia. Qed.
Lemma stress_token o : stress_ok o -> stress_text o = [] \/ token (stress_text o).
Proof.
  destruct o as [[|n l]|]; cbn [stress_ok stress_text]; intros H; [now left| |].
  - right. pose proof (ranged_nonneg _ H) as F. apply numeric_token; [|now apply commas_numeric]. apply commas_nonempty. inversion F; assumption.
  - right. split; [discriminate|]. intros c Hc; cbn in Hc; intuition (subst; try reflexivity; cbn in *; intuition discriminate).
Qed.
Lemma stress_fine o : stress_ok o -> fst (stress_cmd o) <> txt "SOL" /\ fine (stress_cmd o).
Proof.
  intros H. split; [discriminate|]. split; [right; right; right; right; left; reflexivity|]. cbn [stress_cmd snd].
  destruct (stress_text o) as [|x y] eqn:E; [exists 0%Z; reflexivity|]. rewrite selected_sp, <- E.
  destruct o as [l|]; [eexists; now apply selected_list|exists 0%Z; reflexivity].
Qed.
Lemma exec_stress o fuel c found as_ ds ls : stress_ok o ->
  exec_loop (S fuel) c found as_ ds (write_stress o :: ls) = exec_loop fuel (cset c (fst (stress_cmd o)) (snd (stress_cmd o))) found as_ ds ls.
Proof.
  intros H. change (write_stress o) with (txt "  STRESS(VONMISES) = " ++ stress_text o). cbn [stress_cmd fst snd]. destruct (stress_token o H) as [->|T].
  - eapply exec_plain; reflexivity.
  - assert (TS : token (txt "STRESS(VONMISES)")) by (split; [discriminate|]; intros c' Hc; cbn in Hc; intuition (subst; try reflexivity; cbn in *; intuition discriminate)).
    eapply exec_plain.
    + apply (next_pair (txt "  ") (txt "STRESS(VONMISES)") (txt " = ") (stress_text o)); try assumption; try reflexivity; [discriminate|].
      intros c' [<-|[<-|[<-|[]]]]; auto.
    + reflexivity.
    + unfold exec_command. cbn [null]. change (txt "STRESS(VONMISES)" ++ txt " = " ++ stress_text o) with (txt "STRESS(VONMISES) " ++ ["="%char] ++ (" "%char :: stress_text o)).
      rewrite split_compress_word; [|reflexivity|discriminate|reflexivity|reflexivity].
      assert (FQ : free (is_any_of ["="%char]) (" "%char :: stress_text o)).
      { apply free_in. intros x [<-|Hx]; [reflexivity|]. destruct T as [_ T]. destruct (T x Hx) as [_ X].
        unfold is_any_of. cbn. rewrite orb_false_r. apply Ascii.eqb_neq. intros ->. apply X. cbn. auto. }
      rewrite (split_compress_free _ _ FQ). destruct T as [NT _]. destruct (stress_text o); [congruence|]. reflexivity.
Qed.
Lemma exec_stresses found as_ ds rest : forall os, Forall stress_ok os -> forall fuel c, length (map write_stress os ++ rest) < fuel ->
  exists fuel', length rest < fuel' /\ exec_loop fuel c found as_ ds (map write_stress os ++ rest) = exec_loop fuel' (set_cmds c (map stress_cmd os)) found as_ ds rest.
Proof.
  induction 1 as [|o os H F IH]; intros fuel c Hf; [exists fuel; auto|]. cbn [map app] in *. destruct fuel as [|fuel]; [lia|]. cbn [length] in Hf.
  rewrite exec_stress by exact H. destruct (IH fuel (cset c (fst (stress_cmd o)) (snd (stress_cmd o))) ltac:(lia)) as (f & L & E). exists f. split; [exact L|]. rewrite E. reflexivity.
Qed.

(** ** Subcases *)
Definition case_cmds (w : wanalysis) : list (str * str) :=
  map (fun r => (lname (r_type r), int_text (best r))) (w_loads w) ++ map (fun r => (kname (r_type r), int_text (best r))) (w_constraints w) ++
  map (fun g => (txt "DISP", commas (map int_text g))) (w_disp w).
Lemma name_token t : token (lname t) /\ plain_key (lname t) = true /\ ends_subcase (lname t) = false /\ In (lname t) known /\ lname t <> txt "SOL" /\ word (lname t) = lname t.
Proof.
  split; [|destruct t; repeat split; try reflexivity; try discriminate; unfold known; cbn [map In lname]; tauto].
  split; [destruct t; discriminate|]. intros c Hc. destruct t; cbn in Hc; intuition (subst; try reflexivity; cbn in *; intuition discriminate).
Qed.
Lemma kname_token t : token (kname t) /\ plain_key (kname t) = true /\ ends_subcase (kname t) = false /\ In (kname t) known /\ kname t <> txt "SOL" /\ word (kname t) = kname t.
Proof.
  split; [|destruct t; repeat split; try reflexivity; try discriminate; unfold known; cbn [map In kname]; tauto].
  split; [destruct t; discriminate|]. intros c Hc. destruct t; cbn in Hc; intuition (subst; try reflexivity; cbn in *; intuition discriminate).
Qed.
Lemma plain_not_set k : plain_key k = true -> str_eqb k (txt "SET") = false.
Proof. unfold plain_key. rewrite !andb_true_iff, !negb_true_iff. tauto. Qed.
Lemma reads_number k n : token k -> plain_key k = true -> ends_subcase k = false -> word k = k -> ranged n ->
  reads_as (txt "  " ++ k ++ txt "=" ++ int_text n) (k, int_text n).
Proof.
  intros T P E W R. unfold ranged in R. split; [now apply plain_not_set|]. split; [exact E|]. intros ls. exists (k ++ txt "=" ++ int_text n), k, [int_text n].
  split; [|split; [exact W|]].
  - apply (next_pair (txt "  ")); [reflexivity|exact T|apply int_token; lia|discriminate|]. intros c [<-|[]]. now right.
  - cbn [command_value map join_words snd]. unfold command_value. cbn [map join_words]. apply numeric_word. apply int_numeric. lia.
Qed.
Lemma reads_disp g : Forall ranged g -> reads_as (txt "  DISP = " ++ commas (map int_text g)) (txt "DISP", commas (map int_text g)).
Proof.
  intros R. split; [reflexivity|]. split; [reflexivity|]. intros ls. pose proof (ranged_nonneg _ R) as F. destruct g as [|n g].
  - exists (txt "DISP ="), (txt "DISP"), [[]]. split; [reflexivity|]. split; reflexivity.
  - set (v := commas (map int_text (n :: g))). assert (N : numeric v) by now apply commas_numeric.
    assert (N' : v <> []) by (apply commas_nonempty; inversion F; assumption).
    exists (txt "DISP" ++ txt " = " ++ v), (txt "DISP"), [v]. split; [|split; [reflexivity|]].
    + apply (next_pair (txt "  ") (txt "DISP") (txt " = ") v); [reflexivity| |now apply numeric_token|discriminate|].
      * split; [discriminate|]. intros c Hc. cbn in Hc. intuition (subst; try reflexivity; cbn in *; intuition discriminate).
      * intros c [<-|[<-|[<-|[]]]]; auto.
    + unfold command_value. cbn [map join_words snd]. now apply numeric_word.
Qed.
Lemma reads_case w : analysis_ok w -> Forall2 reads_as (tl (write_subcase w)) (case_cmds w).
Proof.
  intros (_ & FL & FC & FD). unfold write_subcase, case_cmds. cbn [app tl]. apply Forall2_app; [|apply Forall2_app].
  - clear - FL. induction FL as [|r l H F IH]; cbn [map]; constructor; [|exact IH]. destruct (name_token (r_type r)) as (T & P & E & _ & _ & W). now apply reads_number.
  - clear - FC. induction FC as [|r l H F IH]; cbn [map]; constructor; [|exact IH]. destruct (kname_token (r_type r)) as (T & P & E & _ & _ & W). now apply reads_number.
  - clear - FD. induction FD as [|g l H F IH]; cbn [map]; constructor; [|exact IH]. now apply reads_disp.
Qed.
Lemma case_fine w : analysis_ok w -> Forall (fun kv => fst kv <> txt "SOL" /\ fine kv) (case_cmds w).
Proof.
  intros (_ & FL & FC & FD). unfold case_cmds. rewrite !Forall_app. rewrite !Forall_map. split; [|split].
  - revert FL. apply Forall_impl. intros r H. destruct (name_token (r_type r)) as (_ & _ & _ & K & S & _). split; [exact S|]. split; [exact K|]. eexists. now apply selected_number.
  - revert FC. apply Forall_impl. intros r H. destruct (kname_token (r_type r)) as (_ & _ & _ & K & S & _). split; [exact S|]. split; [exact K|]. eexists. now apply selected_number.
  - revert FD. apply Forall_impl. intros g H. split; [discriminate|]. split; [unfold known; cbn [map In fst]; tauto|]. eexists. now apply selected_list.
Qed.
(** The lines after the subcases, and what the last subcase makes of them. *)
Definition footer (cosmic : bool) : list str := (if cosmic then [txt "MAXLINES=999999"] else []) ++ [txt "$"; txt "TITLE=Vega Exported Model"; txt "BEGIN BULK"].
Definition foot_cmds (cosmic : bool) : list (str * str) :=
  (if cosmic then [(txt "MAXLINES", txt "999999")] else []) ++ [(txt "TITLE", txt "VEGA_EXPORTED_MODEL")].
Lemma block_one fuel c ds l ls raw t fields : nextCaseLine (l :: ls) = Some (raw, t :: fields, ls) ->
  str_eqb (word t) (txt "SET") = false -> ends_subcase (word t) = false ->
  block_loop (S fuel) true c ds (l :: ls) = block_loop fuel true (cset c (word t) (command_value fields)) ds ls.
Proof. intros H N E. cbn [block_loop]. rewrite H, N, E. reflexivity. Qed.
Lemma block_footer cosmic bulk fuel c ds : 3 < fuel ->
  block_loop fuel true c ds (footer cosmic ++ bulk) = Ok (set_cmds c (foot_cmds cosmic), ds, txt "BEGIN BULK" :: bulk).
Proof.
  intros Hf. destruct fuel as [|[|[|fuel]]]; try lia.
  assert (NT : forall ls, nextCaseLine (txt "TITLE=Vega Exported Model" :: ls) =
    Some (txt "TITLE=Vega Exported Model", [txt "TITLE"; txt "Vega"; txt "Exported"; txt "Model"], ls)) by (intros; vm_compute; reflexivity).
  assert (NB : forall ls, nextCaseLine (txt "BEGIN BULK" :: ls) = Some (txt "BEGIN BULK", [txt "BEGIN"; txt "BULK"], ls)) by (intros; vm_compute; reflexivity).
  assert (NM : forall ls, nextCaseLine (txt "MAXLINES=999999" :: ls) = Some (txt "MAXLINES=999999", [txt "MAXLINES"; txt "999999"], ls)) by (intros; vm_compute; reflexivity).
  assert (T : forall c fuel, 0 < fuel -> block_loop (S fuel) true c ds (txt "$" :: txt "TITLE=Vega Exported Model" :: txt "BEGIN BULK" :: bulk) =
    Ok (cset c (txt "TITLE") (txt "VEGA_EXPORTED_MODEL"), ds, txt "BEGIN BULK" :: bulk)).
  { intros c' f Hf'. rewrite (block_skip _ _ _ (txt "$") _ _ _ _ _ (or_introl eq_refl) (NT _) eq_refl eq_refl).
    rewrite (block_one _ _ _ _ _ _ _ _ (NT _) eq_refl eq_refl).
    rewrite (block_stop f _ ds _ bulk _ (txt "BEGIN") _ (NB _) (or_introl eq_refl) Hf'). reflexivity. }
  destruct cosmic; unfold footer, foot_cmds; cbn [app].
  - rewrite (block_one _ _ _ _ _ _ _ _ (NM _) eq_refl eq_refl). rewrite T by lia. reflexivity.
  - rewrite T by lia. reflexivity.
Qed.

(** The sets of the analysis, from its context. *)
Lemma cmds_uses w extra c label : analysis_ok w -> ctx_ok label c -> bare c -> (extra = [] \/ exists b, extra = foot_cmds b) ->
  forall s, (exists k v n, cfind (set_cmds c (case_cmds w ++ extra)) k = Some v /\ selected_id v = Ok n /\ In s (sel_of k n)) <-> uses w s.
Proof.
  intros (_ & FL & FC & FD) _ B EX s.
  assert (NX : forall k, In k chosen -> last_cmd k extra = None).
  { intros k Hk. destruct EX as [->|[[] ->]]; [reflexivity| |]; unfold chosen in Hk; cbn [map In] in Hk; repeat (destruct Hk as [<-|Hk]; [reflexivity|]); destruct Hk. }
  assert (V : forall k, In k chosen -> cfind (set_cmds c (case_cmds w ++ extra)) k = last_cmd k (case_cmds w)).
  { intros k Hk. rewrite find_cmds, last_cmd_app, NX, B by exact Hk. now destruct (last_cmd k (case_cmds w)). }
  assert (LD : forall k, k <> txt "DISP" -> last_cmd k (map (fun g => (txt "DISP", commas (map int_text g))) (w_disp w)) = None).
  { intros k Hk. apply last_cmd_none. intros kv Hkv. apply in_map_iff in Hkv as (g & <- & _). cbn [fst]. congruence. }
  assert (LK : forall t, In (kname t) chosen -> forall n, (exists v, cfind (set_cmds c (case_cmds w ++ extra)) (kname t) = Some v /\ selected_id v = Ok n) <->
     exists r, last_is (fun r => r_type r = t) (w_constraints w) r /\ n = best r).
  { intros t Ht n.
    assert (E : cfind (set_cmds c (case_cmds w ++ extra)) (kname t) = last_cmd (kname t) (map (fun r => (kname (r_type r), int_text (best r))) (w_constraints w))).
    { rewrite V by exact Ht. unfold case_cmds. rewrite !last_cmd_app. rewrite LD by (destruct t; discriminate).
      destruct (last_cmd (kname t) (map _ (w_constraints w))); [reflexivity|].
      apply last_cmd_none. intros kv Hkv. apply in_map_iff in Hkv as (r & <- & _). cbn. destruct t, (r_type r); try discriminate.
      unfold chosen in Ht. cbn [map In kname] in Ht. intuition discriminate. }
    rewrite E. destruct (last_cmd_map (fun r => kname (r_type r)) (fun r => int_text (best r)) (kname t) (w_constraints w)) as [M _].
    assert (INJ : forall t', kname t' = kname t <-> t' = t) by (intros t'; split; [destruct t', t; try discriminate; reflexivity|congruence]).
    assert (Q : forall r, last_is (fun r => kname (r_type r) = kname t) (w_constraints w) r <-> last_is (fun r => r_type r = t) (w_constraints w) r).
    { intros r. unfold last_is. split; intros (a & b & E1 & E2 & E3); exists a, b; (split; [exact E1|]; split; [now apply INJ|]; revert E3; apply Forall_impl; intros y Hy X; apply Hy; now apply INJ). }
    assert (RG : forall r, last_is (fun r => r_type r = t) (w_constraints w) r -> selected_id (int_text (best r)) = Ok (best r)).
    { intros r (a & b & E1 & _). apply selected_number. rewrite E1 in FC. apply Forall_app in FC as [_ FC]. now inversion FC. }
    split.
    - intros (v & L & S). apply M in L as (r & L & <-). apply Q in L. exists r. split; [exact L|]. rewrite (RG r L) in S. congruence.
    - intros (r & L & ->). exists (int_text (best r)). split; [|now apply RG]. apply M. exists r. split; [now apply Q|reflexivity]. }
  assert (LL : forall t, In (lname t) chosen -> forall n, (exists v, cfind (set_cmds c (case_cmds w ++ extra)) (lname t) = Some v /\ selected_id v = Ok n) <->
     exists r, last_is (fun r => r_type r = t) (w_loads w) r /\ n = best r).
  { intros t Ht n.
    assert (E : cfind (set_cmds c (case_cmds w ++ extra)) (lname t) = last_cmd (lname t) (map (fun r => (lname (r_type r), int_text (best r))) (w_loads w))).
    { rewrite V by exact Ht. unfold case_cmds. rewrite !last_cmd_app. rewrite LD by (destruct t; discriminate).
      assert (last_cmd (lname t) (map (fun r => (kname (r_type r), int_text (best r))) (w_constraints w)) = None) as ->; [|reflexivity].
      apply last_cmd_none. intros kv Hkv. apply in_map_iff in Hkv as (r & <- & _). cbn. destruct t, (r_type r); try discriminate.
      unfold chosen in Ht. cbn [map In lname] in Ht. intuition discriminate. }
    rewrite E. destruct (last_cmd_map (fun r => lname (r_type r)) (fun r => int_text (best r)) (lname t) (w_loads w)) as [M _].
    assert (INJ : forall t', lname t' = lname t <-> t' = t) by (intros t'; split; [destruct t', t; try discriminate; reflexivity|congruence]).
    assert (Q : forall r, last_is (fun r => lname (r_type r) = lname t) (w_loads w) r <-> last_is (fun r => r_type r = t) (w_loads w) r).
    { intros r. unfold last_is. split; intros (a & b & E1 & E2 & E3); exists a, b; (split; [exact E1|]; split; [now apply INJ|]; revert E3; apply Forall_impl; intros y Hy X; apply Hy; now apply INJ). }
    assert (RG : forall r, last_is (fun r => r_type r = t) (w_loads w) r -> selected_id (int_text (best r)) = Ok (best r)).
    { intros r (a & b & E1 & _). apply selected_number. rewrite E1 in FL. apply Forall_app in FL as [_ FL]. now inversion FL. }
    split.
    - intros (v & L & S). apply M in L as (r & L & <-). apply Q in L. exists r. split; [exact L|]. rewrite (RG r L) in S. congruence.
    - intros (r & L & ->). exists (int_text (best r)). split; [|now apply RG]. apply M. exists r. split; [now apply Q|reflexivity]. }
  assert (DD : forall n, n <> 0%Z -> (exists v, cfind (set_cmds c (case_cmds w ++ extra)) (txt "DISP") = Some v /\ selected_id v = Ok n) <-> exists before, w_disp w = before ++ [[n]]).
  { intros n Hn. rewrite V by (unfold chosen; cbn [map In]; tauto). unfold case_cmds. rewrite !last_cmd_app.
    assert (last_cmd (txt "DISP") (map (fun r => (kname (r_type r), int_text (best r))) (w_constraints w)) = None) as ->.
    { apply last_cmd_none. intros kv Hkv. apply in_map_iff in Hkv as (r & <- & _). cbn. destruct (r_type r); discriminate. }
    assert (last_cmd (txt "DISP") (map (fun r => (lname (r_type r), int_text (best r))) (w_loads w)) = None) as ->.
    { apply last_cmd_none. intros kv Hkv. apply in_map_iff in Hkv as (r & <- & _). cbn. destruct (r_type r); discriminate. }
    destruct (last_cmd_map (fun _ : list Z => txt "DISP") (fun g => commas (map int_text g)) (txt "DISP") (w_disp w)) as [M _].
    assert (Q : forall g, last_is (fun _ : list Z => txt "DISP" = txt "DISP") (w_disp w) g <-> exists before, w_disp w = before ++ [g]).
    { intros g. unfold last_is. split.
      - intros (a & b & E1 & _ & E3). destruct b as [|y b]; [eauto|]. inversion E3; subst. now exfalso.
      - intros (a & E1). exists a, []. auto. }
    split.
    - intros (v & L & S). destruct (last_cmd (txt "DISP") (map _ (w_disp w))) as [v'|] eqn:E; [|discriminate]. injection L as ->.
      destruct (proj1 (M v) eq_refl) as (g & L & <-). apply Q in L as (before & L). exists before. rewrite L. do 2 f_equal.
      rewrite selected_list in S by (rewrite L in FD; apply Forall_app in FD as [_ FD]; now inversion FD). injection S as S. destruct g as [|x [|y g]]; cbn in S; congruence.
    - intros (before & L). exists (commas (map int_text [n])). split.
      + assert (last_cmd (txt "DISP") (map (fun g => (txt "DISP", commas (map int_text g))) (w_disp w)) = Some (commas (map int_text [n]))) as ->; [|reflexivity].
        apply M. exists [n]. split; [|reflexivity]. apply Q. eauto.
      + rewrite selected_list; [reflexivity|]. rewrite L in FD. apply Forall_app in FD as [_ FD]. now inversion FD. }
  assert (COL : forall key m, (exists k v n, cfind (set_cmds c (case_cmds w ++ extra)) k = Some v /\ selected_id v = Ok n /\ k = key /\ m = n) <->
    exists v, cfind (set_cmds c (case_cmds w ++ extra)) key = Some v /\ selected_id v = Ok m).
  { intros key m. split; [intros (k & v & n & A1 & A2 & -> & ->); eauto|intros (v & A1 & A2); exists key, v, m; auto]. }
  assert (CH : Forall (fun k => In k chosen) chosen) by (apply Forall_forall; auto). unfold chosen in CH at 2. cbn [map] in CH. rewrite !Forall_cons_iff in CH.
  destruct CH as (C1 & C2 & C3 & C4 & C5 & C6 & _).
  transitivity (match s with
    | SelSPC m => exists v, cfind (set_cmds c (case_cmds w ++ extra)) (txt "SPC") = Some v /\ selected_id v = Ok m
    | SelMPC m => exists v, cfind (set_cmds c (case_cmds w ++ extra)) (txt "MPC") = Some v /\ selected_id v = Ok m
    | SelLOADSET m => exists v, cfind (set_cmds c (case_cmds w ++ extra)) (txt "LOADSET") = Some v /\ selected_id v = Ok m
    | SelLOAD m => exists v, cfind (set_cmds c (case_cmds w ++ extra)) (txt "LOAD") = Some v /\ selected_id v = Ok m
    | SelDLOAD m => exists v, cfind (set_cmds c (case_cmds w ++ extra)) (txt "DLOAD") = Some v /\ selected_id v = Ok m
    | SelDISP m p => p = false /\ m <> 0%Z /\ exists v, cfind (set_cmds c (case_cmds w ++ extra)) (txt "DISP") = Some v /\ selected_id v = Ok m
    | _ => False
    end).
  { split.
    - intros (k & v & n & A1 & A2 & A3). apply sel_of_in in A3. destruct s; try destruct A3 as (-> & ->); try contradiction; eauto.
      destruct A3 as (-> & -> & A3 & ->). eauto.
    - intros A. destruct s; try contradiction; try (destruct A as (v & A1 & A2); eexists; exists v, id; split; [exact A1|]; split; [exact A2|]; apply sel_of_in; auto).
      destruct A as (-> & A0 & v & A1 & A2). exists (txt "DISP"), v, id. split; [exact A1|]. split; [exact A2|]. apply sel_of_in. auto. }
  destruct s; cbn [uses]; try reflexivity.
  - exact (LK KSpc C1 id).
  - exact (LK KMpc C2 id).
  - exact (LL LLoadset C5 id).
  - exact (LL LLoad C3 id).
  - exact (LL LDload C4 id).
  - split; (intros (A & A0 & A1); split; [exact A|]; split; [exact A0|]; now apply DD).
Qed.

Definition foot_len (cosmic : bool) : nat := length (footer cosmic).
Lemma exec_subcases cosmic k c bulk ds : ctx_ok (sol_label cosmic k) c -> bare c -> forall ws, ws <> [] -> Forall analysis_ok ws ->
  forall fuel found as_, length (flat_map write_subcase ws ++ footer cosmic ++ bulk) < fuel ->
  exists new, exec_loop fuel c found as_ ds (flat_map write_subcase ws ++ footer cosmic ++ bulk) = Ok (as_ ++ new, ds, bulk) /\
    if is_static k then Forall2 static_again ws new else new = [].
Proof.
  intros HC HB. induction ws as [|w ws IH]; [congruence|]. intros _ F fuel found as_ Hf. inversion F as [|? ? Hw F']; subst.
  destruct fuel as [|fuel]; [lia|]. cbn [flat_map] in *. rewrite <- app_assoc in *.
  assert (Hr : (0 <= w_id w < 2 ^ 31 - 1)%Z) by apply Hw.
  set (tail := flat_map write_subcase ws ++ footer cosmic ++ bulk) in *.
  assert (EW : write_subcase w ++ tail = (txt "SUBCASE" ++ txt " " ++ int_text (w_id w)) :: tl (write_subcase w) ++ tail) by reflexivity.
  rewrite EW in *. cbn [exec_loop].
  assert (TS : token (txt "SUBCASE")) by (split; [discriminate|]; intros c' Hc; cbn in Hc; intuition (subst; try reflexivity; cbn in *; intuition discriminate)).
  assert (NS : forall n ls, (0 <= n)%Z -> nextCaseLine ((txt "SUBCASE" ++ txt " " ++ int_text n) :: ls) = Some (txt "SUBCASE" ++ txt " " ++ int_text n, [txt "SUBCASE"; int_text n], ls)).
  { intros n ls Hn. apply (next_pair [] (txt "SUBCASE") (txt " ")); [reflexivity|exact TS|now apply int_token|discriminate|]. intros c' [<-|[]]. now left. }
  rewrite NS by lia. change (word (txt "SUBCASE")) with (txt "SUBCASE").
  change (null (txt "SUBCASE")) with false. change (has_infix (txt "BEGIN") (txt "SUBCASE")) with false. change (str_eqb (txt "SUBCASE") (txt "SUBCASE")) with true. cbn iota.
  assert (exists t, nextIntDefault 0 (mkCursor [txt "SUBCASE"; int_text (w_id w)] 1 FIELD) = Ok (w_id w, t)) as [t ->].
  { unfold nextIntDefault, nextSymbolString. cbn [cvec ccur csym nth_error length Nat.leb]. rewrite trim_trim_right, numeric_trim by (apply int_numeric; lia). destruct (int_numeric (w_id w) ltac:(lia)) as [_ N].
    assert (null (int_text (w_id w)) = false) as -> by (destruct (int_text (w_id w)); [congruence|reflexivity]).
    rewrite lexical_int_text by (unfold INT_MIN32, INT_MAX32; lia). eexists. reflexivity. }
  cbn [bind fst].
  destruct (block_cmds tail [] _ _ (reads_case w Hw) (S (length (tl (write_subcase w) ++ tail))) c ltac:(lia)) as (f' & Lf & E). rewrite E. clear E.
  cbn [length] in Hf.
  assert (Ht : length tail < fuel) by (rewrite app_length in Hf; lia).
  destruct ws as [|w2 ws].
  - cbn [flat_map app] in tail. subst tail. rewrite block_footer by (rewrite app_length in Lf; unfold footer in Lf; destruct cosmic; cbn [app length] in Lf; lia).
    cbn [bind]. rewrite app_nil_r.
    assert (HC' : ctx_ok (sol_label cosmic k) (set_cmds (set_cmds c (case_cmds w)) (foot_cmds cosmic))).
    { apply ctx_cmds; [apply ctx_cmds; [exact HC|now apply case_fine]|]. unfold foot_cmds.
      assert (FT : fst (txt "TITLE", txt "VEGA_EXPORTED_MODEL") <> txt "SOL" /\ fine (txt "TITLE", txt "VEGA_EXPORTED_MODEL")).
      { split; [discriminate|]. split; [unfold known; cbn [map In fst]; tauto|exists 0%Z; reflexivity]. }
      destruct cosmic; cbn [app]; [constructor|]; (constructor; [assumption|]; try constructor) || (split; [discriminate|]; split; [unfold known; cbn [map In fst]; tauto|exists 999999%Z; reflexivity]) || idtac. }
    destruct fuel as [|fuel]; [lia|].
    assert (NB : nextCaseLine (txt "BEGIN BULK" :: bulk) = Some (txt "BEGIN BULK", [txt "BEGIN"; txt "BULK"], bulk)) by (vm_compute; reflexivity).
    pose proof (add_ctx cosmic k _ (Some (w_id w)) as_ HC') as AD. destruct (is_static k).
    + destruct AD as (ss & AD & SS). rewrite AD. cbn [bind]. rewrite (exec_begin _ _ _ _ _ _ _ _ _ NB eq_refl).
      exists [mkAnalysis (Some (w_id w)) LinearMecaStat ss]. split; [reflexivity|]. constructor; [|constructor]. split; [reflexivity|]. split; [reflexivity|].
      intros s. cbn [a_sel]. rewrite SS. replace (set_cmds (set_cmds c (case_cmds w)) (foot_cmds cosmic)) with (set_cmds c (case_cmds w ++ foot_cmds cosmic)) by (unfold set_cmds; apply fold_left_app).
      apply (cmds_uses w (foot_cmds cosmic) c _ Hw HC HB). right. eauto.
    + rewrite AD. cbn [bind]. rewrite (exec_begin _ _ _ _ _ _ _ _ _ NB eq_refl). exists []. rewrite app_nil_r. auto.
  - assert (Hr2 : (0 <= w_id w2 < 2 ^ 31 - 1)%Z) by (inversion F' as [|? ? H2 _]; subst; apply H2).
    assert (BS : block_loop f' true (set_cmds c (case_cmds w)) [] tail = Ok (set_cmds c (case_cmds w), [], tail)).
    { exact (block_stop f' (set_cmds c (case_cmds w)) [] _ (tl tail) _ (txt "SUBCASE") _ (NS (w_id w2) (tl tail) ltac:(lia)) (or_intror (or_introl eq_refl)) ltac:(lia)). }
    rewrite BS.
    cbn [bind]. rewrite app_nil_r.
    assert (HC' : ctx_ok (sol_label cosmic k) (set_cmds c (case_cmds w))) by (apply ctx_cmds; [exact HC|now apply case_fine]).
    pose proof (add_ctx cosmic k _ (Some (w_id w)) as_ HC') as AD. destruct (is_static k).
    + destruct AD as (ss & AD & SS). rewrite AD. cbn [bind].
      destruct (IH ltac:(discriminate) F' fuel true (as_ ++ [mkAnalysis (Some (w_id w)) LinearMecaStat ss]) Ht) as (new & E & N).
      exists (mkAnalysis (Some (w_id w)) LinearMecaStat ss :: new). split; [rewrite E, <- app_assoc; reflexivity|]. constructor; [|exact N].
      split; [reflexivity|]. split; [reflexivity|]. intros s. cbn [a_sel]. rewrite SS. rewrite <- (app_nil_r (case_cmds w)).
      apply (cmds_uses w [] c _ Hw HC HB). now left.
    + rewrite AD. cbn [bind]. destruct (IH ltac:(discriminate) F' fuel true as_ Ht) as (new & E & N). exists new. auto.
Qed.

(** ** The theorems *)
Lemma sol_selected cosmic k : exists n, selected_id (sol_label cosmic k) = Ok n.
Proof. destruct cosmic, k; eexists; reflexivity. Qed.
Lemma bare_stress os : forall c, bare c -> bare (set_cmds c (map stress_cmd os)).
Proof.
  intros c B k Hk. rewrite find_cmds. rewrite last_cmd_none; [now apply B|]. intros kv Hkv. apply in_map_iff in Hkv as (o & <- & _). cbn [stress_cmd fst]. intros <-.
  unfold chosen in Hk. cbn [map In] in Hk. intuition discriminate.
Qed.
Lemma read_back cosmic m a more bulk : m_analyses m = a :: more -> model_ok m ->
  exists lines as_ ds, write_control cosmic m = Ok lines /\ read_control (lines ++ bulk) = Ok (as_, ds, bulk) /\
    Forall2 set_of (m_node_groups m ++ m_cell_groups m) ds /\ if is_static (w_kind a) then Forall2 static_again (m_analyses m) as_ else as_ = [].
Proof.
  intros EA (T & FN & FG & FS & FA).
  set (lines := header cosmic m a ++ flat_map write_set (m_node_groups m ++ m_cell_groups m) ++ map write_stress (m_stress m) ++ flat_map write_subcase (m_analyses m) ++ footer cosmic).
  assert (W : write_control cosmic m = Ok lines).
  { unfold write_control. rewrite EA. f_equal. unfold lines, header, footer. rewrite EA, flat_map_app, <- !app_assoc. reflexivity. }
  exists lines. unfold read_control.
  set (foot := flat_map write_subcase (m_analyses m) ++ footer cosmic ++ bulk).
  assert (EL : lines ++ bulk = header cosmic m a ++ flat_map write_set (m_node_groups m ++ m_cell_groups m) ++ map write_stress (m_stress m) ++ foot).
  { unfold lines, foot. rewrite <- !app_assoc. reflexivity. }
  set (N := S (length (lines ++ bulk))). assert (HN : length (lines ++ bulk) < N) by (unfold N; lia). rewrite EL in *.
  destruct (exec_header cosmic m a _ N T HN) as (f1 & L1 & E1).
  destruct (exec_sets (map write_stress (m_stress m) ++ foot) (head_ctx (m_name m) (sol_label cosmic (w_kind a))) false [] (m_node_groups m ++ m_cell_groups m)
    ltac:(apply Forall_app; auto) f1 [] L1) as (f2 & ds & L2 & F2 & E2).
  destruct (exec_stresses false [] ([] ++ ds) foot (m_stress m) FS f2 (head_ctx (m_name m) (sol_label cosmic (w_kind a))) L2) as (f3 & L3 & E3).
  destruct (head_ok (m_name m) (sol_label cosmic (w_kind a)) T (sol_selected cosmic (w_kind a))) as [HC HB].
  destruct (exec_subcases cosmic (w_kind a) (set_cmds (head_ctx (m_name m) (sol_label cosmic (w_kind a))) (map stress_cmd (m_stress m))) bulk ([] ++ ds)) with
    (ws := m_analyses m) (fuel := f3) (found := false) (as_ := @nil analysis) as (new & E4 & N4); try assumption.
  - apply ctx_cmds; [exact HC|]. apply Forall_map. revert FS. apply Forall_impl. intros o Ho. now apply stress_fine.
  - now apply bare_stress.
  - rewrite EA. discriminate.
  - exists new, ds. split; [exact W|]. split; [rewrite E1, E2, E3; exact E4|]. split; assumption.
Qed.

(** A model whose first analysis is static: every group is read back as the same
    set of numbers, every analysis as a static one with its number, using of each
    type the last of its sets; what follows the section is left to read. *)
Theorem C99_static : forall cosmic m a more bulk, m_analyses m = a :: more -> w_kind a = AStatic -> model_ok m ->
  exists lines as_ ds, write_control cosmic m = Ok lines /\ read_control (lines ++ bulk) = Ok (as_, ds, bulk) /\
    Forall2 set_of (m_node_groups m ++ m_cell_groups m) ds /\ Forall2 static_again (m_analyses m) as_.
Proof.
  intros cosmic m a more bulk EA K H. destruct (read_back cosmic m a more bulk EA H) as (lines & as_ & ds & R). rewrite K in R. cbn [is_static] in R. exists lines, as_, ds. exact R.
Qed.
Print Assumptions C99_static.

(** Sets may also be defined in a subcase: they are all kept, whatever their number. *)
Lemma block_sets rest c : forall gs, Forall set_ok gs -> forall fuel ds, length (flat_map write_set gs ++ rest) < fuel ->
  exists fuel' ds', length rest < fuel' /\ Forall2 set_of gs ds' /\ block_loop fuel true c ds (flat_map write_set gs ++ rest) = block_loop fuel' true c (ds ++ ds') rest.
Proof.
  induction 1 as [|g gs Hg F IH]; intros fuel ds Hf.
  - exists fuel, []. split; [exact Hf|]. split; [constructor|]. now rewrite app_nil_r.
  - cbn [flat_map] in *. rewrite <- app_assoc in *. destruct (write_set_read g (flat_map write_set gs ++ rest) Hg) as (l & ls & raw & fields & d & E & N & A & S).
    rewrite E in *. destruct fuel as [|fuel]; [lia|].
    assert (Hl : length (flat_map write_set gs ++ rest) <= length ls).
    { destruct (write_set g) as [|x y] eqn:W; [|cbn [app] in E; injection E as _ <-; rewrite (app_length y); lia].
      exfalso. clear - W. unfold write_set, on_last in W. destruct (rev _) as [|x r] eqn:R; [|destruct (rev r); discriminate W].
      apply (f_equal (@rev str)) in R. rewrite rev_involutive in R. destruct (g_numbers g); [discriminate R|]. cbn [broken] in R. change (1 mod 8 =? 0) with false in R. cbn iota in R.
      clear - R. revert R. generalize (S 1) as k. generalize ((txt "SET " ++ int_text (g_id g) ++ txt " = ") ++ int_text z) as cur. induction l as [|m l IH]; intros cur k R; cbn [broken] in R; [discriminate|].
      destruct (k mod 8 =? 0); [discriminate R|]. now apply IH in R. }
    destruct (IH fuel (ds ++ [d])) as (f' & ds' & L & F2 & X); [cbn [length] in Hf; lia|].
    exists f', (d :: ds'). split; [exact L|]. split; [constructor; assumption|]. rewrite <- app_assoc in X. cbn [app] in X. rewrite <- X.
    cbn [block_loop]. rewrite N. change (word (txt "SET")) with (txt "SET"). change (true && str_eqb (txt "SET") (txt "SET")) with true. cbn iota.
    rewrite A. reflexivity.
Qed.
Theorem C99_subcase_sets : forall n gs bulk, (0 <= n < 2 ^ 31 - 1)%Z -> Forall set_ok gs ->
  exists as_ ds, read_control ((txt "SUBCASE " ++ int_text n) :: flat_map write_set gs ++ txt "BEGIN BULK" :: bulk) = Ok (as_, ds, bulk) /\ Forall2 set_of gs ds.
Proof.
  intros n gs bulk Hn F. unfold read_control. change (txt "SUBCASE " ++ int_text n) with (txt "SUBCASE" ++ txt " " ++ int_text n). cbn [exec_loop].
  assert (TS : token (txt "SUBCASE")) by (split; [discriminate|]; intros c' Hc; cbn in Hc; intuition (subst; try reflexivity; cbn in *; intuition discriminate)).
  assert (NS : forall ls, nextCaseLine ((txt "SUBCASE" ++ txt " " ++ int_text n) :: ls) = Some (txt "SUBCASE" ++ txt " " ++ int_text n, [txt "SUBCASE"; int_text n], ls)).
  { intros ls. apply (next_pair [] (txt "SUBCASE") (txt " ")); [reflexivity|exact TS|apply int_token; lia|discriminate|]. intros c' [<-|[]]. now left. }
  rewrite NS. change (word (txt "SUBCASE")) with (txt "SUBCASE").
  change (null (txt "SUBCASE")) with false. change (has_infix (txt "BEGIN") (txt "SUBCASE")) with false. change (str_eqb (txt "SUBCASE") (txt "SUBCASE")) with true. cbn iota.
  assert (exists t, nextIntDefault 0 (mkCursor [txt "SUBCASE"; int_text n] 1 FIELD) = Ok (n, t)) as [t ->].
  { unfold nextIntDefault, nextSymbolString. cbn [cvec ccur csym nth_error length Nat.leb]. rewrite trim_trim_right, numeric_trim by (apply int_numeric; lia). destruct (int_numeric n ltac:(lia)) as [_ N].
    assert (null (int_text n) = false) as -> by (destruct (int_text n); [congruence|reflexivity]).
    rewrite lexical_int_text by (unfold INT_MIN32, INT_MAX32; lia). eexists. reflexivity. }
  cbn [bind fst]. set (rest := txt "BEGIN BULK" :: bulk).
  destruct (block_sets rest [] gs F (S (length (flat_map write_set gs ++ rest))) [] ltac:(lia)) as (f' & ds' & L & F2 & E). rewrite E. cbn [app].
  assert (NB : nextCaseLine (txt "BEGIN BULK" :: bulk) = Some (txt "BEGIN BULK", [txt "BEGIN"; txt "BULK"], bulk)) by (vm_compute; reflexivity).
  unfold rest. rewrite (block_stop f' [] ds' _ bulk _ (txt "BEGIN") _ NB (or_introl eq_refl) ltac:(lia)). cbn [bind app].
  assert (A : exists as_, add_analysis (Some n) [] [] = Ok as_) by (vm_compute; eexists; reflexivity). destruct A as [as_ ->]. cbn [bind].
  exists as_, ds'. split; [|exact F2]. set (fuel := length _). assert (Hf : 0 < fuel) by (unfold fuel; cbn [length]; rewrite app_length; cbn [length]; lia).
  destruct fuel as [|fuel]; [lia|]. now rewrite (exec_begin _ _ _ _ _ _ _ _ _ NB eq_refl).
Qed.
Example C99_subcase_sets_case : Forall set_ok [mkWgroup 3 [1; 2; 9]%Z (txt "a"); mkWgroup 4 [] (txt "b")].
Proof. repeat constructor; cbn; lia. Qed.
Print Assumptions C99_subcase_sets.

(** The sets and outputs of an analysis. *)
Definition has (w : wanalysis) (s : selection) : Prop :=
  match s with
  | SelSPC n => exists r, In r (w_constraints w) /\ r_type r = KSpc /\ n = best r
  | SelMPC n => exists r, In r (w_constraints w) /\ r_type r = KMpc /\ n = best r
  | SelCONTACT n => exists r, In r (w_constraints w) /\ r_type r = KContact /\ n = best r
  | SelLOAD n => exists r, In r (w_loads w) /\ r_type r = LLoad /\ n = best r
  | SelDLOAD n => exists r, In r (w_loads w) /\ r_type r = LDload /\ n = best r
  | SelLOADSET n => exists r, In r (w_loads w) /\ r_type r = LLoadset /\ n = best r
  | SelDISP n phase => phase = false /\ exists g, In g (w_disp w) /\ In n g
  | SelOFREQ _ | SelSTRESS _ => False
  end.
Definition one_of_each (w : wanalysis) : Prop :=
  NoDup (map r_type (w_loads w)) /\ NoDup (map r_type (w_constraints w)) /\ ~ In KContact (map r_type (w_constraints w)) /\
  (w_disp w = [] \/ exists n, w_disp w = [[n]] /\ n <> 0%Z).
Lemma nodup_last {A B} (f : A -> B) t l r : NoDup (map f l) -> (last_is (fun r => f r = t) l r <-> In r l /\ f r = t).
Proof.
  intros N. split.
  - intros (a & b & -> & Q & _). split; [apply in_app_iff; right; now left|exact Q].
  - intros [I1 Q]. apply in_split in I1 as (a & b & ->). exists a, b. split; [reflexivity|]. split; [exact Q|]. rewrite map_app in N. cbn [map] in N.
    apply NoDup_remove_2 in N. apply Forall_forall. intros y Hy Qy. apply N. apply in_app_iff. right. rewrite Q, <- Qy. now apply in_map.
Qed.
(** When an analysis has at most one set of each type, no contact, and at most one
    displacement output on one group, what is read back is what it has.  Missing:
    the rest, which is lost. *)
Theorem C99_same_partial : forall w a, static_again w a -> one_of_each w -> forall s, In s (a_sel a) <-> has w s.
Proof.
  intros w a (_ & _ & H) (NL & NC & NK & ND) s. rewrite H. destruct s; cbn [uses has]; try reflexivity.
  1,2,3,4,5: (split; [intros (r & L & ->); apply nodup_last in L; [|assumption]; exists r; tauto|intros (r & I1 & T & ->); exists r; split; [|reflexivity]; apply nodup_last; auto]).
  - split; [contradiction|]. intros (r & I1 & T & _). apply NK. rewrite <- T. now apply in_map.
  - split.
    + intros (-> & _ & before & E). split; [reflexivity|]. exists [id]. rewrite E. split; [apply in_app_iff; right; now left|now left].
    + intros (-> & g & I1 & I2). split; [reflexivity|]. destruct ND as [E|(n & E & Nn)]; rewrite E in I1; [destruct I1|]. destruct I1 as [<-|[]]. destruct I2 as [->|[]].
      split; [exact Nn|]. exists []. exact E.
Qed.
Print Assumptions C99_same_partial.

(** A model whose first analysis is of any other kind is read back without any
    analysis. *)
Theorem C99_other_kinds_refuted : forall cosmic m a more bulk, m_analyses m = a :: more -> w_kind a <> AStatic -> model_ok m ->
  exists lines ds, write_control cosmic m = Ok lines /\ read_control (lines ++ bulk) = Ok ([], ds, bulk).
Proof.
  intros cosmic m a more bulk EA K H. destruct (read_back cosmic m a more bulk EA H) as (lines & as_ & ds & E1 & E2 & _ & E3).
  assert (is_static (w_kind a) = false) as E4 by (destruct (w_kind a); [congruence|reflexivity..]). rewrite E4 in E3. subst as_. exists lines, ds. auto.
Qed.
(** Only the first analysis decides: a later one of another kind is read back as a
    static one. *)
Theorem C99_later_kinds_refuted : forall cosmic m a more bulk, m_analyses m = a :: more -> w_kind a = AStatic -> model_ok m ->
  exists lines as_ ds, write_control cosmic m = Ok lines /\ read_control (lines ++ bulk) = Ok (as_, ds, bulk) /\
    length as_ = length (m_analyses m) /\ Forall (fun b => a_kind b = LinearMecaStat) as_.
Proof.
  intros cosmic m a more bulk EA K H. destruct (C99_static cosmic m a more bulk EA K H) as (lines & as_ & ds & E1 & E2 & _ & E3). exists lines, as_, ds.
  split; [exact E1|]. split; [exact E2|]. clear - E3. induction E3 as [|w b ws bs (_ & X & _) F [IH1 IH2]]; cbn [length]; auto.
Qed.
(** Of two LOAD sets of an analysis only the last is used. *)
Theorem C99_two_loads_refuted : forall w a r before after last, static_again w a -> w_loads w = before ++ last :: after ->
  r_type last = LLoad -> Forall (fun x => r_type x <> LLoad) after -> In r before -> r_type r = LLoad -> best r <> best last -> ~ In (SelLOAD (best r)) (a_sel a).
Proof.
  intros w a r before after last (_ & _ & H) E T F I1 Tr N X. apply H in X. cbn [uses] in X. destruct X as (r' & (a' & b' & E' & Q & F') & B). apply N. rewrite B.
  f_equal. assert (U : forall (a1 a2 b1 b2 : list (setref ltype)) x1 x2, a1 ++ x1 :: b1 = a2 ++ x2 :: b2 -> r_type x1 = LLoad -> r_type x2 = LLoad ->
    Forall (fun x => r_type x <> LLoad) b1 -> Forall (fun x => r_type x <> LLoad) b2 -> x1 = x2).
  { clear. induction a1 as [|y a1 IH]; intros [|z a2] b1 b2 x1 x2 E T1 T2 F1 F2; cbn [app] in E; injection E as E1 E2; subst.
    - reflexivity.
    - rewrite Forall_app, Forall_cons_iff in F1. tauto.
    - rewrite Forall_app, Forall_cons_iff in F2. tauto.
    - eapply IH; eauto. }
  eapply U; [rewrite <- E'; exact E|exact Q|exact T|exact F'|exact F] || (symmetry; eapply U; [rewrite <- E; exact E'|..]; eassumption).
Qed.
(** Contact sets, and displacement outputs on several groups, are lost. *)
Theorem C99_lost_refuted : forall w a, static_again w a -> (forall n, ~ In (SelCONTACT n) (a_sel a)) /\
  (forall before g n phase, w_disp w = before ++ [g] -> length g <> 1 -> ~ In (SelDISP n phase) (a_sel a)).
Proof.
  intros w a (_ & _ & H). split; [intros n X; now apply H in X|]. intros before g n phase E L X. apply H in X as (_ & _ & b' & E'). rewrite E in E'.
  apply app_inj_tail in E' as [_ ->]. now apply L.
Qed.
(** The cards of an MPC set carry its own number, the subcase selects the number
    it had in the input file: when they differ the equations are not used. *)
Theorem C99_equations_refuted : forall w a r n, static_again w a -> last_is (fun r => r_type r = KMpc) (w_constraints w) r ->
  r_original r = Some n -> n <> r_own r -> In (SelMPC n) (a_sel a) /\ mpc_number r = r_own r /\ (NoDup (map r_type (w_constraints w)) -> ~ In (SelMPC (mpc_number r)) (a_sel a)).
Proof.
  intros w a r n (_ & _ & H) L E N. assert (B : best r = n) by (unfold best; now rewrite E). split; [apply H; exists r; auto|]. split; [reflexivity|].
  intros ND X. apply H in X as (r' & L' & B'). apply nodup_last in L, L'; try assumption. assert (r = r').
  { destruct L as [I1 T1], L' as [I2 T2]. clear - ND I1 I2 T1 T2. induction (w_constraints w) as [|x l IH]; [destruct I1|]. cbn [map] in ND. inversion ND as [|? ? N1 N2]; subst.
    destruct I1 as [->|I1], I2 as [->|I2]; [reflexivity| | |now apply IH]; exfalso; apply N1; rewrite ?T1, ?T2; [rewrite <- T2|rewrite <- T1]; now apply in_map. }
  subst r'. unfold mpc_number in B'. congruence.
Qed.

Definition c99_case : wmodel := mkWmodel (txt "plate.nas")
  [mkWgroup 3 [1; 2; 3; 4; 5; 6; 7; 8; 9; 10; 12; 14; 16; 18; 20; 22; 24]%Z (txt "BEGIN = $ edge"); mkWgroup 4 [] (txt "none")] [mkWgroup 5 [101; 102]%Z (txt "skin")]
  [None; Some [5%Z]]
  [mkWanalysis 1 AStatic (txt "first") [mkRef LLoad (Some 10%Z) 1] [mkRef KSpc (Some 11%Z) 1; mkRef KMpc (Some 12%Z) 2] [[3%Z]];
   mkWanalysis 7 AModal (txt "second") [] [mkRef KSpc None 3] [[3%Z; 4%Z]]].
Example C99_case : model_ok c99_case /\ one_of_each (hd (mkWanalysis 0 AOther [] [] [] []) (m_analyses c99_case)) /\
  (exists lines, write_control false c99_case = Ok lines /\
   read_control (lines ++ [txt "GRID"]) = Ok ([mkAnalysis (Some 1%Z) LinearMecaStat [SelDISP 3 false; SelLOAD 10; SelMPC 12; SelSPC 11];
      mkAnalysis (Some 7%Z) LinearMecaStat [SelSPC 3]],
      [SetNumbers 3 [1; 2; 3; 4; 5; 6; 7; 8; 9; 10; 12; 14; 16; 18; 20; 22; 24]%Z; SetIgnored 4; SetNumbers 5 [101; 102]%Z], [txt "GRID"])).
Proof.
  split; [|split].
  - unfold model_ok, c99_case. cbn [m_name m_node_groups m_cell_groups m_stress m_analyses]. split; [|unfold set_ok, analysis_ok, ranged, best; repeat (cbn; match goal with |- Forall _ _ => constructor | |- _ /\ _ => split | |- True => exact I | _ => lia end)].
    split; [discriminate|]. intros c Hc. cbn in Hc. intuition (subst; try reflexivity; cbn in *; intuition discriminate).
  - cbn. split; [repeat constructor; cbn; tauto|]. split; [repeat constructor; cbn; intuition discriminate|]. split; [cbn; intuition discriminate|]. right. exists 3%Z. split; [reflexivity|lia].
  - eexists. split; [reflexivity|]. vm_compute. reflexivity.
Qed.

Print Assumptions C99_other_kinds_refuted.
Print Assumptions C99_later_kinds_refuted.
Print Assumptions C99_two_loads_refuted.
Print Assumptions C99_lost_refuted.
Print Assumptions C99_equations_refuted.
