(** Lemmas on OrientModel: the register of orientations and the groups of cells
    are kept in order by any deck. *)
From Coq Require Import Ascii String Reals ZArith List Bool Arith Lia Lra Permutation Sorted.
From Verif Require Import Base TextModel TextProofs TokenizerModel RealModel WriterLineModel GridModel GeomModel OrientModel MeshCellProofs.
From Verif Require Import PropertiesGrid.
Import ListNotations.
Open Scope Z_scope.
Open Scope list_scope.

(** ** Decks *)
(** The elements of a deck, in order. *)
Definition elements (l : list ocard) : list segment :=
  flat_map (fun c => match c with Element s => [s] | SystemCard _ _ => [] end) l.
(** The last definition of a numbered system. *)
Fixpoint defined (cid : Z) (l : list ocard) : option frame :=
  match l with
  | [] => None
  | SystemCard c f :: r => match defined cid r with Some g => Some g | None => if c =? cid then Some f else None end
  | Element _ :: r => defined cid r
  end.
Lemma elements_app a b : elements (a ++ b) = elements a ++ elements b.
Proof. apply flat_map_app. Qed.
Lemma defined_app cid a b : defined cid (a ++ b) = match defined cid b with Some g => Some g | None => defined cid a end.
Proof. induction a as [|[s|c f] a IH]; cbn [app defined]; [now destruct (defined cid b)|exact IH|]. rewrite IH. now destruct (defined cid b). Qed.

(** What a card asks of the orientation of its element. *)
Definition meant (tol : R) (ga gb : Z) (d : direction) (o : orientation) : Prop :=
  oO o = ga /\ oX o = gb /\
  match d, oV o with
  | ByNode g, Toward g' => g' = g
  | ByVector x1 x2 x3, Along v => (norm (vsub (normalized (dir_vec x1 x2 x3)) v) <= tol)%R
  | _, _ => False
  end.

(** ** The register *)
Record wf_store (l : list ocard) (st : storage system) : Prop := {
  ws_next : 1 <= next_pos st;
  ws_range : Forall (fun e => 1 <= fst e < next_pos st) (refs st);
  ws_nodup : NoDup (map fst (refs st));
  ws_auto : forall p n, In (p, Automatic n) (refs st) -> n = p /\
    exists s gb d, In s (elements l) /\ sgb s = Some gb /\ saxes s = Towards d /\
      defs st (Automatic n) = Some (Orient (make_orientation (sga s) gb d));
  ws_named : forall cid, defs st (Named cid) = option_map User (defined cid l) }.
Definition ext (a b : storage system) : Prop :=
  (forall e, In e (refs a) -> In e (refs b)) /\
  (forall p, In (p, Automatic p) (refs a) -> defs b (Automatic p) = defs a (Automatic p)).
Lemma ext_refl a : ext a a.
Proof. split; auto. Qed.
Lemma norm_zero : norm vzero = 0%R.
Proof. unfold norm, dot, vzero. cbn [vx vy vz]. replace (0 * 0 + 0 * 0 + 0 * 0)%R with 0%R by ring. apply sqrt_0. Qed.
Lemma meant_self tol ga gb d : (0 <= tol)%R -> meant tol ga gb d (make_orientation ga gb d).
Proof.
  intros H. unfold meant, make_orientation. cbn [oO oX oV]. split; [reflexivity|]. split; [reflexivity|]. destruct d as [g|x1 x2 x3]; [reflexivity|].
  set (w := normalized _). assert (E : vsub w w = vzero) by (unfold vsub, vzero; f_equal; ring). rewrite E, norm_zero. exact H.
Qed.
Lemma norm_nonneg u : (0 <= norm u)%R.
Proof. unfold norm. apply sqrt_pos. Qed.
Lemma same_meant tol ga gb d old : same_orientation tol (make_orientation ga gb d) old = Ok true -> meant tol ga gb d old.
Proof.
  unfold same_orientation, make_orientation. cbn [oO oX oV].
  destruct (Z.eqb_spec ga (oO old)) as [E1|N1]; [|discriminate]. destruct (Z.eqb_spec gb (oX old)) as [E2|N2]; [|discriminate]. cbn [negb orb].
  intros H. split; [auto|]. split; [auto|]. destruct d as [g|x1 x2 x3]; destruct (oV old) as [g'|v']; try discriminate H.
  - injection H as H. apply Z.eqb_eq in H. auto.
  - injection H as H. unfold near_zero in H. destruct (Rle_dec _ _) as [L|L]; [|discriminate]. rewrite Rabs_right in L by (apply Rle_ge, norm_nonneg). exact L.
Qed.
Lemma find_orientation_some tol ds new : forall l p, find_orientation tol ds new l = Ok (Some p) ->
  exists n old, In (p, Automatic n) l /\ ds (Automatic n) = Some (Orient old) /\ same_orientation tol new old = Ok true.
Proof.
  induction l as [|[q [c|n]] l IH]; intros p H; cbn [find_orientation] in H; [discriminate| |].
  - destruct (IH p H) as (n & old & I & D). exists n, old. split; [now right|exact D].
  - destruct (ds (Automatic n)) as [[f|old]|] eqn:E.
    + destruct (IH p H) as (k & o & I & D). exists k, o. split; [now right|exact D].
    + destruct (same_orientation tol new old) as [[]| | |] eqn:S; try discriminate H; cbn [bind] in H.
      * injection H as <-. exists n, old. split; [now left|auto].
      * destruct (IH p H) as (k & o & I & D). exists k, o. split; [now right|exact D].
    + destruct (IH p H) as (k & o & I & D). exists k, o. split; [now right|exact D].
Qed.
Lemma find_orientation_ok tol ds new : forall l,
  (forall p n old, In (p, Automatic n) l -> ds (Automatic n) = Some (Orient old) -> exists b, same_orientation tol new old = Ok b) ->
  exists r, find_orientation tol ds new l = Ok r.
Proof.
  induction l as [|[q [c|n]] l IH]; intros H; cbn [find_orientation]; [eauto| |].
  - apply IH. intros p n old I. apply (H p n old). now right.
  - assert (G : exists r, find_orientation tol ds new l = Ok r) by (apply IH; intros p k old I; apply (H p k old); now right).
    destruct (ds (Automatic n)) as [[f|old]|] eqn:E; try exact G.
    destruct (H q n old (or_introl eq_refl) E) as [b ->]. cbn [bind]. destruct b; eauto.
Qed.
Lemma find_pos : forall (l : list (Z * csref)) p r, NoDup (map fst l) -> In (p, r) l -> find (fun e => fst e =? p) l = Some (p, r).
Proof.
  induction l as [|[q s] l IH]; intros p r N I; [destruct I|]. cbn [map fst] in N. inversion N as [|? ? Nq N']; subst. cbn [find fst].
  destruct I as [I|I]; [injection I as -> ->; now rewrite Z.eqb_refl|].
  destruct (Z.eqb_spec q p) as [E|D]; [|now apply IH]. subst q. elim Nq. change p with (fst (p, r)). now apply in_map.
Qed.
Lemma store_add l st r f c : wf_store l st -> (match r with Automatic n => n = next_pos st | Named _ => True end) ->
  (match r, f with
   | Named cid, User g => c = [SystemCard cid g]
   | Automatic _, Orient o => exists s gb d, c = [Element s] /\ sgb s = Some gb /\ saxes s = Towards d /\ o = make_orientation (sga s) gb d
   | _, _ => False end) ->
  wf_store (l ++ c) (cs_add st r f) /\ ext st (cs_add st r f) /\ In (next_pos st, r) (refs (cs_add st r f)).
Proof.
  intros [Hn Hr Hd Ha Hs] Hnew Hf. unfold cs_add. split; [|split].
  - split; cbn [next_pos refs defs].
    + lia.
    + apply Forall_app. split; [|constructor; [cbn [fst]; lia|constructor]]. eapply Forall_impl; [|exact Hr]. cbn beta. intros; lia.
    + rewrite map_app. cbn [map fst]. apply NoDup_app_snoc; [exact Hd|]. intros I. apply in_map_iff in I. destruct I as ([q s] & E & I). rewrite Forall_forall in Hr. specialize (Hr _ I). cbn [fst] in *. lia.
    + intros p n I. apply in_app_or in I. destruct I as [I|[I|[]]].
      * destruct (Ha _ _ I) as (-> & s & gb & d & Is & G & A & D). split; [reflexivity|]. exists s, gb, d. split; [rewrite elements_app; apply in_or_app; now left|]. split; [exact G|]. split; [exact A|].
        rewrite Forall_forall in Hr. specialize (Hr _ I). cbn [fst] in Hr. destruct r as [cid|m]; cbn [csref_eqb]; [exact D|]. destruct (Z.eqb_spec p m) as [E|_]; [lia|exact D].
      * injection I as E1 E2. subst p r. subst n. split; [reflexivity|]. destruct f as [g|o]; [destruct Hf|]. destruct Hf as (s & gb & d & -> & G & A & ->). exists s, gb, d.
        split; [rewrite elements_app; apply in_or_app; right; now left|]. split; [exact G|]. split; [exact A|]. cbn [csref_eqb]. now rewrite Z.eqb_refl.
    + intros cid. rewrite defined_app. destruct r as [c'|m]; destruct f as [g|o]; try contradiction Hf; cbn [csref_eqb].
      * subst c. cbn [defined]. rewrite (Z.eqb_sym cid c'). destruct (c' =? cid); [reflexivity|]. apply Hs.
      * destruct Hf as (s & gb & d & -> & _). cbn [defined]. apply Hs.
  - split; cbn [refs defs]; [intros e I; apply in_or_app; now left|]. intros p I. destruct r as [cid|m]; cbn [csref_eqb]; [reflexivity|].
    subst m. destruct (Z.eqb_spec p (next_pos st)) as [E|_]; [|reflexivity]. rewrite Forall_forall in Hr. specialize (Hr _ I). cbn [fst] in Hr. lia.
  - cbn [refs]. apply in_or_app. right. now left.
Qed.
Lemma store_more l st s : wf_store l st -> wf_store (l ++ [Element s]) st.
Proof.
  intros [Hn Hr Hd Ha Hs]. split; auto.
  - intros p n I. destruct (Ha _ _ I) as (-> & s' & gb & d & Is & R). split; [reflexivity|]. exists s', gb, d. split; [rewrite elements_app; apply in_or_app; now left|exact R].
  - intros cid. rewrite defined_app. cbn [defined]. apply Hs.
Qed.

(** What the position of an element refers to. *)
Definition axes_ok (tol : R) (st : storage system) (s : segment) (p : Z) : Prop :=
  match saxes s, sgb s with
  | NoAxes, _ => p = 0
  | InSystem cid, _ => (cid = 0 /\ p = 0) \/ (cid <> 0 /\ p <> 0 /\ In (p, Named cid) (refs st))
  | Towards d, None => p = 0
  | Towards d, Some gb => p <> 0 /\ In (p, Automatic p) (refs st) /\ exists o, defs st (Automatic p) = Some (Orient o) /\ meant tol (sga s) gb d o
  end.
Lemma axes_ext tol a b s p : ext a b -> axes_ok tol a s p -> axes_ok tol b s p.
Proof.
  intros [E1 E2]. unfold axes_ok. destruct (saxes s) as [|d|cid]; [auto| |].
  - destruct (sgb s) as [gb|]; [|auto]. intros (N & I & o & D & M). split; [exact N|]. split; [auto|]. exists o. split; [rewrite E2; auto|exact M].
  - intros [H|(N & P & I)]; [now left|right]. auto.
Qed.
Lemma place_ok tol l st s st' p : (0 <= tol)%R -> wf_store l st -> place_axes tol st s = Ok (st', p) ->
  wf_store (l ++ [Element s]) st' /\ ext st st' /\ axes_ok tol st' s p /\ (p <> 0 -> 1 <= p).
Proof.
  intros T W H. unfold place_axes in H. unfold axes_ok. destruct (saxes s) as [|d|cid] eqn:A.
  - injection H as <- <-. split; [now apply store_more|]. split; [apply ext_refl|]. split; [reflexivity|congruence].
  - destruct (sgb s) as [gb|] eqn:G.
    + unfold add_orientation in H. destruct (find_orientation _ _ _ _) as [[q|]| | |] eqn:F; try discriminate H; cbn [bind] in H; injection H as <- <-.
      * apply find_orientation_some in F. destruct F as (n & old & I & D & S). pose proof (ws_auto _ _ W _ _ I) as (-> & _). pose proof (ws_range _ _ W) as R. rewrite Forall_forall in R. specialize (R _ I). cbn [fst] in R.
        split; [now apply store_more|]. split; [apply ext_refl|]. split; [|lia]. split; [lia|]. split; [exact I|]. exists old. split; [exact D|now apply same_meant].
      * destruct (store_add l st (Automatic (next_pos st)) (Orient (make_orientation (sga s) gb d)) [Element s] W eq_refl) as (W' & E & I).
        { exists s, gb, d. auto. }
        pose proof (ws_next _ _ W). split; [exact W'|]. split; [exact E|]. split; [|lia]. split; [lia|]. split; [exact I|].
        exists (make_orientation (sga s) gb d). split; [cbn [cs_add defs csref_eqb]; now rewrite Z.eqb_refl|now apply meant_self].
    + injection H as <- <-. split; [now apply store_more|]. split; [apply ext_refl|]. split; [reflexivity|congruence].
  - unfold find_or_reserve in H. cbn [csref_eqb] in H. destruct (Z.eqb_spec cid 0) as [E|N].
    + injection H as <- <-. split; [now apply store_more|]. split; [apply ext_refl|]. split; [now left|congruence].
    + unfold find_position in H. cbn [csref_eqb] in H. destruct (Z.eqb_spec cid 0) as [E|_]; [congruence|].
      destruct (find _ (refs st)) as [[q r]|] eqn:F; cbn [option_map fst] in H.
      * injection H as <- <-. apply find_some in F. destruct F as [I B]. cbn [snd] in B. destruct r as [c|k]; cbn [csref_eqb] in B; [|discriminate]. apply Z.eqb_eq in B. subst c.
        pose proof (ws_range _ _ W) as R. rewrite Forall_forall in R. specialize (R _ I). cbn [fst] in R.
        split; [now apply store_more|]. split; [apply ext_refl|]. split; [|lia]. right. split; [exact N|]. split; [lia|exact I].
      * unfold reserve in H. cbn [csref_eqb] in H. destruct (Z.eqb_spec cid 0) as [E|_]; [congruence|]. injection H as <- <-.
        pose proof (store_more _ _ s W) as W2. destruct W2 as [Hn Hr Hd Ha Hs]. split; [split; cbn [next_pos refs defs]|].
        -- lia.
        -- apply Forall_app. split; [|constructor; [cbn [fst]; lia|constructor]]. eapply Forall_impl; [|exact Hr]. cbn beta. intros; lia.
        -- rewrite map_app. cbn [map fst]. apply NoDup_app_snoc; [exact Hd|]. intros I. apply in_map_iff in I. destruct I as ([q s'] & E & I). rewrite Forall_forall in Hr. specialize (Hr _ I). cbn [fst] in *. lia.
        -- intros p' n I. apply in_app_or in I. destruct I as [I|[I|[]]]; [now apply Ha|discriminate].
        -- exact Hs.
        -- split; [split; cbn [refs defs]; [intros e I; apply in_or_app; now left|reflexivity]|]. split; [|lia]. right. split; [exact N|]. split; [lia|]. cbn [refs]. apply in_or_app. right. now left.
Qed.

(** ** The groups *)
Record wf_groups (taken : list str) (cs : list ocell) (gs : list ogroup) : Prop := {
  wg_sorted : StronglySorted (fun a b => gpos a < gpos b) gs;
  wg_pos : Forall (fun g => gpos g <> 0) gs;
  wg_cells : Forall (fun g => gcells g = map cno (filter (fun c => cpos c =? gpos g) cs)) gs;
  wg_all : forall c, In c cs -> cpos c <> 0 -> In (cpos c) (map gpos gs);
  wg_names : Permutation (map gname gs) (map group_name (seq 1 (length gs)));
  wg_distinct : NoDup (map gname gs);
  wg_taken : Forall (fun g => ~ In (gname g) taken) gs;
  wg_used : Forall (fun g => exists c, In c cs /\ cpos c = gpos g) gs }.
Lemma insert_perm g : forall l, Permutation (insert_group g l) (g :: l).
Proof.
  induction l as [|h r IH]; cbn [insert_group]; [reflexivity|]. destruct (gpos g <? gpos h); [reflexivity|].
  etransitivity; [apply perm_skip, IH|apply perm_swap].
Qed.
Lemma insert_sorted g : forall l, StronglySorted (fun a b => gpos a < gpos b) l -> Forall (fun h => gpos h <> gpos g) l ->
  StronglySorted (fun a b => gpos a < gpos b) (insert_group g l).
Proof.
  induction l as [|h r IH]; intros S F; cbn [insert_group]; [repeat constructor|]. inversion S as [|? ? S' H]; subst. inversion F as [|? ? Fh Fr]; subst.
  destruct (Z.ltb_spec (gpos g) (gpos h)) as [L|L].
  - constructor; [exact S|]. constructor; [exact L|]. eapply Forall_impl; [|exact H]. cbn beta. intros; lia.
  - constructor; [apply IH; auto|]. apply (Permutation_Forall (Permutation_sym (insert_perm g r))). constructor; [lia|exact H].
Qed.
Lemma filter_snoc_none {A} (f : A -> bool) l x : f x = false -> filter f (l ++ [x]) = filter f l.
Proof. intros H. rewrite filter_app. cbn [filter]. rewrite H. apply app_nil_r. Qed.
Lemma existsb_pos l p : existsb (fun g => gpos g =? p) l = true <-> In p (map gpos l).
Proof.
  rewrite existsb_exists, in_map_iff. split.
  - intros (g & I & E). apply Z.eqb_eq in E. eauto.
  - intros (g & E & I). exists g. split; [exact I|now apply Z.eqb_eq].
Qed.
Lemma existsb_name n l : existsb (str_eqb n) l = true <-> In n l.
Proof.
  rewrite existsb_exists. split.
  - intros (x & I & E). destruct (str_eqb_spec n x); [subst; exact I|discriminate].
  - intros I. exists n. split; [exact I|]. destruct (str_eqb_spec n n); congruence.
Qed.
Lemma groups_skip taken cs gs c : wf_groups taken cs gs -> cpos c = 0 -> wf_groups taken (cs ++ [c]) gs.
Proof.
  intros [S P C A N D T U] E. split; auto.
  - rewrite Forall_forall in *. intros g I. rewrite filter_snoc_none; [now apply C|]. apply Z.eqb_neq. specialize (P _ I). lia.
  - intros c' I N'. apply in_app_or in I. destruct I as [I|[I|[]]]; [auto|subst c'; congruence].
  - eapply Forall_impl; [|exact U]. cbn beta. intros g (k & I & E'). exists k. split; [apply in_or_app; now left|exact E'].
Qed.
Lemma groups_join taken cs gs c gs' : wf_groups taken cs gs -> cpos c <> 0 -> join_group taken (cpos c) (cno c) gs = Ok gs' ->
  wf_groups taken (cs ++ [c]) gs' /\ (length gs' <= S (length gs))%nat.
Proof.
  intros [S P C A N D T U] H J. unfold join_group in J. destruct (existsb (fun g => gpos g =? cpos c) gs) eqn:X.
  - injection J as <-. apply existsb_pos in X. rewrite map_length. split; [|lia].
    set (f := fun g => if gpos g =? cpos c then mkGroup (gpos g) (gname g) (gcells g ++ [cno c]) else g).
    assert (Fp : forall g, gpos (f g) = gpos g) by (intros g; unfold f; destruct (gpos g =? cpos c); reflexivity).
    assert (Fn : forall g, gname (f g) = gname g) by (intros g; unfold f; destruct (gpos g =? cpos c); reflexivity).
    assert (Mp : map gpos (map f gs) = map gpos gs) by (rewrite map_map; now apply map_ext).
    assert (Mn : map gname (map f gs) = map gname gs) by (rewrite map_map; now apply map_ext).
    split.
    + clear - S Fp. induction S as [|g gs S IH F]; cbn [map]; constructor; [exact IH|]. rewrite Forall_forall in *. intros h I. apply in_map_iff in I. destruct I as (k & <- & I). rewrite !Fp. now apply F.
    + rewrite Forall_forall in *. intros g I. apply in_map_iff in I. destruct I as (k & <- & I). rewrite Fp. auto.
    + rewrite Forall_forall in *. intros g I. apply in_map_iff in I. destruct I as (k & <- & I). rewrite Fp, filter_app. cbn [filter]. rewrite (Z.eqb_sym (cpos c)).
      unfold f. destruct (gpos k =? cpos c); cbn [gcells]; rewrite map_app, (C _ I); cbn [map]; [reflexivity|now rewrite app_nil_r].
    + intros c' I N'. rewrite Mp. apply in_app_or in I. destruct I as [I|[I|[]]]; [auto|subst c'; exact X].
    + rewrite Mn, map_length. exact N.
    + rewrite Mn. exact D.
    + rewrite Forall_forall in *. intros g I. apply in_map_iff in I. destruct I as (k & <- & I). rewrite Fn. auto.
    + rewrite Forall_forall in *. intros g I. apply in_map_iff in I. destruct I as (k & <- & I). rewrite Fp. destruct (U _ I) as (k' & I' & E'). exists k'. split; [apply in_or_app; now left|exact E'].
  - assert (X' : ~ In (cpos c) (map gpos gs)) by (rewrite <- existsb_pos, X; discriminate). clear X.
    set (name := group_name (Datatypes.S (length gs))) in *. destruct (existsb (str_eqb name) (taken ++ map gname gs)) eqn:Y; [discriminate|]. injection J as <-.
    assert (Y' : ~ In name (taken ++ map gname gs)) by (rewrite <- existsb_name, Y; discriminate). clear Y.
    set (g0 := mkGroup (cpos c) name [cno c]). pose proof (insert_perm g0 gs) as Q. rewrite (Permutation_length Q). cbn [length]. split; [|lia].
    assert (None : filter (fun c' => cpos c' =? cpos c) cs = []).
    { destruct (filter _ cs) as [|c1 r] eqn:F; [reflexivity|]. exfalso. assert (I : In c1 (filter (fun c' => cpos c' =? cpos c) cs)) by (rewrite F; now left).
      apply filter_In in I. destruct I as [I E]. apply Z.eqb_eq in E. apply X'. rewrite <- E. apply A; [exact I|lia]. }
    split.
    + apply insert_sorted; [exact S|]. rewrite Forall_forall. intros h I E. apply X'. cbn [gpos g0] in E. rewrite <- E. now apply in_map.
    + apply (Permutation_Forall (Permutation_sym Q)). constructor; [exact H|exact P].
    + apply (Permutation_Forall (Permutation_sym Q)). constructor.
      * cbn [gcells gpos g0]. rewrite filter_app, None. cbn [filter app]. now rewrite Z.eqb_refl.
      * rewrite Forall_forall in *. intros g I. rewrite filter_snoc_none; [now apply C|]. apply Z.eqb_neq. intros E. apply X'. rewrite E. now apply in_map.
    + intros c' I N'. apply (Permutation_in _ (Permutation_map gpos (Permutation_sym Q))). cbn [map gpos g0]. apply in_app_or in I. destruct I as [I|[I|[]]]; [right; auto|subst c'; now left].
    + rewrite (Permutation_map gname Q), (Permutation_length Q). cbn [map gname g0 length]. rewrite seq_S, map_app. cbn [map plus].
      etransitivity; [apply perm_skip, N|]. apply Permutation_cons_append.
    + apply (Permutation_NoDup (Permutation_map gname (Permutation_sym Q))). cbn [map gname g0]. constructor; [|exact D]. intros I. apply Y', in_or_app. now right.
    + apply (Permutation_Forall (Permutation_sym Q)). constructor; [|exact T]. cbn [gname g0]. intros I. apply Y', in_or_app. now left.
    + apply (Permutation_Forall (Permutation_sym Q)). constructor; [exists c; split; [apply in_or_app; right; now left|reflexivity]|].
      eapply Forall_impl; [|exact U]. cbn beta. intros g (k & I & E'). exists k. split; [apply in_or_app; now left|exact E'].
Qed.

(** ** Whole decks *)
Definition cell_of (s : segment) (c : ocell) : Prop :=
  cno c = sid s /\ cprop c = spid s /\ cnodes c = sga s :: match sgb s with Some g => [g] | None => [] end.
Record state (tol : R) (taken : list str) (l : list ocard) (m : omesh) : Prop := {
  st_store : wf_store l (mcs m);
  st_cells : Forall2 (fun s c => cell_of s c /\ axes_ok tol (mcs m) s (cpos c)) (elements l) (mcells m);
  st_groups : wf_groups taken (mcells m) (mgroups m);
  st_count : (length (mgroups m) <= length (elements l))%nat }.
Lemma Forall2_impl' {A B} (P Q : A -> B -> Prop) l l' : (forall a b, P a b -> Q a b) -> Forall2 P l l' -> Forall2 Q l l'.
Proof. intros H F. induction F; constructor; auto. Qed.
Lemma state_step tol taken l m c m' : (0 <= tol)%R -> state tol taken l m -> read_ocard tol taken m c = Ok m' -> state tol taken (l ++ [c]) m'.
Proof.
  intros T [W F G N] H. destruct c as [s|cid f]; cbn [read_ocard] in H.
  - unfold read_element in H. destruct (place_axes tol (mcs m) s) as [[st p]| | |] eqn:E; try discriminate H. cbn [bind] in H.
    destruct (place_ok _ _ _ _ _ _ T W E) as (W' & X & A & P).
    set (c := mkCell (sid s) (sga s :: match sgb s with Some g => [g] | None => [] end) (spid s) p) in *.
    destruct (if p =? 0 then Ok (mgroups m) else join_group taken p (sid s) (mgroups m)) as [gs| | |] eqn:J; try discriminate H. cbn [bind] in H. injection H as <-.
    assert (Q : wf_groups taken (mcells m ++ [c]) gs /\ (length gs <= S (length (mgroups m)))%nat).
    { destruct (Z.eqb_spec p 0) as [E0|N0]; [injection J as <-; split; [now apply groups_skip|lia]|]. now apply groups_join. }
    destruct Q as [Q1 Q2]. split; cbn [mcs mcells mgroups]; [exact W'| |exact Q1|].
    + rewrite elements_app. cbn [elements flat_map app]. apply Forall2_app.
      * eapply Forall2_impl'; [|exact F]. cbn beta. intros s' c' [H1 H2]. split; [exact H1|]. eapply axes_ext; eauto.
      * constructor; [|constructor]. split; [repeat split|exact A].
    + rewrite elements_app, app_length. cbn [elements flat_map app length]. lia.
  - injection H as <-. destruct (store_add l (mcs m) (Named cid) (User f) [SystemCard cid f] W I eq_refl) as (W' & X & _).
    split; cbn [mcs mcells mgroups]; [exact W'| |exact G|]; rewrite elements_app; cbn [elements flat_map]; rewrite app_nil_r; [|exact N].
    eapply Forall2_impl'; [|exact F]. cbn beta. intros s' c' [H1 H2]. split; [exact H1|]. eapply axes_ext; eauto.
Qed.
Lemma state_new tol taken n : 1 <= n -> state tol taken [] (new_mesh n).
Proof.
  intros H. split; [|constructor| |reflexivity].
  - split; cbn; [exact H|constructor|constructor|intros p n' []|reflexivity].
  - split; cbn; try constructor. intros c [].
Qed.
Lemma deck_state tol taken n l m : (0 <= tol)%R -> 1 <= n -> read_deck tol taken n l = Ok m -> state tol taken l m.
Proof.
  intros T H. revert m. induction l as [|c l IH] using rev_ind; intros m R.
  - injection R as <-. now apply state_new.
  - unfold read_deck in R. rewrite foldM_app' in R. fold (read_deck tol taken n l) in R. destruct (read_deck tol taken n l) as [m0| | |]; try discriminate R.
    cbn [bind foldM] in R. destruct (read_ocard tol taken m0 c) as [m1| | |] eqn:E; try discriminate R. injection R as <-. eapply state_step; eauto.
Qed.
