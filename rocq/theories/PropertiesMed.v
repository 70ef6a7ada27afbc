(** Property C105: the MED file written beside the Aster command file. *)
From Coq Require Import Ascii String ZArith List Bool Arith Lia Sorted.
From Verif Require Import Base ZMap TextModel MeshNodeModel MeshNodeProofs MeshCellModel MeshCellProofs
  PropertiesMeshCells MedModel MedProofs.
Import ListNotations.
Open Scope Z_scope.

(** The members of a group, a std::set, all in range. *)
Definition members_in (dom : nat -> Prop) (gs : list (str * list nat)) : Prop :=
  forall g, In g gs -> NoDup (snd g) /\ forall p, In p (snd g) -> dom p.

(** Positions [p] and [q] are in the same groups. *)
Definition alike (gs : list (str * list nat)) (p q : nat) : Prop :=
  forall g, In g gs -> In p (snd g) <-> In q (snd g).

Lemma groups_with_in gs p n : In n (groups_with gs p) <-> exists l, In (n, l) gs /\ In p l.
Proof.
  unfold groups_with. rewrite in_map_iff. split.
  - intros ((n' & l) & <- & H). apply filter_In in H. destruct H as [H E]. apply existsb_in in E. eauto.
  - intros (l & H & E). exists (n, l). split; [reflexivity|]. apply filter_In. split; [exact H|now apply existsb_in].
Qed.

(** A family is called by the names of its groups, separated by underscores, as
    long as that is shorter than 80 characters. *)
Definition named (f : family) : Prop :=
  (length (join (fam_groups f)) < 80)%nat -> fam_name f = join (fam_groups f).

(** ** Families of the nodes *)

(** Every node gets family 0 when it is in no group; otherwise a family of its
    own set of groups, listed once each in order.  Two nodes share a family
    exactly when they are in the same groups; the families have distinct
    positive numbers and each is used by some node. *)
Theorem C105_nodes : forall n gs, (0 < n)%nat -> gs <> [] -> members_in (fun p => (p < n)%nat) gs ->
  exists fs s, node_families n gs = Ok (fs, s) /\ length s = n /\
    StronglySorted Z.lt (map fam_num fs) /\
    (forall f, In f fs -> 0 < fam_num f /\ (exists p, nth_error s p = Some (fam_num f)) /\ named f) /\
    (forall p, (p < n)%nat ->
       (groups_with gs p = [] /\ nth_error s p = Some 0) \/
       (groups_with gs p <> [] /\ exists f, In f fs /\ nth_error s p = Some (fam_num f) /\ fam_groups f = groups_with gs p)) /\
    (forall p q, (p < n)%nat -> (q < n)%nat -> (nth_error s p = nth_error s q <-> alike gs p q)).
Proof.
  intros n gs Hn Hgs Hm. unfold node_families.
  assert (Hl : (Nat.ltb 0 n && Nat.ltb 0 (length gs))%bool = true).
  { destruct (Nat.ltb_spec 0 n); [|lia]. destruct gs; [congruence|reflexivity]. }
  rewrite Hl. clear Hl.
  destruct (visit_groups_spec get_slot put_slot 1 (txt "Family") (or_introl eq_refl)
    (fun p => (p < n)%nat) (fun s => length s = n) (fun s p => nth p s 0)
    (fun s p => node_slots_get n s p) (fun s p v => node_slots_put n s p v)
    gs (repeat 0 n)) as (t & s & E & B).
  - apply repeat_length.
  - intros p _. apply nth_repeat.
  - exact Hm.
  - rewrite E. cbn [bind]. exists (in_use t s), s. split; [reflexivity|].
    destruct B as [K G Z0 Kn Gr Sa].
    assert (Hv : forall p, (p < n)%nat -> nth_error s p = Some (nth p s 0)).
    { intros p Hp. apply nth_error_nth'. now rewrite G. }
    assert (Hk : forall k, In k s -> k <> 0 -> exists f, zfind (known t) k = Some f /\ fam_num f = k).
    { intros k Hi Hz. apply (In_nth _ _ 0) in Hi. destruct Hi as (p & Hp & <-). rewrite G in Hp.
      destruct (Kn p Hp Hz) as (f & Ef). exists f. split; [exact Ef|]. now apply (to_num _ _ K) in Ef. }
    destruct (in_use_spec t s Hk) as [So Iu].
    split; [exact G|]. split; [exact So|]. split; [|split].
    + intros f Hf. apply Iu in Hf. destruct Hf as (Nz & Hs & Ef).
      pose proof (to_num _ _ K _ _ Ef) as (Bd & _ & _ & Nm). split; [lia|]. split; [now apply In_nth_error in Hs|exact Nm].
    + intros p Hp. destruct (Z.eq_dec (nth p s 0) 0) as [Hz|Hz].
      * left. split; [now apply Z0|]. now rewrite (Hv p Hp), Hz.
      * right. split; [intros X; apply Hz, Z0; auto|].
        destruct (Kn p Hp Hz) as (f & Ef). pose proof (to_num _ _ K _ _ Ef) as (_ & Nf & _).
        exists f. split; [apply Iu; rewrite Nf; split; [exact Hz|]; split; [apply nth_In; now rewrite G|exact Ef]|].
        split; [now rewrite (Hv p Hp), Nf|]. rewrite <- (Gr p Hp). unfold groups_of. now rewrite Ef.
    + intros p q Hp Hq. rewrite (Hv p Hp), (Hv q Hq). unfold alike. rewrite <- (Sa p q Hp Hq).
      split; congruence.
Qed.

(** ** Families of the cells *)

(** The family of the cell at a position, in the vector of its type. *)
Definition family_of_cell {D} (m : mesh D) (s : tmap Z) (p : nat) : option Z :=
  match findCell m p with Ok c => nth_error (s (c_type c)) (c_tpos c) | _ => None end.
Definition real_type (t : ctype) : Prop := match t with POLY n => (3 <= n <= 20)%nat | _ => True end.
Lemma real_types t : real_type t <-> In t all_types.
Proof.
  unfold all_types. rewrite in_app_iff, in_map_iff. split.
  - destruct t as [| | | | | | | | | | | | | | | | | | | | |n]; intros H; try (left; cbn; tauto). right. exists n. split; [reflexivity|]. apply in_seq. cbn in H. lia.
  - intros [H|(n & <- & H)]; [|apply in_seq in H; cbn; lia]. cbn [In] in H. repeat destruct H as [<- |H]; try exact I. contradiction.
Qed.
Definition is_cell {D} (m : mesh D) (p : nat) : Prop := exists c, findCell m p = Ok c /\ real_type (c_type c).

(** Groups of cells, without the cells that do not exist. *)
Definition existing (gs : list (str * list (option nat))) : list (str * list nat) :=
  map (fun g => (fst g, members (snd g))) gs.

(** The same for the cells, whose families have distinct negative numbers and
    are shared by the types. *)
Theorem C105_cells : forall D (R z : D) tr h m gs, mbuilt R z tr h m -> members_in (is_cell m) (existing gs) ->
  exists fs s, cell_families m gs = Ok (fs, s) /\ (forall t, length (s t) = countCellsOf m t) /\
    StronglySorted Z.lt (map fam_num fs) /\
    (forall f, In f fs -> fam_num f < 0 /\ (exists p, is_cell m p /\ family_of_cell m s p = Some (fam_num f)) /\ named f) /\
    (forall p, is_cell m p ->
       (groups_with (existing gs) p = [] /\ family_of_cell m s p = Some 0) \/
       (groups_with (existing gs) p <> [] /\
        exists f, In f fs /\ family_of_cell m s p = Some (fam_num f) /\ fam_groups f = groups_with (existing gs) p)) /\
    (forall p q, is_cell m p -> is_cell m q ->
       (family_of_cell m s p = family_of_cell m s q <-> alike (existing gs) p q)).
Proof.
  intros D R z tr h m gs B Hm. destruct (mbuilt_inv _ _ _ _ _ B) as [I _]. unfold cell_families.
  assert (Hc : forall p, is_cell m p -> a_cell m p).
  { intros p (c & Ec & _). unfold findCell in Ec. unfold a_cell. destruct (nth_error (cdatas m) p); [eauto|discriminate]. }
  destruct (visit_groups_spec (get_cell m) (put_cell m) (-1) (txt "CELLFamily") (or_intror eq_refl)
    (a_cell m) (sized m) (cell_view m)
    (fun s p => cell_slots_get m I s p) (fun s p v => cell_slots_put m I s p v)
    (existing gs) (fun t => repeat 0 (countCellsOf m t))) as (t & s & E & Bt).
  - intros t. apply repeat_length.
  - intros p (d & Hd). unfold cell_view. rewrite Hd. apply nth_repeat.
  - intros g Hg. destruct (Hm g Hg) as [N1 N2]. split; [exact N1|]. intros p Hp. apply Hc, N2, Hp.
  - fold (existing gs). rewrite E. cbn [bind]. exists (in_use t (flat_map s all_types)), s. split; [reflexivity|].
    destruct Bt as [K G Z0 Kn Gr Sa].
    assert (Hv : forall p, a_cell m p -> family_of_cell m s p = Some (cell_view m s p)).
    { intros p (d & Hd). unfold family_of_cell, cell_view. destruct (findCell_tpos m I p d Hd) as (c & -> & Ht & Hp & _).
      rewrite Hd, Ht, Hp. apply nth_error_nth'. rewrite (G (cd_type d)). now apply cell_rank with (p := p). }
    assert (Hs : forall k, In k (flat_map s all_types) <-> exists p, is_cell m p /\ cell_view m s p = k).
    { intros k. rewrite in_flat_map. split.
      - intros (ty & Ht & Hk). apply (In_nth _ _ 0) in Hk. destruct Hk as (i & Hi & <-). rewrite (G ty) in Hi.
        destruct (nth_error (byType m ty) i) as [p|] eqn:Ep; [|apply nth_error_None in Ep; unfold countCellsOf in Hi; lia].
        destruct (ci_type _ I _ _ _ Ep) as (d & Hd & Hdt & Hdp). exists p. split.
        + destruct (findCell_tpos m I p d Hd) as (c & Ec & Ec2 & _). exists c. split; [exact Ec|]. rewrite Ec2, Hdt. now apply real_types.
        + unfold cell_view. rewrite Hd, Hdt, Hdp. reflexivity.
      - intros (p & Hp & <-). pose proof (Hc p Hp) as (d & Hd). destruct Hp as (c & Ec & Ht).
        destruct (findCell_tpos m I p d Hd) as (c' & Ec' & Et & _). assert (c' = c) by congruence. subst c'.
        exists (cd_type d). split; [rewrite <- Et; now apply real_types|]. unfold cell_view. rewrite Hd. apply nth_In.
        rewrite (G (cd_type d)). now apply cell_rank with (p := p). }
    assert (Hk : forall k, In k (flat_map s all_types) -> k <> 0 -> exists f, zfind (known t) k = Some f /\ fam_num f = k).
    { intros k Hi Hz. apply Hs in Hi. destruct Hi as (p & Hp & <-).
      destruct (Kn p (Hc p Hp) Hz) as (f & Ef). exists f. split; [exact Ef|]. now apply (to_num _ _ K) in Ef. }
    destruct (in_use_spec t (flat_map s all_types) Hk) as [So Iu].
    split; [exact G|]. split; [exact So|]. split; [|split].
    + intros f Hf. apply Iu in Hf. destruct Hf as (Nz & Hi & Ef).
      pose proof (to_num _ _ K _ _ Ef) as (Bd & _ & _ & Nm). split; [lia|]. split; [|exact Nm].
      apply Hs in Hi. destruct Hi as (p & Hp & Ep). exists p. split; [exact Hp|]. now rewrite (Hv p (Hc p Hp)), Ep.
    + intros p Hp. pose proof (Hc p Hp) as Hp'. destruct (Z.eq_dec (cell_view m s p) 0) as [Hz|Hz].
      * left. split; [now apply Z0|]. now rewrite (Hv p Hp'), Hz.
      * right. split; [intros X; apply Hz, Z0; auto|].
        destruct (Kn p Hp' Hz) as (f & Ef). pose proof (to_num _ _ K _ _ Ef) as (_ & Nf & _).
        exists f. split; [apply Iu; rewrite Nf; split; [exact Hz|]; split; [apply Hs; eauto|exact Ef]|].
        split; [now rewrite (Hv p Hp'), Nf|]. rewrite <- (Gr p Hp'). unfold groups_of. now rewrite Ef.
    + intros p q Hp Hq. rewrite (Hv p (Hc p Hp)), (Hv q (Hc q Hq)). unfold alike.
      rewrite <- (Sa p q (Hc p Hp) (Hc q Hq)). split; congruence.
Qed.

(** ** The whole file, as read back *)

(** The groups of the family of a number. *)
Definition groups_of_number {D} (f : med (D := D)) (n : Z) : list str :=
  match find (fun x => fst (snd x) =? n) (med_families f) with Some x => snd (snd x) | None => [] end.

(** Node [p] (from 0) is in group [g] of the file. *)
Definition node_in {D} (f : med (D := D)) (g : str) (p : nat) : Prop :=
  exists l n, med_node_families f = Some l /\ nth_error l p = Some n /\ In g (groups_of_number f n).

(** Cell of rank [i] among those of type [t] is in group [g] of the file. *)
Definition cell_in {D} (f : med (D := D)) (g : str) (t : ctype) (i : nat) : Prop :=
  exists l n, In (t, l) (med_cell_families f) /\ nth_error l i = Some n /\ In g (groups_of_number f n).

(** The name of a group in the file: its first 80 characters. *)
Definition med_name (n : str) : str := firstn 80 n.

(** Coordinates of a node in the global axes. *)
Definition global {D} (place : Z -> option (D * D * D -> D * D * D)) (d : ndata D) (x : D * D * D) : Prop :=
  (nd_cp d = 0 /\ x = (nd_x d, nd_y d, nd_z d)) \/
  (nd_cp d <> 0 /\ exists f, place (nd_cp d) = Some f /\ x = f (nd_x d, nd_y d, nd_z d)).

Lemma find_num (l : list family) n : StronglySorted Z.lt (map fam_num l) ->
  forall f, In f l -> fam_num f = n -> find (fun x => fst (snd x) =? n) (map create_family l) = Some (create_family f).
Proof.
  induction l as [|a l IH]; intros So f Hf Hn; [destruct Hf|]. cbn [map] in So. inversion So as [|? ? So2 Fa]; subst.
  cbn [map find create_family fst snd]. destruct Hf as [<-|Hf]; [now rewrite Z.eqb_refl|].
  rewrite Forall_forall in Fa. specialize (Fa (fam_num f) (in_map _ _ _ Hf)).
  destruct (Z.eqb_spec (fam_num a) (fam_num f)); [lia|]. now apply IH.
Qed.

Lemma find_none (l : list family) n : (forall f, In f l -> fam_num f <> n) ->
  find (fun x => fst (snd x) =? n) (map create_family l) = None.
Proof.
  intros H. destruct (find _ _) eqn:E; [|reflexivity]. apply find_some in E. destruct E as [Hi E].
  apply in_map_iff in Hi. destruct Hi as (f & <- & Hf). cbn in E. apply Z.eqb_eq in E. now apply H in Hf.
Qed.

Lemma find_app' {A} (f : A -> bool) a b : find f (a ++ b) = match find f a with Some x => Some x | None => find f b end.
Proof. induction a as [|x a IH]; cbn; [reflexivity|]. destruct (f x); auto. Qed.

Lemma all_types_nodup : NoDup all_types.
Proof. repeat (constructor; [cbn; intuition discriminate|]). constructor. Qed.

Lemma concat_mapM {A B} (f : A -> outcome (list B)) l r : mapM f l = Ok r ->
  forall b, In b (concat r) <-> exists a x, In a l /\ f a = Ok x /\ In b x.
Proof.
  revert r. induction l as [|a l IH]; intros r E b; cbn in E.
  - injection E as <-. cbn. split; [tauto|]. intros (a & x & [] & _).
  - destruct (f a) as [x| | |] eqn:Ea; cbn in E; try discriminate.
    destruct (mapM f l) as [r'| | |] eqn:El; cbn in E; try discriminate. injection E as <-.
    cbn [concat]. rewrite in_app_iff, (IH r' eq_refl). split.
    + intros [H|(a' & x' & H1 & H2 & H3)]; [exists a, x|exists a', x']; cbn; auto.
    + intros (a' & x' & [<-|H1] & H2 & H3); [left; congruence|right; eauto].
Qed.

Lemma nth_flat_map {A B} (f : A -> list B) k l : (forall a, In a l -> length (f a) = k) ->
  forall i j a, nth_error l i = Some a -> (j < k)%nat -> nth_error (flat_map f l) (i * k + j) = nth_error (f a) j.
Proof.
  induction l as [|b l IH]; intros H i j a Ha Hj; [destruct i; discriminate|].
  cbn [flat_map]. pose proof (H b (or_introl eq_refl)) as Hb. destruct i as [|i].
  - injection Ha as <-. cbn [Nat.mul Nat.add]. apply nth_error_app1. lia.
  - rewrite nth_error_app2 by (cbn; lia).
    replace (S i * k + j - length (f b))%nat with (i * k + j)%nat by (cbn; lia).
    apply IH; auto. intros a' Ha'. apply H. now right.
Qed.

Lemma NoDup_both {A} (l r : list A) : NoDup l -> NoDup r -> (forall x, In x l -> In x r -> False) -> NoDup (l ++ r).
Proof.
  intros L R D. induction L as [|x l X L IH]; [exact R|]. cbn. constructor.
  - rewrite in_app_iff. intros [H|H]; [exact (X H)|exact (D x (or_introl eq_refl) H)].
  - apply IH. intros y Y. apply D. now right.
Qed.

(** Node coordinates are global, in order and numbered from 1; every cell is in
    the section of its type with its position plus one as number and its nodes
    by number in order, and the sections hold nothing else; the groups read
    back are those of the model, under names cut to 80 characters; and the
    families have distinct numbers. *)
Theorem C105_file : forall D (R z : D) place tr h m ngs cgs, mbuilt R z tr h m ->
  (forall d, In d (ndatas (mnodes m)) -> nd_cp d = 0 \/ exists f, place (nd_cp d) = Some f) ->
  members_in (fun p => (p < countNodes (mnodes m))%nat) ngs -> members_in (is_cell m) (existing cgs) ->
  exists f, writeMED place m ngs cgs = Ok f /\
    Forall2 (global place) (ndatas (mnodes m)) (med_coords f) /\
    (forall p, (p < countNodes (mnodes m))%nat -> nth_error (med_numbers f) p = Some (Z.of_nat p + 1)) /\
    (forall p c, findCell m p = Ok c -> real_type (c_type c) -> exists conn nums, In (c_type c, (conn, nums)) (med_cells f) /\
       length nums = countCellsOf m (c_type c) /\ length conn = (numNodes (c_type c) * countCellsOf m (c_type c))%nat /\
       nth_error nums (c_tpos c) = Some (Z.of_nat p + 1) /\
       forall j q, nth_error (c_nodePos c) j = Some q ->
         nth_error conn (c_tpos c * numNodes (c_type c) + j) = Some (Z.of_nat q + 1)) /\
    (forall t conn nums, In (t, (conn, nums)) (med_cells f) ->
       nums <> [] /\ nums = map (fun p => Z.of_nat p + 1) (byType m t)) /\
    NoDup (map fst (med_cells f)) /\
    (forall g p, node_in f g p <-> exists n l, In (n, l) ngs /\ In p l /\ med_name n = g) /\
    (forall g p c, findCell m p = Ok c -> real_type (c_type c) ->
       (cell_in f g (c_type c) (c_tpos c) <-> exists n l, In (n, l) cgs /\ In (Some p) l /\ med_name n = g)) /\
    NoDup (map (fun x => fst (snd x)) (med_families f)).
Proof.
  intros D R z place tr h m ngs cgs B Hpl Hn Hc. pose proof (mbuilt_inv _ _ _ _ _ B) as [I _].
  unfold writeMED.
  (* coordinates *)
  destruct (mapM_total (node_coords place) (ndatas (mnodes m))) as [xs Exs].
  { intros d Hd. unfold node_coords. destruct (Z.eqb_spec (nd_cp d) 0) as [E0|E0]; [eauto|].
    destruct (Hpl d Hd) as [?|(f & ->)]; [contradiction|eauto]. }
  assert (Gxs : Forall2 (global place) (ndatas (mnodes m)) xs).
  { clear - Exs. revert xs Exs. induction (ndatas (mnodes m)) as [|d l IH]; intros xs E; cbn in E.
    - injection E as <-. constructor.
    - destruct (node_coords place d) as [x| | |] eqn:Ed; cbn in E; try discriminate.
      destruct (mapM (node_coords place) l) as [r| | |]; cbn in E; try discriminate. injection E as <-.
      constructor; [|now apply IH]. unfold node_coords in Ed. unfold global.
      destruct (Z.eqb_spec (nd_cp d) 0) as [E0|E0]; [left; split; congruence|right; split; [exact E0|]].
      destruct (place (nd_cp d)) as [f|]; [|discriminate]. exists f. split; congruence. }
  rewrite Exs. cbn [bind].
  (* cells *)
  assert (Hcells : forall t, exists cs, mapM (findCell m) (byType m t) = Ok cs /\
    forall i p, nth_error (byType m t) i = Some p -> exists c, nth_error cs i = Some c /\ findCell m p = Ok c).
  { intros t. destruct (mapM_total (findCell m) (byType m t)) as [cs E].
    { intros p Hp. apply In_nth_error in Hp. destruct Hp as [i Hi]. destruct (ci_type _ I _ _ _ Hi) as (d & Hd & _).
      destruct (findCell_tpos m I p d Hd) as (c & Ec & _). eauto. }
    exists cs. split; [exact E|]. apply (mapM_nth _ _ _ E). }
  destruct (mapM_total (write_cells m) all_types) as [cells Ecells].
  { intros t _. unfold write_cells. destruct (_ || _); [eauto|]. destruct (Hcells t) as (cs & -> & _). cbn. eauto. }
  rewrite Ecells. cbn [bind].
  pose proof (concat_mapM _ _ _ Ecells) as Hin.
  (* families *)
  assert (NF : exists nf ns, (match ngs with [] => Ok ([], None) | _ => do (f, s) <- node_families (countNodes (mnodes m)) ngs; Ok (f, Some s) end) = Ok (nf, ns) /\
    StronglySorted Z.lt (map fam_num nf) /\ (forall f, In f nf -> 0 < fam_num f) /\
    forall p n, (exists l, ns = Some l /\ nth_error l p = Some n) ->
      (n = 0 /\ groups_with ngs p = []) \/ exists f, In f nf /\ fam_num f = n /\ fam_groups f = groups_with ngs p).
  { destruct (Nat.eq_dec (countNodes (mnodes m)) 0) as [H0|H0].
    { rewrite H0. destruct ngs as [|g ngs].
      - exists [], None. split; [reflexivity|]. split; [constructor|]. split; [intros f []|].
        intros p n (l & [=] & _).
      - exists [], (Some []). split; [reflexivity|]. split; [constructor|]. split; [intros f []|].
        intros p n (l & [= <-] & E). destruct p; discriminate. }
    destruct ngs as [|g ngs].
    - exists [], None. split; [reflexivity|]. split; [constructor|]. split; [intros f []|]. intros p n (l & [=] & _).
    - destruct (C105_nodes (countNodes (mnodes m)) (g :: ngs)) as (fs & s & E & L & So & Fp & Cl & _); [lia|discriminate|exact Hn|].
      exists fs, (Some s). rewrite E. split; [reflexivity|]. split; [exact So|]. split; [intros f Hf; now apply Fp|].
      intros p n (l & [= <-] & En).
      assert (Hp : (p < countNodes (mnodes m))%nat) by (rewrite <- L; apply nth_error_Some; congruence).
      destruct (Cl p Hp) as [(H1 & H2)|(_ & f & H1 & H2 & H3)].
      + left. split; [congruence|exact H1].
      + right. exists f. split; [exact H1|]. split; [congruence|exact H3]. }
  destruct NF as (nf & ns & Enf & Snf & Pnf & Gnf).
  assert (Lns : forall n l, In (n, l) ngs -> forall p, In p l -> exists v k, ns = Some v /\ nth_error v p = Some k).
  { intros n l Hg p Hp. destruct (Hn _ Hg) as [_ Hd]. specialize (Hd p Hp). destruct ngs as [|g ngs]; [destruct Hg|].
    destruct (C105_nodes (countNodes (mnodes m)) (g :: ngs)) as (fs & s & E & L & _); [lia|discriminate|exact Hn|].
    rewrite E in Enf. cbn [bind] in Enf. injection Enf as <- <-. exists s.
    destruct (nth_error s p) as [k|] eqn:Ek; [eauto|]. apply nth_error_None in Ek. lia. }
  rewrite Enf. cbn [bind].
  destruct (C105_cells D R z tr h m cgs B Hc) as (cf & s & Ecf & Ls & Scf & Pcf & Gcf & _).
  set (sections := match cgs with [] => [] | _ => map (fun t => (t, s t)) (filter (fun t => Nat.ltb 0 (countCellsOf m t)) all_types) end).
  set (cfs := match cgs with [] => [] | _ => cf end).
  assert (Ecs : (match cgs with [] => Ok ([], []) | _ => do (f, s) <- cell_families m cgs;
       Ok (f, map (fun t => (t, s t)) (filter (fun t => Nat.ltb 0 (countCellsOf m t)) all_types)) end) = Ok (cfs, sections)).
  { unfold cfs, sections. destruct cgs; [reflexivity|]. rewrite Ecf. reflexivity. }
  rewrite Ecs. cbn [bind]. eexists. split; [reflexivity|].
  cbn [med_coords med_numbers med_cells med_families med_node_families med_cell_families].
  set (file := mkMed _ _ _ _ _ _).
  assert (Scfs : StronglySorted Z.lt (map fam_num cfs)) by (unfold cfs; destruct cgs; [constructor|exact Scf]).
  assert (Pcfs : forall f, In f cfs -> fam_num f < 0).
  { unfold cfs. intros f Hf. destruct cgs; [destruct Hf|]. now apply Pcf. }
  assert (Gzero : groups_of_number file 0 = []) by reflexivity.
  assert (Gnode : forall f, In f nf -> groups_of_number file (fam_num f) = map med_name (fam_groups f)).
  { intros f Hf. unfold groups_of_number, file. cbn [med_families find fst snd].
    pose proof (Pnf f Hf). destruct (Z.eqb_spec 0 (fam_num f)); [lia|].
    rewrite find_app', (find_num nf (fam_num f) Snf f Hf eq_refl). reflexivity. }
  assert (Gcell : forall f, In f cfs -> groups_of_number file (fam_num f) = map med_name (fam_groups f)).
  { intros f Hf. unfold groups_of_number, file. cbn [med_families find fst snd].
    pose proof (Pcfs f Hf). destruct (Z.eqb_spec 0 (fam_num f)); [lia|].
    rewrite find_app', find_none, (find_num cfs (fam_num f) Scfs f Hf eq_refl); [reflexivity|].
    intros f' Hf'. apply Pnf in Hf'. lia. }
  split; [exact Gxs|]. split; [|split; [|split; [|split; [|split; [|split]]]]].
  - intros p Hp. rewrite nth_error_map, (nth_error_nth' _ 0%nat) by (now rewrite seq_length).
    rewrite seq_nth by exact Hp. reflexivity.
  - intros p c Ec Ht. apply real_types in Ht.
    assert (exists d, nth_error (cdatas m) p = Some d) as [d Hd].
    { unfold findCell in Ec. destruct (nth_error (cdatas m) p); [eauto|discriminate]. }
    destruct (findCell_tpos m I p d Hd) as (c' & Ec' & T1 & T2 & _). assert (c' = c) by congruence. subst c'.
    pose proof (cell_rank m I p d Hd) as Rk. pose proof (ci_data _ I _ _ Hd) as Dt. rewrite <- T1, <- T2 in *.
    destruct (Hcells (c_type c)) as (cs & Ecs' & Ncs).
    assert (Lc : forall a, In a cs -> length (c_nodePos a) = numNodes (c_type c)).
    { intros a Ha. apply In_nth_error in Ha. destruct Ha as [i Hi].
      destruct (nth_error (byType m (c_type c)) i) as [pi|] eqn:Epi.
      - destruct (ci_type _ I _ _ _ Epi) as (di & Hdi & Tdi & _).
        destruct (Ncs _ _ Epi) as (ci & Hci & Eci). assert (ci = a) by congruence. subst ci.
        destruct (findCell_ok m pi di I Hdi) as (a' & ps & Ea & _ & _ & _ & _ & _ & Ps & Sl & Mp & Ln & _).
        assert (a' = a) by congruence. subst a'. rewrite Ps. apply mapM_nth in Mp. destruct Mp as [Mp _]. rewrite <- Mp, Ln, Tdi. reflexivity.
      - apply mapM_nth in Ecs'. destruct Ecs' as [Lcs _]. apply nth_error_None in Epi.
        assert (nth_error cs i <> None) as X by congruence. apply nth_error_Some in X. lia. }
    assert (Hnn : numNodes (c_type c) <> 0%nat).
    { cbn in Ht. clear - Ht. intros H0. repeat (destruct Ht as [Ht|Ht]; [rewrite <- Ht in H0; discriminate|]). destruct Ht. }
    exists (map (fun p => Z.of_nat p + 1) (flat_map (fun c => c_nodePos c) cs)), (map (fun p => Z.of_nat p + 1) (byType m (c_type c))).
    split; [|split; [|split; [|split]]].
    + apply Hin. exists (c_type c). unfold write_cells.
      destruct (Nat.eqb_spec (numNodes (c_type c)) 0); [contradiction|].
      destruct (Nat.eqb_spec (length (byType m (c_type c))) 0) as [X|X]; [unfold countCellsOf in Rk; lia|].
      cbn [orb]. rewrite Ecs'. cbn [bind]. eexists. split; [exact Ht|]. split; [reflexivity|]. now left.
    + now rewrite map_length.
    + rewrite map_length. apply mapM_nth in Ecs'. destruct Ecs' as [Lcs _]. unfold countCellsOf. rewrite <- Lcs.
      clear - Lc. induction cs as [|a cs IH]; cbn [flat_map length]; [lia|]. rewrite app_length, IH, (Lc a); [lia|now left|].
      intros b Hb. apply Lc. now right.
    + now rewrite nth_error_map, Dt.
    + intros j q Hj. destruct (Ncs _ _ Dt) as (c' & Hc' & Ec''). assert (c' = c) by congruence. subst c'.
      assert (Hjn : (j < numNodes (c_type c))%nat).
      { rewrite <- (Lc c) by (eapply nth_error_In; exact Hc'). apply nth_error_Some. congruence. }
      rewrite nth_error_map. pose proof (nth_flat_map (fun c => c_nodePos c) _ cs Lc _ _ _ Hc' Hjn) as X.
      cbv beta in X. rewrite X, Hj. reflexivity.
  - intros t conn nums H. apply Hin in H. destruct H as (t' & x & Ht' & Ex & Hx). unfold write_cells in Ex.
    destruct (Nat.eqb_spec (numNodes t') 0); [injection Ex as <-; destruct Hx|].
    destruct (Nat.eqb_spec (length (byType m t')) 0) as [X|X]; [injection Ex as <-; destruct Hx|].
    cbn [orb] in Ex. destruct (mapM (findCell m) (byType m t')); cbn [bind] in Ex; try discriminate.
    injection Ex as <-. destruct Hx as [[= -> _ <-]|[]]. split; [|reflexivity]. destruct (byType m t); [now cbn in X|discriminate].
  - clear - Ecells. revert cells Ecells. pose proof all_types_nodup as N. induction all_types as [|t l IH]; intros cells E; cbn in E.
    + injection E as <-. constructor.
    + inversion N as [|? ? N1 N2]; subst.
      destruct (write_cells m t) as [x| | |] eqn:Ex; cbn [bind] in E; try discriminate.
      destruct (mapM (write_cells m) l) as [r| | |] eqn:Er; cbn [bind] in E; try discriminate. injection E as <-.
      cbn [concat]. rewrite map_app. specialize (IH N2 r eq_refl).
      assert (Hr : forall t', In t' (map fst (concat r)) -> In t' l).
      { intros t' H. apply in_map_iff in H. destruct H as ((t0 & y) & <- & H). apply (concat_mapM _ _ _ Er) in H.
        destruct H as (a & x0 & Ha & Ea & Hx). unfold write_cells in Ea. destruct (_ || _); [injection Ea as <-; destruct Hx|].
        destruct (mapM (findCell m) (byType m a)); cbn [bind] in Ea; try discriminate. injection Ea as <-.
        destruct Hx as [[= <- _]|[]]. exact Ha. }
      unfold write_cells in Ex. destruct (_ || _); [injection Ex as <-; exact IH|].
      destruct (mapM (findCell m) (byType m t)); cbn [bind] in Ex; try discriminate. injection Ex as <-.
      cbn [map app fst]. constructor; [|exact IH]. intros H. apply N1, Hr, H.
  - intros g p. unfold node_in. split.
    + intros (l & n & El & En & Hg). cbn [med_node_families file] in El.
      destruct (Gnf p n) as [(-> & _)|(f & F1 & <- & F3)]; [eauto|now rewrite Gzero in Hg|].
      rewrite (Gnode f F1), F3 in Hg. apply in_map_iff in Hg. destruct Hg as (nm & <- & Hg).
      apply groups_with_in in Hg. destruct Hg as (l' & H1 & H2). eauto.
    + intros (n & l & Hg & Hp & <-). destruct (Lns n l Hg p Hp) as (v & k & Ev & Ek).
      exists v, k. split; [exact Ev|]. split; [exact Ek|].
      assert (Hw : In n (groups_with ngs p)) by (apply groups_with_in; eauto).
      destruct (Gnf p k) as [(-> & F0)|(f & F1 & <- & F3)]; [eauto|now rewrite F0 in Hw|].
      rewrite (Gnode f F1), F3. now apply in_map.
  - intros g p c Ec Ht. assert (Hcp : is_cell m p) by (exists c; auto).
    assert (Hex : forall n l, In (n, l) (existing cgs) /\ In p l <-> exists lo, l = members lo /\ In (n, lo) cgs /\ In (Some p) lo).
    { intros n l. unfold existing. rewrite in_map_iff. split.
      - intros (((n' & lo) & [= <- <-] & Hg) & Hp). exists lo. split; [reflexivity|]. split; [exact Hg|].
        cbn in Hp. unfold members in Hp. apply in_flat_map in Hp. destruct Hp as ([q|] & Hq & Hi); [destruct Hi as [<-|[]]; exact Hq|destruct Hi].
      - intros (lo & -> & Hg & Hp). split; [exists (n, lo); auto|]. unfold members. apply in_flat_map. exists (Some p). cbn; auto. }
    unfold cell_in. split.
    + intros (l & n & El & En & Hg). cbn [med_cell_families file] in El. unfold sections in El.
      assert (l = s (c_type c)).
      { destruct cgs; [destruct El|]. apply in_map_iff in El. destruct El as (t & [= -> <-] & _). reflexivity. }
      subst l.
      assert (Ef : family_of_cell m s p = Some n) by (unfold family_of_cell; now rewrite Ec).
      destruct (Gcf p Hcp) as [(F0 & F1)|(_ & f & F1 & F2 & F3)].
      * assert (n = 0) by congruence. subst n. now rewrite Gzero in Hg.
      * assert (n = fam_num f) by congruence. subst n.
        assert (F1' : In f cfs). { unfold cfs. destruct cgs; [destruct El|exact F1]. }
        rewrite (Gcell f F1'), F3 in Hg. apply in_map_iff in Hg. destruct Hg as (nm & <- & Hg).
        apply groups_with_in in Hg. destruct Hg as (l' & H1 & H2). destruct (proj1 (Hex _ _) (conj H1 H2)) as (lo & _ & H3 & H4). eauto.
    + intros (n & lo & Hg & Hp & <-).
      assert (Hw : In n (groups_with (existing cgs) p)).
      { apply groups_with_in. exists (members lo). apply Hex. eauto. }
      destruct (Gcf p Hcp) as [(F0 & F1)|(_ & f & F1 & F2 & F3)]; [rewrite F0 in Hw; destruct Hw|].
      exists (s (c_type c)), (fam_num f). unfold family_of_cell in F2. rewrite Ec in F2.
      split; [|split; [exact F2|]].
      * cbn [med_cell_families file]. unfold sections. destruct cgs as [|cg cgs]; [destruct Hg|].
        apply in_map_iff. exists (c_type c). split; [reflexivity|]. apply filter_In. split; [now apply real_types|].
        destruct (Nat.ltb_spec 0 (countCellsOf m (c_type c))) as [|X]; [reflexivity|].
        rewrite <- Ls in X. assert (nth_error (s (c_type c)) (c_tpos c) <> None) as Y by congruence.
        apply nth_error_Some in Y. lia.
      * assert (F1' : In f cfs). { unfold cfs. destruct cgs; [destruct Hg|exact F1]. }
        rewrite (Gcell f F1'), F3. now apply in_map.
  - cbn [map fst snd]. rewrite map_app, !map_map. cbn [create_family fst snd].
    assert (Nd : forall l : list family, StronglySorted Z.lt (map fam_num l) -> NoDup (map (fun x => fam_num x) l)).
    { clear. intros l H. induction l as [|a l IH]; [constructor|]. cbn [map] in *. inversion H as [|? ? H1 H2]; subst.
      constructor; [|now apply IH]. intros Hi. rewrite Forall_forall in H2. apply H2 in Hi. lia. }
    constructor.
    + intros Hi. apply in_app_or in Hi. destruct Hi as [Hi|Hi]; apply in_map_iff in Hi; destruct Hi as (f & E0 & Hf).
      * apply Pnf in Hf. lia.
      * apply Pcfs in Hf. lia.
    + apply NoDup_both; [now apply Nd|now apply Nd|]. intros x H1 H2.
      apply in_map_iff in H1. destruct H1 as (f1 & <- & H1). apply in_map_iff in H2. destruct H2 as (f2 & E0 & H2).
      apply Pnf in H1. apply Pcfs in H2. lia.
Qed.

(** ** Names of the families *)

Definition plain (n : str) : Prop := ~ In "_"%char n.

Lemma join_plain_inj l : forall r, l <> [] -> r <> [] -> Forall plain l -> Forall plain r -> join l = join r -> l = r.
Proof.
  assert (Cut : forall a b x y, plain a -> plain b -> a ++ "_"%char :: x = b ++ "_"%char :: y -> a = b /\ x = y).
  { induction a as [|c a IH]; intros [|d b] x y Pa Pb E; cbn in E.
    - injection E as E. auto.
    - injection E as E1 E2. subst d. exfalso. apply Pb. now left.
    - injection E as E1 E2. subst c. exfalso. apply Pa. now left.
    - injection E as -> E. destruct (IH b x y) as [-> ->]; auto; intros H; [apply Pa|apply Pb]; now right. }
  assert (No : forall a b x, plain a -> a = b ++ "_"%char :: x -> False).
  { intros a b x P ->. apply P, in_or_app. right. now left. }
  induction l as [|a l IH]; intros [|b r] Hl Hr Pl Pr E; try congruence.
  inversion Pl as [|? ? Pa Pl']; inversion Pr as [|? ? Pb Pr']; subst.
  destruct l as [|a' l], r as [|b' r].
  - cbn in E. now subst.
  - exfalso. exact (No a b _ Pa E).
  - exfalso. symmetry in E. exact (No b a _ Pb E).
  - change (a ++ "_"%char :: join (a' :: l) = b ++ "_"%char :: join (b' :: r)) in E.
    destruct (Cut _ _ _ _ Pa Pb E) as [-> E']. f_equal. apply IH; auto; discriminate.
Qed.

Lemma groups_with_alike gs p q : NoDup (map fst gs) -> groups_with gs p = groups_with gs q -> alike gs p q.
Proof.
  intros N E g Hg.
  assert (U : forall l l' n, In (n, l) gs -> In (n, l') gs -> l = l').
  { clear - N. induction gs as [|(a & b) gs IH]; intros l l' n H H'; [destruct H|].
    cbn [map fst] in N. inversion N as [|? ? N1 N2]; subst.
    destruct H as [[= -> ->]|H], H' as [[= H1]|H']; try congruence.
    - exfalso. apply N1. now apply (in_map fst) in H'.
    - subst. exfalso. apply N1. now apply (in_map fst) in H.
    - now apply (IH N2 l l' n). }
  assert (H : forall x, In (fst g) (groups_with gs x) <-> In x (snd g)).
  { intros x. rewrite groups_with_in. destruct g as (n & l). cbn [fst snd]. split; [|eauto].
    intros (l' & H1 & H2). now rewrite (U l l' n). }
  now rewrite <- !H, E.
Qed.

Lemma distinct_names fs : StronglySorted Z.lt (map fam_num fs) ->
  (forall f, In f fs -> named f /\ fam_groups f <> [] /\ Forall plain (fam_groups f) /\ (length (join (fam_groups f)) < 80)%nat) ->
  (forall f f', In f fs -> In f' fs -> fam_groups f = fam_groups f' -> fam_num f = fam_num f') -> NoDup (map fam_name fs).
Proof.
  induction fs as [|f fs IH]; intros So H U; [constructor|]. cbn [map] in *. inversion So as [|? ? So' Fa]; subst.
  constructor; [|apply IH; auto; intros; [apply H|apply U]; cbn; auto]. intros Hi. apply in_map_iff in Hi. destruct Hi as (f' & E & Hf').
  destruct (H f (or_introl eq_refl)) as (N1 & G1 & P1 & L1). destruct (H f' (or_intror Hf')) as (N2 & G2 & P2 & L2).
  rewrite (N1 L1), (N2 L2) in E. apply join_plain_inj in E; auto.
  assert (X : fam_num f = fam_num f') by (apply U; [now left|now right|congruence]).
  rewrite Forall_forall in Fa. specialize (Fa _ (in_map fam_num _ _ Hf')). lia.
Qed.

(** When the groups have distinct names without underscore and the names of the
    groups of any node or cell, joined, are shorter than 80 characters, the
    families of the nodes have distinct names, and those of the cells too.
    What is missing: the other names (see the refutations below). *)
Theorem C105_names_partial :
  (forall n gs fs s, (0 < n)%nat -> gs <> [] -> members_in (fun p => (p < n)%nat) gs ->
     NoDup (map fst gs) -> Forall plain (map fst gs) ->
     (forall p, (p < n)%nat -> (length (join (groups_with gs p)) < 80)%nat) ->
     node_families n gs = Ok (fs, s) -> NoDup (map fam_name fs)) /\
  (forall D (R z : D) tr h m gs fs s, mbuilt R z tr h m -> members_in (is_cell m) (existing gs) ->
     NoDup (map fst gs) -> Forall plain (map fst gs) ->
     (forall p, is_cell m p -> (length (join (groups_with (existing gs) p)) < 80)%nat) ->
     cell_families m gs = Ok (fs, s) -> NoDup (map fam_name fs)).
Proof.
  assert (Pl : forall gs p, Forall plain (map fst gs) -> Forall plain (groups_with gs p)).
  { intros gs p H. rewrite Forall_forall in *. intros x Hx. apply groups_with_in in Hx. destruct Hx as (l & H1 & _).
    apply H. now apply (in_map fst) in H1. }
  split.
  - intros n gs fs s Hn Hg Hm Nd P L E.
    destruct (C105_nodes n gs Hn Hg Hm) as (fs' & s' & E' & Ls & So & Fs & Cl & Al).
    rewrite E in E'. injection E' as <- <-.
    assert (Use : forall f, In f fs -> exists p, (p < n)%nat /\ nth_error s p = Some (fam_num f) /\
       fam_groups f = groups_with gs p /\ groups_with gs p <> []).
    { intros f Hf. destruct (Fs f Hf) as (Pos & (p & Ep) & _). exists p.
      assert (Hp : (p < n)%nat) by (rewrite <- Ls; apply nth_error_Some; congruence).
      split; [exact Hp|]. split; [exact Ep|]. destruct (Cl p Hp) as [(_ & X)|(Ne & f' & F1 & F2 & F3)].
      - rewrite X in Ep. injection Ep as Ep. lia.
      - split; [|exact Ne]. rewrite <- F3. f_equal.
        assert (Nf : fam_num f = fam_num f') by congruence. clear - So Hf F1 Nf.
        induction fs as [|a fs IH]; [destruct Hf|]. cbn [map] in So. inversion So as [|? ? S1 S2]; subst. rewrite Forall_forall in S2.
        destruct Hf as [<-|Hf], F1 as [<-|F1]; auto.
        + specialize (S2 _ (in_map fam_num _ _ F1)). lia.
        + specialize (S2 _ (in_map fam_num _ _ Hf)). lia. }
    apply distinct_names; [exact So| |].
    + intros f Hf. destruct (Use f Hf) as (p & Hp & _ & Eg & Ne). rewrite Eg.
      split; [now apply Fs|]. split; [exact Ne|]. split; [now apply Pl|now apply L].
    + intros f f' Hf Hf' Eg. destruct (Use f Hf) as (p & Hp & Ep & Eg1 & _). destruct (Use f' Hf') as (q & Hq & Eq & Eg2 & _).
      assert (X : nth_error s p = nth_error s q) by (apply Al; auto; apply groups_with_alike; [exact Nd|congruence]). congruence.
  - intros D R z tr h m gs fs s B Hm Nd P L E.
    destruct (C105_cells D R z tr h m gs B Hm) as (fs' & s' & E' & Ls & So & Fs & Cl & Al).
    rewrite E in E'. injection E' as <- <-.
    assert (Nd' : NoDup (map fst (existing gs))) by (unfold existing; rewrite map_map; exact Nd).
    assert (P' : Forall plain (map fst (existing gs))) by (unfold existing; rewrite map_map; exact P).
    assert (Use : forall f, In f fs -> exists p, is_cell m p /\ family_of_cell m s p = Some (fam_num f) /\
       fam_groups f = groups_with (existing gs) p /\ groups_with (existing gs) p <> []).
    { intros f Hf. destruct (Fs f Hf) as (Neg & (p & Hp & Ep) & _). exists p.
      split; [exact Hp|]. split; [exact Ep|]. destruct (Cl p Hp) as [(_ & X)|(Ne & f' & F1 & F2 & F3)].
      - rewrite X in Ep. injection Ep as Ep. lia.
      - split; [|exact Ne]. rewrite <- F3. f_equal.
        assert (Nf : fam_num f = fam_num f') by congruence. clear - So Hf F1 Nf.
        induction fs as [|a fs IH]; [destruct Hf|]. cbn [map] in So. inversion So as [|? ? S1 S2]; subst. rewrite Forall_forall in S2.
        destruct Hf as [<-|Hf], F1 as [<-|F1]; auto.
        + specialize (S2 _ (in_map fam_num _ _ F1)). lia.
        + specialize (S2 _ (in_map fam_num _ _ Hf)). lia. }
    apply distinct_names; [exact So| |].
    + intros f Hf. destruct (Use f Hf) as (p & Hp & _ & Eg & Ne). rewrite Eg.
      split; [now apply Fs|]. split; [exact Ne|]. split; [now apply Pl|now apply L].
    + intros f f' Hf Hf' Eg. destruct (Use f Hf) as (p & Hp & Ep & Eg1 & _). destruct (Use f' Hf') as (q & Hq & Eq & Eg2 & _).
      assert (X : family_of_cell m s p = family_of_cell m s q) by (apply Al; auto; apply groups_with_alike; [exact Nd'|congruence]). congruence.
Qed.

(** ** Examples and refutations *)

(** Four nodes in overlapping groups. *)
Definition C105_groups : list (str * list nat) :=
  [(txt "BASE", [0%nat; 1%nat; 2%nat]); (txt "LEFT", [1%nat; 3%nat]); (txt "LOAD", [1%nat; 2%nat; 3%nat])].
Example C105_nodes_case : members_in (fun p => (p < 5)%nat) C105_groups /\ NoDup (map fst C105_groups) /\
  Forall plain (map fst C105_groups) /\
  (forall p, (p < 5)%nat -> (length (join (groups_with C105_groups p)) < 80)%nat) /\
  node_families 5 C105_groups =
    Ok ([mkFam [txt "BASE"] (txt "BASE") 1;
         mkFam [txt "BASE"; txt "LEFT"; txt "LOAD"] (txt "BASE_LEFT_LOAD") 4;
         mkFam [txt "BASE"; txt "LOAD"] (txt "BASE_LOAD") 5;
         mkFam [txt "LEFT"; txt "LOAD"] (txt "LEFT_LOAD") 6], [1; 4; 5; 6; 0]).
Proof.
  split.
  { intros g Hg. cbn in Hg. destruct Hg as [<-|[<-|[<-|[]]]]; cbn [snd]; (split;
      [repeat (constructor; [cbn; intuition discriminate|]); constructor|cbn; intuition lia]). }
  split; [cbn; repeat (constructor; [cbn; intuition discriminate|]); constructor|].
  split; [cbn; repeat (constructor; [unfold plain; cbn; intuition discriminate|]); constructor|].
  split; [|vm_compute; reflexivity].
  intros p Hp. do 5 (destruct p as [|p]; [vm_compute; lia|]). lia.
Qed.

(** A mesh of two segments and a triangle, one node in a local system. *)
Definition C105_h : list (mop Z) :=
  [MNode (Define 10 0 0 0 0 0); MNode (Define 20 5 0 0 0 0); MNode (Define 30 5 7 0 4 0);
   MCell 1 SEG2 [10; 20] false 0 100 0; MCell 2 TRI3 [30; 10; 20] false 0 200 0; MCell 3 SEG2 [20; 30] false 0 100 0].
Definition C105_place (p : Z) : option (Z * Z * Z -> Z * Z * Z) :=
  if p =? 4 then Some (fun x => let '(a, b, c) := x in (- b, a, c)) else None.
Definition C105_cgs : list (str * list (option nat)) :=
  [(txt "ALL", [Some 0%nat; Some 1%nat; Some 2%nat]); (txt "PLATE", [Some 1%nat; None])].
Example C105_file_case : exists m, mbuilt (-1) 0 false C105_h m /\
  (forall d, In d (ndatas (mnodes m)) -> nd_cp d = 0 \/ exists f, C105_place (nd_cp d) = Some f) /\
  members_in (fun p => (p < countNodes (mnodes m))%nat) [(txt "TIP", [2%nat])] /\
  members_in (is_cell m) (existing C105_cgs) /\
  writeMED C105_place m [(txt "TIP", [2%nat])] C105_cgs =
    Ok (mkMed [(0, 0, 0); (5, 0, 0); (-7, 5, 0)] [1; 2; 3]
         [(SEG2, ([1; 2; 2; 3], [1; 3])); (TRI3, ([3; 1; 2], [2]))]
         [([], (0, [])); (txt "TIP", (1, [txt "TIP"])); (txt "ALL_PLATE", (-2, [txt "ALL"; txt "PLATE"]));
          (txt "ALL", (-1, [txt "ALL"]))]
         (Some [0; 0; 1]) [(SEG2, [-1; -1]); (TRI3, [-2])]).
Proof.
  destruct (mrun (-1) 0 (empty_mesh 9999999 0 9999999 false) C105_h) as [m| | |] eqn:E; [|vm_compute in E; discriminate..].
  exists m. split; [split; [intros o Ho; cbn in Ho;
    repeat (destruct Ho as [<-|Ho]; [good_tac|]); destruct Ho|exists 9999999, 0, 9999999; exact E]|].
  vm_compute in E. injection E as <-.
  split.
  { intros d Hd. cbn in Hd. destruct Hd as [<-|[<-|[<-|[]]]]; [left; reflexivity..|right; eexists; reflexivity]. }
  split.
  { intros g [<-|[]]. split; [repeat (constructor; [cbn; tauto|]); constructor|cbn; intuition lia]. }
  split.
  { intros g Hg. cbn in Hg. destruct Hg as [<-|[<-|[]]]; cbn [snd]; (split;
      [repeat (constructor; [cbn; intuition discriminate|]); constructor|]);
    intros p Hp; cbn in Hp; repeat (destruct Hp as [<-|Hp]; [eexists; split; [vm_compute; reflexivity|vm_compute; tauto]|]); destruct Hp. }
  vm_compute. reflexivity.
Qed.

(** Two families of the same name are handed to the library: nodes in groups A
    and B_C on the one hand, A_B and C on the other. *)
Theorem C105_names_refuted : exists gs fs s f f', members_in (fun p => (p < 2)%nat) gs /\ NoDup (map fst gs) /\
  node_families 2 gs = Ok (fs, s) /\ In f fs /\ In f' fs /\ fam_num f <> fam_num f' /\ fam_name f = fam_name f'.
Proof.
  exists [(txt "A", [0%nat]); (txt "A_B", [1%nat]); (txt "B_C", [0%nat]); (txt "C", [1%nat])].
  do 4 eexists. split; [|split; [|split; [vm_compute; reflexivity|split; [left; reflexivity|split; [right; left; reflexivity|split; [discriminate|reflexivity]]]]]].
  - intros g Hg. cbn in Hg. destruct Hg as [<-|[<-|[<-|[<-|[]]]]]; cbn [snd]; (split;
      [repeat (constructor; [cbn; intuition discriminate|]); constructor|cbn; intuition lia]).
  - cbn; repeat (constructor; [cbn; intuition discriminate|]); constructor.
Qed.

(** Groups whose names agree on 80 characters become one group of the file. *)
Theorem C105_long_names_refuted : exists m n n' f, mbuilt (D := Z) (-1) 0 false C105_h m /\ n <> n' /\
  writeMED C105_place m [(n, [0%nat]); (n', [1%nat])] [] = Ok f /\
  med_name n = med_name n' /\ node_in f (med_name n) 0 /\ node_in f (med_name n) 1.
Proof.
  destruct (mrun (-1) 0 (empty_mesh 9999999 0 9999999 false) C105_h) as [m| | |] eqn:E; [|vm_compute in E; discriminate..].
  exists m, (repeat "X"%char 80 ++ txt "1"), (repeat "X"%char 80 ++ txt "2"). eexists.
  split; [split; [intros o Ho; cbn in Ho;
    repeat (destruct Ho as [<-|Ho]; [good_tac|]); destruct Ho|exists 9999999, 0, 9999999; exact E]|].
  split; [vm_compute; discriminate|].
  vm_compute in E. injection E as <-.
  split; [vm_compute; reflexivity|]. split; [vm_compute; reflexivity|].
  split; (do 2 eexists; split; [reflexivity|]; split; [reflexivity|]; vm_compute; left; reflexivity).
Qed.

(** A group without member is not in the file. *)
Theorem C105_empty_refuted : exists m n f, mbuilt (D := Z) (-1) 0 false C105_h m /\
  writeMED C105_place m [(n, [])] [] = Ok f /\ ~ exists x, In x (med_families f) /\ In (med_name n) (snd (snd x)).
Proof.
  destruct (mrun (-1) 0 (empty_mesh 9999999 0 9999999 false) C105_h) as [m| | |] eqn:E; [|vm_compute in E; discriminate..].
  exists m, (txt "FIXED"). eexists.
  split; [split; [intros o Ho; cbn in Ho;
    repeat (destruct Ho as [<-|Ho]; [good_tac|]); destruct Ho|exists 9999999, 0, 9999999; exact E]|].
  vm_compute in E. injection E as <-.
  split; [vm_compute; reflexivity|]. intros (x & [<-|[]] & []).
Qed.

Print Assumptions C105_nodes.
Print Assumptions C105_cells.
Print Assumptions C105_file.
Print Assumptions C105_names_partial.
Print Assumptions C105_names_refuted.
Print Assumptions C105_long_names_refuted.
Print Assumptions C105_empty_refuted.
