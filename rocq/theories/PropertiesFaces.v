(** Properties C17 and C18: faces of solid cells. *)
From Coq Require Import ZArith List Bool Arith Lia FinFun.
From Verif Require Import Base MeshNodeModel MeshCellModel FaceModel FaceProofs.
Import ListNotations.
Open Scope nat_scope.

Definition solid (t : ctype) : Prop :=
  In t [TETRA4; PYRA5; PENTA6; HEXA8; TETRA10; PYRA13; PENTA15; HEXA20].

Fixpoint nodupb (l : list nat) : bool := match l with [] => true | x :: r => negb (memN x r) && nodupb r end.
Lemma nodupb_ok l : nodupb l = true -> NoDup l.
Proof.
  induction l as [|x l IH]; cbn; [constructor|]. intros H. apply andb_true_iff in H. destruct H as [H1 H2].
  constructor; [|auto]. intros Hx. apply negb_true_iff in H1. unfold memN in H1.
  assert (existsb (Nat.eqb x) l = true) by (apply existsb_exists; exists x; split; [assumption|apply Nat.eqb_refl]). congruence.
Qed.

(** ** C17 *)

(** Full property for every solid type; proved for all of them but HEXA20. *)
Theorem C17_faces_closed_partial : forall t ids, solid t -> t <> HEXA20 ->
  length ids = numNodes t -> NoDup ids ->
  exists fs, nodeIdsByFaceNum t ids = Ok fs /\ closed fs /\
    (forall f, In f fs -> NoDup f /\ incl f ids) /\
    (forall n, In n ids -> exists f, In f fs /\ In n f).
Proof.
  intros t ids Hs Hn Hl N.
  assert (exists fs, face_table t = Some fs /\ closedb fs = true /\
     forallb nodupb fs = true /\
     forallb (fun k => existsb (memN k) fs) (seq 1 (numNodes t)) = true) as (fs & Et & Ec & Ed & Ev).
  { destruct t; try (exfalso; cbn in Hs; intuition discriminate); try congruence; eexists; repeat split; vm_compute; reflexivity. }
  pose proof (table_range t fs Et) as Hr. rewrite <- Hl in Hr.
  exists (map (map (pick ids)) fs). split; [now apply faces_map|]. split; [|split].
  - eapply closed_map; [apply pick_inj, N|exact Hr|now apply closedb_closed].
  - intros f Hf. apply in_map_iff in Hf. destruct Hf as (f0 & <- & Hf0). split.
    + apply NoDup_pick; [exact N|intros; eapply Hr; eauto|].
      rewrite forallb_forall in Ed. apply nodupb_ok, Ed, Hf0.
    + intros x Hx. apply in_map_iff in Hx. destruct Hx as (k & <- & Hk). apply nth_In. destruct (Hr _ _ Hf0 Hk). lia.
  - intros n Hin. apply In_nth with (d := 0%Z) in Hin. destruct Hin as (i & Hi & <-).
    rewrite forallb_forall in Ev. specialize (Ev (S i)). rewrite in_seq in Ev. specialize (Ev ltac:(lia)).
    apply existsb_exists in Ev. destruct Ev as (f & Hf & Hm). unfold memN in Hm. apply existsb_exists in Hm.
    destruct Hm as (k & Hk & Ek). apply Nat.eqb_eq in Ek. subst k.
    exists (map (pick ids) f). split; [now apply in_map|]. apply in_map_iff. exists (S i). split; [|exact Hk].
    unfold pick. now replace (S i - 1) with i by lia.
Qed.

Example C17_case : solid PENTA15 /\ exists fs, nodeIdsByFaceNum PENTA15 (map Z.of_nat (seq 101 15)) = Ok fs /\ closed fs.
Proof.
  split; [cbn; auto 20|].
  destruct (C17_faces_closed_partial PENTA15 (map Z.of_nat (seq 101 15))) as (fs & E & C & _); eauto.
  - cbn; auto 20.
  - discriminate.
  - apply (FinFun.Injective_map_NoDup (f := Z.of_nat)); [intros x y; lia|apply seq_NoDup].
Qed.

(** The 20-node hexahedron violates the law whatever its nodes: its second face
    lists one node twice (and misses another), and its third face runs the edge
    between the first two nodes in the same sense as the first face. *)
Theorem C17_hexa20_refuted : forall ids, length ids = 20 -> NoDup ids ->
  exists fs f1 f2 f3, nodeIdsByFaceNum HEXA20 ids = Ok fs /\
    nth_error fs 0 = Some f1 /\ nth_error fs 1 = Some f2 /\ nth_error fs 2 = Some f3 /\
    ~ NoDup f2 /\ (exists e, In e (edges f1) /\ In e (edges f3)) /\ ~ closed fs.
Proof.
  intros ids Hl N. destruct (face_table HEXA20) as [fs|] eqn:Et; [|discriminate].
  pose proof (table_range _ _ Et) as Hr. cbn [numNodes] in Hr. rewrite <- Hl in Hr.
  cbn in Et. injection Et as <-.
  eexists _, _, _, _. split; [apply (faces_map HEXA20 ids _ eq_refl Hr)|].
  split; [reflexivity|]. split; [reflexivity|]. split; [reflexivity|].
  set (e := (pick ids 1, Some (pick ids 9), pick ids 2)). split; [|split].
  - cbn. intros H. repeat (match goal with H : NoDup (_ :: _) |- _ => inversion H; clear H; subst end). cbn in *. intuition.
  - exists e. split; cbn; auto.
  - intros C. destruct (C 0 _ e eq_refl) as [_ Hu]; [cbn; auto|].
    specialize (Hu 2 _ eq_refl). discriminate Hu. cbn; auto.
Qed.
Print Assumptions C17_faces_closed_partial.
Print Assumptions C17_hexa20_refuted.

(** ** C18 *)

(** The pair of nodes the converter gives for face [k] selects face [k] again. *)
Definition round_trip (t : ctype) (ids : list Z) (k : nat) : Prop :=
  exists fs f a b, nodeIdsByFaceNum t ids = Ok fs /\ nth_error fs (k - 1) = Some f /\
    two_nodeids_from_facenum t ids k = Ok (a, b) /\ faceids_from_two_nodes t ids a b = Ok f.

Section RT.
Variables (t : ctype) (ids : list Z) (fs : list (list nat)).
Hypothesis Et : face_table t = Some fs.
Hypothesis Hl : length ids = numNodes t.
Hypothesis N : NoDup ids.
Hypothesis Hu : ~ In UNAVAILABLE_INT ids.

Lemma pick_avail k : in_range (length ids) k -> (pick ids k =? UNAVAILABLE_INT)%Z = false.
Proof using Hu. clear - Hu. intros [H1 H2]. apply Z.eqb_neq. intros E. apply Hu. rewrite <- E. apply nth_In. lia. Qed.

Lemma faceids_two k1 k2 f : in_range (length ids) k1 -> in_range (length ids) k2 -> dimension t = 3 ->
  choose_face t fs (k1 - 1) (Some (k2 - 1)) = Ok f -> (forall k, In k f -> in_range (length ids) k) ->
  faceids_from_two_nodes t ids (pick ids k1) (pick ids k2) = Ok (map (pick ids) f).
Proof using All.
  intros H1 H2 Hd Hc Hf. unfold faceids_from_two_nodes. rewrite findpos_pick by assumption. cbn [bind].
  rewrite pick_avail by assumption. rewrite findpos_pick by assumption. cbn [bind]. rewrite Hd. cbn [Nat.eqb].
  rewrite Et, Hc. cbn [bind]. now apply gather_map.
Qed.

Lemma faceids_one k1 f : in_range (length ids) k1 -> dimension t = 3 ->
  choose_face t fs (k1 - 1) None = Ok f -> (forall k, In k f -> in_range (length ids) k) ->
  faceids_from_two_nodes t ids (pick ids k1) UNAVAILABLE_INT = Ok (map (pick ids) f).
Proof using All.
  intros H1 Hd Hc Hf. unfold faceids_from_two_nodes. rewrite findpos_pick by assumption. cbn [bind].
  rewrite Z.eqb_refl. cbn [bind]. rewrite Hd. cbn [Nat.eqb]. rewrite Et, Hc. cbn [bind]. now apply gather_map.
Qed.
End RT.

(** Nodes of a cell outside a face, computed on positions. *)
Lemma filter_pick ids f : NoDup ids -> (forall k, In k f -> in_range (length ids) k) ->
  filter (fun x => negb (existsb (Z.eqb x) (map (pick ids) f))) ids =
  map (pick ids) (filter (fun k => negb (memN k f)) (seq 1 (length ids))).
Proof.
  intros N Hf.
  assert (E : ids = map (pick ids) (seq 1 (length ids))).
  { apply nth_ext with (d := 0%Z) (d' := pick ids 0); [now rewrite map_length, seq_length|].
    intros n Hn. rewrite map_nth. rewrite seq_nth by assumption. unfold pick. f_equal. lia. }
  rewrite E at 1.
  assert (G : forall l, (forall k, In k l -> in_range (length ids) k) ->
    filter (fun x => negb (existsb (Z.eqb x) (map (pick ids) f))) (map (pick ids) l) =
    map (pick ids) (filter (fun k => negb (memN k f)) l)).
  { induction l as [|k l IH]; intros Hk; cbn; [reflexivity|].
    assert (existsb (Z.eqb (pick ids k)) (map (pick ids) f) = memN k f) as ->.
    { apply eq_true_iff_eq. unfold memN. rewrite !existsb_exists. split.
      - intros (x & Hx & Ex). apply in_map_iff in Hx. destruct Hx as (k' & <- & Hk'). apply Z.eqb_eq in Ex.
        apply (pick_inj ids N) in Ex; [subst; exists k'; split; [assumption|apply Nat.eqb_refl]|apply Hk; now left|auto].
      - intros (k' & Hk' & Ex). apply Nat.eqb_eq in Ex. subst. exists (pick ids k'). split; [now apply in_map|apply Z.eqb_refl]. }
    destruct (memN k f); cbn; rewrite IH by (intros; apply Hk; now right); reflexivity. }
  apply G. intros k Hk. apply in_seq in Hk. unfold in_range. lia.
Qed.

(** Linear tetrahedra and both hexahedra: every face. *)
Theorem C18_round_trip : forall t ids k, In t [TETRA4; HEXA8; HEXA20] ->
  length ids = numNodes t -> NoDup ids -> ~ In UNAVAILABLE_INT ids ->
  1 <= k <= (if ctype_eq_dec t TETRA4 then 4 else 6) -> round_trip t ids k.
Proof.
  intros t ids k Ht Hl N Hu Hk.
  assert (Hd : dimension t = 3) by (destruct Ht as [<-|[<-|[<-|[]]]]; reflexivity).
  destruct (face_table t) as [T0|] eqn:Et; [|destruct Ht as [<-|[<-|[<-|[]]]]; discriminate].
  pose proof (table_range t _ Et) as Hr. rewrite <- Hl in Hr.
  pose proof (faces_map t ids _ Et Hr) as Ef. unfold round_trip.
  destruct (ctype_eq_dec t TETRA4) as [E4|Hn4].
  - assert (exists f0 c, nth_error T0 (k - 1) = Some f0 /\
        filter (fun j => negb (memN j f0)) (seq 1 4) = [c] /\ in_range 4 c /\ (k =? 0) = false /\
        choose_face t T0 (nth 0 f0 0 - 1) (Some (c - 1)) = Ok f0 /\
        in_range 4 (nth 0 f0 0) /\ length f0 = 3) as (f0 & c & E1 & E2 & E3 & E0 & E5 & E6 & E7).
    { subst t. cbn in Et. injection Et as <-.
      destruct k as [|[|[|[|[|k]]]]]; try lia; cbn; do 2 eexists; vm_compute; repeat split; lia. }
    assert (Hl4 : length ids = 4) by (rewrite Hl, E4; reflexivity).
    assert (Hf0 : forall j, In j f0 -> in_range (length ids) j) by (intros; eapply Hr; [eapply nth_error_In, E1|eassumption]).
    exists (map (map (pick ids)) T0), (map (pick ids) f0), (pick ids (nth 0 f0 0)), (pick ids c).
    split; [exact Ef|]. split; [now rewrite nth_error_map, E1|]. split.
    + unfold two_nodeids_from_facenum. rewrite Ef. cbn [bind]. rewrite E0.
      rewrite (nth_error_nth _ _ [] (x := map (pick ids) f0)) by now rewrite nth_error_map, E1.
      rewrite filter_pick by assumption. rewrite Hl4, E2. rewrite E4. cbn.
      destruct f0 as [|a f0]; [discriminate|]. reflexivity.
    + eapply faceids_two; eauto; rewrite Hl4; assumption.
  - assert (exists f0 a b c d, nth_error T0 (k - 1) = Some f0 /\ f0 = a :: b :: c :: d /\ (k =? 0) = false /\
        choose_face t T0 (a - 1) (Some (c - 1)) = Ok f0) as (f0 & a & b & c & d & E1 & E2 & E0 & E5).
    { destruct Ht as [<-|[<-|[<-|[]]]]; [congruence| |]; cbn in Et; injection Et as <-;
      destruct k as [|[|[|[|[|[|[|k]]]]]]]; try lia; do 5 eexists;
      (split; [reflexivity|]); (split; [reflexivity|]); (split; [reflexivity|]); reflexivity. }
    assert (Hf0 : forall j, In j f0 -> in_range (length ids) j) by (intros; eapply Hr; [eapply nth_error_In, E1|eassumption]).
    exists (map (map (pick ids)) T0), (map (pick ids) f0), (pick ids a), (pick ids c).
    split; [exact Ef|]. split; [now rewrite nth_error_map, E1|]. split.
    + unfold two_nodeids_from_facenum. rewrite Ef. cbn [bind]. rewrite E0.
      rewrite (nth_error_nth _ _ [] (x := map (pick ids) f0)) by now rewrite nth_error_map, E1.
      destruct Ht as [<-|[<-|[<-|[]]]]; [congruence| |]; subst f0; reflexivity.
    + eapply faceids_two; eauto; apply Hf0; subst f0; cbn; auto.
Qed.

Example C18_case : round_trip HEXA8 [11; 12; 13; 14; 15; 16; 17; 18]%Z 3.
Proof.
  apply C18_round_trip; [cbn; auto|reflexivity|repeat constructor; cbn; intuition discriminate| |].
  - intros H. repeat (destruct H as [H|H]; [discriminate H|]). destruct H.
  - destruct (ctype_eq_dec HEXA8 TETRA4); lia.
Qed.

(** Wedges: proved for the two triangles and the first quadrangle. *)
Theorem C18_wedge_partial : forall t ids k, In t [PENTA6; PENTA15] ->
  length ids = numNodes t -> NoDup ids -> ~ In UNAVAILABLE_INT ids ->
  1 <= k <= 3 -> round_trip t ids k.
Proof.
  intros t ids k Ht Hl N Hu Hk.
  assert (Hd : dimension t = 3) by (destruct Ht as [<-|[<-|[]]]; reflexivity).
  destruct (face_table t) as [T0|] eqn:Et; [|destruct Ht as [<-|[<-|[]]]; discriminate].
  pose proof (table_range t _ Et) as Hr. rewrite <- Hl in Hr.
  pose proof (faces_map t ids _ Et Hr) as Ef. unfold round_trip.
  assert (exists f0 a b c, nth_error T0 (k - 1) = Some f0 /\ f0 = a :: b :: c /\ (k =? 0) = false /\
        choose_face t T0 (a - 1) (if (length f0 =? 4) || (length f0 =? 8) then Some (b - 1) else None) = Ok f0) as (f0 & a & b & c & E1 & E2 & E4 & E5).
  { destruct Ht as [<-|[<-|[]]]; cbn in Et; injection Et as <-;
    destruct k as [|[|[|[|k]]]]; try lia; do 4 eexists;
    (split; [reflexivity|]); (split; [reflexivity|]); (split; [reflexivity|]); reflexivity. }
  assert (Hf0 : forall j, In j f0 -> in_range (length ids) j) by (intros; eapply Hr; [eapply nth_error_In, E1|eassumption]).
  exists (map (map (pick ids)) T0), (map (pick ids) f0), (pick ids a),
    (if (length f0 =? 4) || (length f0 =? 8) then pick ids b else UNAVAILABLE_INT).
  split; [exact Ef|]. split; [now rewrite nth_error_map, E1|]. split.
  - unfold two_nodeids_from_facenum. rewrite Ef. cbn [bind]. rewrite E4.
    rewrite (nth_error_nth _ _ [] (x := map (pick ids) f0)) by now rewrite nth_error_map, E1.
    assert (length (map (pick ids) f0) = length f0) as -> by apply map_length.
    destruct Ht as [<-|[<-|[]]]; subst f0; cbn [nth_error map of_option bind];
    destruct ((length (a :: b :: c) =? 4) || (length (a :: b :: c) =? 8)); reflexivity.
  - destruct ((length f0 =? 4) || (length f0 =? 8)).
    + eapply faceids_two; eauto; apply Hf0; subst f0; cbn; auto.
    + eapply faceids_one; eauto; apply Hf0; subst f0; cbn; auto.
Qed.

(** Wedge face 4: the pair given selects a triangular face instead. *)
Theorem C18_wedge_refuted : exists ids, length ids = 6 /\ NoDup ids /\
  two_nodeids_from_facenum PENTA6 ids 4 = Ok (1, 3)%Z /\
  faceids_from_two_nodes PENTA6 ids 1 3 = Ok [1; 2; 3]%Z /\
  exists fs, nodeIdsByFaceNum PENTA6 ids = Ok fs /\ nth_error fs 3 = Some [1; 3; 6; 4]%Z.
Proof.
  exists [1; 2; 3; 4; 5; 6]%Z. split; [reflexivity|]. split; [repeat constructor; cbn; intuition discriminate|].
  split; [reflexivity|]. split; [reflexivity|]. eexists. split; reflexivity.
Qed.

(** Pyramid face 3. *)
Theorem C18_pyramid_refuted : exists ids, length ids = 5 /\ NoDup ids /\
  two_nodeids_from_facenum PYRA5 ids 3 = Ok (1%Z, UNAVAILABLE_INT) /\
  faceids_from_two_nodes PYRA5 ids 1 UNAVAILABLE_INT = Ok [1; 5; 2]%Z /\
  exists fs, nodeIdsByFaceNum PYRA5 ids = Ok fs /\ nth_error fs 2 = Some [1; 4; 5]%Z.
Proof.
  exists [1; 2; 3; 4; 5]%Z. split; [reflexivity|]. split; [repeat constructor; cbn; intuition discriminate|].
  split; [reflexivity|]. split; [reflexivity|]. eexists. split; reflexivity.
Qed.

(** Quadratic tetrahedron: the node given as "opposite" is the smallest number
    off the face, possibly a mid-side node, and then another face is selected. *)
Theorem C18_tetra10_refuted : exists ids, length ids = 10 /\ NoDup ids /\
  two_nodeids_from_facenum TETRA10 ids 1 = Ok (1, 8)%Z /\
  faceids_from_two_nodes TETRA10 ids 1 8 = Ok [2; 40; 3; 9; 10; 6]%Z /\
  exists fs, nodeIdsByFaceNum TETRA10 ids = Ok fs /\ nth_error fs 0 = Some [1; 2; 3; 5; 6; 7]%Z.
Proof.
  exists [1; 2; 3; 40; 5; 6; 7; 8; 9; 10]%Z. split; [reflexivity|]. split; [repeat constructor; cbn; intuition discriminate|].
  split; [reflexivity|]. split; [reflexivity|]. eexists. split; reflexivity.
Qed.

(** Two nodes that share no face of a hexahedron select an empty face, silently. *)
Theorem C18_no_common_face_refuted : exists ids, length ids = 8 /\ NoDup ids /\
  faceids_from_two_nodes HEXA8 ids 1 7 = Ok [].
Proof.
  exists [1; 2; 3; 4; 5; 6; 7; 8]%Z. split; [reflexivity|]. split; [repeat constructor; cbn; intuition discriminate|reflexivity].
Qed.
Print Assumptions C18_round_trip.
Print Assumptions C18_wedge_partial.
