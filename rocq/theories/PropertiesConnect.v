(** Properties C25, C26, C54: node order of elements. *)
From Coq Require Import ZArith List Bool Arith Lia.
From Verif Require Import Base MeshNodeModel MeshCellModel FaceModel FaceProofs ConnectModel ConnectProofs.
Import ListNotations.
Open Scope nat_scope.

Definition solid_card (t : ctype) : Prop :=
  In t [TETRA4; PYRA5; PENTA6; HEXA8; TETRA10; PYRA13; PENTA15; HEXA20].

Ltac each_solid H := destruct H as [<-|[<-|[<-|[<-|[<-|[<-|[<-|[<-|[]]]]]]]]].

(** ** C25: a solid element card read and written back lists the same nodes *)
Theorem C25_read_then_write : forall t card, solid_card t -> length card = numNodes t ->
  exists med, parseElem (card_types t) card = Ok (t, med) /\ length med = numNodes t /\
    write_connect t med = Ok card.
Proof.
  intros t card Ht Hl.
  assert (exists p q, nastran2med t = Some p /\ med2nastran t = Some q /\ permb (numNodes t) p = true /\
    permb (numNodes t) q = true /\ invb p q = true /\ choose_type (card_types t) (numNodes t) = Ok t) as (p & q & Ep & Eq & Hp & Hq & Hi & Hc).
  { each_solid Ht; do 2 eexists; (split; [reflexivity|]); (split; [reflexivity|]); repeat split; vm_compute; reflexivity. }
  apply permb_ok in Hp. apply permb_ok in Hq. apply (invb_ok (numNodes t)) in Hi.
  destruct (scatter_inverse _ p q card Hp Hq Hi Hl) as (med & E1 & E2).
  exists med. unfold parseElem, parse_connect, write_connect. rewrite Hl, Hc. cbn [bind]. rewrite Ep, Eq, E1, E2. cbn.
  split; [reflexivity|]. split; [|reflexivity].
  destruct (scatter_spec _ p card Hp Hl) as (v & Ev & Lv & _). congruence.
Qed.

(** Conversely, an internal cell written and read again is the same cell. *)
Theorem C25_write_then_read : forall t med, solid_card t -> length med = numNodes t ->
  exists card, write_connect t med = Ok card /\ parseElem (card_types t) card = Ok (t, med).
Proof.
  intros t med Ht Hl.
  assert (exists p q, nastran2med t = Some p /\ med2nastran t = Some q /\ permb (numNodes t) p = true /\
    permb (numNodes t) q = true /\ invb q p = true /\ choose_type (card_types t) (numNodes t) = Ok t) as (p & q & Ep & Eq & Hp & Hq & Hi & Hc).
  { each_solid Ht; do 2 eexists; (split; [reflexivity|]); (split; [reflexivity|]); repeat split; vm_compute; reflexivity. }
  apply permb_ok in Hp. apply permb_ok in Hq. apply (invb_ok (numNodes t)) in Hi.
  destruct (scatter_inverse _ q p med Hq Hp Hi Hl) as (card & E1 & E2).
  exists card. unfold parseElem, parse_connect, write_connect. rewrite Eq. split; [exact E1|].
  destruct (scatter_spec _ q med Hq Hl) as (v & Ev & Lv & _). assert (v = card) by congruence. subst v.
  rewrite Lv, Hc. cbn [bind]. rewrite Ep, E2. reflexivity.
Qed.

(** A card with a number of nodes the element does not have is rejected. *)
Theorem C25_wrong_count_rejected : forall t card, solid_card t ->
  (forall t', In t' (card_types t) -> length card <> numNodes t') -> parseElem (card_types t) card = Throw.
Proof.
  intros t card Ht H. unfold parseElem.
  assert (choose_type (card_types t) (length card) = Throw) as ->; [|reflexivity].
  induction (card_types t) as [|t' ts IH]; cbn; [reflexivity|].
  destruct (Nat.eqb_spec (numNodes t') (length card)) as [E|]; [exfalso; apply (H t'); [now left|congruence]|].
  apply IH. intros; apply H; now right.
Qed.

Example C25_case : solid_card HEXA8 /\
  parseElem (card_types HEXA8) [1;2;3;4;5;6;7;8]%Z = Ok (HEXA8, [1;4;3;2;5;8;7;6]%Z) /\
  write_connect HEXA8 [1;4;3;2;5;8;7;6]%Z = Ok [1;2;3;4;5;6;7;8]%Z /\
  parseElem (card_types HEXA8) [1;2;3;4;5;6;7]%Z = Throw.
Proof. split; [cbn; auto 20|]. vm_compute. auto. Qed.
Print Assumptions C25_read_then_write.
Print Assumptions C25_write_then_read.
Print Assumptions C25_wrong_count_rejected.

(** ** C26: shells *)

Definition shell_card (t : ctype) : Prop := In t [TRI3; TRI6; QUAD4; QUAD8].

(** Whatever the shell, if its nodes are distinct the written card differs from
    the card read: it runs through the nodes in the opposite sense (the edges of
    the written element are those of the card read, all reversed), so the
    normal is flipped. *)
Theorem C26_shell_reversed_refuted : forall t card, shell_card t -> length card = numNodes t -> NoDup card ->
  exists med out, parse_shell t card = Ok med /\ write_connect t med = Ok out /\ out <> card /\
    (forall e, In e (edges out) <-> In (reversed e) (edges card)).
Proof.
  intros t card Ht Hl Hn.
  destruct Ht as [<-|[<-|[<-|[<-|[]]]]]; cbn in Hl.
  - destruct card as [|a [|b [|c [|]]]]; try discriminate. do 2 eexists. split; [reflexivity|]. split; [reflexivity|]. split.
    + intros E. injection E as E1 E2. inversion Hn as [|? ? _ Hn1]; inversion Hn1 as [|? ? Hn2 _]. apply Hn2. left. congruence.
    + intros [[x m] y]. cbn. intuition (try congruence).
  - destruct card as [|a [|b [|c [|d [|e [|f [|]]]]]]]; try discriminate. do 2 eexists. split; [reflexivity|]. split; [reflexivity|]. split.
    + intros E. injection E as E1 E2 E3 E4. inversion Hn as [|? ? _ Hn1]; inversion Hn1 as [|? ? Hn2 _]. apply Hn2. left. congruence.
    + intros [[x m] y]. cbn. intuition (try congruence).
  - destruct card as [|a [|b [|c [|d [|]]]]]; try discriminate. do 2 eexists. split; [reflexivity|]. split; [reflexivity|]. split.
    + intros E. injection E as E1 E2. inversion Hn as [|? ? _ Hn1]; inversion Hn1 as [|? ? Hn2 _]. apply Hn2. right. left. congruence.
    + intros [[x m] y]. cbn. intuition (try congruence).
  - destruct card as [|a [|b [|c [|d [|e [|f [|g [|h [|]]]]]]]]]; try discriminate. do 2 eexists. split; [reflexivity|]. split; [reflexivity|]. split.
    + intros E. injection E as E1 E2. inversion Hn as [|? ? _ Hn1]; inversion Hn1 as [|? ? Hn2 _]. apply Hn2. right. left. congruence.
    + intros [[x m] y]. cbn. intuition (try congruence).
Qed.

(** What survives: the written card lists the same nodes, starting at the same
    one, and reading it and writing it a second time restores the first card. *)
Theorem C26_shell_twice_partial : forall t card, shell_card t -> length card = numNodes t ->
  exists out, write_connect t card = Ok out /\ write_connect t out = Ok card /\
    (forall n, In n out <-> In n card) /\ nth_error out 0 = nth_error card 0.
Proof.
  intros t card Ht Hl.
  destruct Ht as [<-|[<-|[<-|[<-|[]]]]]; cbn in Hl.
  - destruct card as [|a [|b [|c [|]]]]; try discriminate. eexists. split; [reflexivity|]. split; [reflexivity|]. split; [|reflexivity].
    intros n. cbn. tauto.
  - destruct card as [|a [|b [|c [|d [|e [|f [|]]]]]]]; try discriminate. eexists. split; [reflexivity|]. split; [reflexivity|]. split; [|reflexivity].
    intros n. cbn. tauto.
  - destruct card as [|a [|b [|c [|d [|]]]]]; try discriminate. eexists. split; [reflexivity|]. split; [reflexivity|]. split; [|reflexivity].
    intros n. cbn. tauto.
  - destruct card as [|a [|b [|c [|d [|e [|f [|g [|h [|]]]]]]]]]; try discriminate. eexists. split; [reflexivity|]. split; [reflexivity|]. split; [|reflexivity].
    intros n. cbn. tauto.
Qed.
Example C26_case : shell_card QUAD4 /\ write_connect QUAD4 [1;2;3;4]%Z = Ok [1;4;3;2]%Z.
Proof. split; [cbn; auto|reflexivity]. Qed.
Print Assumptions C26_shell_reversed_refuted.
Print Assumptions C26_shell_twice_partial.

(** ** C54: mid-side nodes stay on their edges *)

(** Nastran Quick Reference Guide, connection cards: the mid-side grid point of
    each edge, as 1-based field ranks (corner, mid-side, corner). *)
Definition nastran_edges (t : ctype) : list (nat * nat * nat) :=
  match t with
  | TETRA10 => [(1,5,2); (2,6,3); (3,7,1); (1,8,4); (2,9,4); (3,10,4)]
  | PYRA13 => [(1,6,2); (2,7,3); (3,8,4); (4,9,1); (1,10,5); (2,11,5); (3,12,5); (4,13,5)]
  | PENTA15 => [(1,7,2); (2,8,3); (3,9,1); (1,10,4); (2,11,5); (3,12,6); (4,13,5); (5,14,6); (6,15,4)]
  | HEXA20 => [(1,9,2); (2,10,3); (3,11,4); (4,12,1); (1,13,5); (2,14,6); (3,15,7); (4,16,8);
               (5,17,6); (6,18,7); (7,19,8); (8,20,5)]
  | _ => []
  end.

Definition edge_check (t : ctype) (p : list nat) : bool :=
  forallb (fun e => let '(a, m, b) := e in
    existsb (fun f => existsb (fun e' => let '(x, y, z) := e' in
        match y with Some y => (y =? S (nth (m - 1) p 99)) &&
          ((x =? S (nth (a - 1) p 99)) && (z =? S (nth (b - 1) p 99)) ||
           (x =? S (nth (b - 1) p 99)) && (z =? S (nth (a - 1) p 99))) | None => false end) (edges f))
      (match face_table t with Some fs => fs | None => [] end)) (nastran_edges t) &&
  forallb (fun e => let '(a, m, b) := e in (0 <? a) && (a <=? length p) && (0 <? m) && (m <=? length p) && (0 <? b) && (b <=? length p)) (nastran_edges t).

(** For every quadratic solid card, the mid-side node that Nastran places on the
    edge between two grid points lies, in the converted cell, on an edge of a
    face between the same two nodes. *)
Theorem C54_midside_on_edge : forall t card, In t [TETRA10; PYRA13; PENTA15; HEXA20] ->
  length card = numNodes t ->
  exists med fs, parseElem (card_types t) card = Ok (t, med) /\ nodeIdsByFaceNum t med = Ok fs /\
    nastran_edges t <> [] /\
    forall a m b x y z, In (a, m, b) (nastran_edges t) ->
      nth_error card (a - 1) = Some x -> nth_error card (m - 1) = Some y -> nth_error card (b - 1) = Some z ->
      exists f, In f fs /\ (In (x, Some y, z) (edges f) \/ In (z, Some y, x) (edges f)).
Proof.
  intros t card Ht Hl.
  assert (Hs : solid_card t) by (unfold solid_card; cbn in *; tauto).
  assert (exists p ft, nastran2med t = Some p /\ face_table t = Some ft /\ permb (numNodes t) p = true /\ edge_check t p = true /\
     choose_type (card_types t) (numNodes t) = Ok t /\ nastran_edges t <> []) as (p & ft & Ep & Et & Hp & He & Hc & Hne).
  { destruct Ht as [<-|[<-|[<-|[<-|[]]]]]; do 2 eexists; (split; [reflexivity|]); (split; [reflexivity|]); repeat split; try (vm_compute; reflexivity); discriminate. }
  apply permb_ok in Hp. destruct (scatter_spec _ p card Hp Hl) as (med & E1 & Lm & Hm).
  pose proof (table_range t ft Et) as Hr. rewrite <- Lm in Hr.
  exists med, (map (map (pick med)) ft).
  split; [unfold parseElem, parse_connect; rewrite Hl, Hc; cbn [bind]; rewrite Ep, E1; reflexivity|].
  split; [now apply faces_map|]. split; [exact Hne|].
  intros a m b x y z Hin Ha Hmm Hb. unfold edge_check in He. apply andb_true_iff in He. destruct He as [He Hrange].
  rewrite forallb_forall in He, Hrange. specialize (He _ Hin). specialize (Hrange _ Hin). cbn beta iota in He, Hrange.
  rewrite !andb_true_iff, !Nat.ltb_lt, !Nat.leb_le in Hrange.
  assert (Hget : forall r v, 0 < r <= length p -> nth_error card (r - 1) = Some v -> pick med (S (nth (r - 1) p 99)) = v).
  { intros r v Hr' Hv. unfold pick. replace (S (nth (r - 1) p 99) - 1) with (nth (r - 1) p 99) by lia.
    assert (nth_error p (r - 1) = Some (nth (r - 1) p 99)) as Hx by (apply nth_error_nth'; lia).
    apply Hm in Hx. rewrite Hv in Hx. apply nth_error_nth. exact Hx. }
  apply existsb_exists in He. destruct He as (f & Hf & He). apply existsb_exists in He. destruct He as ([[u w] v] & Hedge & He).
  destruct w as [w|]; [|discriminate]. rewrite !andb_true_iff, orb_true_iff, !andb_true_iff, !Nat.eqb_eq in He.
  assert (In f ft) as Hf' by (rewrite Et in Hf; exact Hf).
  exists (map (pick med) f). split; [now apply in_map|]. rewrite edges_map.
  destruct He as [Ew [[Eu Ev]|[Eu Ev]]]; [left|right]; apply in_map_iff; exists (u, Some w, v); (split; [|exact Hedge]); cbn; subst u w v.
  - rewrite (Hget a x), (Hget m y), (Hget b z); auto; lia.
  - rewrite (Hget a x), (Hget m y), (Hget b z); auto; lia.
Qed.
Example C54_case : In TETRA10 [TETRA10; PYRA13; PENTA15; HEXA20] /\ In (1, 5, 2) (nastran_edges TETRA10) /\
  parseElem (card_types TETRA10) [1;2;3;4;5;6;7;8;9;10]%Z = Ok (TETRA10, [1;3;2;4;7;6;5;8;10;9]%Z).
Proof. cbn. repeat split; auto. Qed.
Print Assumptions C54_midside_on_edge.

(** The corner nodes of a cell are the ends of its edges. *)
Definition ends {A} (l : list (A * option A * A)) : list A := flat_map (fun e => let '(a, _, b) := e in [a; b]) l.
Lemma ends_map {A B} (g : A -> B) l : ends (map (emap g) l) = map g (ends l).
Proof. induction l as [|[[a m] b] l IH]; [reflexivity|]. cbn. unfold ends in IH. now rewrite IH. Qed.
Theorem C54_shell_corners : forall t ids, In t [TRI3; TRI6; QUAD4; QUAD8] -> length ids = numNodes t ->
  exists c, cornerNodeIds t ids = Ok c /\ forall n, In n c <-> In n (ends (edges ids)).
Proof.
  intros t ids Ht Hl. destruct Ht as [<-|[<-|[<-|[<-|[]]]]]; cbn in Hl.
  - destruct ids as [|a [|b [|c [|]]]]; try discriminate. eexists. split; [reflexivity|]. intros n. cbn. tauto.
  - destruct ids as [|a [|b [|c [|d [|e [|f [|]]]]]]]; try discriminate. eexists. split; [reflexivity|]. intros n. cbn. tauto.
  - destruct ids as [|a [|b [|c [|d [|]]]]]; try discriminate. eexists. split; [reflexivity|]. intros n. cbn. tauto.
  - destruct ids as [|a [|b [|c [|d [|e [|f [|g [|h [|]]]]]]]]]; try discriminate. eexists. split; [reflexivity|]. intros n. cbn. tauto.
Qed.
Definition same_members (l l' : list nat) : bool :=
  forallb (fun x => existsb (Nat.eqb x) l') l && forallb (fun x => existsb (Nat.eqb x) l) l'.
Lemma same_members_ok l l' : same_members l l' = true -> forall x, In x l <-> In x l'.
Proof.
  unfold same_members. rewrite andb_true_iff, !forallb_forall. intros [H1 H2] x. split; intros H.
  - apply H1 in H. apply existsb_exists in H as (y & Hy & E). apply Nat.eqb_eq in E. now subst.
  - apply H2 in H. apply existsb_exists in H as (y & Hy & E). apply Nat.eqb_eq in E. now subst.
Qed.
Theorem C54_solid_corners : forall t ids, In t [TETRA4; TETRA10; PYRA5; PYRA13; PENTA6; PENTA15; HEXA8; HEXA20] -> length ids = numNodes t ->
  exists c fs, cornerNodeIds t ids = Ok c /\ nodeIdsByFaceNum t ids = Ok fs /\
    forall n, In n c <-> exists f, In f fs /\ In n (ends (edges f)).
Proof.
  intros t ids Ht Hl.
  assert (exists k ft, corner_count t = Some k /\ face_table t = Some ft /\ k <= numNodes t /\
     same_members (seq 1 k) (flat_map (fun f => ends (edges f)) ft) = true) as (k & ft & Ek & Et & Hk & Hs).
  { cbn [In] in Ht. decompose [or] Ht; subst; try contradiction; do 2 eexists; (split; [reflexivity|]); (split; [reflexivity|]); (split; [cbn; lia|vm_compute; reflexivity]). }
  exists (map (pick ids) (seq 1 k)), (map (map (pick ids)) ft). split; [|split].
  - unfold cornerNodeIds. rewrite Ek. rewrite <- seq_shift, map_map. assert (forall s n, s + n <= length ids ->
      mapM (fun j => of_option (nth_error ids j)) (seq s n) = Ok (map (fun j => pick ids (S j)) (seq s n))) as G.
    { intros s n. revert s. induction n as [|n IH]; intros s H; [reflexivity|]. cbn [seq mapM map].
      rewrite (nth_error_nth' ids 0%Z) by lia. cbn [of_option bind]. rewrite IH by lia. cbn [bind]. unfold pick at 2. now rewrite Nat.sub_succ, Nat.sub_0_r. }
    apply G. lia.
  - apply faces_map; [exact Et|]. rewrite Hl. now apply table_range.
  - intros n. pose proof (same_members_ok _ _ Hs) as S. rewrite in_map_iff. split.
    + intros (x & <- & Hx). apply S in Hx. apply in_flat_map in Hx as (f & Hf & Hx). exists (map (pick ids) f). split; [now apply in_map|].
      rewrite edges_map, ends_map. now apply in_map.
    + intros (f' & Hf' & Hn). apply in_map_iff in Hf' as (f & <- & Hf). rewrite edges_map, ends_map in Hn. apply in_map_iff in Hn as (x & <- & Hx).
      exists x. split; [reflexivity|]. apply S. apply in_flat_map. eauto.
Qed.
Example C54_corners_case : cornerNodeIds QUAD8 [11;12;13;14;15;16;17;18]%Z = Ok [11;12;13;14]%Z /\
  cornerNodeIds PYRA5 [1;2;3;4;5]%Z = Ok [1;2;3;4;5]%Z.
Proof. split; reflexivity. Qed.
Print Assumptions C54_shell_corners.
Print Assumptions C54_solid_corners.
