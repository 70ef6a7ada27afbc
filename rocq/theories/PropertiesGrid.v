(** C71: nodes and their coordinate systems read from bulk data in any order.
    C72: nodes written in the Nastran format.  C73: coordinate systems written in
    the Nastran format. *)
From Coq Require Import Ascii String Reals ZArith List Bool Arith Lia Lra.
From Verif Require Import Base DofModel TextModel TextProofs TokenizerModel NextIntsProofs RealModel WriterLineModel WriterLineProofs
  PropertiesReal CardProofs FieldProofs GridModel GeomModel.
Import ListNotations.
Open Scope Z_scope.
Open Scope list_scope.

(** ** What the bulk data says, whatever the order of its cards *)
Section Spec.
Context {F X : Type}.
(** The system numbered [c]: its (last) CORD card. *)
Definition system_of (l : list (card F X)) (c : Z) : option F :=
  fold_left (fun o k => match k with CORD c' f => if c' =? c then Some f else o | _ => o end) l None.
(** The (last) GRID card of node [id]. *)
Definition grid_of (l : list (card F X)) (id : Z) : option (option Z * X * option Z * option Z) :=
  fold_left (fun o k => match k with GRID i cp x cd ps => if i =? id then Some (cp, x, cd, ps) else o | _ => o end) l None.
(** The GRDSET cards give no coordinate system. *)
Definition no_default_system (k : card F X) : Prop :=
  match k with GRDSET cp cd _ => default cp 0 = 0 /\ default cd 0 = 0 | _ => True end.
(** The supports code of the last GRDSET card of [l]. *)
Definition default_ps (l : list (card F X)) : Z :=
  fold_left (fun o k => match k with GRDSET _ _ ps => default ps 0 | _ => o end) l 0.
Definition valid_code (c : Z) : Prop := c = 0 \/ exists s, nastranCodeToDOFS c = Ok s.
Definition codes_valid (k : card F X) : Prop :=
  match k with GRDSET _ _ ps | GRID _ _ _ _ ps => valid_code (default ps 0) | _ => True end.

Lemma system_of_snoc l k c : system_of (l ++ [k]) c =
  match k with CORD c' f => if c' =? c then Some f else system_of l c | _ => system_of l c end.
Proof. unfold system_of. now rewrite fold_left_app. Qed.
Lemma grid_of_snoc l k id : grid_of (l ++ [k]) id =
  match k with GRID i cp x cd ps => if i =? id then Some (cp, x, cd, ps) else grid_of l id | _ => grid_of l id end.
Proof. unfold grid_of. now rewrite fold_left_app. Qed.
Lemma default_ps_snoc l k : default_ps (l ++ [k]) = match k with GRDSET _ _ ps => default ps 0 | _ => default_ps l end.
Proof. unfold default_ps. now rewrite fold_left_app. Qed.
End Spec.

(** ** Invariants of the register *)
Section Register.
Context {F X : Type}.

Lemma csref_eqb_eq a b : csref_eqb a b = true <-> a = b.
Proof.
  destruct a, b; cbn; rewrite ?Z.eqb_eq; split; intros H; try discriminate; try (now inversion H); now subst.
Qed.

(** Positions are given once, from 1 on. *)
Definition good_storage (s : storage F) : Prop :=
  1 <= next_pos s /\ (forall e, In e (refs s) -> 1 <= fst e < next_pos s) /\ NoDup (map fst (refs s)).
Definition at_ref (s : storage F) (p : Z) (r : csref) : Prop := In (p, r) (refs s).

Lemma NoDup_app_snoc {A} (l : list A) a : NoDup l -> ~ In a l -> NoDup (l ++ [a]).
Proof.
  induction l as [|b l IH]; intros N H; cbn [app].
  - constructor; [intros []|constructor].
  - inversion N; subst. constructor.
    + rewrite in_app_iff. intros [H'|[->|[]]]; [contradiction|]. apply H. now left.
    + apply IH; [assumption|]. intros H'. apply H. now right.
Qed.
Lemma find_at (l : list (Z * csref)) p r : NoDup (map fst l) -> In (p, r) l -> find (fun e => fst e =? p) l = Some (p, r).
Proof.
  induction l as [|[q r'] l IH]; intros N H; [destruct H|]. cbn [find fst map] in *. inversion N as [|? ? N1 N2]; subst.
  destruct H as [H|H].
  - inversion H; subst. now rewrite Z.eqb_refl.
  - destruct (Z.eqb_spec q p) as [->|_]; [|now apply IH]. exfalso. apply N1. apply in_map_iff. now exists (p, r).
Qed.
Lemma by_position s p r : good_storage s -> at_ref s p r -> find_by_position s p = Ok (defs s r).
Proof.
  intros (G1 & G2 & G3) H. unfold find_by_position. pose proof (G2 _ H) as B. cbn [fst] in B.
  destruct (Z.eqb_spec p 0) as [|_]; [lia|]. rewrite (find_at _ _ _ G3 H). reflexivity.
Qed.
Lemma grow_good s r (d : csref -> option F) : good_storage s -> good_storage (mkStorage (next_pos s + 1) (refs s ++ [(next_pos s, r)]) d).
Proof.
  intros (G1 & G2 & G3). split; [cbn; lia|]. cbn [next_pos refs]. split.
  - intros e H. apply in_app_or in H. destruct H as [H|[<-|[]]]; [apply G2 in H; lia|cbn [fst]; lia].
  - rewrite map_app. cbn [map fst]. apply NoDup_app_snoc; [exact G3|].
    intros H. apply in_map_iff in H. destruct H as (e & E & H). apply G2 in H. lia.
Qed.

(** A system asked for gets a position that denotes it; nothing else changes. *)
Lemma find_or_reserve_spec s c : good_storage s -> c <> 0 ->
  exists s' p, find_or_reserve s (Named c) = Ok (s', p) /\ good_storage s' /\ at_ref s' p (Named c) /\ 1 <= p /\
    (forall q r, at_ref s q r -> at_ref s' q r) /\ defs s' = defs s.
Proof.
  intros G Hc. unfold find_or_reserve, find_position, reserve. cbn [csref_eqb]. destruct (Z.eqb_spec c 0) as [|_]; [contradiction|].
  destruct (find (fun e => csref_eqb (snd e) (Named c)) (refs s)) as [[p r]|] eqn:E; cbn [option_map fst].
  - exists s, p. split; [reflexivity|]. split; [exact G|]. apply find_some in E. destruct E as [E1 E2]. cbn [snd] in E2. apply csref_eqb_eq in E2. subst r.
    pose proof (proj1 (proj2 G) _ E1) as B. cbn [fst] in B. split; [exact E1|]. split; [lia|]. split; [auto|reflexivity].
  - exists (mkStorage (next_pos s + 1) (refs s ++ [(next_pos s, Named c)]) (defs s)), (next_pos s).
    split; [reflexivity|]. split; [now apply grow_good|]. split; [apply in_or_app; right; now left|].
    split; [apply G|]. split; [|reflexivity]. intros q r H. apply in_or_app. now left.
Qed.
(** The same with the test of zero made by the card readers. *)
Lemma resolve_spec s c : good_storage s ->
  exists s' p, (if c =? 0 then Ok (s, 0) else find_or_reserve s (Named c)) = Ok (s', p) /\ good_storage s' /\
    (c = 0 /\ p = 0 \/ c <> 0 /\ at_ref s' p (Named c) /\ 1 <= p) /\
    (forall q r, at_ref s q r -> at_ref s' q r) /\ defs s' = defs s.
Proof.
  intros G. destruct (Z.eqb_spec c 0) as [->|Hc].
  - exists s, 0. split; [reflexivity|]. split; [exact G|]. split; [left; split; reflexivity|]. split; [auto|reflexivity].
  - destruct (find_or_reserve_spec s c G Hc) as (s' & p & H1 & H2 & H3 & H4 & H5 & H6). exists s', p.
    split; [exact H1|]. split; [exact H2|]. split; [right; auto|]. split; [exact H5|exact H6].
Qed.

(** ** The state of the reader *)
Definition denotes (s : storage F) (p c : Z) : Prop := c = 0 /\ p = 0 \/ c <> 0 /\ at_ref s p (Named c) /\ 1 <= p.

Record state_of (l : list (card F X)) (r : reader F X) : Prop := {
  st_good : good_storage (cs r);
  st_defs : forall c, defs (cs r) (Named c) = system_of l c;
  st_grd : gcp (grd r) = 0 /\ gcd (grd r) = 0 /\ gps (grd r) = default_ps l;
  st_nodes : forall id cp x cd ps, grid_of l id = Some (cp, x, cd, ps) ->
     exists g, nds r id = Some g /\ coords g = x /\ denotes (cs r) (ncp g) (default cp 0) /\ denotes (cs r) (ncd g) (default cd 0)
}.

Lemma denotes_mono s s' p c : (forall q r, at_ref s q r -> at_ref s' q r) -> denotes s p c -> denotes s' p c.
Proof. intros H [D|(D1 & D2 & D3)]; [now left|right]. split; [exact D1|]. split; [now apply H|exact D3]. Qed.

Lemma state_card l r k r' : state_of l r -> no_default_system k -> read_card r k = Ok r' -> state_of (l ++ [k]) r'.
Proof.
  intros [G D (R1 & R2 & R3) N] Hk H. destruct k as [cid f|cp cd ps|id cp x cd ps]; cbn [read_card] in H.
  - inversion H; subst; clear H. constructor; cbn [cs grd nds].
    + now apply grow_good.
    + intros c. rewrite system_of_snoc. unfold cs_add. cbn [defs csref_eqb]. rewrite (Z.eqb_sym c cid). destruct (cid =? c); [reflexivity|apply D].
    + rewrite default_ps_snoc. auto.
    + intros id cp x cd ps. rewrite grid_of_snoc. intros H. destruct (N _ _ _ _ _ H) as (g & N1 & N2 & N3 & N4). exists g.
      split; [exact N1|]. split; [exact N2|].
      split; (eapply denotes_mono; [|eassumption]; intros q rr Hq; apply in_or_app; now left).
  - destruct Hk as [K1 K2]. unfold parse_grdset in H. rewrite K1, K2 in H. cbn [Z.eqb bind fst snd] in H.
    inversion H; subst; clear H. constructor; cbn [cs grd nds gcp gcd gps]; auto.
    + intros c. rewrite system_of_snoc. apply D.
    + rewrite default_ps_snoc. auto.
    + intros id cp' x cd' ps'. rewrite grid_of_snoc. apply N.
  - unfold parse_grid in H. rewrite R1, R2 in H.
    destruct (resolve_spec (cs r) (default cp 0) G) as (s1 & p1 & E1 & G1 & D1 & M1 & F1). rewrite E1 in H. cbn [bind fst snd] in H.
    destruct (resolve_spec s1 (default cd 0) G1) as (s2 & p2 & E2 & G2 & D2 & M2 & F2). rewrite E2 in H. cbn [bind fst snd] in H.
    destruct (if default ps (gps (grd r)) =? 0 then Ok (held r)
              else do s <- nastranCodeToDOFS (default ps (gps (grd r))); Ok (held r ++ [(id, s)])) as [h| | |] eqn:Eh; cbn [bind] in H; try discriminate.
    inversion H; subst; clear H. constructor; cbn [cs grd nds].
    + exact G2.
    + intros c. rewrite system_of_snoc, F2, F1. apply D.
    + rewrite default_ps_snoc. auto.
    + intros i cp' x' cd' ps'. rewrite grid_of_snoc, (Z.eqb_sym i id). destruct (id =? i).
      * intros H. inversion H; subst; clear H. eexists. split; [reflexivity|]. cbn [coords ncp ncd]. split; [reflexivity|].
        split; [now apply (denotes_mono s1)|exact D2].
      * intros H. destruct (N _ _ _ _ _ H) as (g & N1 & N2 & N3 & N4). exists g. split; [exact N1|]. split; [exact N2|].
        split; (eapply denotes_mono; [|eassumption]; auto).
Qed.

Lemma foldM_app' {A B} (f : B -> A -> outcome B) l1 : forall l2 b, foldM f (l1 ++ l2) b = bind (foldM f l1 b) (foldM f l2).
Proof. induction l1 as [|a l1 IH]; intros l2 b; [reflexivity|]. cbn [app foldM]. destruct (f b a); cbn [bind]; auto. Qed.
Lemma state_cards n l : 1 <= n -> Forall no_default_system l -> forall r, read_cards n l = Ok r -> state_of l r.
Proof.
  intros Hn. induction l as [|k l IH] using rev_ind; intros Hl r H.
  - inversion H; subst. constructor; cbn; auto.
    + split; [exact Hn|]. split; [intros e []|constructor].
    + discriminate.
  - unfold read_cards in H. rewrite foldM_app' in H. fold (@read_cards F X n l) in H. apply Forall_app in Hl. destruct Hl as [Hl Hk]. inversion Hk; subst.
    destruct (read_cards n l) as [r0| | |]; try discriminate H. cbn [bind foldM] in H.
    destruct (read_card r0 k) as [r1| | |] eqn:E; try discriminate H. inversion H; subst. apply (state_card l r0); auto.
Qed.
End Register.

(** ** C71 *)
(** Where a node is: in the global system when its card names none, else where
    the system of that number, wherever it stands in the file, places it (a
    number without system counts as the global system). *)
Definition expected_position {F X} (place : (Z -> option F) -> F -> X -> outcome X) (l : list (card F X)) (cp : option Z) (x : X) : outcome X :=
  let c := default cp 0 in
  if c =? 0 then Ok x
  else match system_of l c with Some f => place (system_of l) f x | None => Ok x end.
Definition expected_system {F X} (l : list (card F X)) (cd : option Z) : option F :=
  let c := default cd 0 in if c =? 0 then None else system_of l c.

Lemma placed {F X} (place : (Z -> option F) -> F -> X -> outcome X) :
  (forall e e' f x, (forall c, e c = e' c) -> place e f x = place e' f x) ->
  forall n l r id cp x cd ps, 1 <= n -> Forall no_default_system l -> read_cards n l = Ok r -> grid_of l id = Some (cp, x, cd, ps) ->
  exists g, nds r id = Some g /\ global_position place r g = expected_position place l cp x /\
    displacement_system r g = Ok (expected_system l cd).
Proof.
  intros Hext n l r id cp x cd ps Hn Hl Hr Hg. destruct (state_cards n l Hn Hl r Hr) as [G D _ N].
  destruct (N _ _ _ _ _ Hg) as (g & N1 & N2 & N3 & N4). exists g. split; [exact N1|]. split.
  - unfold global_position, expected_position. rewrite N2. destruct N3 as [[-> ->]|(C & A & B)]; [reflexivity|].
    destruct (Z.eqb_spec (ncp g) 0); [lia|]. destruct (Z.eqb_spec (default cp 0) 0); [contradiction|].
    rewrite (by_position _ _ _ G A). cbn [bind]. rewrite D. destruct (system_of l (default cp 0)) as [f|]; [|reflexivity].
    apply Hext. exact D.
  - unfold displacement_system, expected_system. destruct N4 as [[-> ->]|(C & A & B)]; [reflexivity|].
    destruct (Z.eqb_spec (ncd g) 0); [lia|]. destruct (Z.eqb_spec (default cd 0) 0); [contradiction|].
    rewrite (by_position _ _ _ G A). now rewrite D.
Qed.

Lemma vector_to_global_ext n : forall e e' f x, (forall c, e c = e' c) -> vector_to_global n e f x = vector_to_global n e' f x.
Proof.
  induction n as [|n IH]; intros e e' f x H; [reflexivity|]. cbn [vector_to_global]. rewrite <- H.
  destruct (fkind f); try reflexivity; (destruct (rcs f =? 0); [reflexivity|]; destruct (e (rcs f)); cbn [bind of_option]; [now apply IH|reflexivity]).
Qed.
Lemma position_to_global_ext n : forall e e' f x, (forall c, e c = e' c) -> position_to_global n e f x = position_to_global n e' f x.
Proof.
  induction n as [|n IH]; intros e e' f x H; [reflexivity|]. cbn [position_to_global]. rewrite (vector_to_global_ext (S n) e e' f x H), <- H.
  destruct (fkind f); (destruct (rcs f =? 0); [reflexivity|]; destruct (e (rcs f)) as [h|]; cbn [bind of_option]; [|reflexivity]).
  - now rewrite (IH e e' h (origin f) H).
  - now apply IH.
  - now apply IH.
Qed.

(** Every bulk data whose GRDSET cards name no system, its cards in any order. *)
Theorem C71_nodes_placed_partial : forall fuel n (l : list (card frame vec)) r id cp x cd ps,
  1 <= n -> Forall no_default_system l -> read_cards n l = Ok r -> grid_of l id = Some (cp, x, cd, ps) ->
  exists g, nds r id = Some g /\
    global_position (position_to_global fuel) r g = expected_position (position_to_global fuel) l cp x /\
    displacement_system r g = Ok (expected_system l cd).
Proof. intros fuel n l r id cp x cd ps. apply placed. intros e e' f y. apply position_to_global_ext. Qed.

(** Such bulk data is read when its support codes can be. *)
Theorem C71_accepted : forall F X n (l : list (card F X)), 1 <= n -> Forall codes_valid l -> exists r, read_cards n l = Ok r.
Proof.
  intros F X n l Hn H.
  assert (K : exists r, read_cards n l = Ok r /\ good_storage (cs r) /\ valid_code (gps (grd r))).
  { induction l as [|k l IH] using rev_ind.
    - eexists. split; [reflexivity|]. split; [split; [exact Hn|split; [intros e []|constructor]]|left; reflexivity].
    - apply Forall_app in H. destruct H as [H1 H2]. inversion H2 as [|? ? Hk _]; subst. destruct (IH H1) as (r & R1 & R2 & R3).
      unfold read_cards. rewrite foldM_app'. fold (@read_cards F X n l). rewrite R1. cbn [bind foldM].
      destruct k as [cid f|cp cd ps|id cp x cd ps]; cbn [read_card codes_valid] in *.
      + eexists. split; [reflexivity|]. split; [now apply grow_good|exact R3].
      + unfold parse_grdset.
        assert (A : exists s p, (if default cp 0 =? 0 then Ok (cs r, gcp (grd r)) else find_or_reserve (cs r) (Named (default cp 0))) = Ok (s, p) /\ good_storage s).
        { destruct (Z.eqb_spec (default cp 0) 0) as [|N]; [eauto|]. destruct (find_or_reserve_spec _ _ R2 N) as (s & p & E1 & E2 & _). eauto. }
        destruct A as (s1 & p1 & E1 & G1). rewrite E1. cbn [bind fst snd].
        assert (B : exists s p, (if default cd 0 =? 0 then Ok (s1, gcd (grd r)) else find_or_reserve s1 (Named (default cd 0))) = Ok (s, p) /\ good_storage s).
        { destruct (Z.eqb_spec (default cd 0) 0) as [|N]; [eauto|]. destruct (find_or_reserve_spec _ _ G1 N) as (s & p & E & E' & _). eauto. }
        destruct B as (s2 & p2 & E2 & G2). rewrite E2. cbn [bind fst snd]. eexists. split; [reflexivity|]. split; [exact G2|exact Hk].
      + unfold parse_grid.
        destruct (resolve_spec (cs r) (default cp (gcp (grd r))) R2) as (s1 & p1 & E1 & G1 & _). rewrite E1. cbn [bind fst snd].
        destruct (resolve_spec s1 (default cd (gcd (grd r))) G1) as (s2 & p2 & E2 & G2 & _). rewrite E2. cbn [bind fst snd].
        assert (V : valid_code (default ps (gps (grd r)))) by (destruct ps; [exact Hk|exact R3]).
        destruct (Z.eqb_spec (default ps (gps (grd r))) 0) as [|N]; cbn [bind].
        * eexists. split; [reflexivity|]. split; [exact G2|exact R3].
        * destruct V as [V|[s V]]; [contradiction|]. rewrite V. cbn [bind]. eexists. split; [reflexivity|]. split; [exact G2|exact R3]. }
  destruct K as (r & K & _). now exists r.
Qed.

(** The permanent supports: those of each GRID card, or by default those of the
    last GRDSET card before it. *)
Theorem C71_permanent_supports : forall F X n (l : list (card F X)) r, read_cards n l = Ok r -> forall id s,
  In (id, s) (held r) <->
  exists l1 cp x cd ps l2, l = l1 ++ GRID id cp x cd ps :: l2 /\
    default ps (default_ps l1) <> 0 /\ nastranCodeToDOFS (default ps (default_ps l1)) = Ok s.
Proof.
  intros F X n l.
  assert (K : forall r, read_cards n l = Ok r -> gps (grd r) = default_ps l /\ forall id s, In (id, s) (held r) <->
    exists l1 cp x cd ps l2, l = l1 ++ GRID id cp x cd ps :: l2 /\
      default ps (default_ps l1) <> 0 /\ nastranCodeToDOFS (default ps (default_ps l1)) = Ok s).
  { induction l as [|k l IH] using rev_ind; intros r H.
    - inversion H; subst. split; [reflexivity|]. intros id s. split; [intros []|]. intros (l1 & cp & x & cd & ps & l2 & E & _). destruct l1; discriminate.
    - unfold read_cards in H. rewrite foldM_app' in H. fold (@read_cards F X n l) in H.
      destruct (read_cards n l) as [r0| | |]; try discriminate H. destruct (IH r0 eq_refl) as [I1 I2]. cbn [bind foldM] in H.
      destruct (read_card r0 k) as [r1| | |] eqn:E; try discriminate H. inversion H; subst r1; clear H IH.
      assert (Old : (forall i cp x cd ps, k <> GRID i cp x cd ps) -> forall id s,
        ((exists l1 cp x cd ps l2, l = l1 ++ GRID id cp x cd ps :: l2 /\ default ps (default_ps l1) <> 0 /\ nastranCodeToDOFS (default ps (default_ps l1)) = Ok s) <->
        (exists l1 cp x cd ps l2, l ++ [k] = l1 ++ GRID id cp x cd ps :: l2 /\ default ps (default_ps l1) <> 0 /\ nastranCodeToDOFS (default ps (default_ps l1)) = Ok s))).
      { intros Hk id s. split.
        - intros (l1 & cp & x & cd & ps & l2 & -> & Q). exists l1, cp, x, cd, ps, (l2 ++ [k]). rewrite <- app_assoc. now split.
        - intros (l1 & cp & x & cd & ps & l2 & Q & Q'). destruct l2 as [|k' l2 _] using rev_ind.
          + apply app_inj_tail in Q. destruct Q as [_ Q]. now apply Hk in Q.
          + exists l1, cp, x, cd, ps, l2. split; [|exact Q']. rewrite app_comm_cons, app_assoc in Q. now apply app_inj_tail in Q. }
      destruct k as [cid f|cp cd ps|id cp x cd ps]; cbn [read_card] in E.
      + inversion E; subst. cbn [grd held]. rewrite default_ps_snoc. split; [exact I1|]. intros id s. rewrite <- Old by discriminate. apply I2.
      + unfold parse_grdset in E.
        destruct (if default cp 0 =? 0 then Ok (cs r0, gcp (grd r0)) else find_or_reserve (cs r0) (Named (default cp 0))) as [a| | |]; try discriminate E. cbn [bind] in E.
        destruct (if default cd 0 =? 0 then Ok (fst a, gcd (grd r0)) else find_or_reserve (fst a) (Named (default cd 0))) as [b| | |]; try discriminate E. cbn [bind] in E.
        inversion E; subst. cbn [grd held gps]. rewrite default_ps_snoc. split; [reflexivity|]. intros id s. rewrite <- Old by discriminate. apply I2.
      + unfold parse_grid in E.
        destruct (if default cp (gcp (grd r0)) =? 0 then Ok (cs r0, 0) else find_or_reserve (cs r0) (Named (default cp (gcp (grd r0))))) as [a| | |]; try discriminate E. cbn [bind] in E.
        destruct (if default cd (gcd (grd r0)) =? 0 then Ok (fst a, 0) else find_or_reserve (fst a) (Named (default cd (gcd (grd r0))))) as [b| | |]; try discriminate E. cbn [bind] in E.
        rewrite I1 in E.
        assert (New : forall i s,
          (exists l1 cp0 x0 cd0 ps0 l2, l ++ [GRID id cp x cd ps] = l1 ++ GRID i cp0 x0 cd0 ps0 :: l2 /\ default ps0 (default_ps l1) <> 0 /\ nastranCodeToDOFS (default ps0 (default_ps l1)) = Ok s) <->
          (exists l1 cp0 x0 cd0 ps0 l2, l = l1 ++ GRID i cp0 x0 cd0 ps0 :: l2 /\ default ps0 (default_ps l1) <> 0 /\ nastranCodeToDOFS (default ps0 (default_ps l1)) = Ok s)
          \/ i = id /\ default ps (default_ps l) <> 0 /\ nastranCodeToDOFS (default ps (default_ps l)) = Ok s).
        { intros i s. split.
          - intros (l1 & cp0 & x0 & cd0 & ps0 & l2 & Q & Q'). destruct l2 as [|k' l2 _] using rev_ind.
            + apply app_inj_tail in Q. destruct Q as [-> Q]. inversion Q; subst. right. now split.
            + left. exists l1, cp0, x0, cd0, ps0, l2. split; [|exact Q']. rewrite app_comm_cons, app_assoc in Q. now apply app_inj_tail in Q.
          - intros [(l1 & cp0 & x0 & cd0 & ps0 & l2 & -> & Q')|[-> Q']].
            + exists l1, cp0, x0, cd0, ps0, (l2 ++ [GRID id cp x cd ps]). rewrite <- app_assoc. now split.
            + exists l, cp, x, cd, ps, []. now split. }
        destruct (Z.eqb_spec (default ps (default_ps l)) 0) as [Z0|NZ]; cbn [bind] in E.
        * inversion E; subst. cbn [grd held]. rewrite default_ps_snoc. split; [exact I1|]. intros i s. rewrite New, <- I2. split; [now left|].
          intros [Q|(_ & Q & _)]; [exact Q|contradiction].
        * destruct (nastranCodeToDOFS (default ps (default_ps l))) as [s0| | |] eqn:Es; cbn [bind] in E; try discriminate E.
          inversion E; subst. cbn [grd held]. rewrite default_ps_snoc. split; [exact I1|]. intros i s. rewrite New, <- I2, in_app_iff. cbn [In].
          split; (intros [Q|Q]; [now left|right]).
          -- destruct Q as [Q|[]]. inversion Q; subst. split; [reflexivity|]. split; [exact NZ|reflexivity].
          -- destruct Q as (-> & _ & Q). left. inversion Q; subst. reflexivity. }
  intros r H. apply (K r H).
Qed.

(** Refuted: a system given by GRDSET is not used.  What is kept as the default
    number is the position of the system in the register, [n] in both files:
    without a system of that number the node is in the global system, else it
    is in the wrong system. *)
Theorem C71_grdset_refuted : forall F X (place : (Z -> option F) -> F -> X -> outcome X) n c f x id,
  1 <= n -> c <> 0 -> c <> n -> forall r, read_cards n [GRDSET (Some c) None None; CORD c f; GRID id None x None None] = Ok r ->
  exists g, nds r id = Some g /\ global_position place r g = Ok x.
Proof.
  intros F X place n c f x id Hn Hc Hcn r H. cbv [read_cards foldM read_card new_reader parse_grdset default] in H.
  rewrite (proj2 (Z.eqb_neq c 0) Hc) in H. unfold find_or_reserve, find_position, reserve in H. cbn [csref_eqb cs refs find option_map] in H.
  rewrite (proj2 (Z.eqb_neq c 0) Hc) in H. cbn [bind fst snd Z.eqb] in H. unfold parse_grid in H. cbn [default gcp gcd gps grd cs cs_add next_pos refs defs nds held app Z.eqb] in H.
  destruct (Z.eqb_spec n 0); [lia|]. unfold find_or_reserve, find_position, reserve, cs_add in H. cbn [csref_eqb refs find snd next_pos app] in H.
  destruct (Z.eqb_spec n 0); [lia|]. rewrite (proj2 (Z.eqb_neq c n) Hcn) in H. cbn [option_map bind fst snd] in H. inversion H; subst; clear H.
  eexists. cbn [nds]. rewrite Z.eqb_refl. split; [reflexivity|]. unfold global_position. cbn [ncp coords]. destruct (Z.eqb_spec (n + 1 + 1) 0); [lia|].
  unfold find_by_position. cbn [cs refs app find fst]. destruct (Z.eqb_spec (n + 1 + 1) 0); [lia|].
  destruct (Z.eqb_spec n (n + 1 + 1)); [lia|]. destruct (Z.eqb_spec (n + 1) (n + 1 + 1)); [lia|]. rewrite Z.eqb_refl. cbn [bind snd defs csref_eqb].
  destruct (Z.eqb_spec n c); [congruence|]. reflexivity.
Qed.
Theorem C71_grdset_other_system_refuted : forall F X (place : (Z -> option F) -> F -> X -> outcome X) n c f f' x id,
  1 <= n -> c <> 0 -> c <> n -> forall r, read_cards n [CORD c f; CORD n f'; GRDSET (Some c) None None; GRID id None x None None] = Ok r ->
  exists g, nds r id = Some g /\ global_position place r g = place (named_systems r) f' x.
Proof.
  intros F X place n c f f' x id Hn Hc Hcn r H. cbv [read_cards foldM read_card new_reader parse_grdset default] in H.
  rewrite (proj2 (Z.eqb_neq c 0) Hc) in H. unfold find_or_reserve, find_position, reserve in H. cbn [csref_eqb cs cs_add refs find option_map app snd fst bind] in H.
  rewrite (proj2 (Z.eqb_neq c 0) Hc), Z.eqb_refl in H. cbn [bind fst snd Z.eqb option_map] in H. unfold parse_grid in H. cbn [default gcp gcd gps grd cs cs_add next_pos refs defs nds held app Z.eqb] in H.
  destruct (Z.eqb_spec n 0); [lia|]. unfold find_or_reserve, find_position, reserve, cs_add in H. cbn [csref_eqb refs find snd next_pos app] in H.
  destruct (Z.eqb_spec n 0); [lia|]. rewrite (proj2 (Z.eqb_neq c n) Hcn), Z.eqb_refl in H. cbn [option_map bind fst snd] in H. inversion H; subst; clear H.
  eexists. cbn [nds]. rewrite Z.eqb_refl. split; [reflexivity|]. unfold global_position. cbn [ncp coords]. destruct (Z.eqb_spec (n + 1) 0); [lia|].
  unfold find_by_position. cbn [cs refs app find fst]. destruct (Z.eqb_spec (n + 1) 0); [lia|].
  destruct (Z.eqb_spec n (n + 1)); [lia|]. rewrite Z.eqb_refl. cbn [bind snd defs csref_eqb].
  rewrite Z.eqb_refl. reflexivity.
Qed.
(** Refuted: the order of the cards matters; GRDSET has no effect on the nodes
    before it. *)
Theorem C71_order_refuted : exists (l l' : list (card unit unit)) r r',
  l = rev l' /\ read_cards 1 l = Ok r /\ read_cards 1 l' = Ok r' /\ held r = [(5, 7)] /\ held r' = [].
Proof.
  exists [GRDSET None None (Some 123); GRID 5 None tt None None], [GRID 5 None tt None None; GRDSET None None (Some 123)].
  eexists. eexists. split; [reflexivity|]. split; [reflexivity|]. split; [reflexivity|]. split; reflexivity.
Qed.
(** Systems that shift along a line: a node before its system, one after, one
    with supports, one without system. *)
Example C71_case :
  let place := fun (_ : Z -> option Z) f x => Ok (f + x) in
  let l := [GRID 1 (Some 5) 10 None None; GRDSET None None (Some 12); CORD 5 100; GRID 2 (Some 5) 20 (Some 5) (Some 0); GRID 3 None 30 None None] in
  Forall no_default_system l /\ Forall codes_valid l /\
  exists r g1 g2 g3, read_cards 1 l = Ok r /\ nds r 1 = Some g1 /\ nds r 2 = Some g2 /\ nds r 3 = Some g3 /\
    global_position place r g1 = Ok 110 /\ global_position place r g2 = Ok 120 /\ global_position place r g3 = Ok 30 /\
    displacement_system r g2 = Ok (Some 100) /\ displacement_system r g1 = Ok None /\ held r = [(3, 3)].
Proof.
  intros place l. split; [|split].
  - repeat constructor.
  - repeat apply Forall_cons; try apply Forall_nil; cbn [codes_valid default]; auto; try (left; reflexivity). right. exists 3. reflexivity.
  - let v := eval vm_compute in (read_cards 1 l) in match v with Ok ?r => exists r end.
    do 3 eexists. split; [vm_compute; reflexivity|]. do 3 (split; [vm_compute; reflexivity|]). vm_compute. repeat split.
Qed.

(** ** C72 *)
(** The nodes of a model, written one after the other. *)
Definition written {F X} (nodes : list (Z * gnode X)) : list (card F X) := map (fun p => write_grid (fst p) (snd p)) nodes.
Lemma grid_of_written {F X} nodes id g : NoDup (map fst nodes) -> In (id, g) nodes ->
  @grid_of F X (written nodes) id = Some (None, coords g, None, None).
Proof.
  induction nodes as [|[i h] nodes IH] using rev_ind; intros N H; [destruct H|]. unfold written in *. rewrite map_app. cbn [map fst snd]. rewrite grid_of_snoc. unfold write_grid at 1. cbv beta iota.
  rewrite map_app in N. cbn [map fst] in N. apply NoDup_remove in N. rewrite app_nil_r in N. destruct N as [N1 N2].
  apply in_app_or in H. destruct H as [H|[H|[]]].
  - destruct (Z.eqb_spec i id) as [->|_]; [|now apply IH]. exfalso. apply N2. apply in_map_iff. now exists (id, g).
  - inversion H; subst. now rewrite Z.eqb_refl.
Qed.
Lemma written_plain {F X} nodes : Forall no_default_system (@written F X nodes).
Proof. apply Forall_forall. intros k H. apply in_map_iff in H. destruct H as (p & <- & _). exact I. Qed.

(** A node that is written is read back with the coordinates it has in its own
    system, now taken in the global one: at the same place for a node of the
    global system ... *)
Theorem C72_written_nodes_partial : forall F X (place : (Z -> option F) -> F -> X -> outcome X) n r nodes,
  1 <= n -> NoDup (map fst nodes) -> (forall id g, In (id, g) nodes -> nds r id = Some g) ->
  exists r', read_cards n (written nodes) = Ok r' /\ forall id g, In (id, g) nodes ->
    exists g', nds r' id = Some g' /\ global_position place r' g' = Ok (coords g) /\ displacement_system r' g' = Ok None /\
      (ncp g = 0 -> global_position place r' g' = global_position place r g).
Proof.
  intros F X place n r nodes Hn HN Hr.
  destruct (C71_accepted F X n (written nodes) Hn) as (r' & R').
  { apply Forall_forall. intros k H. apply in_map_iff in H. destruct H as (p & <- & _). left. reflexivity. }
  exists r'. split; [exact R'|]. intros id g Hg.
  destruct (state_cards n _ Hn (written_plain nodes) r' R') as [G D _ N].
  destruct (N _ _ _ _ _ (grid_of_written nodes id g HN Hg)) as (g' & N1 & N2 & N3 & N4). exists g'. split; [exact N1|].
  destruct N3 as [[_ N3]|[N3 _]]; [|now contradiction N3]. destruct N4 as [[_ N4]|[N4 _]]; [|now contradiction N4].
  unfold global_position at 1 2, displacement_system. rewrite N3, N4, N2. split; [reflexivity|]. split; [reflexivity|].
  intros E. unfold global_position. now rewrite E.
Qed.
(** ... and elsewhere for every node that its system does not leave in place. *)
Theorem C72_local_nodes_refuted : forall F X (place : (Z -> option F) -> F -> X -> outcome X) n r nodes id g,
  1 <= n -> NoDup (map fst nodes) -> (forall id g, In (id, g) nodes -> nds r id = Some g) -> In (id, g) nodes ->
  global_position place r g <> Ok (coords g) ->
  exists r' g', read_cards n (written nodes) = Ok r' /\ nds r' id = Some g' /\ global_position place r' g' <> global_position place r g.
Proof.
  intros F X place n r nodes id g Hn HN Hr Hg Hp. destruct (C72_written_nodes_partial F X place n r nodes Hn HN Hr) as (r' & R1 & R2).
  destruct (R2 id g Hg) as (g' & G1 & G2 & _). exists r', g'. split; [exact R1|]. split; [exact G1|]. rewrite G2. intros E. now apply Hp.
Qed.
Example C72_case :
  let place := fun (_ : Z -> option Z) f x => Ok (f + x) in
  exists r g1 g2 r' h1 h2, read_cards 1 [CORD 5 100; GRID 1 (Some 5) 10 None None; GRID 2 None 30 None None] = Ok r /\
    nds r 1 = Some g1 /\ nds r 2 = Some g2 /\ global_position place r g1 = Ok 110 /\ global_position place r g2 = Ok 30 /\
    read_cards 4 (written [(1, g1); (2, g2)]) = Ok r' /\ nds r' 1 = Some h1 /\ nds r' 2 = Some h2 /\
    global_position place r' h1 = Ok 10 /\ global_position place r' h2 = Ok 30.
Proof.
  intros place. let v := eval vm_compute in (@read_cards Z Z 1 [CORD 5 100; GRID 1 (Some 5) 10 None None; GRID 2 None 30 None None]) in match v with Ok ?r => exists r end.
  exists (mkNode 10 1 0), (mkNode 30 0 0).
  let v := eval vm_compute in (@read_cards Z Z 4 (written [(1, mkNode 10 1 0); (2, mkNode 30 0 0)])) in match v with Ok ?r => exists r end.
  do 2 eexists. do 7 (split; [vm_compute; reflexivity|]). vm_compute. repeat split.
Qed.

(** The same from the texts: the number and, for coordinates within the range of
    C24, each coordinate with the accuracy of C24, no system, no support. *)
Definition printable (d : Z) (v : Z * Z) : Prop :=
  0 <= snd v /\ 11 <= d /\ 10 ^ d <= Z.abs (fst v) < 10 ^ (d + 1) /\ Z.abs (d - snd v) <= 998 /\ 5 * 10 ^ snd v < Z.abs (fst v) * 2 ^ 52.
Definition accurate (d : Z) (v : Z * Z) (m : decimal) : Prop :=
  0 <= snd m + snd v /\
  2 * Z.abs (fst m * 10 ^ (snd m + snd v) - fst v) <= 10 ^ (d - decimals_kept (d - snd v) (fst v <? 0)) + 10 ^ (d - 11).
Lemma read_padded w s : real_of_field (pad_left w s) = real_of_field s.
Proof. unfold real_of_field. now rewrite trim_pad_left. Qed.
Lemma printed_coordinate tie d v : printable d v -> exists m, real_of_field (real_text tie (fst v) (snd v)) = Ok m /\ accurate d v m.
Proof.
  destruct v as [n k]. intros (H1 & H2 & H3 & H4 & H5). cbn [fst snd] in *.
  destruct (C24_written_real tie n k d H1 H2 H3 H4 H5) as (t & m & e & A & _ & R & B). exists (m, e). unfold add_double in A.
  destruct (length (real_text tie n k) <=? 8)%nat; inversion A; subst. rewrite read_padded in R. split; [exact R|exact B].
Qed.
Lemma optional_end vec i : skipn i vec = [] -> optional_int (at_pos vec i) = Ok (None, at_pos vec i).
Proof.
  intros H. unfold optional_int, nextSymbolString, at_pos. cbn [cvec ccur csym]. rewrite (skipn_end _ _ H). cbn.
  apply (f_equal (@length _)) in H. rewrite skipn_length in H. cbn [length] in H. destruct (Nat.leb_spec (length vec) i); [reflexivity|lia].
Qed.
Lemma optional_blank vec i f r : skipn i vec = f :: r -> trim f = [] -> optional_int (at_pos vec i) = Ok (None, at_pos vec (S i)).
Proof.
  intros H Hf. unfold optional_int. rewrite (next_at vec i f) by apply (skipn_cons _ _ _ _ H). now rewrite trim_trim_right, Hf.
Qed.
Theorem C72_texts : forall tie id x y z dx dy dz kw, 0 <= id < 10 ^ 8 -> printable dx x -> printable dy y -> printable dz z ->
  exists mx my mz, grid_fields (at_pos (kw :: grid_text tie id x y z) 1) = Ok (id, None, (mx, my, mz), None, None) /\
    accurate dx x mx /\ accurate dy y my /\ accurate dz z mz.
Proof.
  intros tie id x y z dx dy dz kw Hid Hx Hy Hz.
  destruct (printed_coordinate tie dx x Hx) as (mx & X1 & X2). destruct (printed_coordinate tie dy y Hy) as (my & Y1 & Y2).
  destruct (printed_coordinate tie dz z Hz) as (mz & Z1 & Z2). exists mx, my, mz. split; [|auto].
  set (vec := kw :: grid_text tie id x y z). unfold grid_text in vec.
  rewrite <- (read_padded 0) in X1, Y1, Z1. 
  unfold grid_fields.
  pose proof (eq_refl : skipn 1 vec = int_text id :: _) as S1. rewrite (s_int _ _ _ _ S1 id) by apply nonneg_int, Hid. cbn [bind].
  pose proof (s_next _ _ _ _ S1) as S2. rewrite (optional_blank _ _ _ _ S2 eq_refl). cbn [bind].
  pose proof (s_next _ _ _ _ S2) as S3. rewrite (s_doubledef _ _ _ _ S3 _ mx) by exact X1. cbn [bind].
  pose proof (s_next _ _ _ _ S3) as S4. rewrite (s_doubledef _ _ _ _ S4 _ my) by exact Y1. cbn [bind].
  pose proof (s_next _ _ _ _ S4) as S5. rewrite (s_doubledef _ _ _ _ S5 _ mz) by exact Z1. cbn [bind].
  pose proof (s_next _ _ _ _ S5) as S6. rewrite (optional_end _ _ S6). cbn [bind]. rewrite (optional_end _ _ S6). reflexivity.
Qed.
Example C72_texts_case :
  printable 11 (123456789012, 10) /\ printable 11 (- 100000000000, 11) /\
  grid_fields (at_pos (txt "GRID" :: grid_text true 42 (123456789012, 10) (- 100000000000, 11) (123456789012, 10)) 1)
  = Ok (42, None, ((12346, -3), (-1, 0), (12346, -3)), None, None).
Proof. vm_compute. repeat split; discriminate. Qed.

(** ** C73 *)
(** Refuted: a coordinate system that is written cannot be read back.  The origin
    is written where the number of the reference system is read, and the text
    of a real is not that of an integer. *)
Lemma in_dropWhile p c l : p c = false -> In c l -> In c (dropWhile p l).
Proof.
  intros Hp. induction l as [|a l IH]; intros H; [destruct H|]. cbn [dropWhile]. destruct (p a) eqn:E; [|exact H].
  destruct H as [->|H]; [congruence|auto].
Qed.
Lemma in_trim c l : is_space c = false -> In c l -> In c (trim l).
Proof. intros Hc H. unfold trim, trim_right, trim_left. apply in_rev. rewrite rev_involutive. apply in_dropWhile; [exact Hc|]. apply in_rev. rewrite rev_involutive. now apply in_dropWhile. Qed.
Lemma in_trim_char z c l : z <> c -> In c l -> In c (trim_char z l).
Proof.
  intros Hc H. assert (E : Ascii.eqb z c = false) by now apply Ascii.eqb_neq. unfold trim_char.
  apply in_rev. rewrite rev_involutive. apply in_dropWhile; [exact E|]. apply in_rev. rewrite rev_involutive. now apply in_dropWhile.
Qed.
Lemma real_text_point tie n k : In "."%char (real_text tie n k).
Proof.
  unfold real_text. destruct (is_zero n k); [right; now left|]. destruct (sci12 n k) as [M E]. unfold pad_left. apply in_or_app. right. apply in_or_app. left.
  apply in_trim_char; [discriminate|]. apply in_or_app. right. unfold fixed_text. apply in_or_app. right. now left.
Qed.
Lemma point_not_int l : In "."%char l -> lexical_int l = Throw.
Proof.
  intros H. unfold lexical_int.
  assert (K : forall ds : str, In "."%char ds -> null ds || negb (forallb is_digit ds) = true).
  { intros ds Hd. apply orb_true_iff. right. apply negb_true_iff. destruct (forallb is_digit ds) eqn:E; [|reflexivity].
    rewrite forallb_forall in E. specialize (E _ Hd). discriminate E. }
  destruct l as [|c r]; [destruct H|]. destruct (Ascii.eqb_spec c "-") as [->|_]; [|destruct (Ascii.eqb_spec c "+") as [->|_]].
  - destruct H as [H|H]; [discriminate|]. now rewrite K.
  - destruct H as [H|H]; [discriminate|]. now rewrite K.
  - now rewrite K.
Qed.
Theorem C73_written_systems_refuted : forall tie cid x y z kw, 0 <= cid < 10 ^ 8 ->
  cord2_fields (at_pos (kw :: cord2_text tie cid x y z) 1) = Throw.
Proof.
  intros tie cid x y z kw Hc. unfold cord2_fields. set (vec := kw :: cord2_text tie cid x y z). unfold cord2_text in vec.
  pose proof (eq_refl : skipn 1 vec = int_text cid :: _) as S1. rewrite (s_int _ _ _ _ S1 cid) by apply nonneg_int, Hc. cbn [bind].
  pose proof (s_next _ _ _ _ S1) as S2. unfold nextIntDefault. rewrite (next_at vec 2 _ (proj1 (skipn_cons _ _ _ _ S2))). rewrite trim_trim_right.
  assert (P : In "."%char (trim (real_text tie (fst x) (snd x)))) by (apply in_trim; [reflexivity|apply real_text_point]).
  destruct (trim (real_text tie (fst x) (snd x))) as [|c r] eqn:E; [destruct P|]. cbn [null]. rewrite <- E in *. now rewrite (point_not_int _ P).
Qed.
(** What a readable card looks like: number, reference, three points. *)
Example C73_case : cord2_fields (at_pos (map txt ["CORD2R"; "5"; "0"; "0."; "0."; "0."; "0."; "0."; "1."; "1."; "0."; "0."]%string) 1)
  = Ok (5, 0, [(0,0);(0,0);(0,0);(0,0);(0,0);(1,0);(1,0);(0,0);(0,0)]) /\
  cord2_text true 5 (0, 0) (0, 0) (0, 0) = map txt ["5"; "0."; "0."; "0."]%string.
Proof. split; vm_compute; reflexivity. Qed.
(** ** The texts of GRID and CORD2 cards (C71) *)
(** An optional integer. *)
Definition int_opt (vec : list str) (i : nat) (n : option Z) : Prop :=
  match n with Some v => int_at vec i v | None => blank_at vec i end.
Lemma f_optional vec i n : int_opt vec i n -> optional_int (at_field vec i) = Ok (n, at_field vec (S i)).
Proof.
  intros H. unfold optional_int. rewrite next_field, trim_trim_right. destruct n as [n|]; cbn [int_opt] in H.
  - destruct (int_field_lex _ _ H) as [-> ->]. reflexivity.
  - unfold blank_at in H. rewrite H. reflexivity.
Qed.
Theorem C71_grid_read : forall vec id cp x y z cd ps,
  int_at vec 1 id -> int_opt vec 2 cp -> real_or (0, 0) vec 3 x -> real_or (0, 0) vec 4 y -> real_or (0, 0) vec 5 z ->
  int_opt vec 6 cd -> int_opt vec 7 ps -> grid_fields (at_field vec 1) = Ok (id, cp, (x, y, z), cd, ps).
Proof.
  intros vec id cp x y z cd ps H1 H2 H3 H4 H5 H6 H7. unfold grid_fields. rewrite (f_int _ _ _ H1). cbn [bind].
  rewrite (f_optional _ _ _ H2). cbn [bind]. rewrite (f_doubledef _ _ _ _ H3). cbn [bind]. rewrite (f_doubledef _ _ _ _ H4). cbn [bind].
  rewrite (f_doubledef _ _ _ _ H5). cbn [bind]. rewrite (f_optional _ _ _ H6). cbn [bind]. rewrite (f_optional _ _ _ H7). reflexivity.
Qed.
Lemma f_reals vec : forall l i, (forall j, (j < length l)%nat -> real_or (0, 0) vec (i + j) (nth j l (0, 0))) ->
  reals (length l) (at_field vec i) = Ok (l, at_field vec (i + length l)).
Proof.
  induction l as [|x l IH]; intros i H; cbn [length reals]; [now rewrite Nat.add_0_r|].
  rewrite (f_doubledef _ _ _ x). 2:{ specialize (H 0%nat). rewrite Nat.add_0_r in H. apply H. cbn. lia. }
  cbn [bind]. rewrite IH. 2:{ intros j Hj. specialize (H (S j)). replace (S i + j)%nat with (i + S j)%nat by lia. apply H. cbn. lia. }
  cbn [bind]. now replace (S i + length l)%nat with (i + S (length l))%nat by lia.
Qed.
Theorem C71_system_read : forall vec cid rid l,
  int_at vec 1 cid -> int_or 0 vec 2 rid -> length l = 9%nat ->
  (forall j, (j < 9)%nat -> real_or (0, 0) vec (3 + j) (nth j l (0, 0))) -> cord2_fields (at_field vec 1) = Ok (cid, rid, l).
Proof.
  intros vec cid rid l H1 H2 L H. unfold cord2_fields. rewrite (f_int _ _ _ H1). cbn [bind]. rewrite (f_intdef _ _ _ _ H2). cbn [bind].
  rewrite <- L. rewrite f_reals; [reflexivity|]. intros j Hj. apply H. lia.
Qed.
Example C71_texts_case :
  let vec := map txt ["GRID"; "42"; ""; "1.5"; ""; "-2.E3"; "7"; "345"]%string in
  int_opt vec 2 None /\ real_or (0, 0) vec 4 (0, 0) /\ int_opt vec 7 (Some 345) /\
  grid_fields (at_field vec 1) = Ok (42, None, ((15, -1), (0, 0), (-2, 3)), Some 7, Some 345).
Proof.
  cbn zeta. split; [reflexivity|]. split; [right; split; reflexivity|]. split; [|vm_compute; reflexivity].
  exists (txt "345"). split; [discriminate|]. split; [reflexivity|]. split; [vm_compute; split; discriminate|]. left. split; reflexivity.
Qed.

Print Assumptions C71_nodes_placed_partial.
Print Assumptions C71_permanent_supports.
Print Assumptions C72_written_nodes_partial.
Print Assumptions C72_texts.
Print Assumptions C73_written_systems_refuted.
Print Assumptions C71_grid_read.
Print Assumptions C71_system_read.
