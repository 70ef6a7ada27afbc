(** Property C103: the isotropic layers of composites made orthotropic.

    Spec: the law of a thin layer in its plane and across it, isotropic and
    orthotropic; the layers of the composites before and after. *)
From Coq Require Import Ascii String QArith ZArith Reals Qreals List Bool Arith Lia Lra.
From Verif Require Import Base TextModel SectionModel OrientModel MaterialModel PropertiesMaterial PropertiesAsterMaterial.
Import ListNotations.
Open Scope Z_scope.
Open Scope list_scope.

(** ** Spec *)
(** Stresses of a layer in plane stress from the strains e1, e2, g12 and the shears
    across g1z, g2z. *)
Definition isotropic_law (e nu g : R) (e1 e2 g12 g1z g2z : R) : R * R * R * R * R :=
  (e / (1 - nu * nu) * (e1 + nu * e2), e / (1 - nu * nu) * (e2 + nu * e1), g * g12, g * g1z, g * g2z)%R.
(** Orthotropic: nu21 = nu12 E2 / E1. *)
Definition orthotropic_law (el et nu glt gln gtn : R) (e1 e2 g12 g1z g2z : R) : R * R * R * R * R :=
  let nu21 := (nu * et / el)%R in
  (el / (1 - nu * nu21) * (e1 + nu21 * e2), et / (1 - nu * nu21) * (e2 + nu * e1), glt * g12, gln * g1z, gtn * g2z)%R.
Definition ply (ns : list nature) : Prop := exists o, In (Ortho o) ns.
(** A material that may be a layer: a ply, or isotropic with all its constants. *)
Definition usable (ns : list nature) : Prop := NoDup (map kind ns) /\ (ply ns \/ exists e nu g rho a tref ge, In (Elastic (mkElastic (Some e) (Some nu) (Some g) rho a tref ge)) ns).
(** What the new material of an isotropic layer is. *)
Definition same_layer (mult : option R) (old new : list nature) : Prop :=
  exists e nu g rho a tref ge o gln gtn, In (Elastic (mkElastic (Some e) (Some nu) (Some g) rho a tref ge)) old /\ new = [Ortho o] /\
    o_gln o = Some gln /\ o_gtn o = Some gtn /\ o_rho o = Some (density mult rho) /\
    (e <> 0%R -> forall e1 e2 g12 g1z g2z, orthotropic_law (o_el o) (o_et o) (o_nu o) (o_glt o) gln gtn e1 e2 g12 g1z g2z = isotropic_law e nu g e1 e2 g12 g1z g2z).

(** ** Proofs *)
Lemma natures_app ms r id ns : natures_of ms id = Some ns -> natures_of (ms ++ r) id = Some ns.
Proof. unfold natures_of. induction ms as [|m ms IH]; [discriminate|]. cbn [app find]. destruct (fst m =? id); [tauto|exact IH]. Qed.
Lemma natures_new ms id ns : natures_of ms id = None -> natures_of (ms ++ [(id, ns)]) id = Some ns.
Proof. unfold natures_of. induction ms as [|m ms IH]; cbn [app find fst]; [rewrite Z.eqb_refl; reflexivity|]. destruct (fst m =? id); [discriminate|exact IH]. Qed.
Lemma natures_other ms id id' ns : id <> id' -> natures_of ms id' = None -> natures_of (ms ++ [(id, ns)]) id' = None.
Proof. intros D. unfold natures_of. induction ms as [|m ms IH]; cbn [app find fst]; [destruct (Z.eqb_spec id id'); [contradiction|reflexivity]|]. destruct (fst m =? id'); [discriminate|exact IH]. Qed.
Section Replace.
Variables (mult : option R) (ms0 : materials) (next0 : Z).
Hypothesis fresh : forall id ns, natures_of ms0 id = Some ns -> id < next0.
Definition replaced (id : Z) : Prop := exists ns, natures_of ms0 id = Some ns /\ ~ ply ns.
Record inv (st : replacing) : Prop := mkInv {
  i_kept : forall id ns, natures_of ms0 id = Some ns -> natures_of (r_materials st) id = Some ns;
  i_free : forall id, r_next st <= id -> natures_of (r_materials st) id = None;
  i_next : next0 <= r_next st;
  i_done : forall id new, In (id, new) (r_done st) -> next0 <= new < r_next st /\ exists ns ns', natures_of ms0 id = Some ns /\ ~ ply ns /\ natures_of (r_materials st) new = Some ns' /\ same_layer mult ns ns';
  i_fst : NoDup (map fst (r_done st)); i_snd : NoDup (map snd (r_done st)) }.
Definition grows (st st' : replacing) : Prop := forall p, In p (r_done st) -> In p (r_done st').
(** What becomes of a layer. *)
Definition becomes (st : replacing) (id id' : Z) : Prop := exists ns, natures_of ms0 id = Some ns /\ ((ply ns /\ id' = id) \/ (~ ply ns /\ In (id, id') (r_done st))).
Lemma becomes_grows st st' id id' : grows st st' -> becomes st id id' -> becomes st' id id'.
Proof. intros G (ns & E & [H|[H I]]); exists ns; split; auto. Qed.
Lemma layer_law e nu g e1 e2 g12 g1z g2z : e <> 0%R -> orthotropic_law e e nu g g g e1 e2 g12 g1z g2z = isotropic_law e nu g e1 e2 g12 g1z g2z.
Proof. intros N. unfold orthotropic_law, isotropic_law. cbv zeta. replace (nu * e / e)%R with nu by (field; exact N). reflexivity. Qed.
Lemma one_layer st assigned id ns : inv st -> natures_of ms0 id = Some ns -> usable ns ->
  exists st' assigned' id', replace_layer mult st assigned id = Ok (st', assigned', id') /\ inv st' /\ grows st st' /\ becomes st' id id' /\
    (In id assigned \/ ~ ply ns -> In id' assigned') /\ (forall x, In x assigned -> ~ replaced x -> In x assigned').
Proof.
  intros I E [N U]. unfold replace_layer. rewrite (i_kept st I id ns E).
  assert (As : forall l x y, In x l -> In x (assign l y)) by (intros l x y H; unfold assign; destruct (existsb _ l); [exact H|apply in_or_app; now left]).
  assert (An : forall l y, In y (assign l y)).
  { intros l y. unfold assign. destruct (existsb _ l) eqn:X; [|apply in_or_app; right; now left]. apply existsb_exists in X as (x & X1 & X2). apply Z.eqb_eq in X2. now subst. }
  destruct (find (fun p => fst p =? id) (r_done st)) as [[i new]|] eqn:D.
  - apply find_some in D as [D1 D2]. cbn [fst] in D2. apply Z.eqb_eq in D2. subst i. destruct (i_done st I id new D1) as (_ & ns' & _ & E' & P & _). assert (ns' = ns) by congruence. subst ns'.
    eexists st, _, _. split; [reflexivity|]. split; [exact I|]. split; [intros p H; exact H|]. split; [exists ns; split; [exact E|right; now split]|]. split; [intros _; apply An|intros x X _; now apply As].
  - destruct (find_ortho ns) as [o|] eqn:Fo.
    + apply found_ortho in Fo. assert (P : ply ns) by (now exists o). eexists st, _, _. split; [reflexivity|]. split; [exact I|]. split; [intros p H; exact H|]. split; [exists ns; split; [exact E|left; now split]|]. split; [intros [H|H]; [exact H|contradiction]|auto].
    + assert (P : ~ ply ns) by (intros [o H]; rewrite (find_ortho_in ns o N H) in Fo; discriminate).
      destruct U as [U|(e & nu & g & rho & a & tref & ge & U)]; [contradiction|]. rewrite (find_elastic_in ns _ N U). unfold isotropic_layer, constants. cbn [el_e el_g el_nu get_e get_g get_nu bind el_rho].
      eexists _, _, _. split; [reflexivity|]. pose proof (i_next st I) as IN.
      assert (Dn : ~ In id (map fst (r_done st))).
      { intros X. apply in_map_iff in X as ([i n] & X1 & X2). cbn [fst] in X1. subst i. apply (find_none _ _ D) in X2. cbn [fst] in X2. rewrite Z.eqb_refl in X2. discriminate. }
      assert (Dm : ~ In (r_next st) (map snd (r_done st))).
      { intros X. apply in_map_iff in X as ([i n] & X1 & X2). cbn [snd] in X1. subst n. destruct (i_done st I _ _ X2) as [L _]. lia. }
      split; [|split; [intros p H; cbn [r_done]; apply in_or_app; now left|split; [exists ns; split; [exact E|right; split; [exact P|cbn [r_done]; apply in_or_app; right; now left]]|]]].
      * constructor; cbn [r_materials r_next r_done].
        -- intros i l H. apply natures_app, (i_kept st I), H.
        -- intros i H. apply natures_other; [lia|]. apply (i_free st I). lia.
        -- lia.
        -- intros i n H. apply in_app_or in H as [H|[H|[]]].
           ++ destruct (i_done st I i n H) as (L & l & l' & A1 & A2 & A3 & A4). split; [lia|]. exists l, l'. repeat (split; [assumption|]). split; [apply natures_app, A3|exact A4].
           ++ injection H as <- <-. split; [lia|]. eexists ns, _. split; [exact E|]. split; [exact P|]. split; [apply natures_new, (i_free st I); lia|].
              eexists e, nu, g, rho, a, tref, ge, _, g, g. split; [exact U|]. split; [reflexivity|]. cbn [o_gln o_gtn o_rho o_el o_et o_nu o_glt].
              split; [reflexivity|]. split; [reflexivity|]. split; [unfold density, get_rho; destruct rho, mult; reflexivity|]. intros Ne e1 e2 g12 g1z g2z. now apply layer_law.
        -- rewrite map_app. cbn [map fst]. apply PropertiesGrid.NoDup_app_snoc; [exact (i_fst st I)|exact Dn].
        -- rewrite map_app. cbn [map snd]. apply PropertiesGrid.NoDup_app_snoc; [exact (i_snd st I)|exact Dm].
      * split; [intros _; apply An|]. intros x X R. apply As. unfold unassign. apply filter_In. split; [exact X|]. destruct (Z.eqb_spec x id) as [->|]; [|reflexivity]. exfalso. apply R. exists ns. now split.
Qed.
Lemma layers_spec layers : forall st assigned, inv st -> Forall (fun id => exists ns, natures_of ms0 id = Some ns /\ usable ns) layers ->
  exists st' assigned' layers', replace_layers mult st assigned layers = Ok (st', assigned', layers') /\ inv st' /\ grows st st' /\ Forall2 (becomes st') layers layers' /\
    (forall x, In x assigned -> ~ replaced x -> In x assigned') /\ ((forall id ns, In id layers -> natures_of ms0 id = Some ns -> ply ns -> In id assigned) -> forall id, In id layers' -> In id assigned').
Proof.
  induction layers as [|id layers IH]; intros st assigned I F; cbn [replace_layers].
  - eexists st, _, _. split; [reflexivity|]. split; [exact I|]. split; [intros p H; exact H|]. split; [constructor|]. split; [auto|]. intros _ x [].
  - inversion F as [|? ? (ns & E & U) F']; subst. destruct (one_layer st assigned id ns I E U) as (st1 & as1 & id1 & R1 & I1 & G1 & B1 & A1 & K1). rewrite R1. cbn [bind].
    destruct (IH st1 as1 I1 F') as (st2 & as2 & l2 & R2 & I2 & G2 & B2 & K2 & C2). rewrite R2. cbn [bind].
    eexists st2, as2, _. split; [reflexivity|]. split; [exact I2|]. split; [intros p H; apply G2, G1, H|]. split; [constructor; [exact (becomes_grows _ _ _ _ G2 B1)|exact B2]|].
    split; [intros x X R; apply K2; [apply K1; assumption|exact R]|].
    (* new layers are not replaced ones *)
    assert (Nr : forall i i', becomes st2 i i' -> ~ replaced i').
    { intros i i' (l & El & [[P ->]|[P D]]) (l' & El' & P'); [congruence|]. destruct (i_done st2 I2 i i' D) as [L _]. pose proof (fresh _ _ El'). lia. }
    intros All x [X|X].
    + subst x. apply K2; [|exact (Nr id id1 (becomes_grows _ _ _ _ G2 B1))]. apply A1. destruct B1 as (l & El & [[P _]|[P _]]); [left; apply (All id l); [now left|exact El|exact P]|right; congruence].
    + apply C2; [|exact X]. intros i l J El P. apply K1; [apply (All i l); [now right|exact El|exact P]|]. intros (l' & El' & P'). congruence.
Qed.
Lemma composites_spec cs : forall st, inv st -> Forall (fun c => Forall (fun id => exists ns, natures_of ms0 id = Some ns /\ usable ns) (c_layers c)) cs ->
  exists st' cs', replace_isotropic mult st cs = Ok (st', cs') /\ inv st' /\ grows st st' /\
    Forall2 (fun c c' => Forall2 (becomes st') (c_layers c) (c_layers c') /\ ((forall id, In id (c_layers c) -> In id (c_assigned c)) -> forall id, In id (c_layers c') -> In id (c_assigned c'))) cs cs'.
Proof.
  induction cs as [|c cs IH]; intros st I F; cbn [replace_isotropic].
  - eexists st, _. split; [reflexivity|]. split; [exact I|]. split; [intros p H; exact H|constructor].
  - inversion F as [|? ? F1 F2]; subst. destruct (layers_spec (c_layers c) st (c_assigned c) I F1) as (st1 & as1 & l1 & R1 & I1 & G1 & B1 & _ & C1). rewrite R1. cbn [bind].
    destruct (IH st1 I1 F2) as (st2 & cs2 & R2 & I2 & G2 & Q2). rewrite R2. cbn [bind]. eexists st2, _. split; [reflexivity|]. split; [exact I2|]. split; [intros p H; apply G2, G1, H|].
    constructor; [|exact Q2]. cbn [c_layers c_assigned]. split; [|intros All; apply C1; intros id ns J _ _; now apply All].
    clear - B1 G2. induction B1 as [|i i' l l' H _ IHB]; constructor; [exact (becomes_grows _ _ _ _ G2 H)|exact IHB].
Qed.
End Replace.

(** ** C103 *)
(** Every layer keeps its behaviour: a ply stays, an isotropic layer gets a new
    orthotropic material, one for each isotropic material, with the same stiffness;
    the materials that were there are not changed, and the materials of the layers
    are assigned to the composites. *)
Theorem C103_layers_partial mult ms next cs :
  (forall id ns, natures_of ms id = Some ns -> id < next) -> (forall id, next <= id -> natures_of ms id = None) ->
  Forall (fun c => Forall (fun id => exists ns, natures_of ms id = Some ns /\ usable ns) (c_layers c)) cs ->
  exists st cs' f, replace_isotropic mult (mkReplacing ms next []) cs = Ok (st, cs') /\
    Forall2 (fun c c' => c_layers c' = map f (c_layers c) /\ ((forall id, In id (c_layers c) -> In id (c_assigned c)) -> forall id, In id (c_layers c') -> In id (c_assigned c'))) cs cs' /\
    (forall id ns, natures_of ms id = Some ns -> natures_of (r_materials st) id = Some ns) /\
    (forall c id ns, In c cs -> In id (c_layers c) -> natures_of ms id = Some ns -> (ply ns -> f id = id) /\
       (~ ply ns -> exists ns', natures_of (r_materials st) (f id) = Some ns' /\ same_layer mult ns ns' /\ next <= f id /\
          forall c' id' ns1, In c' cs -> In id' (c_layers c') -> natures_of ms id' = Some ns1 -> ~ ply ns1 -> f id' = f id -> id' = id)).
Proof.
  intros F1 F2 H. assert (I : inv mult ms next (mkReplacing ms next [])) by (constructor; cbn; try constructor; auto; try lia; intros ? ? []).
  destruct (composites_spec mult ms next F1 cs _ I H) as (st & cs' & R & I' & _ & Q).
  pose (f := fun id => match find (fun p => fst p =? id) (r_done st) with Some (_, new) => new | None => id end).
  assert (Fd : forall id new, In (id, new) (r_done st) -> f id = new).
  { intros id new D. unfold f. pose proof (i_fst _ _ _ _ I') as N. clear - D N. induction (r_done st) as [|[i n] l IH]; [destruct D|]. cbn [map fst find] in *. inversion N as [|? ? A B]; subst.
    destruct D as [D|D]; [injection D as -> ->; rewrite Z.eqb_refl; reflexivity|]. destruct (Z.eqb_spec i id) as [->|]; [|exact (IH D B)]. exfalso. apply A. apply (in_map fst) in D. exact D. }
  assert (Fp : forall id ns, natures_of ms id = Some ns -> ply ns -> f id = id).
  { intros id ns E P. unfold f. destruct (find _ _) as [[i n]|] eqn:X; [|reflexivity]. apply find_some in X as [X1 X2]. cbn [fst] in X2. apply Z.eqb_eq in X2. subst i.
    destruct (i_done _ _ _ _ I' _ _ X1) as (_ & l & _ & E' & P' & _). congruence. }
  assert (Fb : forall id id', becomes ms st id id' -> id' = f id).
  { intros id id' (ns & E & [[P ->]|[P D]]); symmetry; [exact (Fp id ns E P)|exact (Fd id id' D)]. }
  exists st, cs', f. split; [exact R|]. split; [|split; [exact (i_kept _ _ _ _ I')|]].
  - clear - Q Fb. induction Q as [|c c' cs cs' [B A] _ IH]; constructor; [|exact IH]. split; [|exact A]. clear - B Fb. induction B as [|i i' l l' H _ IH]; [reflexivity|]. cbn [map]. rewrite (Fb _ _ H), IH. reflexivity.
  - intros c id ns C L E. split; [exact (Fp id ns E)|]. intros P.
    assert (G : forall c id ns, In c cs -> In id (c_layers c) -> natures_of ms id = Some ns -> ~ ply ns -> In (id, f id) (r_done st)).
    { clear - Q Fb. intros c id ns C L E P. assert (B : becomes ms st id (f id)).
      { induction Q as [|c0 c0' cs cs' [B _] _ IH]; [destruct C|]. destruct C as [->|C]; [|exact (IH C)]. clear - B L Fb. induction B as [|i i' l l' H _ IH]; [destruct L|]. destruct L as [->|L]; [|exact (IH L)]. rewrite <- (Fb _ _ H). exact H. }
      destruct B as (l & El & [[Pl _]|[_ D]]); [congruence|exact D]. }
    pose proof (G c id ns C L E P) as D. destruct (i_done _ _ _ _ I' _ _ D) as (B & l & l' & E' & _ & E2 & S). assert (l = ns) by congruence. subst l.
    exists l'. split; [exact E2|]. split; [exact S|]. split; [lia|]. intros c' id' ns1 C' L' E1 P1 X. pose proof (G c' id' ns1 C' L' E1 P1) as D'. rewrite X in D'.
    pose proof (i_snd _ _ _ _ I') as N. revert D D' N. generalize (f id) as x. clear. intros x D D' N. induction (r_done st) as [|[i n] r IH]; [destruct D|]. cbn [map snd] in N. inversion N as [|? ? A B]; subst.
    destruct D as [D|D], D' as [D'|D']; [congruence| | |exact (IH D D' B)]; exfalso; apply A; [injection D as -> ->; apply (in_map snd) in D'; exact D'|injection D' as -> ->; apply (in_map snd) in D; exact D].
Qed.

(** ** Where C103 fails *)
(** The density of the new material has the parameter WTMASS twice in the Aster
    file. *)
Theorem C103_density_refuted : forall k e nu g rho a tref ge, rho <> 0%R -> k <> 0%R -> k <> 1%R ->
  exists o, isotropic_layer (Some k) (mkElastic (Some e) (Some nu) (Some g) (Some rho) a tref ge) = Ok (Ortho o) /\
    In ("RHO"%string, Some (rho * k * k)%R) (keyword_ortho (Some k) o) /\ (rho * k * k)%R <> density (Some k) (Some rho).
Proof.
  intros k e nu g rho a tref ge N K K1. eexists. split; [reflexivity|]. split; [cbn; auto 12|]. cbn [density]. intros E.
  apply K1. apply (Rmult_eq_reg_l (rho * k)%R); [lra|]. intros X. apply Rmult_integral in X as [X|X]; contradiction.
Qed.
(** Expansion and damping of the layer are lost. *)
Theorem C103_expansion_refuted : forall mult e nu g rho a1 t1 d1 a2 t2 d2,
  isotropic_layer mult (mkElastic e nu g rho a1 t1 d1) = isotropic_layer mult (mkElastic e nu g rho a2 t2 d2).
Proof. reflexivity. Qed.
(** A layer of a material with neither nature (a rubber): the nature that is not
    there is used. *)
Theorem C103_rubber_refuted : forall mult h next, 5 < next -> replace_isotropic mult (mkReplacing [(5, [Hyper h])] next []) [mkComposite [5] [5]] = UB.
Proof. reflexivity. Qed.
(** In the second composite the replaced material stays assigned. *)
Theorem C103_assigned_refuted : forall mult e nu g rho a tref ge, exists st cs',
  replace_isotropic mult (mkReplacing [(5, [Elastic (mkElastic (Some e) (Some nu) (Some g) rho a tref ge)])] 6 []) [mkComposite [5] [5]; mkComposite [5; 5] [5]] = Ok (st, cs') /\
  cs' = [mkComposite [6] [6]; mkComposite [6; 6] [5; 6]].
Proof. intros. eexists _, _. split; reflexivity. Qed.

(** ** Example *)
(** A ply, aluminium, a core; two composites that share the aluminium. *)
Definition aluminium : elastic := mkElastic (Some 70000%R) (Some (3 / 10)%R) (Some (70000 / (2 * (1 + 3 / 10)))%R) (Some (27 / 10)%R) None None None.
Definition core : elastic := mkElastic (Some 100%R) (Some 0%R) (Some 50%R) None None None None.
Definition carbon : ortho := mkOrtho 140000 9000 (3 / 10) 5000 None None None None None None None None None None None None.
Definition stock : materials := [(1, [Ortho carbon]); (4, [Elastic aluminium]); (7, [Elastic core])].
Definition panels : list composite := [mkComposite [1; 4; 1] [1; 4]; mkComposite [4; 7; 4] [4; 7]].
Example C103_case : Forall (fun c => Forall (fun id => exists ns, natures_of stock id = Some ns /\ usable ns) (c_layers c)) panels /\
  exists st cs', replace_isotropic None (mkReplacing stock 8 []) panels = Ok (st, cs') /\ map c_layers cs' = [[1; 8; 1]; [8; 9; 8]] /\
    natures_of (r_materials st) 9 = Some [Ortho (mkOrtho 100 100 0 50 (Some 50%R) (Some 50%R) (Some 0%R) None None None None None None None None None)].
Proof.
  split; [|eexists _, _; split; [reflexivity|split; reflexivity]].
  assert (U1 : usable [Ortho carbon]) by (split; [repeat constructor; intros []|left; exists carbon; now left]).
  assert (U2 : usable [Elastic aluminium]) by (split; [repeat constructor; intros []|right; eexists _, _, _, _, _, _, _; left; reflexivity]).
  assert (U3 : usable [Elastic core]) by (split; [repeat constructor; intros []|right; eexists _, _, _, _, _, _, _; left; reflexivity]).
  repeat constructor; eexists; (split; [reflexivity|assumption]).
Qed.

Print Assumptions C103_layers_partial.
Print Assumptions C103_density_refuted.
Print Assumptions C103_expansion_refuted.
Print Assumptions C103_rubber_refuted.
Print Assumptions C103_assigned_refuted.
