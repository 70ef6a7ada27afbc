(** Property C104: the materials of the Nastran files, written and read back.

    Spec: a material comes back with its number and its constants, each one as the
    writer prints a real. *)
From Coq Require Import Ascii String QArith ZArith Reals Qreals List Bool Arith Lia Lra.
From Verif Require Import Base TextModel TextProofs TokenizerModel TokenizerProofs NextIntsProofs RealModel WriterLineModel WriterLineProofs WriterRealProofs PropertiesTokenizer PropertiesWriterLine
  CardModel CardProofs LoadCardModel FieldProofs PropCardModel PropertiesReal PropertiesGrid PropertiesLoadCards PropertiesPropCards SectionModel PropertiesSections GeomModel OrientModel PropertiesOrient
  NastranElementModel NastranElementProofs PropertiesNastranElement MaterialModel PropertiesMaterial.
Import ListNotations.
Open Scope Z_scope.
Open Scope list_scope.

(** ** Spec *)
(** The printed number: close to the one written, as [printed] says (C24). *)
Definition back (v : wreal) (x : option R) : Prop := exists m, x = Some (dec_R m) /\ printed v m.
Definition material_back (w : wmaterial) (m : Z * list nature) : Prop :=
  exists e g nu rho alpha tref ge n, wm_elastic w = Some ([e; g; nu; rho; alpha; tref], ge) /\ m = (wm_id w, [Elastic n]) /\
    back e (el_e n) /\ back g (el_g n) /\ back nu (el_nu n) /\ back rho (el_rho n) /\ back alpha (el_alpha n) /\ back tref (el_tref n) /\
    match ge with Some v => back v (el_ge n) | None => el_ge n = None end.
Definition sound_material (w : wmaterial) : Prop :=
  number (wm_id w) /\ exists l ge, wm_elastic w = Some (l, ge) /\ length l = 6%nat /\ Forall wok l /\ match ge with Some v => wok v | None => True end.
Definition written (tie : bool) (ws : list wmaterial) (counter : Z) : list str := fst (write_cards (map (write_material tie) ws) counter).

Lemma new_material ms id n : ~ In id (map fst ms) -> add_nature (create ms id) id n = Ok (ms ++ [(id, [n])]).
Proof.
  intros H. unfold create. destruct (existsb _ ms) eqn:X.
  - exfalso. apply H. apply existsb_exists in X as (m & I & E). apply Z.eqb_eq in E. rewrite <- E. now apply in_map.
  - clear X. induction ms as [|[i ns] ms IH]; cbn [app add_nature]; [rewrite Z.eqb_refl; reflexivity|]. cbn [map fst In] in H. destruct (Z.eqb_spec i id); [tauto|]. rewrite IH by tauto. reflexivity.
Qed.
Lemma keyword_mat : keyword (txt "MAT1").
Proof.
  split; [discriminate|]. split; [split; [cbn; lia|]; split; [intros c [E|E]; cbn in E; injection E as <-; reflexivity|split; cbn; intros X; decompose [or] X; try contradiction; discriminate]|].
  split; [cbn; intros X; decompose [or] X; try contradiction; discriminate|]. split; [cbn; intros X; decompose [or] X; try contradiction; discriminate|discriminate].
Qed.
Lemma written_card tie w : sound_material w -> keyword (fst (write_material tie w)) /\ Forall wire (snd (write_material tie w)) /\ length (snd (write_material tie w)) = 8%nat /\
  exists n, says (fst (write_material tie w) :: map trim (snd (write_material tie w))) (Some (wm_id w, Elastic n)) /\ material_back w (wm_id w, [Elastic n]).
Proof.
  intros (N & l & ge & E & L & W & G). unfold write_material. rewrite E. cbn [fst snd]. destruct (wire_int _ N) as [W1 T1].
  assert (Wg : wire (match ge with Some v => real_field tie v | None => [] end)) by (destruct ge; [apply wire_real; apply G|apply wire_blank]).
  split; [exact keyword_mat|]. split; [constructor; [exact W1|]; apply Forall_app; split; [apply Forall_map; eapply Forall_impl; [|exact W]; intros v [V1 V2]; now apply wire_real|constructor; [exact Wg|constructor]]|].
  split; [cbn [length]; rewrite app_length, map_length, L; reflexivity|].
  do 6 (destruct l as [|? l]; [discriminate L|]). destruct l; [|discriminate L]. clear L.
  rewrite !Forall_cons_iff in W. destruct W as (H1 & H2 & H3 & H4 & H5 & H7 & _).
  destruct (wire_real_at tie _ H1) as (m1 & A1 & B1). destruct (wire_real_at tie _ H2) as (m2 & A2 & B2). destruct (wire_real_at tie _ H3) as (m3 & A3 & B3).
  destruct (wire_real_at tie _ H4) as (m4 & A4 & B4). destruct (wire_real_at tie _ H5) as (m5 & A5 & B5). destruct (wire_real_at tie _ H7) as (m6 & A6 & B6).
  assert (Gm : exists m, match ge with Some v => exists x, m = Some x /\ real_of_field (trim (real_field tie v)) = Ok x /\ printed v x | None => m = None end).
  { destruct ge as [v|]; [|now exists None]. destruct (wire_real_at tie v G) as (x & Ax & Bx). exists (Some x). exists x. auto. }
  destruct Gm as (m & Gm).
  exists (mkElastic (Some (dec_R m1)) (Some (dec_R m3)) (Some (dec_R m2)) (Some (dec_R m4)) (Some (dec_R m5)) (Some (dec_R m6)) (option_map dec_R m)). split.
  - cbn [map app]. rewrite T1. apply (says_mat1 _ (wm_id w) (Some m1) (Some m2) (Some m3) (Some m4) (Some m5) (Some m6) m None None None 0).
    + reflexivity.
    + apply int_text_at; [exact N|reflexivity].
    + intros j Hj. cbn [length] in Hj. do 6 (destruct j as [|j]; [assumption|]). destruct j as [|j].
      * cbn [nth Nat.add]. destruct ge as [v|]; [destruct Gm as (x & -> & Ax & _); exact Ax|subst m; reflexivity].
      * do 3 (destruct j as [|j]; [reflexivity|]). lia.
    + right. split; reflexivity.
    + apply iso_all.
  - eexists _, _, _, _, _, _, ge, _. split; [exact E|]. split; [reflexivity|]. cbn [el_e el_g el_nu el_rho el_alpha el_tref el_ge].
    repeat (split; [eexists; split; [reflexivity|eassumption]|]). destruct ge as [v|]; [destruct Gm as (x & -> & _ & Bx); exists x; split; [reflexivity|exact Bx]|now subst m].
Qed.
(** Materials with elastic constants and different numbers come back, in order. *)
Theorem C104_written : forall tie ws counter, Forall sound_material ws -> NoDup (map wm_id ws) -> 0 <= counter -> counter + 8 * Z.of_nat (length ws) < 10 ^ 7 ->
  exists file ms, read_cards (S (length ws)) (written tie ws counter) = Ok file /\ run_cards file = Ok ms /\ Forall2 material_back ws ms.
Proof.
  intros tie ws counter F N C B. pose proof (lines_read (map (write_material tie) ws) counter) as L. rewrite map_length in L. eexists. unfold written.
  assert (X : exists ms, foldM run_card (map (fun c => fst c :: map trim (snd c)) (map (write_material tie) ws)) [] = Ok ms /\ Forall2 material_back ws ms).
  { assert (G : forall ms0, (forall i, In i (map wm_id ws) -> ~ In i (map fst ms0)) -> exists ms, foldM run_card (map (fun c => fst c :: map trim (snd c)) (map (write_material tie) ws)) ms0 = Ok (ms0 ++ ms) /\ Forall2 material_back ws ms).
    { clear - F N. induction F as [|w ws H F IH]; intros ms0 D; [exists []; rewrite app_nil_r; split; [reflexivity|constructor]|].
      destruct (written_card tie w H) as (_ & _ & _ & n & S & M). cbn [map foldM]. rewrite (one_card _ _ S). rewrite new_material by (apply D; now left). cbn [bind].
      cbn [map] in N. inversion N as [|? ? N1 N2]; subst. destruct (IH N2 (ms0 ++ [(wm_id w, [Elastic n])])) as (ms & E & Q).
      - intros i I J. rewrite map_app in J. cbn [map fst] in J. apply in_app_or in J as [J|[J|[]]]; [apply (D i); [now right|exact J]|]. subst i. contradiction.
      - exists ((wm_id w, [Elastic n]) :: ms). split; [rewrite E, <- app_assoc; reflexivity|]. constructor; assumption. }
    destruct (G []) as (ms & E & Q); [intros i _ []|]. exists ms. split; assumption. }
  destruct X as (ms & E & Q). exists ms. split; [|split; [exact E|exact Q]]. apply L.
  - apply Forall_map. eapply Forall_impl; [|exact F]. intros w H. destruct (written_card tie w H) as (K1 & K2 & _). now split.
  - exact C.
  - rewrite map_map. replace (list_sum (map (fun x => length (snd (write_material tie x))) ws)) with (8 * length ws)%nat; [lia|].
    clear - F. induction F as [|w ws H F IH]; [reflexivity|]. unfold list_sum in *. cbn [map fold_right length]. destruct (written_card tie w H) as (_ & _ & -> & _). lia.
Qed.
(** A material without them (a ply, a rubber, a material that is missing) is written
    too: it comes back as isotropic without any stiffness. *)
Theorem C104_stiffness_refuted : forall tie id counter, number id -> 0 <= counter < 10 ^ 6 -> exists file n,
  read_cards 2 (written tie [mkWmaterial id None] counter) = Ok file /\ run_cards file = Ok [(id, [Elastic n])] /\
  el_e n = Some 0%R /\ el_g n = Some 0%R /\ el_nu n = Some 0%R /\ el_rho n = None.
Proof.
  intros tie id counter N C. destruct (wire_int _ N) as [W1 T1].
  exists [[txt "MAT1"; int_text id]], (mkElastic (Some 0%R) (Some 0%R) (Some 0%R) None None None None). split.
  - unfold written, write_material. cbn [map wm_id wm_elastic]. etransitivity; [apply (lines_read [(txt "MAT1", [int_text id])] counter)|cbn [map fst snd]; now rewrite T1].
    + constructor; [|constructor]. split; [exact keyword_mat|constructor; [exact W1|constructor]].
    + lia.
    + cbn. lia.
  - split; [|repeat split]. unfold run_cards. cbn [foldM].
    rewrite (one_card _ (Some (id, Elastic (mkElastic (Some 0%R) (Some 0%R) (Some 0%R) None None None None)))); [rewrite new_material by (intros []); reflexivity|].
    apply (says_mat1 _ id None None None None None None None None None None 0).
    + reflexivity.
    + apply int_text_at; [exact N|reflexivity].
    + intros j Hj. cbn [length] in Hj. do 10 (destruct j as [|j]; [reflexivity|]). lia.
    + right. split; reflexivity.
    + apply iso_none.
Qed.

(** ** Example *)
(** Two materials, steel and one with damping, written with numbers that fit. *)
Definition steel : wmaterial := mkWmaterial 4 (Some ([(21 * 10 ^ 10, 0); (75 * 10 ^ 10, 1); (4 * 10 ^ 11, 12); (785 * 10 ^ 9, 8); (0, 0); (20 * 10 ^ 10, 10)], None)).
Definition damped : wmaterial := mkWmaterial 9 (Some ([(7 * 10 ^ 11, 1); (26 * 10 ^ 10, 1); (35 * 10 ^ 10, 12); (27 * 10 ^ 10, 8); (0, 0); (0, 0)], Some (2 * 10 ^ 11, 13))).
Example C104_case : Forall sound_material [steel; damped] /\ NoDup (map wm_id [steel; damped]) /\
  exists file ms, read_cards 3 (written true [steel; damped] 1) = Ok file /\ run_cards file = Ok ms /\ Forall2 material_back [steel; damped] ms.
Proof.
  assert (Z0 : wok (0, 0)) by (split; [right; reflexivity|cbn; lia]).
  assert (P : forall v, printable 11 v -> wok v) by (intros v H; apply (plain_number _ 11); [exact H|apply H]).
  assert (S : Forall sound_material [steel; damped]).
  { constructor; [|constructor; [|constructor]]; (split; [unfold number; cbn; lia|]); eexists _, _; (split; [reflexivity|]); (split; [reflexivity|]); (split; [|cbn [wm_elastic]; try exact Logic.I; try (apply P; unfold printable; vm_compute; intuition discriminate)]);
      repeat (constructor; [lazymatch goal with |- wok (0, 0) => exact Z0 | _ => apply P; unfold printable; vm_compute; intuition discriminate end|]); constructor. }
  assert (D : NoDup (map wm_id [steel; damped])) by (cbn; repeat (constructor; [cbn; intros X; repeat destruct X as [X|X]; try discriminate X; exact X|]); constructor).
  split; [exact S|]. split; [exact D|]. apply (C104_written true [steel; damped] 1 S D); cbn; lia.
Qed.

Print Assumptions C104_written.
Print Assumptions C104_stiffness_refuted.
