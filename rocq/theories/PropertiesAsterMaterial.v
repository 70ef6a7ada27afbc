(** Property C102: the materials of a Nastran deck in the Aster command file.

    Spec: which number of which card is which number of DEFI_MATERIAU; the tension
    curves and the strain energies the two programs make of their numbers. *)
From Coq Require Import Ascii String QArith ZArith Reals Qreals List Bool Arith Lia Lra Psatz.
From Verif Require Import Base TextModel TextProofs TokenizerModel RealModel CardModel FieldProofs PropCardModel PropertiesPropCards PropertiesOrient PropertiesLoadCards SectionModel OrientModel MaterialModel PropertiesMaterial.
Import ListNotations.
Open Scope Z_scope.
Open Scope list_scope.

(** ** Spec *)
Definition command := list (string * list (string * option R)).
(** The numbers under a keyword, and that there is only one such keyword. *)
Definition under (c : command) (kw : string) (fs : list (string * option R)) : Prop := In (kw, fs) c /\ forall fs', In (kw, fs') c -> fs' = fs.
(** The name has that number, and no other one; or the name is not there. *)
Definition has (fs : list (string * option R)) (name : string) (v : option R) : Prop :=
  match v with Some _ => In (name, v) fs /\ (forall v', In (name, v') fs -> v' = v) | None => forall v', ~ In (name, v') fs end.
(** The density is a mass: the number of the card times the parameter WTMASS. *)
Definition density (mult rho : option R) : R := match rho, mult with Some r, Some k => (r * k)%R | Some r, None => r | None, _ => 0%R end.

(** ** Natures found *)
Lemma find_elastic_in ns n : NoDup (map kind ns) -> In (Elastic n) ns -> find_elastic ns = Some n.
Proof.
  induction ns as [|m ns IH]; [intros _ []|]. cbn [map find_elastic fold_right]. intros N [->|I]; [reflexivity|]. inversion N as [|? ? A B]; subst.
  destruct m; try (apply IH; assumption). exfalso. apply A. apply (in_map kind) in I. exact I.
Qed.
Lemma find_ortho_in ns n : NoDup (map kind ns) -> In (Ortho n) ns -> find_ortho ns = Some n.
Proof.
  induction ns as [|m ns IH]; [intros _ []|]. cbn [map find_ortho fold_right]. intros N [->|I]; [reflexivity|]. inversion N as [|? ? A B]; subst.
  destruct m; try (apply IH; assumption). exfalso. apply A. apply (in_map kind) in I. exact I.
Qed.
Lemma find_hyper_in ns n : NoDup (map kind ns) -> In (Hyper n) ns -> find_hyper ns = Some n.
Proof.
  induction ns as [|m ns IH]; [intros _ []|]. cbn [map find_hyper fold_right]. intros N [->|I]; [reflexivity|]. inversion N as [|? ? A B]; subst.
  destruct m; try (apply IH; assumption). exfalso. apply A. apply (in_map kind) in I. exact I.
Qed.
Lemma find_bilinear_in ns n : NoDup (map kind ns) -> In (Bilinear n) ns -> find_bilinear ns = Some n.
Proof.
  induction ns as [|m ns IH]; [intros _ []|]. cbn [map find_bilinear fold_right]. intros N [->|I]; [reflexivity|]. inversion N as [|? ? A B]; subst.
  destruct m; try (apply IH; assumption). exfalso. apply A. apply (in_map kind) in I. exact I.
Qed.
Lemma found_elastic ns n : find_elastic ns = Some n -> In (Elastic n) ns.
Proof. induction ns as [|m ns IH]; [discriminate|]. cbn [find_elastic fold_right]. destruct m; cbn [In]; auto. intros E. injection E as <-. now left. Qed.
Lemma found_ortho ns n : find_ortho ns = Some n -> In (Ortho n) ns.
Proof. induction ns as [|m ns IH]; [discriminate|]. cbn [find_ortho fold_right]. destruct m; cbn [In]; auto. intros E. injection E as <-. now left. Qed.
Lemma found_hyper ns n : find_hyper ns = Some n -> In (Hyper n) ns.
Proof. induction ns as [|m ns IH]; [discriminate|]. cbn [find_hyper fold_right]. destruct m; cbn [In]; auto. intros E. injection E as <-. now left. Qed.
Lemma found_bilinear ns n : find_bilinear ns = Some n -> In (Bilinear n) ns.
Proof. induction ns as [|m ns IH]; [discriminate|]. cbn [find_bilinear fold_right]. destruct m; cbn [In]; auto. intros E. injection E as <-. now left. Qed.

(** ** The command *)
Lemma command_spec mult alpha beta ns : NoDup (map kind ns) -> (forall n, In (Elastic n) ns -> exists e nu g, el_e n = Some e /\ el_nu n = Some nu /\ el_g n = Some g) ->
  exists c, defi_materiau mult alpha beta ns = Ok c /\
    (forall n, In (Elastic n) ns -> exists k, keyword_elas mult alpha beta n = Ok k /\ under c "ELAS" k) /\
    (forall n, In (Hyper n) ns -> under c "ELAS_HYPER" (keyword_hyper n)) /\
    (forall n, In (Ortho n) ns -> under c "ELAS_ORTH" (keyword_ortho mult n)) /\
    (forall n, In (Bilinear n) ns -> under c "ECRO_LINE" (keyword_ecro n)) /\
    (forall kw fs, In (kw, fs) c -> (kw = "ELAS" /\ (exists n, In (Elastic n) ns) \/ kw = "ELAS_HYPER" /\ (exists n, In (Hyper n) ns) \/
       kw = "ELAS_ORTH" /\ (exists n, In (Ortho n) ns) \/ kw = "ECRO_LINE" /\ exists n, In (Bilinear n) ns)%string).
Proof.
  intros N G. unfold defi_materiau.
  assert (K : forall n, In (Elastic n) ns -> exists k, keyword_elas mult alpha beta n = Ok k).
  { intros n I. destruct (G n I) as (e & nu & g & E1 & E2 & E3). unfold keyword_elas, constants. rewrite E1, E2, E3. cbn [get_e get_nu bind]. eexists. reflexivity. }
  assert (H1 := find_elastic_in ns). assert (H2 := find_ortho_in ns). assert (H3 := find_hyper_in ns). assert (H4 := find_bilinear_in ns).
  assert (F1 := found_elastic ns). assert (F2 := found_ortho ns). assert (F3 := found_hyper ns). assert (F4 := found_bilinear ns).
  assert (X : exists l, match find_elastic ns with Some n => do k <- keyword_elas mult alpha beta n; Ok [("ELAS"%string, k)] | None => Ok [] end = Ok l /\
    match find_elastic ns with Some n => exists k, keyword_elas mult alpha beta n = Ok k /\ l = [("ELAS"%string, k)] | None => l = [] end).
  { destruct (find_elastic ns) as [n|]; [|exists []; split; reflexivity]. destruct (K n (F1 _ eq_refl)) as [k Ek]. rewrite Ek. eexists. split; [reflexivity|]. exists k. split; reflexivity. }
  destruct X as (l & -> & X). cbn [bind]. eexists. split; [reflexivity|]. clear G K. unfold under.
  destruct (find_elastic ns) as [ne|], (find_hyper ns) as [nh|], (find_ortho ns) as [no|], (find_bilinear ns) as [nb|]; try (destruct X as (k & Ek & ->)); try subst l; cbn [app];
  (split; [intros n J; specialize (H1 n N J); first [discriminate H1|injection H1 as <-; exists k; split; [exact Ek|]]|
   split; [intros n J; specialize (H3 n N J); first [discriminate H3|injection H3 as <-]|
   split; [intros n J; specialize (H2 n N J); first [discriminate H2|injection H2 as <-]|
   split; [intros n J; specialize (H4 n N J); first [discriminate H4|injection H4 as <-]|]]]]);
  cbn [In]; first [intros kw fs J; repeat destruct J as [J|J]; try contradiction; injection J as <- <-; eauto 9
   |split; [auto 8|intros fs' L; repeat destruct L as [L|L]; try contradiction; try discriminate L; injection L as <-; reflexivity]].
Qed.
Lemma has_table (l : list (string * option R)) : NoDup (map fst l) -> forall name v, In (name, v) l -> has (flat_map (fun p => given (fst p) (snd p)) l) name v.
Proof.
  intros N name v I.
  assert (G : forall name' v', In (name', v') (flat_map (fun p => given (fst p) (snd p)) l) -> In (name', v') l /\ v' <> None).
  { intros name' v' J. apply in_flat_map in J as ([a b] & J1 & J2). cbn [fst snd] in J2. unfold given in J2. destruct b as [b|]; [|destruct J2]. destruct J2 as [J2|[]]. injection J2 as <- <-. split; [exact J1|discriminate]. }
  assert (U : forall v', In (name, v') l -> v' = v).
  { intros v' J. clear G. induction l as [|[a b] l IH]; [destruct I|]. cbn [map fst] in N. inversion N as [|? ? A B]; subst.
    destruct I as [I|I], J as [J|J]; [congruence| | |auto]; exfalso; apply A; [injection I as -> ->; apply (in_map fst) in J; exact J|injection J as -> ->; apply (in_map fst) in I; exact I]. }
  unfold has. destruct v as [v|].
  - split; [apply in_flat_map; exists (name, Some v); split; [exact I|now left]|]. intros v' J. apply U, G, J.
  - intros v' J. destruct (G _ _ J) as [J1 J2]. apply J2, U, J1.
Qed.
Lemma read_constants cards xs : Forall2 says cards xs -> forall id n, In (id, Elastic n) (said xs) -> exists e nu g, el_e n = Some e /\ el_nu n = Some nu /\ el_g n = Some g.
Proof.
  induction 1 as [|card x cards xs H _ IH]; [intros id n []|]. intros id n I. unfold said in I. cbn [flat_map] in I. apply in_app_or in I as [I|I]; [|exact (IH id n I)].
  destruct H; cbn in I; try tauto; destruct I as [I|[]]; injection I as <- I; try discriminate I. subst n. cbn. eexists _, _, _. repeat split; reflexivity.
Qed.
Lemma material_of cards xs mult alpha beta : Forall2 says cards xs -> once (said xs) -> exists ms, run_cards cards = Ok ms /\
  forall id n, In (id, n) (said xs) -> exists ns c, In (id, ns) ms /\ In n ns /\ (forall ns', In (id, ns') ms -> ns' = ns) /\ NoDup (map kind ns) /\ defi_materiau mult alpha beta ns = Ok c /\
    (forall n, In (Elastic n) ns -> exists k, keyword_elas mult alpha beta n = Ok k /\ under c "ELAS" k) /\
    (forall n, In (Hyper n) ns -> under c "ELAS_HYPER" (keyword_hyper n)) /\
    (forall n, In (Ortho n) ns -> under c "ELAS_ORTH" (keyword_ortho mult n)) /\
    (forall n, In (Bilinear n) ns -> under c "ECRO_LINE" (keyword_ecro n)).
Proof.
  intros S O. destruct (C101_deck cards xs S O) as (ms & E & Q & U & V). exists ms. split; [exact E|]. intros id n I.
  apply Q in I as J. destruct J as (ns & J1 & J2). destruct (V id ns J1) as [V1 _].
  destruct (command_spec mult alpha beta ns V1) as (c & D1 & D2 & D3 & D4 & D5 & _).
  { intros m M. apply (read_constants cards xs S id). apply Q. exists ns. split; assumption. }
  exists ns, c. repeat (split; [assumption|]). split; [|tauto].
  intros ns' J. clear - U J J1. induction ms as [|[i l] ms IH]; [destruct J|]. cbn [map fst] in U. inversion U as [|? ? A B]; subst.
  destruct J as [J|J], J1 as [J1|J1]; [congruence| | |auto]; exfalso; apply A; [injection J as -> ->; apply (in_map fst) in J1; exact J1|injection J1 as -> ->; apply (in_map fst) in J; exact J].
Qed.

(** ** C102 *)
(** What the Aster file says of the material of that number: its keyword has those
    numbers. *)
Definition aster_says (cards : list (list str)) (mult alpha beta : option R) (id : Z) (kw : string) (table : list (string * option R)) : Prop :=
  exists ms ns c fs, run_cards cards = Ok ms /\ In (id, ns) ms /\ (forall ns', In (id, ns') ms -> ns' = ns) /\ defi_materiau mult alpha beta ns = Ok c /\ under c kw fs /\
    forall name v, In (name, v) table -> has fs name v.
(** An isotropic material: its constants, density, damping. *)
Theorem C102_isotropic cards xs mult alpha beta id e nu g rho a tref ge : Forall2 says cards xs -> once (said xs) -> In (id, Elastic (mkElastic e nu g rho a tref ge)) (said xs) ->
  aster_says cards mult alpha beta id "ELAS"
    [("E", e); ("NU", nu); ("RHO", Some (density mult rho)); ("AMOR_HYST", ge); ("AMOR_ALPHA", alpha); ("AMOR_BETA", beta)]%string /\ e <> None /\ nu <> None.
Proof.
  intros S O I. destruct (read_constants cards xs S _ _ I) as (e' & nu' & g' & E1 & E2 & E3). cbn [el_e el_nu el_g] in *. subst e nu g. split; [|split; discriminate].
  destruct (material_of cards xs mult alpha beta S O) as (ms & R & G). destruct (G _ _ I) as (ns & c & J1 & J2 & J3 & N & D & G1 & _). destruct (G1 _ J2) as (k & K & U).
  exists ms, ns, c, k. repeat (split; [assumption|]). unfold keyword_elas, constants in K. cbn [el_e el_nu el_g get_e get_nu bind el_ge el_rho] in K. injection K as <-.
  intros name v T. set (table := [("E"%string, _); _; _; _; _; _]) in T.
  replace (_ :: _) with (flat_map (fun p => given (fst p) (snd p)) table).
  - apply has_table; [|exact T]. cbn. repeat (constructor; [cbn; intros X; repeat destruct X as [X|X]; try discriminate X; exact X|]). constructor.
  - unfold table. cbn [flat_map fst snd]. rewrite app_nil_r. cbn [given app]. unfold density, get_rho. destruct rho, mult; reflexivity.
Qed.
(** A ply: every number of the card but the limit in tension across (YT). *)
Theorem C102_ply_partial cards xs mult alpha beta id o : Forall2 says cards xs -> once (said xs) -> In (id, Ortho o) (said xs) ->
  aster_says cards mult alpha beta id "ELAS_ORTH"
    [("E_L", Some (o_el o)); ("E_T", Some (o_et o)); ("G_LT", Some (o_glt o)); ("G_TN", o_gtn o); ("G_LN", o_gln o); ("NU_LT", Some (o_nu o)); ("RHO", Some (density mult (o_rho o)));
     ("XC", o_xc o); ("XT", o_xt o); ("YC", o_yc o); ("S_LT", o_slt o); ("ALPHA_L", o_al o); ("ALPHA_T", o_at o); ("ALPHA_N", o_an o); ("TEMP_DEF_ALPHA", o_temp o)]%string.
Proof.
  intros S O I. destruct (material_of cards xs mult alpha beta S O) as (ms & R & G). destruct (G _ _ I) as (ns & c & J1 & J2 & J3 & N & D & _ & _ & G1 & _). pose proof (G1 _ J2) as U.
  exists ms, ns, c, (keyword_ortho mult o). repeat (split; [assumption|]). intros name v T. set (table := [("E_L"%string, _); _; _; _; _; _; _; _; _; _; _; _; _; _; _]) in T.
  replace (keyword_ortho mult o) with (flat_map (fun p => given (fst p) (snd p)) table).
  - apply has_table; [|exact T]. cbn. repeat (constructor; [cbn; intros X; repeat destruct X as [X|X]; try discriminate X; exact X|]). constructor.
  - unfold table, keyword_ortho. cbn [flat_map fst snd]. rewrite app_nil_r. cbn [given app]. unfold density, get_rho. destruct (o_rho o), mult; reflexivity.
Qed.
(** A rubber: the constants of its energy. *)
Theorem C102_rubber_partial cards xs mult alpha beta id h : Forall2 says cards xs -> once (said xs) -> In (id, Hyper h) (said xs) ->
  aster_says cards mult alpha beta id "ELAS_HYPER" [("C10", Some (h_c10 h)); ("C01", Some (h_c01 h)); ("C20", Some (h_c20 h)); ("K", Some (h_k h)); ("RHO", Some (h_rho h))]%string.
Proof.
  intros S O I. destruct (material_of cards xs mult alpha beta S O) as (ms & R & G). destruct (G _ _ I) as (ns & c & J1 & J2 & J3 & N & D & _ & G1 & _). pose proof (G1 _ J2) as U.
  exists ms, ns, c, (keyword_hyper h). repeat (split; [assumption|]). intros name v T.
  pose proof (has_table (keyword_hyper h)) as P. assert (Q : flat_map (fun p => given (fst p) (snd p)) (keyword_hyper h) = keyword_hyper h) by reflexivity. rewrite Q in P. apply P.
  - cbn. repeat (constructor; [cbn; intros X; repeat destruct X as [X|X]; try discriminate X; exact X|]). constructor.
  - unfold keyword_hyper. cbn [In] in *. tauto.
Qed.
(** A material that hardens: its limit and the slope on the card. *)
Theorem C102_hardening_partial cards xs mult alpha beta id limit slope : Forall2 says cards xs -> once (said xs) -> In (id, Bilinear (mkBilinear (Some limit) (Some slope))) (said xs) ->
  aster_says cards mult alpha beta id "ECRO_LINE" [("SY", Some limit); ("D_SIGM_EPSI", Some slope)]%string.
Proof.
  intros S O I. destruct (material_of cards xs mult alpha beta S O) as (ms & R & G). destruct (G _ _ I) as (ns & c & J1 & J2 & J3 & N & D & _ & _ & _ & G1). pose proof (G1 _ J2) as U.
  eexists ms, ns, c, _. repeat (split; [eassumption|]). intros name v T. unfold keyword_ecro, has. cbn [In b_slope b_limit] in *.
  destruct T as [T|[T|[]]]; injection T as <- <-; (split; [auto|]); intros v' X; repeat destruct X as [X|X]; try contradiction; injection X as <-; try reflexivity; discriminate.
Qed.

(** ** What the numbers mean *)
(** The tension curve of MATS1: beyond the limit the stress is the limit plus the
    slope times the plastic strain; that of ECRO_LINE: beyond the limit a line of
    the given slope in the total strain. *)
Definition nastran_curve (e h y eps s : R) : Prop := ((e * eps <= y /\ s = e * eps) \/ (exists p, 0 <= p /\ s = y + h * p /\ eps = s / e + p))%R.
Definition aster_curve (e t y eps s : R) : Prop := ((e * eps <= y /\ s = e * eps) \/ (y <= e * eps /\ s = y + t * (eps - y / e)))%R.
(** The slope Aster expects. *)
Lemma tangent_slope e h y eps s : (0 < e)%R -> (0 <= h)%R -> nastran_curve e h y eps s <-> aster_curve e (e * h / (e + h)) y eps s.
Proof.
  intros E H. unfold nastran_curve, aster_curve. split; (intros [C|C]; [now left|right]).
  - destruct C as (p & P & -> & ->). split.
    + replace (e * ((y + h * p) / e + p))%R with (y + (h * p + e * p))%R by (field; lra). nra.
    + field. split; lra.
  - destruct C as [L ->]. exists (e / (e + h) * (eps - y / e))%R. split; [|split; field; split; lra].
    apply Rmult_le_pos; [apply Rlt_le, Rdiv_lt_0_compat; lra|]. apply (Rmult_le_reg_l e); [exact E|]. rewrite Rmult_0_r. replace (e * (eps - y / e))%R with (e * eps - y)%R by (field; lra). lra.
Qed.
(** Without hardening, the slope of the card is the one expected. *)
Theorem C102_perfect cards xs mult alpha beta id limit : Forall2 says cards xs -> once (said xs) -> In (id, Bilinear (mkBilinear (Some limit) (Some 0%R))) (said xs) ->
  exists t y, aster_says cards mult alpha beta id "ECRO_LINE" [("SY", Some y); ("D_SIGM_EPSI", Some t)]%string /\
    forall e eps s, (0 < e)%R -> nastran_curve e 0 limit eps s <-> aster_curve e t y eps s.
Proof.
  intros S O I. exists 0%R, limit. split; [exact (C102_hardening_partial cards xs mult alpha beta id limit 0 S O I)|]. intros e eps s E.
  rewrite tangent_slope by lra. replace (e * 0 / (e + 0))%R with 0%R by (field; lra). tauto.
Qed.
(** With hardening, the curve of the Aster file is not that of the deck. *)
Theorem C102_slope_refuted : forall cards xs mult alpha beta id limit slope, Forall2 says cards xs -> once (said xs) -> In (id, Bilinear (mkBilinear (Some limit) (Some slope))) (said xs) -> (0 < slope)%R ->
  exists t y, aster_says cards mult alpha beta id "ECRO_LINE" [("SY", Some y); ("D_SIGM_EPSI", Some t)]%string /\
    forall e, (0 < e)%R -> exists eps s, nastran_curve e slope limit eps s /\ ~ aster_curve e t y eps s.
Proof.
  intros cards xs mult alpha beta id limit slope S O I P. exists slope, limit. split; [exact (C102_hardening_partial cards xs mult alpha beta id limit slope S O I)|]. intros e E.
  exists ((limit + slope * 1) / e + 1)%R, (limit + slope * 1)%R. split; [right; exists 1%R; repeat split; lra|].
  assert (X : (e * ((limit + slope * 1) / e + 1) = limit + slope + e)%R) by (field; lra).
  intros [[C _]|[_ C]]; [rewrite X in C; lra|].
  assert (Y : (slope * ((limit + slope * 1) / e + 1 - limit / e) = slope + slope * (slope / e))%R) by (field; lra).
  rewrite Y in C. assert (0 < slope * (slope / e))%R by (apply Rmult_lt_0_compat; [exact P|apply Rdiv_lt_0_compat; assumption]). lra.
Qed.
(** A blank slope or limit is written as the number that stands for none. *)
Theorem C102_blank_refuted : forall mult alpha beta limit, exists c fs, defi_materiau mult alpha beta [Bilinear (mkBilinear limit None)] = Ok c /\ under c "ECRO_LINE" fs /\ In ("D_SIGM_EPSI"%string, None) fs.
Proof.
  intros mult alpha beta limit. eexists _, _. split; [reflexivity|]. split; [split; [left; reflexivity|]|left; reflexivity]. intros fs' [X|[]]. now injection X as <-.
Qed.
(** The energies of a rubber: in x = I1 - 3, y = I2 - 3 and the ratio of volumes. *)
Definition mathp_energy (c10 c01 c20 d1 x y j : R) : R := (c10 * x + c01 * y + c20 * x * x + d1 * ((j - 1) * (j - 1)))%R.
Definition elas_hyper_energy (c10 c01 c20 k x y j : R) : R := (c10 * x + c01 * y + c20 * x * x + k / 2 * ((j - 1) * (j - 1)))%R.
(** They are the same at constant volume only. *)
Theorem C102_volume_refuted : forall cards xs mult alpha beta id h, Forall2 says cards xs -> once (said xs) -> In (id, Hyper h) (said xs) -> h_k h <> 0%R ->
  exists c10 c01 c20 k, aster_says cards mult alpha beta id "ELAS_HYPER" [("C10", Some c10); ("C01", Some c01); ("C20", Some c20); ("K", Some k)]%string /\
    (forall x y, mathp_energy (h_c10 h) (h_c01 h) (h_c20 h) (h_k h) x y 1 = elas_hyper_energy c10 c01 c20 k x y 1) /\
    (forall x y j, j <> 1%R -> mathp_energy (h_c10 h) (h_c01 h) (h_c20 h) (h_k h) x y j <> elas_hyper_energy c10 c01 c20 k x y j).
Proof.
  intros cards xs mult alpha beta id h S O I K. exists (h_c10 h), (h_c01 h), (h_c20 h), (h_k h). split.
  { destruct (C102_rubber_partial cards xs mult alpha beta id h S O I) as (ms & ns & c & fs & A1 & A2 & A3 & A4 & A5 & A6). exists ms, ns, c, fs. repeat (split; [assumption|]).
    intros name v T. apply A6. cbn [In] in *. tauto. }
  unfold mathp_energy, elas_hyper_energy. split; [intros x y; lra|]. intros x y j J E.
  assert (X : (h_k h * ((j - 1) * (j - 1)) = 0)%R) by lra. apply Rmult_integral in X as [X|X]; [contradiction|]. apply Rmult_integral in X as [X|X]; apply J; lra.
Qed.
(** The density of a rubber is not made a mass. *)
Theorem C102_rubber_density_refuted : forall cards xs k alpha beta id h, Forall2 says cards xs -> once (said xs) -> In (id, Hyper h) (said xs) -> h_rho h <> 0%R -> k <> 1%R ->
  exists v, aster_says cards (Some k) alpha beta id "ELAS_HYPER" [("RHO"%string, Some v)] /\ v <> density (Some k) (Some (h_rho h)).
Proof.
  intros cards xs k alpha beta id h S O I N K. exists (h_rho h). split.
  { destruct (C102_rubber_partial cards xs (Some k) alpha beta id h S O I) as (ms & ns & c & fs & A1 & A2 & A3 & A4 & A5 & A6). exists ms, ns, c, fs. repeat (split; [assumption|]).
    intros name v T. apply A6. cbn [In] in *. tauto. }
  cbn [density]. intros E. apply K. apply (Rmult_eq_reg_l (h_rho h)); [lra|exact N].
Qed.
(** With two of the three constants on the card, the shear modulus Aster makes of E
    and NU is that of the deck; *)
Theorem C102_shear e g nu e' g' nu' : isotropic e g nu e' g' nu' -> (g = None /\ nu <> None) \/ (nu = None /\ e <> None /\ g <> None) \/ (e = None /\ g <> None /\ nu <> None) -> nu' <> (-1)%R -> (e' / (2 * (1 + nu')) = g')%R.
Proof.
  intros H C N. assert (X : (1 + nu' <> 0)%R) by lra. destruct H; try (subst; field; exact X); exfalso; destruct C as [[C1 C2]|[(C1 & C2 & C3)|(C1 & C2 & C3)]]; congruence.
Qed.
(** with three that do not agree, or E alone, it is not. *)
Theorem C102_shear_refuted : forall cards xs mult alpha beta id e nu g rho a tref ge, Forall2 says cards xs -> once (said xs) ->
  In (id, Elastic (mkElastic (Some e) (Some nu) (Some g) rho a tref ge)) (said xs) -> nu <> (-1)%R -> e <> (2 * (1 + nu) * g)%R ->
  exists e' nu', aster_says cards mult alpha beta id "ELAS" [("E", Some e'); ("NU", Some nu')]%string /\ (e' / (2 * (1 + nu')) <> g)%R.
Proof.
  intros cards xs mult alpha beta id e nu g rho a tref ge S O I N D. exists e, nu. split.
  { destruct (C102_isotropic cards xs mult alpha beta id _ _ _ _ _ _ _ S O I) as [(ms & ns & c & fs & A1 & A2 & A3 & A4 & A5 & A6) _]. exists ms, ns, c, fs. repeat (split; [assumption|]).
    intros name v T. apply A6. cbn [In] in *. tauto. }
  intros E. apply D. rewrite <- E. field. lra.
Qed.
(** The expansion of an isotropic material and its temperature are lost; *)
Theorem C102_expansion_refuted : forall mult alpha beta e nu g rho ge a1 t1 a2 t2,
  defi_materiau mult alpha beta [Elastic (mkElastic e nu g rho a1 t1 ge)] = defi_materiau mult alpha beta [Elastic (mkElastic e nu g rho a2 t2 ge)].
Proof. reflexivity. Qed.
(** so is the limit in tension across the fibres, *)
Theorem C102_tension_refuted : forall mult alpha beta el et nu glt gtn gln rho al at_ an temp xt xc yt1 yt2 yc s,
  defi_materiau mult alpha beta [Ortho (mkOrtho el et nu glt gtn gln rho al at_ an temp xt xc yt1 yc s)] = defi_materiau mult alpha beta [Ortho (mkOrtho el et nu glt gtn gln rho al at_ an temp xt xc yt2 yc s)].
Proof. reflexivity. Qed.
(** and the whole curve of a nonlinear material, which the analysis asks for. *)
Theorem C102_nonlinear_refuted : forall mult alpha beta ns t1 t2, (forall b, ~ In (Bilinear b) ns) ->
  defi_materiau mult alpha beta (ns ++ [Nonlinear t1]) = defi_materiau mult alpha beta (ns ++ [Nonlinear t2]) /\
  relation (ns ++ [Nonlinear t1]) = "ELAS_VMIS_LINE"%string.
Proof.
  intros mult alpha beta ns t1 t2 B. split.
  - unfold defi_materiau. unfold find_elastic, find_hyper, find_ortho, find_bilinear. rewrite !fold_right_app. reflexivity.
  - unfold relation. destruct (find_bilinear (ns ++ [Nonlinear t1])) as [b|] eqn:E.
    + apply found_bilinear in E. apply in_app_or in E as [E|[E|[]]]; [exfalso; exact (B b E)|discriminate E].
    + replace (existsb (same_type (Nonlinear 0)) (ns ++ [Nonlinear t1])) with true; [reflexivity|]. symmetry. apply existsb_exists. exists (Nonlinear t1). split; [apply in_or_app; right; now left|reflexivity].
Qed.

(** The behaviour the nonlinear analysis asks for: that of the hardening if the deck
    gives one, then of the curve, then of the rubber, otherwise linear. *)
Theorem C102_relation : forall cards xs id n, Forall2 says cards xs -> once (said xs) -> In (id, n) (said xs) ->
  exists ms ns, run_cards cards = Ok ms /\ In (id, ns) ms /\ (forall ns', In (id, ns') ms -> ns' = ns) /\
    ((exists b, In (id, Bilinear b) (said xs)) -> relation ns = "VMIS_ISOT_LINE"%string) /\
    ((forall b, ~ In (id, Bilinear b) (said xs)) -> (exists t, In (id, Nonlinear t) (said xs)) -> relation ns = "ELAS_VMIS_LINE"%string) /\
    ((forall b, ~ In (id, Bilinear b) (said xs)) -> (forall t, ~ In (id, Nonlinear t) (said xs)) -> (exists r, In (id, Hyper r) (said xs)) -> relation ns = "ELAS_HYPER"%string) /\
    ((forall b, ~ In (id, Bilinear b) (said xs)) -> (forall t, ~ In (id, Nonlinear t) (said xs)) -> (forall r, ~ In (id, Hyper r) (said xs)) -> relation ns = "ELAS"%string).
Proof.
  intros cards xs id n S O J. destruct (material_of cards xs None None None S O) as (ms & Run & G). destruct (G _ _ J) as (ns & _ & J1 & _ & J3 & _).
  destruct (C101_deck cards xs S O) as (ms' & Run' & Q & _). assert (ms' = ms) by congruence. subst ms'.
  assert (W : forall x, In (id, x) (said xs) <-> In x ns).
  { intros x. rewrite <- (Q id x). split; [intros (l & A & B); now rewrite <- (J3 l A)|intros H; exists ns; now split]. }
  exists ms, ns. split; [exact Run|]. split; [exact J1|]. split; [exact J3|].
  assert (B1 : forall b, In (Bilinear b) ns -> exists b', find_bilinear ns = Some b').
  { clear. induction ns as [|m ns IH]; intros b H; [destruct H|]. destruct H as [-> |H]; cbn [find_bilinear fold_right]; [eauto|]. destruct m; eauto. }
  assert (H1 : forall b, In (Hyper b) ns -> exists b', find_hyper ns = Some b').
  { clear. induction ns as [|m ns IH]; intros b H; [destruct H|]. destruct H as [-> |H]; cbn [find_hyper fold_right]; [eauto|]. destruct m; eauto. }
  assert (B0 : (forall b, ~ In (id, Bilinear b) (said xs)) -> find_bilinear ns = None).
  { intros H. destruct (find_bilinear ns) as [b|] eqn:E; [|reflexivity]. exfalso. apply (H b), W. now apply found_bilinear. }
  assert (H0 : (forall b, ~ In (id, Hyper b) (said xs)) -> find_hyper ns = None).
  { intros H. destruct (find_hyper ns) as [b|] eqn:E; [|reflexivity]. exfalso. apply (H b), W. now apply found_hyper. }
  assert (N0 : (forall t, ~ In (id, Nonlinear t) (said xs)) -> existsb (same_type (Nonlinear 0)) ns = false).
  { intros H. destruct (existsb _ ns) eqn:E; [|reflexivity]. exfalso. apply existsb_exists in E as (x & X & Y). destruct x; try discriminate Y. eapply H, W, X. }
  unfold relation. split; [|split; [|split]].
  - intros (b & B). apply W in B. destruct (B1 b B) as [b' ->]. reflexivity.
  - intros NB (t & T). rewrite (B0 NB). replace (existsb (same_type (Nonlinear 0)) ns) with true; [reflexivity|]. symmetry. apply existsb_exists. exists (Nonlinear t). split; [now apply W|reflexivity].
  - intros NB NN (r & H). rewrite (B0 NB), (N0 NN). apply W in H. destruct (H1 r H) as [r' ->]. reflexivity.
  - intros NB NN NH. now rewrite (B0 NB), (N0 NN), (H0 NH).
Qed.

(** ** Example *)
(** The deck of C101, with WTMASS. *)
Example C102_case : aster_says deck (Some (1 / 10)%R) None None 1 "ELAS" [("E", Some e_steel); ("RHO", Some (density (Some (1 / 10)%R) (Some (dec_R (7850, 0))))); ("AMOR_HYST", None)]%string /\
  aster_says deck (Some (1 / 10)%R) None None 2 "ELAS_ORTH" [("G_TN", Some (dec_R (3, 9))); ("G_LN", None)]%string /\
  aster_says deck (Some (1 / 10)%R) None None 1 "ECRO_LINE" [("SY", Some (dec_R (25, 7)))]%string /\
  aster_says deck (Some (1 / 10)%R) None None 3 "ELAS_HYPER" [("K", Some (1000 * (c_rubber + 0))%R)]%string.
Proof.
  destruct C101_case as (S & O & _).
  assert (W : forall mult id kw t t', (forall p, In p t' -> In p t) -> aster_says deck mult None None id kw t -> aster_says deck mult None None id kw t').
  { intros mult id kw t t' T (ms & ns & c & fs & A1 & A2 & A3 & A4 & A5 & A6). exists ms, ns, c, fs. repeat (split; [assumption|]). intros name v P. apply A6, T, P. }
  split; [|split; [|split]].
  - eapply W; [|exact (proj1 (C102_isotropic deck sayings _ None None 1 _ _ _ _ _ _ _ S O (or_introl eq_refl)))]. intros p P. cbn [In] in *. tauto.
  - eapply W; [|exact (C102_ply_partial deck sayings _ None None 2 _ S O (or_intror (or_introl eq_refl)))]. intros p P. cbn [In o_gtn o_gln] in *. tauto.
  - eapply W; [|exact (C102_hardening_partial deck sayings _ None None 1 _ _ S O (or_intror (or_intror (or_introl eq_refl))))]. intros p P. cbn [In] in *. tauto.
  - eapply W; [|exact (C102_rubber_partial deck sayings _ None None 3 _ S O (or_intror (or_intror (or_intror (or_introl eq_refl)))))]. intros p P. cbn [In h_k] in *. tauto.
Qed.

Print Assumptions C102_isotropic.
Print Assumptions C102_relation.
Print Assumptions C102_ply_partial.
Print Assumptions C102_rubber_partial.
Print Assumptions C102_hardening_partial.
Print Assumptions C102_perfect.
Print Assumptions C102_shear.
Print Assumptions C102_slope_refuted.
Print Assumptions C102_blank_refuted.
Print Assumptions C102_volume_refuted.
Print Assumptions C102_rubber_density_refuted.
Print Assumptions C102_shear_refuted.
Print Assumptions C102_expansion_refuted.
Print Assumptions C102_tension_refuted.
Print Assumptions C102_nonlinear_refuted.
