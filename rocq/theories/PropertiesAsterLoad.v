(** C93: the command written for a load set has, as Code_Aster reads it, the
    effects of the loadings of the set. *)
From Coq Require Import Ascii String Reals ZArith List Bool Arith Lia Lra Sorting.Sorted.
Require Import Verif.Base Verif.TextModel Verif.DofModel Verif.DofProofs Verif.GeomModel Verif.AsterConstraintModel Verif.PropertiesAsterConstraint Verif.AsterLoadModel.
Import ListNotations.
Open Scope Z_scope.
Open Scope list_scope.

(** ** Code_Aster's reading *)
(** Several occurrences of a keyword about one place: the last one counts, or
    they add.  The manual has the first rule for values of one keyword; exactness is
    proved for both. *)
Inductive reading := Last | Add.
Definition sum (l : list R) : R := fold_right Rplus 0%R l.
Definition value_read (r : reading) (l : list R) : R := match r with Last => last l 0%R | Add => sum l end.
Definition comp_named (s : str) : option dof :=
  if str_eqb s (txt "FX") then Some DX else if str_eqb s (txt "FY") then Some DY else if str_eqb s (txt "FZ") then Some DZ
  else if str_eqb s (txt "MX") then Some RX else if str_eqb s (txt "MY") then Some RY else if str_eqb s (txt "MZ") then Some RZ else None.
Definition is_comp (s : str) (d : dof) : bool := match comp_named s with Some e => dof_eqb d e | None => false end.
Definition among (p : Z) (l : list Z) : bool := existsb (Z.eqb p) l.
Definition in_groups (m : cmesh) (gs : list Z) (c : Z) : bool :=
  existsb (fun g => match cell_group m g with Some l => among c l | None => false end) gs.
Definition on_cells (m : cmesh) (t : ctarget) (c : Z) : bool := ct_tout t || among c (ct_maille t) || in_groups m (ct_group t) c.
Definition component_values (l : list (str * R)) (d : dof) : list R := flat_map (fun e => if is_comp (fst e) d then [snd e] else []) l.
Definition nodal_values (l : list (Z * list (str * R))) (p : Z) (d : dof) : list R :=
  flat_map (fun e => if Z.eqb p (fst e) then component_values (snd e) d else []) l.
Definition cell_values (m : cmesh) (l : list (R * ctarget)) (c : Z) : list R :=
  flat_map (fun e => if on_cells m (snd e) c then [fst e] else []) l.
Definition face_values (m : cmesh) (l : list (ctarget * list (str * R))) (c : Z) (d : dof) : list R :=
  flat_map (fun e => if on_cells m (fst e) c then component_values (snd e) d else []) l.
Definition beam_values (m : cmesh) (l : list (str * str * ctarget)) (c : Z) (d : dof) : list str :=
  flat_map (fun e => if on_cells m (snd e) c && is_comp (fst (fst e)) d then [snd (fst e)] else []) l.
(** GRAVITE times the unit vector along DIRECTION. *)
Definition gravity_read (e : R * option vec) : vec :=
  match snd e with Some v => vscale (fst e / norm v) v | None => vzero end.
Definition vsum (l : list vec) : vec := fold_right vadd vzero l.
Definition vector_read (r : reading) (l : list vec) : vec := match r with Last => last l vzero | Add => vsum l end.
(** Centrifugal acceleration at a point: the square of the speed times the
    vector from the axis. *)
Definition centrifugal (e : R * vec * vec) (x : vec) : vec :=
  let '(speed, axis, centre) := e in
  let r := vsub x centre in
  vscale (speed * speed) (vsub r (vscale (dot r axis / dot axis axis) axis)).
(** Commands that Code_Aster accepts: numbers in AFFE_CHAR_MECA, names in
    AFFE_CHAR_MECA_F, directions that are numbers. *)
Definition readable (c : char_meca) : Prop :=
  (if of_functions c then
     x_ddl c = [] /\ x_pres c = [] /\ x_coque c = [] /\ x_nodale c = [] /\ x_face c = [] /\ x_pesanteur c = [] /\ x_rotation c = [] /\
     forall e, In e (x_poutre c) -> snd (fst e) <> []
   else x_poutre c = []) /\
  (forall e, In e (x_pesanteur c) -> snd e <> None).

(** ** Effects of the loadings *)
Definition covers (m : cmesh) (on : ccont) (c : Z) : bool := cc_all on || among c (cc_cells on) || in_groups m (cc_groups on) c.
(** A component of a force and a moment. *)
Definition component (f g : vec) (d : dof) : R :=
  match d with DX => vx f | DY => vy f | DZ => vz f | RX => vx g | RY => vy g | RZ => vz g end.
Definition resultant (l : list loading) (p : Z) (d : dof) : R :=
  sum (flat_map (fun k => match k with Nodal on f g => if among p on then [component (f p) (g p) d] else [] | _ => [] end) l).
Definition face_pressures (m : cmesh) (l : list loading) (c : Z) : list R :=
  flat_map (fun k => match k with PresFace on p => if covers m on c then [p] else [] | _ => [] end) l.
Definition shell_pressures (m : cmesh) (l : list loading) (c : Z) : list R :=
  flat_map (fun k => match k with PresShell on p => if covers m on c then [p] else [] | _ => [] end) l.
Definition surface_forces (m : cmesh) (l : list loading) (c : Z) (d : dof) : list R :=
  flat_map (fun k => match k with Surface on f g => if covers m on c then [component f g d] else [] | _ => [] end) l.
Definition line_forces (m : cmesh) (l : list loading) (c : Z) (d : dof) : list Z :=
  flat_map (fun k => match k with Line on _ e v _ => if covers m on c && dof_eqb d e then [v] else [] | _ => [] end) l.
Definition accelerations (l : list loading) : list vec :=
  flat_map (fun k => match k with Grav s v => [vscale s v] | _ => [] end) l.
Definition rotations (l : list loading) (x : vec) : list vec :=
  flat_map (fun k => match k with Rot s a c => [centrifugal (s, a, c) x] | _ => [] end) l.

(** ** Small facts *)
Lemma comp_of d e : is_comp (force_name e) d = dof_eqb d e.
Proof. destruct e; reflexivity. Qed.
Lemma dof_eqb_refl d : dof_eqb d d = true.
Proof. destruct d; reflexivity. Qed.
Lemma dof_eqb_true d e : dof_eqb d e = true -> d = e.
Proof. destruct d, e; intros H; try reflexivity; vm_compute in H; discriminate. Qed.
Lemma component_values_spec (keep : dof -> bool) (v : dof -> R) d :
  component_values (map (fun e => (force_name e, v e)) (filter keep all_dofs)) d = if keep d then [v d] else [].
Proof.
  unfold component_values.
  assert (G : forall l, NoDup l -> flat_map (fun e : str * R => if is_comp (fst e) d then [snd e] else []) (map (fun e => (force_name e, v e)) (filter keep l)) =
    if existsb (dof_eqb d) l && keep d then [v d] else []).
  { induction l as [|e l IH]; intros N; [reflexivity|]. inversion N; subst. specialize (IH H2). cbn [filter existsb]. destruct (dof_eqb d e) eqn:E.
    - apply dof_eqb_true in E. subst e. assert (X : existsb (dof_eqb d) l = false).
      { apply not_true_iff_false. intros X. apply existsb_exists in X. destruct X as (e & I & E). apply dof_eqb_true in E. subst. contradiction. }
      rewrite X in IH. cbn [orb andb] in IH |- *. destruct (keep d); [|exact IH]. cbn [map flat_map fst snd]. rewrite comp_of, dof_eqb_refl, IH. reflexivity.
    - cbn [orb]. destruct (keep e); [|exact IH]. cbn [map flat_map fst snd]. rewrite comp_of, E. exact IH. }
  rewrite G.
  - assert (existsb (dof_eqb d) all_dofs = true) as -> by (destruct d; reflexivity). reflexivity.
  - unfold all_dofs. repeat constructor; cbn; intuition discriminate.
Qed.
Lemma among_in p l : among p l = true <-> In p l.
Proof. unfold among. rewrite existsb_exists. split; [intros (x & I & E); apply Z.eqb_eq in E; now subst|intros I; exists p; split; [exact I|apply Z.eqb_refl]]. Qed.
Lemma groups_kept m gs out c : groups_of (cell_group m) gs = Ok out ->
  in_groups m (map fst (filter (fun g => negb (is_nil (snd g))) out)) c = in_groups m gs c.
Proof.
  unfold groups_of. revert out. induction gs as [|g gs IH]; intros out E; cbn [mapM] in E; [injection E as <-; reflexivity|].
  destruct (cell_group m g) as [l|] eqn:F; [|discriminate]. cbn [bind] in E. destruct (mapM _ gs) as [r| | |] eqn:Er; try discriminate. cbn [bind] in E. injection E as <-.
  specialize (IH r eq_refl). unfold in_groups in *. cbn [filter snd existsb]. rewrite F. destruct l as [|x l]; cbn [is_nil negb map existsb fst].
  - exact IH.
  - rewrite F, IH. reflexivity.
Qed.
Lemma cells_written m on t c : write_cells m on = Ok t -> on_cells m t c = covers m on c.
Proof.
  unfold write_cells, on_cells, covers. destruct (cc_all on) eqn:A; [intros E; injection E as <-; reflexivity|].
  destruct (groups_of _ _) as [gs| | |] eqn:G; try discriminate. cbn [bind]. intros E. injection E as <-. cbn [ct_tout ct_maille ct_group]. now rewrite (groups_kept _ _ _ c G).
Qed.
Lemma collect_cons {A} (f : loading -> list (outcome A)) k l r : collect f (k :: l) = Ok r ->
  exists r1 r2, mapM (fun x => x) (f k) = Ok r1 /\ collect f l = Ok r2 /\ r = r1 ++ r2.
Proof.
  unfold collect. cbn [flat_map]. revert r. induction (f k) as [|x q IH]; intros r E; cbn [app mapM] in *.
  - exists [], r. auto.
  - destruct x as [x| | |]; try discriminate. cbn [bind] in *. destruct (mapM _ (q ++ _)) as [s| | |] eqn:Es; try discriminate. cbn [bind] in E. injection E as <-.
    destruct (IH s eq_refl) as (r1 & r2 & A1 & A2 & ->). rewrite A1. cbn [bind]. exists (x :: r1), r2. auto.
Qed.
(** What was collected, seen from one place. *)
Lemma collect_values {A B} (f : loading -> list (outcome A)) (see : A -> list B) (mean : loading -> list B) :
  (forall k r, mapM (fun x => x) (f k) = Ok r -> flat_map see r = mean k) ->
  forall l r, collect f l = Ok r -> flat_map see r = flat_map mean l.
Proof.
  intros H l. induction l as [|k l IH]; intros r E.
  - cbn in E. injection E as <-. reflexivity.
  - apply collect_cons in E. destruct E as (r1 & r2 & E1 & E2 & ->). rewrite flat_map_app. cbn [flat_map]. f_equal; [now apply H|now apply IH].
Qed.
Lemma sum_app a b : sum (a ++ b) = (sum a + sum b)%R.
Proof. unfold sum. induction a as [|x a IH]; cbn [app fold_right]; [ring|rewrite IH; ring]. Qed.
Lemma sum_opp l : sum (map Ropp l) = (- sum l)%R.
Proof. unfold sum. induction l as [|x l IH]; cbn [map fold_right]; [ring|rewrite IH; ring]. Qed.
Lemma one_value r l : r = Add \/ (length l <= 1)%nat -> value_read r l = sum l.
Proof.
  intros [->|H]; [reflexivity|]. destruct r; [|reflexivity]. destruct l as [|x [|y l]]; cbn in *; [reflexivity|ring|lia].
Qed.
(** The parts of a command that was written. *)
Lemma written_parts tol m name dload l c : write_loads tol m name dload l = Ok (Some c) ->
  dload = false /\ is_nil l = false /\ forallb is_temperature l = false /\ of_functions c = has_functions l /\
  collect (fun k => match k with Imposed on e => [imposed_entry m on e] | _ => [] end) l = Ok (x_ddl c) /\
  collect (fun k => match k with PresFace on p => [do t <- write_cells m on; Ok ((- p)%R, t)] | _ => [] end) l = Ok (x_pres c) /\
  collect (fun k => match k with PresShell on p => [do t <- write_cells m on; Ok ((- p)%R, t)] | _ => [] end) l = Ok (x_coque c) /\
  collect (fun k => match k with Surface on f g => [face_entry tol m on f g] | _ => [] end) l = Ok (x_face c) /\
  collect (fun k => match k with Line on false d v _ => [line_entry m name on d v] | _ => [] end) l = Ok (x_poutre c) /\
  x_nodale c = map (nodal_entry tol) (nodal_sums l) /\
  x_pesanteur c = flat_map (fun k => match k with Grav s v => [gravity_entry s v] | _ => [] end) l /\
  x_rotation c = flat_map (fun k => match k with Rot s a c => [(s, a, c)] | _ => [] end) l.
Proof.
  unfold write_loads. destruct dload; [discriminate|]. destruct (is_nil l); [discriminate|]. destruct (forallb is_temperature l); [discriminate|].
  set (c1 := collect _ l) at 1. destruct c1 as [a| | |] eqn:E1; try discriminate. cbn [bind].
  set (c2 := collect _ l) at 1. destruct c2 as [b| | |] eqn:E2; try discriminate. cbn [bind].
  set (c3 := collect _ l) at 1. destruct c3 as [b'| | |] eqn:E3; try discriminate. cbn [bind].
  set (c4 := collect _ l) at 1. destruct c4 as [b''| | |] eqn:E4; try discriminate. cbn [bind].
  set (c5 := collect _ l) at 1. destruct c5 as [e| | |] eqn:E5; try discriminate. cbn [bind]. subst c1 c2 c3 c4 c5.
  intros E. injection E as <-. cbn [x_ddl x_pres x_coque x_face x_poutre x_nodale x_pesanteur x_rotation of_functions]. repeat split; assumption || reflexivity.
Qed.

(** ** Nodal forces *)
Definition at_node (l : list (Z * (vec * vec))) (p : Z) (d : dof) : R :=
  match find (fun e => Z.eqb p (fst e)) l with Some e => vcomp (fst (snd e)) (snd (snd e)) d | None => 0%R end.
Lemma vcomp_add f g f' g' d : vcomp (vadd f f') (vadd g g') d = (vcomp f g d + vcomp f' g' d)%R.
Proof. destruct d; reflexivity. Qed.
Lemma add_at_keys p f : forall l, StronglySorted Z.lt (map fst l) ->
  StronglySorted Z.lt (map fst (add_at p f l)) /\ (forall x, In x (map fst (add_at p f l)) <-> x = p \/ In x (map fst l)).
Proof.
  induction l as [|[q g] l IH]; intros S; cbn [add_at map fst].
  - split; [repeat constructor|]. intros x. cbn. intuition.
  - inversion S as [|? ? S' F]; subst. destruct (p <? q) eqn:L; [|destruct (p =? q) eqn:E].
    + apply Z.ltb_lt in L. split; [|intros x; cbn; intuition]. constructor; [exact S|]. constructor; [exact L|]. rewrite Forall_forall in F |- *. intros x I. specialize (F x I). cbn [fst]. lia.
    + apply Z.eqb_eq in E. subst q. split; [exact S|]. intros x. cbn. intuition.
    + apply Z.ltb_ge in L. apply Z.eqb_neq in E. destruct (IH S') as [A B]. cbn [map fst]. split.
      * constructor; [exact A|]. apply Forall_forall. intros x I. apply B in I. rewrite Forall_forall in F. destruct I as [->|I]; [lia|now apply F].
      * intros x. cbn [In]. rewrite B. tauto.
Qed.
Lemma add_at_value p f d : forall l, StronglySorted Z.lt (map fst l) -> forall q,
  at_node (add_at p f l) q d = (at_node l q d + (if Z.eqb q p then vcomp (fst f) (snd f) d else 0))%R.
Proof.
  unfold at_node. induction l as [|[x g] l IH]; intros S q; cbn [add_at find fst snd map] in *.
  - destruct (Z.eqb q p); cbn [snd]; ring.
  - inversion S as [|? ? S' F]; subst. specialize (IH S' q). destruct (p <? x) eqn:L; [|destruct (p =? x) eqn:E]; cbn [find fst snd].
    + apply Z.ltb_lt in L. clear IH. destruct (Z.eqb_spec q p) as [Eq|N]; [subst q|destruct (q =? x); [ring|destruct (find _ l); ring]].
      assert (p =? x = false) as -> by (apply Z.eqb_neq; lia).
      assert (find (fun e : Z * (vec * vec) => p =? fst e) l = None) as ->; [|destruct (p =? p) eqn:R0; [cbv iota; cbn [snd]; ring|apply Z.eqb_neq in R0; congruence]].
      destruct (find _ l) as [e|] eqn:Fd; [|reflexivity]. apply find_some in Fd. destruct Fd as [I K]. apply Z.eqb_eq in K.
      rewrite Forall_forall in F. specialize (F (fst e) (in_map fst _ _ I)). lia.
    + apply Z.eqb_eq in E. subst x. destruct (q =? p); cbn [snd fst]; [rewrite vcomp_add; ring|destruct (find _ l); ring].
    + apply Z.ltb_ge in L. apply Z.eqb_neq in E. destruct (q =? x) eqn:Q.
      * apply Z.eqb_eq in Q. subst q. assert (x =? p = false) as -> by (apply Z.eqb_neq; lia). cbn [snd fst]. ring.
      * exact IH.
Qed.
Lemma nodes_added f g d : forall on acc, NoDup on -> StronglySorted Z.lt (map fst acc) ->
  let acc' := fold_left (fun acc p => add_at p (f p, g p) acc) on acc in
  StronglySorted Z.lt (map fst acc') /\
  forall q, at_node acc' q d = (at_node acc q d + (if among q on then vcomp (f q) (g q) d else 0))%R.
Proof.
  induction on as [|p on IH]; intros acc N S; cbn [fold_left].
  - split; [exact S|]. intros q. cbn. ring.
  - inversion N; subst. destruct (IH (add_at p (f p, g p) acc) H2 (proj1 (add_at_keys _ _ _ S))) as [A B]. split; [exact A|]. intros q. rewrite B, (add_at_value _ _ _ _ S).
    unfold among. cbn [existsb fst snd]. destruct (Z.eqb_spec q p) as [Q|Q]; cbn [orb]; [subst q|ring].
    assert (existsb (Z.eqb p) on = false) as ->; [|ring]. apply not_true_iff_false. intros X. apply (among_in p on) in X. contradiction.
Qed.
Definition node_sets (l : list loading) : Prop := forall on f g, In (Nodal on f g) l -> NoDup on.
Lemma sums_spec d l : node_sets l -> StronglySorted Z.lt (map fst (nodal_sums l)) /\ forall p, at_node (nodal_sums l) p d = resultant l p d.
Proof.
  unfold nodal_sums, resultant. intros H.
  assert (G : forall l acc, node_sets l -> StronglySorted Z.lt (map fst acc) ->
    let acc' := fold_left (fun acc k => match k with Nodal on f g => fold_left (fun acc p => add_at p (f p, g p) acc) on acc | _ => acc end) l acc in
    StronglySorted Z.lt (map fst acc') /\ forall p, at_node acc' p d = (at_node acc p d +
      sum (flat_map (fun k => match k with Nodal on f g => if among p on then [component (f p) (g p) d] else [] | _ => [] end) l))%R).
  { clear. induction l as [|k l IH]; intros acc H S; cbn [fold_left flat_map].
    - split; [exact S|]. intros p. cbn. ring.
    - assert (H' : node_sets l) by (intros on f g I; apply (H on f g); now right).
      destruct k as [on f g| | | | | | | | |]; try (destruct (IH acc H' S) as [A B]; split; [exact A|]; intros p'; rewrite B; reflexivity).
      destruct (nodes_added f g d on acc (H on f g (or_introl eq_refl)) S) as [A B]. destruct (IH _ H' A) as [C D]. split; [exact C|].
      intros p. rewrite D, B, sum_app. change (component (f p) (g p) d) with (vcomp (f p) (g p) d). destruct (among p on); unfold sum; cbn [fold_right]; ring. }
  destruct (G l [] H) as [A B]; [constructor|]. split; [exact A|]. intros p. rewrite B. unfold at_node. cbn. ring.
Qed.
Lemma nodal_read tol d : forall s p, NoDup (map fst s) ->
  nodal_values (map (nodal_entry tol) s) p d = if near_zero tol (at_node s p d) then if existsb (Z.eqb p) (map fst s) && negb (near_zero tol (at_node s p d)) then [at_node s p d] else [] else if existsb (Z.eqb p) (map fst s) then [at_node s p d] else [].
Proof.
  unfold nodal_values. induction s as [|[q [f g]] s IH]; intros p N; cbn [map flat_map existsb].
  - destruct (near_zero _ _); reflexivity.
  - inversion N as [|? ? N1 N2]; subst. specialize (IH p N2). unfold at_node in *. cbn [find fst snd nodal_entry] in *. destruct (Z.eqb_spec p q) as [E|E]; cbn [orb].
    + subst p. assert (X : existsb (Z.eqb q) (map fst s) = false).
      { apply not_true_iff_false. intros X. apply (among_in q) in X. contradiction. }
      rewrite (component_values_spec (fun d => negb (near_zero tol (vcomp f g d))) (vcomp f g)). rewrite X in IH.
      assert (Y : flat_map (fun e : Z * list (str * R) => if q =? fst e then component_values (snd e) d else []) (map (nodal_entry tol) s) = []).
      { rewrite IH. destruct (near_zero _ _); reflexivity. }
      rewrite Y, app_nil_r. cbn [snd fst]. destruct (near_zero tol (vcomp f g d)); reflexivity.
    + exact IH.
Qed.
Lemma nodal_written tol l p d : (0 <= tol)%R -> node_sets l ->
  nodal_values (map (nodal_entry tol) (nodal_sums l)) p d = if near_zero tol (resultant l p d) then [] else [resultant l p d].
Proof.
  intros T H. destruct (sums_spec d l H) as [A B]. rewrite nodal_read.
  - rewrite B. destruct (near_zero tol (resultant l p d)) eqn:Z0; [cbn [negb]; now rewrite andb_false_r|].
    destruct (existsb (Z.eqb p) (map fst (nodal_sums l))) eqn:X; [reflexivity|]. rewrite <- B in Z0. unfold at_node in Z0.
    destruct (find _ (nodal_sums l)) as [e|] eqn:F.
    + apply find_some in F. destruct F as [I K]. apply Z.eqb_eq in K. assert (existsb (Z.eqb p) (map fst (nodal_sums l)) = true); [|congruence].
      apply existsb_exists. exists (fst e). split; [now apply in_map|now apply Z.eqb_eq].
    + unfold near_zero in Z0. destruct (Rle_dec _ _) as [|N]; [discriminate|]. elim N. rewrite Rabs_R0. exact T.
  - clear - A. induction A; constructor; [|exact IHA]. intros I. rewrite Forall_forall in H. specialize (H _ I). lia.
Qed.
(** The force written at a node is the sum of the forces on it, whichever way
    occurrences combine, up to the tolerance below which a component is left
    out. *)
Theorem C93_nodal_close : forall r tol m name dload l c p d,
  (0 <= tol)%R -> node_sets l -> write_loads tol m name dload l = Ok (Some c) ->
  (Rabs (value_read r (nodal_values (x_nodale c) p d) - resultant l p d) <= tol)%R.
Proof.
  intros r tol m name dload l c p d T H E. apply written_parts in E. destruct E as (_ & _ & _ & _ & _ & _ & _ & _ & _ & -> & _).
  rewrite (nodal_written tol l p d T H), one_value by (right; destruct (near_zero _ _); cbn; lia).
  unfold near_zero. destruct (Rle_dec _ _) as [L|L]; cbn [sum fold_right].
  - unfold sum. cbn [fold_right]. replace (0 - resultant l p d)%R with (- resultant l p d)%R by ring. rewrite Rabs_Ropp. exact L.
  - unfold sum. cbn [fold_right]. replace (resultant l p d + 0 - resultant l p d)%R with 0%R by ring. rewrite Rabs_R0. exact T.
Qed.
Definition clean (tol x : R) : Prop := x = 0%R \/ (tol < Rabs x)%R.
Theorem C93_nodal_partial : forall r tol m name dload l c p d,
  (0 <= tol)%R -> node_sets l -> clean tol (resultant l p d) -> write_loads tol m name dload l = Ok (Some c) ->
  value_read r (nodal_values (x_nodale c) p d) = resultant l p d.
Proof.
  intros r tol m name dload l c p d T H K E. apply written_parts in E. destruct E as (_ & _ & _ & _ & _ & _ & _ & _ & _ & -> & _).
  rewrite (nodal_written tol l p d T H), one_value by (right; destruct (near_zero _ _); cbn; lia).
  unfold near_zero. destruct (Rle_dec _ _) as [L|L]; unfold sum; cbn [fold_right]; [|ring]. destruct K as [->|K]; [reflexivity|lra].
Qed.

(** ** Pressures *)
Lemma read_opposites r l : r = Add \/ (length l <= 1)%nat -> (- value_read r (map Ropp l))%R = sum l.
Proof. intros H. rewrite one_value by (rewrite map_length; exact H). rewrite sum_opp. ring. Qed.
Lemma flat_map_map {A B C} (g : B -> C) (f : A -> list B) l : flat_map (fun x => map g (f x)) l = map g (flat_map f l).
Proof. induction l as [|x l IH]; [reflexivity|]. cbn [flat_map]. now rewrite map_app, IH. Qed.
(** Code_Aster counts a pressure against the normal: on each cell the force
    along the normal is the sum of the intensities of the loadings over it,
    provided that there is only one or that occurrences add. *)
Theorem C93_pressure_partial : forall r tol m name dload l c k,
  write_loads tol m name dload l = Ok (Some c) ->
  (r = Add \/ (length (face_pressures m l k) <= 1)%nat -> (- value_read r (cell_values m (x_pres c) k))%R = sum (face_pressures m l k)) /\
  (r = Add \/ (length (shell_pressures m l k) <= 1)%nat -> (- value_read r (cell_values m (x_coque c) k))%R = sum (shell_pressures m l k)).
Proof.
  intros r tol m name dload l c k E. apply written_parts in E. destruct E as (_ & _ & _ & _ & _ & E1 & E2 & _).
  assert (X : forall on (p : R) q, mapM (fun x => x) [do t <- write_cells m on; Ok ((- p)%R, t)] = Ok q ->
    flat_map (fun e : R * ctarget => if on_cells m (snd e) k then [fst e] else []) q = map Ropp (if covers m on k then [p] else [])).
  { intros on p q Eq. cbn [mapM] in Eq. destruct (write_cells m on) as [t| | |] eqn:T; try discriminate. cbn [bind] in Eq. injection Eq as <-.
    cbn [flat_map snd fst]. rewrite (cells_written _ _ _ k T). destruct (covers m on k); reflexivity. }
  split; intros H.
  - rewrite <- (read_opposites r _ H). do 2 f_equal. unfold cell_values, face_pressures. rewrite <- flat_map_map. refine (collect_values _ _ _ _ _ _ E1).
    intros [] q Eq; try (cbn in Eq; injection Eq as <-; reflexivity). now apply X.
  - rewrite <- (read_opposites r _ H). do 2 f_equal. unfold cell_values, shell_pressures. rewrite <- flat_map_map. refine (collect_values _ _ _ _ _ _ E2).
    intros [] q Eq; try (cbn in Eq; injection Eq as <-; reflexivity). now apply X.
Qed.
Definition on_cell (k : Z) : ccont := CCont false [] [k].
Definition no_names : Z -> str := fun _ => [].
(** C93 fails for two pressures on one cell: they are written apart, and the
    second replaces the first. *)
Theorem C93_pressures_refuted : forall tol, exists l c k,
  write_loads tol no_groups no_names false l = Ok (Some c) /\ readable c /\
  (- value_read Last (cell_values no_groups (x_pres c) k))%R = 2%R /\ sum (face_pressures no_groups l k) = 3%R.
Proof.
  intros tol. exists [PresFace (on_cell 5) 1; PresFace (on_cell 5) 2]. eexists. exists 5. split; [reflexivity|]. split; [|split].
  - split; [reflexivity|]. intros e [].
  - cbn. ring.
  - cbn. ring.
Qed.

(** ** Forces on surfaces *)
Lemma equals_zero_false tol x : (0 <= tol < 1)%R -> equals_zero tol x = near_zero tol x.
Proof.
  intros T. unfold equals_zero, near_zero. pose proof (Rabs_pos x) as P. rewrite (Rmax_left (Rabs x) 0 P). unfold Rmax.
  destruct (Rle_dec 1 (Rabs x)); destruct (Rle_dec (Rabs x) (tol * _)); destruct (Rle_dec (Rabs x) tol); try reflexivity; nra.
Qed.
Lemma surface_values tol m l q k d : (0 <= tol < 1)%R ->
  collect (fun k => match k with Surface on f g => [face_entry tol m on f g] | _ => [] end) l = Ok q ->
  face_values m q k d = filter (fun x => negb (near_zero tol x)) (surface_forces m l k d).
Proof.
  intros T E. unfold face_values, surface_forces.
  assert (F : forall (f : loading -> list R) l, filter (fun x => negb (near_zero tol x)) (flat_map f l) = flat_map (fun k => filter (fun x => negb (near_zero tol x)) (f k)) l).
  { clear. intros f l. induction l as [|x l IH]; [reflexivity|]. cbn [flat_map]. rewrite <- IH. clear IH. induction (f x) as [|y r IH]; [reflexivity|]. cbn [app filter]. destruct (negb _); cbn [app]; now rewrite IH. }
  rewrite F. refine (collect_values _ _ _ _ _ _ E).
  intros [] r Er; try (cbn in Er; injection Er as <-; reflexivity). cbn [mapM] in Er. unfold face_entry in Er. destruct (write_cells m on) as [t| | |] eqn:W; try discriminate. cbn [bind] in Er. injection Er as <-.
  cbn [flat_map fst snd]. rewrite (cells_written _ _ _ k W), app_nil_r. destruct (covers m on k); [|reflexivity].
  rewrite (component_values_spec (fun d => negb (equals_zero tol (vcomp force moment d))) (vcomp force moment)). cbn [filter]. rewrite (equals_zero_false _ _ T). destruct (negb _); reflexivity.
Qed.
Theorem C93_surface_partial : forall r tol m name dload l c k d,
  (0 <= tol < 1)%R -> write_loads tol m name dload l = Ok (Some c) ->
  Forall (clean tol) (surface_forces m l k d) -> r = Add \/ (length (surface_forces m l k d) <= 1)%nat ->
  value_read r (face_values m (x_face c) k d) = sum (surface_forces m l k d).
Proof.
  intros r tol m name dload l c k d T E C H. apply written_parts in E. destruct E as (_ & _ & _ & _ & _ & _ & _ & E & _).
  rewrite (surface_values _ _ _ _ k d T E).
  assert (L : (length (filter (fun x => negb (near_zero tol x)) (surface_forces m l k d)) <= length (surface_forces m l k d))%nat).
  { clear. induction (surface_forces m l k d) as [|x q IH]; [reflexivity|]. cbn [filter length]. destruct (negb _); cbn [length]; lia. }
  rewrite one_value by (destruct H; [auto|right; lia]). clear - C. unfold sum. induction (surface_forces m l k d) as [|x q IH]; [reflexivity|]. inversion C; subst. cbn [filter fold_right].
  rewrite <- (IH H2). unfold near_zero at 1. destruct (Rle_dec _ _) as [Le|Le]; cbn [negb fold_right]; [|reflexivity]. destruct H1 as [->|K]; [ring|lra].
Qed.

(** ** Line loads *)
(** The functions that the file gives to a component of a beam are those of the
    loadings on it. *)
Theorem C93_beams : forall tol m name dload l c k d,
  write_loads tol m name dload l = Ok (Some c) -> (forall on e v f, ~ In (Line on true e v f) l) ->
  beam_values m (x_poutre c) k d = map name (line_forces m l k d).
Proof.
  intros tol m name dload l c k d E G. apply written_parts in E. destruct E as (_ & _ & _ & _ & _ & _ & _ & _ & E & _).
  unfold beam_values, line_forces. revert G E. generalize (x_poutre c). clear c. induction l as [|x l IH]; intros q G E; [cbn in E; injection E as <-; reflexivity|].
  apply collect_cons in E. destruct E as (r1 & r2 & E1 & E2 & ->). rewrite flat_map_app. cbn [flat_map]. rewrite map_app.
  rewrite (IH r2 (fun on e v f I => G on e v f (or_intror I)) E2). f_equal. clear IH E2.
  destruct x as [| | | | |on geo e v fn| | | |]; try (cbn in E1; injection E1 as <-; reflexivity).
  destruct geo; [elim (G on e v fn); now left|]. cbn [mapM] in E1. unfold line_entry in E1. destruct (write_cells m on) as [t| | |] eqn:W; try discriminate. cbn [bind] in E1. injection E1 as <-.
  cbn [flat_map fst snd]. rewrite (cells_written _ _ _ k W), comp_of, app_nil_r. destruct (covers m on k && dof_eqb d e); reflexivity.
Qed.
(** C93 fails for line loads on cells that are not beams: nothing is written
    of them. *)
Theorem C93_geometry_refuted : forall tol name, exists l c k d,
  write_loads tol no_groups name false l = Ok (Some c) /\ line_forces no_groups l k d = [7] /\ beam_values no_groups (x_poutre c) k d = [].
Proof. intros tol name. exists [Line (on_cell 5) true DY 7 true]. eexists. exists 5, DY. split; [reflexivity|]. split; reflexivity. Qed.

(** ** Gravity and rotation *)
Lemma norm_scaled v : norm v <> 0%R -> vscale (norm v / norm (normalized v)) (normalized v) = v.
Proof.
  intros N. assert (P : (0 < norm v)%R) by (pose proof (sqrt_pos (dot v v)); unfold norm in *; lra).
  assert (S : (norm v * norm v = dot v v)%R).
  { unfold norm. apply sqrt_sqrt. unfold dot. nra. }
  assert (U : norm (normalized v) = 1%R).
  { unfold norm at 1. unfold normalized, dot at 1. cbn [vx vy vz]. replace (vx v / norm v * (vx v / norm v) + vy v / norm v * (vy v / norm v) + vz v / norm v * (vz v / norm v))%R with 1%R; [apply sqrt_1|].
    transitivity (dot v v / (norm v * norm v))%R; [rewrite S; field; intros Z0; rewrite Z0 in S; nra|]. unfold dot. field. exact N. }
  rewrite U. destruct v as [a b c]. unfold vscale, normalized. cbn [vx vy vz]. f_equal; field; exact N.
Qed.
Lemma one_vector r l : r = Add \/ (length l <= 1)%nat -> vector_read r l = vsum l.
Proof.
  intros [->|H]; [reflexivity|]. destruct r; [|reflexivity]. destruct l as [|[x y z] [|w l]]; cbn in *; [reflexivity|unfold vadd; cbn; f_equal; ring|lia].
Qed.
Theorem C93_gravity_partial : forall r tol m name dload l c,
  write_loads tol m name dload l = Ok (Some c) -> (forall a, In a (accelerations l) -> norm a <> 0%R) ->
  r = Add \/ (length (accelerations l) <= 1)%nat ->
  vector_read r (map gravity_read (x_pesanteur c)) = vsum (accelerations l).
Proof.
  intros r tol m name dload l c E N H. apply written_parts in E. destruct E as (_ & _ & _ & _ & _ & _ & _ & _ & _ & _ & E & _). rewrite E.
  assert (X : map gravity_read (flat_map (fun k => match k with Grav s v => [gravity_entry s v] | _ => [] end) l) = accelerations l).
  { clear - N. unfold accelerations in *. induction l as [|k l IH]; [reflexivity|]. cbn [flat_map] in *. rewrite map_app, IH by (intros a I; apply N; apply in_or_app; now right). f_equal.
    destruct k; try reflexivity. cbn [map]. unfold gravity_read, gravity_entry, direction_of. cbn [snd fst].
    assert (K : norm (vscale scale direction) <> 0%R) by (apply N; now left).
    destruct (Req_EM_T _ _); [contradiction|]. now rewrite norm_scaled. }
  rewrite X. apply one_vector. exact H.
Qed.
Theorem C93_rotation : forall r tol m name dload l c x,
  write_loads tol m name dload l = Ok (Some c) -> r = Add \/ (length (rotations l x) <= 1)%nat ->
  vector_read r (map (fun e => centrifugal e x) (x_rotation c)) = vsum (rotations l x).
Proof.
  intros r tol m name dload l c x E H. apply written_parts in E. destruct E as (_ & _ & _ & _ & _ & _ & _ & _ & _ & _ & _ & E). rewrite E.
  assert (X : map (fun e => centrifugal e x) (flat_map (fun k => match k with Rot s a c => [(s, a, c)] | _ => [] end) l) = rotations l x).
  { clear. unfold rotations. induction l as [|k l IH]; [reflexivity|]. cbn [flat_map]. rewrite map_app, IH. f_equal. destruct k; reflexivity. }
  rewrite X. now apply one_vector.
Qed.

(** ** Imposed displacements *)
Definition says_value (m : cmesh) (e : target * list (str * R)) (p : Z) (d : dof) (v : R) : Prop :=
  on_target m (fst e) p /\ exists name, In (name, v) (snd e) /\ dof_named name = Some d.
Theorem C93_imposed : forall tol m name dload l c,
  write_loads tol m name dload l = Ok (Some c) ->
  Forall2 (fun k e => exists on f, k = Imposed on f /\ forall p d v, says_value m e p d v <-> on_container m on p /\ f d = Some v)
    (filter (fun k => match k with Imposed _ _ => true | _ => false end) l) (x_ddl c).
Proof.
  intros tol m name dload l c E. apply written_parts in E. destruct E as (_ & _ & _ & _ & E & _).
  revert E. generalize (x_ddl c). clear c. induction l as [|k l IH]; intros q E; [cbn in E; injection E as <-; constructor|].
  apply collect_cons in E. destruct E as (r1 & r2 & E1 & E2 & ->). specialize (IH _ E2). cbn [filter].
  destruct k as [|on f| | | | | | | |]; try (cbn in E1; injection E1 as <-; exact IH).
  cbn [mapM] in E1. unfold imposed_entry in E1. destruct (write_target m on) as [t| | |] eqn:W; try discriminate. cbn [bind] in E1. injection E1 as <-.
  cbn [app]. constructor; [|exact IH]. exists on, f. split; [reflexivity|]. intros p d v. unfold says_value. cbn [fst snd]. rewrite (C92_targets _ _ _ W p). split.
  - intros (A & nm & B & C). split; [exact A|]. change (In (nm, v) (flat_map (fun d => match f d with Some v => [(ddl_name d, v)] | None => [] end) all_dofs)) in B. apply in_flat_map in B. destruct B as (d' & _ & B). destruct (f d') as [w|] eqn:Fd; [|contradiction]. destruct B as [B|[]]. injection B as <- <-. rewrite named in C. congruence.
  - intros (A & B). split; [exact A|]. exists (ddl_name d). split; [|apply named]. change (In (ddl_name d, v) (flat_map (fun d => match f d with Some v => [(ddl_name d, v)] | None => [] end) all_dofs)). apply in_flat_map. exists d. split; [apply all_dofs_in|]. rewrite B. now left.
Qed.

(** ** The command *)
(** When no command is written. *)
Theorem C93_no_command : forall tol m name dload l,
  write_loads tol m name dload l = Ok None <-> dload = true \/ Forall (fun k => k = InitialTemperature) l.
Proof.
  intros tol m name dload l. split.
  - unfold write_loads. destruct dload; [auto|]. destruct l as [|k l]; [right; constructor|]. cbn [is_nil]. destruct (forallb is_temperature (k :: l)) eqn:F.
    + intros _. right. rewrite forallb_forall in F. apply Forall_forall. intros x I. specialize (F x I). destruct x; cbn in F; congruence.
    + generalize (k :: l). clear. intros l. intros E.
      set (c1 := collect _ l) in E at 1. destruct c1; try discriminate E. cbn [bind] in E. set (c2 := collect _ l) in E at 1. destruct c2; try discriminate E. cbn [bind] in E.
      set (c3 := collect _ l) in E at 1. destruct c3; try discriminate E. cbn [bind] in E. set (c4 := collect _ l) in E at 1. destruct c4; try discriminate E. cbn [bind] in E.
      set (c5 := collect _ l) in E at 1. destruct c5; discriminate E.
  - intros [->|H]; [reflexivity|]. unfold write_loads. destruct dload; [reflexivity|]. destruct l as [|k l]; [reflexivity|]. cbn [is_nil].
    assert (forallb is_temperature (k :: l) = true) as ->; [|reflexivity]. apply forallb_forall. rewrite Forall_forall in H. intros x I. rewrite (H x I). reflexivity.
Qed.
Definition known (m : cmesh) (k : loading) : Prop :=
  match k with
  | Imposed on _ => (forall g, In g (nc_groups on) -> exists l, node_group m g = Some l) /\ (forall g, In g (nc_cell_groups on) -> exists l, cell_group m g = Some l)
  | PresFace on _ | PresShell on _ | Surface on _ _ | Line on _ _ _ _ => forall g, In g (cc_groups on) -> exists l, cell_group m g = Some l
  | _ => True
  end.
Lemma cells_known m on : (forall g, In g (cc_groups on) -> exists l, cell_group m g = Some l) -> exists t, write_cells m on = Ok t.
Proof. intros H. unfold write_cells. destruct (cc_all on); [eauto|]. destruct (groups_known _ _ H) as [gs ->]. cbn [bind]. eauto. Qed.
Lemma collect_ok {A} (f : loading -> list (outcome A)) l : (forall k x, In k l -> In x (f k) -> exists a, x = Ok a) -> exists r, collect f l = Ok r.
Proof.
  unfold collect. intros H. assert (G : forall q, (forall x, In x q -> exists a, x = Ok a) -> exists r : list A, mapM (fun x => x) q = Ok r).
  { clear. induction q as [|x q IH]; intros H; [exists []; reflexivity|]. destruct (H x (or_introl eq_refl)) as [a ->]. cbn [mapM bind]. destruct IH as [r ->]; [intros y I; apply H; now right|]. cbn [bind]. eauto. }
  apply G. intros x I. apply in_flat_map in I. destruct I as (k & A1 & A2). eauto.
Qed.
(** A set whose groups exist is written, and Code_Aster accepts it when it holds
    no line load and no gravity of norm zero. *)
Theorem C93_accepted_partial : forall tol m name l,
  Forall (known m) l -> (exists k, In k l /\ k <> InitialTemperature) ->
  exists c, write_loads tol m name false l = Ok (Some c) /\
  ((forall on g d v f, ~ In (Line on g d v f) l) -> (forall a, In a (accelerations l) -> norm a <> 0%R) -> readable c).
Proof.
  intros tol m name l K (k0 & I0 & N0). rewrite Forall_forall in K.
  assert (W : exists c, write_loads tol m name false l = Ok (Some c)).
  { unfold write_loads. assert (is_nil l = false) as -> by (destruct l; [contradiction|reflexivity]).
    assert (forallb is_temperature l = false) as ->.
    { apply not_true_iff_false. intros F. rewrite forallb_forall in F. specialize (F k0 I0). destruct k0; cbn in F; congruence. }
    edestruct (collect_ok (fun k => match k with Imposed on e => [imposed_entry m on e] | _ => [] end) l) as [r1 ->].
    { intros k x I J. specialize (K k I). destruct k; try contradiction. destruct J as [<-|[]]. destruct K as [A B]. unfold imposed_entry. destruct (C92_targets_written m on A B) as [t ->]. cbn [bind]. eauto. }
    cbn [bind]. edestruct (collect_ok (fun k => match k with PresFace on p => [do t <- write_cells m on; Ok ((- p)%R, t)] | _ => [] end) l) as [r2 ->].
    { intros k x I J. specialize (K k I). destruct k; try contradiction. destruct J as [<-|[]]. destruct (cells_known m on K) as [t ->]. cbn [bind]. eauto. }
    cbn [bind]. edestruct (collect_ok (fun k => match k with PresShell on p => [do t <- write_cells m on; Ok ((- p)%R, t)] | _ => [] end) l) as [r3 ->].
    { intros k x I J. specialize (K k I). destruct k; try contradiction. destruct J as [<-|[]]. destruct (cells_known m on K) as [t ->]. cbn [bind]. eauto. }
    cbn [bind]. edestruct (collect_ok (fun k => match k with Surface on f g => [face_entry tol m on f g] | _ => [] end) l) as [r4 ->].
    { intros k x I J. specialize (K k I). destruct k; try contradiction. destruct J as [<-|[]]. unfold face_entry. destruct (cells_known m on K) as [t ->]. cbn [bind]. eauto. }
    cbn [bind]. edestruct (collect_ok (fun k => match k with Line on false d v _ => [line_entry m name on d v] | _ => [] end) l) as [r5 ->].
    { intros k x I J. specialize (K k I). destruct k as [| | | | |on geo d v fn| | | |]; try contradiction. destruct geo; [contradiction|]. destruct J as [<-|[]]. unfold line_entry. destruct (cells_known m on K) as [t ->]. cbn [bind]. eauto. }
    cbn [bind]. eauto. }
  destruct W as [c W]. exists c. split; [exact W|]. intros NL NG. apply written_parts in W. destruct W as (_ & _ & _ & Ef & _ & _ & _ & _ & Ep & _ & Eg & _). unfold readable. rewrite Ef, Eg.
  assert (has_functions l = false) as ->.
  { apply not_true_iff_false. intros F. apply existsb_exists in F. destruct F as (k & I & F). destruct k; try discriminate. apply (NL _ _ _ _ _ I). }
  split.
  - clear - NL Ep. revert NL Ep. generalize (x_poutre c). clear c. induction l as [|k l IH]; intros q NL E; [cbn in E; injection E as <-; reflexivity|].
    apply collect_cons in E. destruct E as (r1 & r2 & E1 & E2 & ->). rewrite (IH r2 (fun on g d v f I => NL on g d v f (or_intror I)) E2), app_nil_r.
    destruct k as [| | | | |on geo d v fn| | | |]; try (cbn in E1; injection E1 as <-; reflexivity). elim (NL on geo d v fn). now left.
  - intros e I. apply in_flat_map in I. destruct I as (k & I & J). destruct k; try contradiction. destruct J as [<-|[]]. cbn [gravity_entry snd]. unfold direction_of.
    destruct (Req_EM_T _ _) as [Z0|]; [|discriminate]. elim (NG (vscale scale direction)); [|exact Z0]. unfold accelerations. apply in_flat_map. exists (Grav scale direction). split; [exact I|now left].
Qed.
(** A set of line loads on beams only, whose functions were written, is accepted
    too. *)
Theorem C93_lines_accepted : forall tol m name l c,
  (forall k, In k l -> exists on d v, k = Line on false d v true /\ name v <> []) ->
  write_loads tol m name false l = Ok (Some c) -> readable c.
Proof.
  intros tol m name l c H W. apply written_parts in W. destruct W as (_ & Nl & _ & Ef & E1 & E2 & E3 & E4 & E5 & E6 & E7 & E8). unfold readable. rewrite Ef.
  assert (has_functions l = true) as ->.
  { destruct l as [|k l]; [discriminate|]. destruct (H k (or_introl eq_refl)) as (on & d & v & -> & _). reflexivity. }
  assert (Z0 : forall A (f : loading -> list (outcome A)) q, (forall on d v, f (Line on false d v true) = []) -> collect f l = Ok q -> q = []).
  { intros A f q Hf. clear - H Hf. revert q H. induction l as [|k l IH]; intros q H E; [cbn in E; injection E as <-; reflexivity|].
    apply collect_cons in E. destruct E as (r1 & r2 & A1 & A2 & ->). destruct (H k (or_introl eq_refl)) as (on & d & v & -> & _). rewrite Hf in A1. injection A1 as <-. apply IH; [|exact A2]. intros k I. apply H. now right. }
  assert (Y : forall A (f : loading -> list A), (forall on d v, f (Line on false d v true) = []) -> flat_map f l = []).
  { intros A f Hf. clear - H Hf. induction l as [|k l IH]; [reflexivity|]. cbn [flat_map]. destruct (H k (or_introl eq_refl)) as (on & d & v & -> & _). rewrite Hf. apply IH. intros k I. apply H. now right. }
  assert (Ng : x_pesanteur c = []) by (rewrite E7; apply Y; reflexivity).
  split; [|rewrite Ng; intros e []].
  split; [eapply Z0; [|exact E1]; reflexivity|]. split; [eapply Z0; [|exact E2]; reflexivity|]. split; [eapply Z0; [|exact E3]; reflexivity|].
  split; [rewrite E6|].
  { assert (nodal_sums l = []) as ->; [|reflexivity]. unfold nodal_sums. generalize (@nil (Z * (vec * vec))). clear - H. induction l as [|k l IH]; intros acc; [reflexivity|]. cbn [fold_left].
    destruct (H k (or_introl eq_refl)) as (on & d & v & -> & _). apply IH. intros k I. apply H. now right. }
  split; [eapply Z0; [|exact E4]; reflexivity|]. split; [exact Ng|]. split; [rewrite E8; apply Y; reflexivity|].
  intros e I. clear - H E5 I. revert H E5 I. generalize (x_poutre c). clear c. induction l as [|k l IH]; intros q H E I; [cbn in E; injection E as <-; contradiction|].
  apply collect_cons in E. destruct E as (r1 & r2 & A1 & A2 & ->). apply in_app_or in I. destruct I as [I|I]; [|apply (IH r2); auto; intros k' I'; apply H; now right].
  destruct (H k (or_introl eq_refl)) as (on & d & v & -> & N). cbn [mapM] in A1. unfold line_entry in A1. destruct (write_cells m on) as [t| | |]; try discriminate. cbn [bind] in A1. injection A1 as <-. destruct I as [<-|[]]. exact N.
Qed.
(** C93 fails for a set with a line load and any other loading of numbers: the
    numbers are written where Code_Aster wants functions. *)
Theorem C93_mixed_refuted : forall tol m name dload l c on d v s g,
  In (Line on false d v true) l -> In (Grav s g) l -> write_loads tol m name dload l = Ok (Some c) -> ~ readable c.
Proof.
  intros tol m name dload l c on d v s g I J E [R _]. apply written_parts in E. destruct E as (_ & _ & _ & Ef & _ & _ & _ & _ & _ & _ & Eg & _). rewrite Ef in R.
  assert (H : has_functions l = true) by (apply existsb_exists; exists (Line on false d v true); auto). rewrite H in R. destruct R as (_ & _ & _ & _ & _ & R & _). rewrite Eg in R.
  assert (X : In (gravity_entry s g) (flat_map (fun k => match k with Grav s v => [gravity_entry s v] | _ => [] end) l)); [|rewrite R in X; exact X].
  apply in_flat_map. exists (Grav s g). split; [exact J|now left].
Qed.
(** C93 fails for initial temperatures: among other loadings they change
    nothing in the file. *)
Theorem C93_temperature_refuted : forall tol m name dload l, (exists k, In k l /\ k <> InitialTemperature) ->
  write_loads tol m name dload (InitialTemperature :: l) = write_loads tol m name dload l.
Proof.
  intros tol m name dload l (k & I & N). unfold write_loads. destruct dload; [reflexivity|]. destruct l as [|k1 l]; [contradiction|]. reflexivity.
Qed.

(** ** A set of each kind *)
Definition gm : cmesh := CMesh (fun _ => None) (fun g => if Z.eqb g 9 then Some [3; 4] else if Z.eqb g 8 then Some [] else None) (fun _ => []).
Definition a_load_set : list loading :=
  [Nodal [1; 2] (fun _ => V3 1 0 0) (fun _ => vzero); Nodal [2; 7] (fun _ => V3 2 3 0) (fun _ => V3 0 0 4); InitialTemperature;
   PresFace (CCont false [8; 9] [6]) 5; PresShell (on_cell 5) 6; Surface (on_cell 3) (V3 0 0 2) vzero; Grav (-2) (V3 0 0 3); Rot 10 (V3 0 0 2) (V3 1 0 0)].
Example C93_case : exists c, write_loads 0 gm no_names false a_load_set = Ok (Some c) /\ readable c /\
  (forall r, value_read r (nodal_values (x_nodale c) 2 DX) = 3%R /\ value_read r (nodal_values (x_nodale c) 7 RZ) = 4%R /\
    (- value_read r (cell_values gm (x_pres c) 4))%R = 5%R /\ value_read r (face_values gm (x_face c) 3 DZ) = 2%R /\
    vector_read r (map gravity_read (x_pesanteur c)) = V3 0 0 (-6) /\
    vector_read r (map (fun e => centrifugal e (V3 3 0 5)) (x_rotation c)) = V3 200 0 0).
Proof.
  destruct (C93_accepted_partial 0 gm no_names a_load_set) as (c & W & Rd).
  { apply Forall_forall. intros k I. unfold a_load_set in I. cbn [In] in I. repeat destruct I as [<-|I]; try exact Logic.I; try contradiction; cbn [known cc_groups on_cell]; try (intros g J; exact (False_ind _ J)).
    intros g [<-|[<-|[]]]; cbn; eauto. }
  { eexists. split; [left; reflexivity|discriminate]. }
  assert (NZ : forall a, In a (accelerations a_load_set) -> norm a <> 0%R).
  { intros a [<-|[]]. unfold norm, dot, vscale. cbn [vx vy vz]. replace (-2 * 0 * (-2 * 0) + -2 * 0 * (-2 * 0) + -2 * 3 * (-2 * 3))%R with (6 * 6)%R by ring. rewrite sqrt_square; lra. }
  assert (NS : node_sets a_load_set).
  { intros on f g I. unfold a_load_set in I. cbn [In] in I. repeat destruct I as [I|I]; try discriminate; try contradiction; injection I as <- _ _; repeat constructor; cbn; intuition discriminate. }
  exists c. split; [exact W|]. split.
  { apply Rd; [|exact NZ]. intros on g d v f I. unfold a_load_set in I. cbn [In] in I. repeat destruct I as [I|I]; try discriminate; contradiction. }
  assert (CL : forall x, x <> 0%R -> clean 0 x) by (intros x N; right; apply Rabs_pos_lt; exact N).
  intros r.
  assert (R1 : resultant a_load_set 2 DX = 3%R) by (cbn; ring). assert (R2 : resultant a_load_set 7 RZ = 4%R) by (cbn; ring).
  split; [rewrite (C93_nodal_partial r 0 gm no_names false a_load_set c 2 DX); auto with real; rewrite R1; apply CL; lra|].
  split; [rewrite (C93_nodal_partial r 0 gm no_names false a_load_set c 7 RZ); auto with real; rewrite R2; apply CL; lra|].
  split; [rewrite (proj1 (C93_pressure_partial r 0 gm no_names false a_load_set c 4 W)); [cbn; ring|right; cbn; lia]|].
  split; [rewrite (C93_surface_partial r 0 gm no_names false a_load_set c 3 DZ); [cbn; ring|lra|exact W| |right; cbn; lia]|].
  { cbn. apply Forall_cons; [apply CL; lra|apply Forall_nil]. }
  split; [rewrite (C93_gravity_partial r 0 gm no_names false a_load_set c W NZ); [|right; cbn; lia]|rewrite (C93_rotation r 0 gm no_names false a_load_set c (V3 3 0 5) W); [|right; cbn; lia]].
  - unfold vsum, accelerations, a_load_set, vscale, vadd, vzero. cbn. f_equal; ring.
  - unfold vsum, rotations, a_load_set, centrifugal, vscale, vsub, dot, vadd, vzero. cbn. f_equal; field.
Qed.
(** Beams with a function, and the same with a gravity. *)
Example C93_lines_case : exists c d, write_loads 0 no_groups (fun v => int_text v) false [Line (on_cell 5) false DY 7 true] = Ok (Some c) /\
  readable c /\ beam_values no_groups (x_poutre c) 5 DY = [txt "7"] /\
  write_loads 0 no_groups (fun v => int_text v) false [Line (on_cell 5) false DY 7 true; Grav 1 (V3 0 0 1)] = Ok (Some d) /\ ~ readable d.
Proof.
  eexists _, _. split; [reflexivity|]. split; [|split; [reflexivity|split; [reflexivity|]]].
  - refine (C93_lines_accepted 0 no_groups (fun v => int_text v) [Line (on_cell 5) false DY 7 true] _ _ eq_refl). intros k [<-|[]]. eexists _, _, _. split; [reflexivity|]. discriminate.
  - intros [(_ & _ & _ & _ & _ & X & _) _]. discriminate.
Qed.
Print Assumptions C93_nodal_close.
Print Assumptions C93_nodal_partial.
Print Assumptions C93_pressure_partial.
Print Assumptions C93_pressures_refuted.
Print Assumptions C93_surface_partial.
Print Assumptions C93_beams.
Print Assumptions C93_geometry_refuted.
Print Assumptions C93_gravity_partial.
Print Assumptions C93_rotation.
Print Assumptions C93_imposed.
Print Assumptions C93_no_command.
Print Assumptions C93_accepted_partial.
Print Assumptions C93_lines_accepted.
Print Assumptions C93_mixed_refuted.
Print Assumptions C93_temperature_refuted.
