(** Fields of the materials of the Systus file, set by set (for C98). *)
From Coq Require Import Reals ZArith List Bool Lia Lra Sorting.Sorted.
Require Import Verif.Base Verif.DofModel Verif.SectionModel Verif.SystusMaterialModel.
Import ListNotations.
Open Scope R_scope.
Open Scope list_scope.

(** ** Fields *)
Lemma get_put k v m k' : get k' (put k v m) = if (k' =? k)%Z then Some v else get k' m.
Proof.
  unfold get. induction m as [|[a w] m IH]; cbn.
  - rewrite Z.eqb_sym. destruct (k' =? k)%Z; reflexivity.
  - destruct (k <? a)%Z eqn:L; [|destruct (k =? a)%Z eqn:E]; cbn.
    + rewrite (Z.eqb_sym k k'). destruct (k' =? k)%Z; reflexivity.
    + apply Z.eqb_eq in E. subst a. rewrite (Z.eqb_sym k k'). destruct (k' =? k)%Z; reflexivity.
    + destruct (Z.eqb_spec a k') as [->|N]; [rewrite Z.eqb_sym, E; reflexivity|exact IH].
Qed.
(** The fields a set asks for.  [want] gives the value of each field, by key. *)
Definition wanted := Z -> option value.
Definition positive (x : R) : option value := if Rlt_dec 0 x then Some (D x) else None.
Definition known (x : option R) : option value := option_map D x.
Definition numbered (n : Z) (w : wanted) : wanted := fun k => if (k =? 0)%Z then Some (I n) else if (k =? 182)%Z then Some (I n) else w k.
Definition pick (l : list (Z * option value)) : wanted :=
  fun k => match find (fun kv => (fst kv =? k)%Z) l with Some (_, v) => v | None => None end.
(** Elastic constants: fields 4 (mass density), 5 (Young), 6 (Poisson), 35 (damping). *)
Definition elastic_fields (e : elastic) : list (Z * option value) :=
  [(4%Z, positive (el_rho e)); (5%Z, positive (el_e e)); (6%Z, positive (el_nu e)); (35%Z, known (option_map (fun g => 2 * g) (el_ge e)))].

Section Claims.
Context (M tol : R) (lagrangian file : bool) (active : list Z) (table reduction : Z -> option Z).
(** Sections: fields 11 (area), 12 and 13 (shear areas), 14 (torsion), 15 and 16
    (inertias), 21 (thickness). *)
Definition beam_fields (n : beam_numbers) : list (Z * option value) :=
  [(11%Z, Some (D (b_area n))); (12%Z, known (shear_area M tol (b_area n) (b_fy n))); (13%Z, known (shear_area M tol (b_area n) (b_fz n)));
   (14%Z, Some (D (b_it n))); (15%Z, Some (D (b_iy n))); (16%Z, Some (D (b_iz n)))].
Definition member_fields (mb : member) : list (Z * option value) :=
  match mb with
  | MBeam true (Given s _ _ _ _ _) => [(11%Z, Some (D s))]
  | MBeam true (Of (Rectangular _ _)) => []
  | MBeam true (Of s) => [(11%Z, Some (D (area s)))]
  | MBeam false b => match numbers tol b with Ok n => beam_fields n | _ => [] end
  | MShell h => [(21%Z, Some (D h))]
  | MSolid | MOther => []
  end.
(** Rigid bodies and relations: 61 (shape 19: multipliers, 9: penalty), 5 (its
    coefficient), 197 (level), 200 (type), 26 (table); averages: 31..33 and 14..16
    (components of the masters), 56 (coefficient), 184 (components of the slave,
    in bits). *)
Definition mode_fields (n : rigid) : list (Z * option value) :=
  if lagrangian then [(61%Z, Some (I 19)); (5%Z, positive (r_lagrangian n))] else [(61%Z, Some (I 9)); (5%Z, positive (r_rigidity n))].
Definition flag (s : dofs) (d : dof) : option value := if contains s d then Some (D 1) else None.
Definition bit (s : dofs) (d : dof) (k : Z) : Z := if contains s d then k else 0%Z.
Definition rigid_fields (id : Z) (n : rigid) (mb : rmember) : list (Z * option value) :=
  match mb with
  | RBar => (197%Z, Some (I 1)) :: (200%Z, Some (I 9)) :: mode_fields n
  | RAverage md sd =>
    [(61%Z, Some (I 19)); (197%Z, Some (I 3)); (31%Z, flag md DX); (32%Z, flag md DY); (33%Z, flag md DZ); (14%Z, flag md RX);
     (15%Z, flag md RY); (16%Z, flag md RZ); (56%Z, Some (D (r_lagrangian n)));
     (184%Z, Some (I (bit sd DX 1 + bit sd DY 2 + bit sd DZ 4 + bit sd RX 8 + bit sd RY 16 + bit sd RZ 32)))]
  | RRelation _ => match table id with Some t => (26%Z, Some (I t)) :: (197%Z, Some (I 0)) :: mode_fields n | None => [] end
  | ROther => []
  end.
Definition table_fields (id : Z) : list (Z * option value) :=
  match table id with
  | None => []
  | Some t => (26%Z, Some (I t)) :: (if file then match reduction id with Some r => [(5%Z, positive (IZR r))] | None => [] end else [])
  end.
(** Stiffnesses: 31..33 and 14..16. *)
Definition stiffness_key (d : dof) : Z := match d with DX => 31 | DY => 32 | DZ => 33 | RX => 14 | RY => 15 | RZ => 16 end.
Definition fields_of (s : mset) : list (Z * option value) :=
  match m_props s with
  | Elastic e mb => elastic_fields e ++ member_fields mb
  | RigidBody n mb => rigid_fields (m_id s) n mb
  | Bush k => map (fun d => (stiffness_key d, Some (D (k d)))) [DX; DY; DZ; RX; RY; RZ]
  | Spring ((a, b) :: _) x =>
    if dof_eq_dec a b then [(stiffness_key a, Some (D (match x with Some k => k | None => - M end)))] else table_fields (m_id s)
  | MatrixSet => table_fields (m_id s)
  | _ => []
  end.
Definition own (s : mset) : Prop :=
  m_effective s = true /\
  match m_props s with
  | Elastic _ _ | Bush _ | MatrixSet => True
  | Spring ps _ => ps <> []
  | RigidBody _ (RRelation a) => In a active
  | RigidBody _ _ => True
  | _ => False
  end.
Definition describes (s : mset) (n : Z) (m : material) : Prop :=
  forall k, get k m = if (k =? 0)%Z then Some (I n) else if (k =? 182)%Z then Some (I n) else pick (fields_of s) k.

Ltac keys := unfold kID, kRHO, kE, kNU, kS, kAY, kAZ, kIX, kIY, kIZ, kH, kTABLE, kKX, kKY, kKZ, kALPHA, kCOEF, kSHAPE, kMID, kDEPEND, kLEVEL, kTYPE in *.
Lemma get_positive k x m k' : get k' (put_positive k x m) = if (k' =? k)%Z then (if Rlt_dec 0 x then Some (D x) else get k' m) else get k' m.
Proof. unfold put_positive. destruct (Rlt_dec 0 x); [apply get_put|destruct (k' =? k)%Z; reflexivity]. Qed.
Lemma get_real k x m k' : get k' (put_real k x m) = if (k' =? k)%Z then Some (D x) else get k' m.
Proof. apply get_put. Qed.
Lemma get_int k x m k' : get k' (put_int k x m) = if (k' =? k)%Z then Some (I x) else get k' m.
Proof. apply get_put. Qed.
Lemma get_known k x m k' : get k' (put_known k x m) = if (k' =? k)%Z then (match x with Some x => Some (D x) | None => get k' m end) else get k' m.
Proof. destruct x; cbn; [apply get_put|destruct (k' =? k)%Z; reflexivity]. Qed.
Lemma get_flag s d k m k' : get k' (if contains s d then put_real k 1 m else m) = if (k' =? k)%Z then (if contains s d then Some (D 1) else get k' m) else get k' m.
Proof. destruct (contains s d); [apply get_put|destruct (k' =? k)%Z; reflexivity]. Qed.
Lemma pick_cons a v l k : pick ((a, v) :: l) k = if (k =? a)%Z then v else pick l k.
Proof. unfold pick. cbn. rewrite Z.eqb_sym. destruct (k =? a)%Z; reflexivity. Qed.
Lemma pick_nil k : pick [] k = None.
Proof. reflexivity. Qed.
Lemma get_nil k : get k [] = None.
Proof. reflexivity. Qed.
Ltac bykey k :=
  repeat match goal with
  | |- context[(k =? ?a)%Z] => destruct (Z.eqb_spec k a) as [?E|?N]; [subst k; cbn [Z.eqb Pos.eqb]; try reflexivity|]
  end.
Ltac expose := cbn [put_known]; repeat first [rewrite get_int|rewrite get_real|rewrite get_positive|rewrite get_known|rewrite get_flag|rewrite get_put|rewrite get_nil|rewrite pick_cons|rewrite pick_nil].
Ltac settle := repeat (expose; cbn [Z.eqb Pos.eqb]); unfold positive, known, flag;
  repeat match goal with |- context[Rlt_dec 0 ?x] => destruct (Rlt_dec 0 x) end; cbn [option_map];
  repeat match goal with |- context[match ?o with Some _ => _ | None => _ end] => destruct o end; try reflexivity.

Definition start (n : Z) : material := put_int kMID n (put_int kID n []).
Lemma elastic_spec s e mb n m : m_props s = Elastic e mb -> put_elastic M tol e mb (start n) = Ok m -> describes s n m.
Proof.
  intros P H k. unfold fields_of. rewrite P. unfold put_elastic in H. cbv zeta in H. unfold start in H. keys.
  unfold elastic_fields. destruct (el_ge e) as [ge|]; cbn [option_map] in *.
  all: destruct mb as [[|] b|h| |]; cbn [member_fields app].
  1,6: destruct b as [a iy iz it fy fz|[]]; cbn [rectangular] in H; injection H as <-; expose; bykey k; settle.
  1,5: destruct (numbers tol b) as [x| | |] eqn:N; cbn [bind] in H; try discriminate; injection H as <-; unfold beam_fields; expose; bykey k; settle.
  all: injection H as <-; expose; bykey k; settle.
Qed.

Lemma rigid_spec s r mb n m : m_props s = RigidBody r mb -> put_rigid lagrangian active table (m_id s) r mb (start n) = Some m -> describes s n m.
Proof.
  intros P H k. unfold fields_of. rewrite P. unfold put_rigid in H. unfold start in H. unfold rigid_fields, mode_fields.
  destruct mb as [|md sd|a|].
  - injection H as <-. unfold put_mode. destruct lagrangian; keys; expose; bykey k; settle.
  - injection H as <-. unfold put_dofs. cbn [fold_left fst snd].
    assert (dofs_int sd = bit sd DX 1 + bit sd DY 2 + bit sd DZ 4 + bit sd RX 8 + bit sd RY 16 + bit sd RZ 32)%Z as ->.
    { unfold dofs_int, bit. cbn [fold_left fst snd]. destruct (contains sd DX), (contains sd DY), (contains sd DZ), (contains sd RX), (contains sd RY), (contains sd RZ); reflexivity. }
    keys. expose. bykey k; settle; unfold flag; repeat match goal with |- context[contains md ?d] => destruct (contains md d) end; reflexivity.
  - destruct (existsb (Z.eqb a) active); [|discriminate]. injection H as <-. destruct (table (m_id s)) as [t|].
    + unfold put_mode. destruct lagrangian; keys; expose; bykey k; settle.
    + keys. expose; bykey k; settle.
  - injection H as <-. keys. expose; bykey k; settle.
Qed.
Lemma table_spec s n : fields_of s = table_fields (m_id s) -> describes s n (put_table file table reduction (m_id s) (start n)).
Proof.
  intros P k. rewrite P. unfold table_fields, put_table, start. destruct (table (m_id s)) as [t|]; [destruct file; [destruct (reduction (m_id s))|]|];
    keys; expose; bykey k; settle.
Qed.

(** One set. *)
Definition bare (n : Z) (m : material) : Prop := forall k, get k m = if (k =? 0)%Z then Some (I n) else if (k =? 182)%Z then Some (I n) else None.
Lemma fill_one_spec mats ids skin s st' : fill_one M tol lagrangian file active table reduction (mats, ids, skin) s = Ok st' ->
  let n := (Z.of_nat (length mats) + 1)%Z in
  (own s /\ exists m, st' = (mats ++ [m], bind_id ids (m_id s) n, skin) /\ describes s n m) \/
  (~ own s /\ ((m_effective s = false \/ m_props s <> SkinSet) /\ st' = (mats, ids, skin) \/
    m_effective s = true /\ m_props s = SkinSet /\
      match skin with
      | None => exists m, st' = (mats ++ [m], bind_id ids (m_id s) n, Some n) /\ bare n m
      | Some k => st' = (mats, bind_id ids (m_id s) k, skin)
      end)).
Proof.
  intros H n. unfold fill_one in H. unfold own. destruct (m_effective s) eqn:E; cbn [negb] in H.
  2:{ injection H as <-. right. split; [intros [? _]; discriminate|]. left. auto. }
  fold n in H. fold (start n) in H. cbv zeta in H.
  destruct (m_props s) as [e mb|r mb| |k|ps x| | | |] eqn:P.
  - destruct (put_elastic M tol e mb (start n)) as [m| | |] eqn:Q; cbn [bind] in H; try discriminate. injection H as <-.
    left. split; [auto|]. exists m. split; [reflexivity|]. eapply elastic_spec; eassumption.
  - destruct (put_rigid lagrangian active table (m_id s) r mb (start n)) as [m|] eqn:Q; injection H as <-.
    + left. split.
      * split; [reflexivity|]. destruct mb as [| |a|]; try exact Logic.I. cbn in Q. destruct (existsb (Z.eqb a) active) eqn:X; [|discriminate].
        apply existsb_exists in X. destruct X as (b & J & X). apply Z.eqb_eq in X. congruence.
      * exists m. split; [reflexivity|]. eapply rigid_spec; eassumption.
    + right. destruct mb as [| |a|]; try discriminate. cbn in Q. destruct (existsb (Z.eqb a) active) eqn:X; [discriminate|]. split.
      * intros [_ J]. assert (existsb (Z.eqb a) active = true); [|congruence]. apply existsb_exists. exists a. split; [assumption|apply Z.eqb_refl].
      * left. split; [right; discriminate|reflexivity].
  - injection H as <-. right. split; [intros [_ []]|]. left. split; [right; discriminate|reflexivity].
  - injection H as <-. left. split; [auto|]. eexists. split; [reflexivity|]. intros j. unfold fields_of. rewrite P. cbn [map stiffness_key].
    unfold start. keys. expose. bykey j; settle.
  - destruct ps as [|[a b] ps]; [discriminate|]. injection H as <-. left. split; [split; [reflexivity|discriminate]|]. eexists. split; [reflexivity|].
    destruct (dof_eqb a b) eqn:X.
    + assert (a = b) by (destruct a, b; cbn in X; try discriminate; reflexivity). subst b.
      intros j. unfold fields_of. rewrite P. destruct (dof_eq_dec a a); [|congruence].
      replace (smf_of a) with (stiffness_key a) by (destruct a; reflexivity). unfold start. keys.
      destruct a; cbn [stiffness_key]; expose; bykey j; settle.
    + apply table_spec. unfold fields_of. rewrite P. destruct (dof_eq_dec a b) as [->|]; [|reflexivity]. destruct b; discriminate.
  - injection H as <-. left. split; [auto|]. eexists. split; [reflexivity|]. apply table_spec. unfold fields_of. now rewrite P.
  - right. split; [intros [_ []]|]. right. split; [reflexivity|]. split; [reflexivity|]. destruct skin as [k|]; injection H as <-; [reflexivity|].
    eexists. split; [reflexivity|]. intros j. unfold start. keys. expose. bykey j; settle.
  - injection H as <-. right. split; [intros [_ []]|]. left. split; [right; discriminate|reflexivity].
  - injection H as <-. right. split; [intros [_ []]|]. left. split; [right; discriminate|reflexivity].
Qed.
End Claims.
