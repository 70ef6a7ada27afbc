(** Materials and point masses of the Systus file (Systus/SystusWriter.cpp).
    Doubles are real numbers; Globals::UNAVAILABLE_DOUBLE is [None], and -M where
    the code computes with it (Utility.h:52). *)
From Coq Require Import Reals ZArith List Bool.
Require Import Verif.Base Verif.DofModel Verif.SectionModel.
Import ListNotations.
Open Scope R_scope.
Open Scope list_scope.

(** ** Fields *)
(** SystusWriter.h:36-58, the values of the enumeration SMF used here: the numbers
    written before the values of the fields. *)
Definition kID := 0%Z. Definition kRHO := 4%Z. Definition kE := 5%Z. Definition kNU := 6%Z.
Definition kS := 11%Z. Definition kAY := 12%Z. Definition kAZ := 13%Z. Definition kIX := 14%Z. Definition kIY := 15%Z.
Definition kIZ := 16%Z. Definition kH := 21%Z. Definition kTABLE := 26%Z. Definition kKX := 31%Z. Definition kKY := 32%Z.
Definition kKZ := 33%Z. Definition kALPHA := 35%Z. Definition kCOEF := 56%Z. Definition kSHAPE := 61%Z. Definition kMID := 182%Z.
Definition kDEPEND := 184%Z. Definition kLEVEL := 197%Z. Definition kTYPE := 200%Z.
Inductive value := I (z : Z) | D (r : R).
(** std::map<SMF, string>: by ascending key, one value per key. *)
Definition material := list (Z * value).
Fixpoint put (k : Z) (v : value) (m : material) : material :=
  match m with
  | [] => [(k, v)]
  | (k', v') :: r => if (k <? k')%Z then (k, v) :: m else if (k =? k')%Z then (k, v) :: r else (k', v') :: put k v r
  end.
(** SystusWriter.cpp:282-319, fillMaterialField of a double, by kind of field. *)
Definition put_positive (k : Z) (x : R) (m : material) : material := if Rlt_dec 0 x then put k (D x) m else m.
Definition put_real (k : Z) (x : R) (m : material) : material := put k (D x) m.
Definition put_known (k : Z) (x : option R) (m : material) : material := match x with Some x => put k (D x) m | None => m end.
(** SystusWriter.cpp:321-341, fillMaterialField of an integer. *)
Definition put_int (k : Z) (x : Z) (m : material) : material := put k (I x) m.

(** ** Sections *)
(** Abstract/Element.cpp:231-237, 266-272, 304-310, 1031-1046: shear factors, one
    for both directions.  A web without area: a division by zero. *)
Definition shear_factor (s : section) : outcome R :=
  match s with
  | Circular _ | Tube _ _ => Ok (10 / 9)
  | Rectangular _ _ => Ok (6 / 5)
  | ISection _ _ e1 e3 height e2 => divide (area s) (e2 * (height - e1 - e3))
  end.
(** A beam: the numbers of a card (GenericSectionBeam; a factor may be
    unavailable) or a section. *)
Inductive beam := Given (s iy iz it : R) (fy fz : option R) | Of (s : section).
Record beam_numbers := mkNumbers { b_area : R; b_fy : option R; b_fz : option R; b_it : R; b_iy : R; b_iz : R }.
Definition numbers (tol : R) (b : beam) : outcome beam_numbers :=
  match b with
  | Given s iy iz it fy fz => Ok (mkNumbers s fy fz it iy iz)
  | Of s => do f <- shear_factor s; do iz <- inertia_z tol s; Ok (mkNumbers (area s) (Some f) (Some f) (torsion s) (inertia_y s) iz)
  end.
Definition rectangular (b : beam) : bool := match b with Of (Rectangular _ _) => true | _ => false end.
(** S * factor: for an unavailable factor the product is -S*M, or an infinity; it
    passes for unavailable again when it is within [tol] of -M or infinite. *)
Definition shear_area (M tol s : R) (f : option R) : option R :=
  match f with
  | Some f => Some (s * f)
  | None => if Rlt_dec (Rabs s) (1 - tol) then Some (- (s * M)) else None
  end.

(** ** Sets *)
(** The elastic nature: getRho, getE, getNu, getGE. *)
Record elastic := mkElastic { el_rho : R; el_e : R; el_nu : R; el_ge : option R }.
Inductive member := MBeam (truss : bool) (b : beam) | MShell (thickness : R) | MSolid | MOther.
(** The rigid nature: getLagrangian, getRigidity. *)
Record rigid := mkRigid { r_lagrangian : R; r_rigidity : R }.
Inductive rmember := RBar | RAverage (mdofs sdofs : dofs) | RRelation (analysis : Z) | ROther.
Inductive props :=
| Elastic (e : elastic) (m : member)
| RigidBody (n : rigid) (m : rmember)
| NoNature
| Bush (k : dof -> R)
| Spring (pairs : list (dof * dof)) (stiffness : option R)
| MatrixSet
| SkinSet
| MassSet
| NoMaterial.
Record mset := mkMSet { m_id : Z; m_effective : bool; m_props : props }.

Section Materials.
(** [lagrangian]: systusRBE2TranslationMode; [file]: systusOutputMatrix is "file";
    [active]: the analyses of the subcase; [table], [reduction]:
    tableByElementSet, seIdByElementSet. *)
Context (M tol : R) (lagrangian file : bool) (active : list Z) (table reduction : Z -> option Z).

(** SystusWriter.cpp:1979-2052. *)
Definition put_elastic (e : elastic) (mb : member) (m : material) : outcome material :=
  let m := put_positive kRHO (el_rho e) m in
  let m := put_positive kE (el_e e) m in
  let m := put_positive kNU (el_nu e) m in
  let m := put_known kALPHA (option_map (Rmult 2) (el_ge e)) m in
  match mb with
  | MBeam truss b =>
    if truss then
      Ok (if rectangular b then m
          else put_real kS (match b with Given s _ _ _ _ _ => s | Of s => area s end) m)
    else
      do n <- numbers tol b;
      let m := put_real kS (b_area n) m in
      let m := put_known kAY (shear_area M tol (b_area n) (b_fy n)) m in
      let m := put_known kAZ (shear_area M tol (b_area n) (b_fz n)) m in
      let m := put_real kIX (b_it n) m in
      let m := put_real kIY (b_iy n) m in
      Ok (put_real kIZ (b_iz n) m)
  | MShell h => Ok (put_real kH h m)
  | MSolid | MOther => Ok m
  end.
(** SystusWriter.cpp:264-277 and 101-116. *)
Definition put_dofs (s : dofs) (m : material) : material :=
  fold_left (fun m dk => if contains s (fst dk) then put_real (snd dk) 1 m else m)
    [(DX, kKX); (DY, kKY); (DZ, kKZ); (RX, kIX); (RY, kIY); (RZ, kIZ)] m.
Definition dofs_int (s : dofs) : Z :=
  fold_left (fun n dk => if contains s (fst dk) then (n + snd dk)%Z else n)
    [(DX, 1%Z); (DY, 2%Z); (DZ, 4%Z); (RX, 8%Z); (RY, 16%Z); (RZ, 32%Z)] 0%Z.
Definition put_mode (n : rigid) (m : material) : material :=
  if lagrangian then put_positive kE (r_lagrangian n) (put_int kSHAPE 19 m)
  else put_positive kE (r_rigidity n) (put_int kSHAPE 9 m).
(** SystusWriter.cpp:2055-2119; none: the set is skipped. *)
Definition put_rigid (id : Z) (n : rigid) (mb : rmember) (m : material) : option material :=
  match mb with
  | RBar => Some (put_mode n (put_int kTYPE 9 (put_int kLEVEL 1 m)))
  | RAverage md sd =>
    Some (put_int kDEPEND (dofs_int sd) (put_real kCOEF (r_lagrangian n) (put_dofs md (put_int kLEVEL 3 (put_int kSHAPE 19 m)))))
  | RRelation a =>
    if existsb (Z.eqb a) active then
      Some (match table id with
            | None => m
            | Some t => put_int kLEVEL 0 (put_mode n (put_int kTABLE t m))
            end)
    else None
  | ROther => Some m
  end.
(** SystusWriter.cpp:50-57. *)
Definition smf_of (d : dof) : Z := match d with RX => kIX | RY => kIY | RZ => kIZ | DX => kKX | DY => kKY | DZ => kKZ end.
(** SystusWriter.cpp:2170-2185 and 2194-2210. *)
Definition put_table (id : Z) (m : material) : material :=
  match table id with
  | None => m
  | Some t =>
    let m := put_int kTABLE t m in
    if file then match reduction id with None => m | Some r => put_positive kE (IZR r) m end else m
  end.

(** SystusWriter.cpp:1948-2245, fillMaterial: the materials, the material of each
    set (materialIdByElementSetId), the material of the skins.  A spring without a
    pair of components is read past its end: [UB]. *)
Definition state := (list material * (Z -> option Z) * option Z)%type.
Definition bind_id (ids : Z -> option Z) (s m : Z) : Z -> option Z := fun x => if (x =? s)%Z then Some m else ids x.
Definition fill_one (st : state) (s : mset) : outcome state :=
  let '(mats, ids, skin) := st in
  if negb (m_effective s) then Ok st
  else
    let n := (Z.of_nat (length mats) + 1)%Z in
    let m := put_int kMID n (put_int kID n []) in
    let add m := Ok (mats ++ [m], bind_id ids (m_id s) n, skin) in
    match m_props s with
    | Elastic e mb => do m <- put_elastic e mb m; add m
    | RigidBody r mb => match put_rigid (m_id s) r mb m with Some m => add m | None => Ok st end
    | NoNature => Ok st
    | Bush k =>
      add (put_real kKZ (k DZ) (put_real kKY (k DY) (put_real kKX (k DX)
          (put_real kIZ (k RZ) (put_real kIY (k RY) (put_real kIX (k RX) m))))))
    | Spring [] _ => UB
    | Spring ((a, b) :: _) x => add (if dof_eqb a b then put_real (smf_of a) (match x with Some k => k | None => - M end) m else put_table (m_id s) m)
    | MatrixSet => add (put_table (m_id s) m)
    | SkinSet => match skin with
                 | None => Ok (mats ++ [m], bind_id ids (m_id s) n, Some n)
                 | Some k => Ok (mats, bind_id ids (m_id s) k, skin)
                 end
    | MassSet | NoMaterial => Ok st
    end.
Definition fill_materials (ids : Z -> option Z) (sets : list mset) : outcome state :=
  foldM fill_one sets ([], ids, None).

(** SystusWriter.cpp:2948-2981, writeMaterial: counts of materials and of fields,
    then each material: its number, 0, its other fields. *)
Definition get (k : Z) (m : material) : option value := option_map snd (find (fun kv => (fst kv =? k)%Z) m).
Definition write_material (m : material) : option value * material := (get kID m, filter (fun kv => negb (fst kv =? kID)%Z) m).
Definition write_materials (mats : list material) : Z * Z * list (option value * material) :=
  let ls := map write_material mats in
  (Z.of_nat (length mats), Z.of_nat (length (flat_map snd ls)), ls).
End Materials.

(** ** Reduction numbers of springs *)
(** SystusWriter.cpp:2263-2306, fillMatrices on the scalar springs (output matrix
    "file"): two files, numbered apart; [stiff], [damp]: what they hold, by
    number.  The last number given to a set wins. *)
Record spring := mkSpring { p_id : Z; p_pair : dof * dof; p_stiffness : option R; p_damping : option R }.
Record matrix_files := mkFiles { f_stiff : list R; f_damp : list R; f_table : Z -> option Z; f_reduction : Z -> option Z }.
Definition StiffnessAccessId := 43%Z.
Definition DampingAccessId := 41%Z.
Definition fill_spring (f : matrix_files) (p : spring) : matrix_files :=
  if dof_eqb (fst (p_pair p)) (snd (p_pair p)) then f
  else
    let f := match p_stiffness p with
             | None => (f, 0%Z)
             | Some k => (mkFiles (f_stiff f ++ [k]) (f_damp f) (f_table f)
                           (bind_id (f_reduction f) (p_id p) (Z.of_nat (length (f_stiff f)) + 1)), StiffnessAccessId)
             end in
    let f := match p_damping p with
             | None => f
             | Some c => (mkFiles (f_stiff (fst f)) (f_damp (fst f) ++ [c]) (f_table (fst f))
                           (bind_id (f_reduction (fst f)) (p_id p) (Z.of_nat (length (f_damp (fst f))) + 1)), (snd f + DampingAccessId * 10000)%Z)
             end in
    mkFiles (f_stiff (fst f)) (f_damp (fst f)) (bind_id (f_table (fst f)) (p_id p) (- snd f)) (f_reduction (fst f)).
Definition fill_springs (ps : list spring) : matrix_files := fold_left fill_spring ps (mkFiles [] [] (fun _ => None) (fun _ => None)).

(** ** Masses *)
(** SystusWriter.cpp:3026-3061, writeMasses; [mult]: MASS_OVER_FORCE_MULTIPLIER, 1
    when absent (Element.cpp:935-942); [strict]: handleWritingError throws. *)
Record mass := mkMass { q_effective : bool; q_m : R; q_xx : R; q_yy : R; q_zz : R; q_xy : R; q_yz : R; q_xz : R; q_nodes : list Z }.
Definition mass_line (strict : bool) (tol mult : R) (q : mass) : outcome (list (list R * list Z)) :=
  if negb (q_effective q) then Ok []
  else if strict && negb (is_zero tol (q_xy q) && is_zero tol (q_yz q) && is_zero tol (q_xz q)) then Throw
  else
    let m := q_m q * mult in
    let vals := if is_zero tol (q_xx q) && is_zero tol (q_yy q) && is_zero tol (q_zz q) then [m; m; m]
                else [m; m; m; q_xx q; q_yy q; q_zz q] in
    Ok [(vals, q_nodes q)].
Definition write_masses (strict : bool) (tol mult : R) (qs : list mass) : outcome (Z * list (list R * list Z)) :=
  do ls <- mapM (mass_line strict tol mult) qs; Ok (Z.of_nat (length qs), concat ls).
