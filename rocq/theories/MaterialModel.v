(** Materials: the cards MAT1, MAT8, MATHP and MATS1 (NastranParser.cpp), the natures
    of a material (Abstract/Material.cpp), the isotropic layers of composites made
    orthotropic (Abstract/Model.cpp), and the materials as the Nastran and the Aster
    writers print them.  Real numbers for doubles; a number that is not available
    (Globals::UNAVAILABLE_DOUBLE, -DBL_MAX) is [None].  The elastic constants are
    those of SectionModel. *)
From Coq Require Import Ascii String QArith ZArith Reals Qreals List Bool Arith.
From Verif Require Import Base TextModel TokenizerModel RealModel WriterLineModel CardModel LoadCardModel PropCardModel SectionModel GeomModel OrientModel.
Import ListNotations.
Open Scope Z_scope.
Open Scope list_scope.

(** ** Natures *)
(** Material.h:64-98 ElasticNature, 100-160 OrthotropicNature (E along and across,
    NU, G in the plane; the other numbers may be missing), 162-170 BilinearElastic,
    172-180 HyperElastic, 182-188 NonLinearElastic (number of a table).  RigidNature
    does not come from these cards. *)
Record elastic := mkElastic { el_e : option R; el_nu : option R; el_g : option R; el_rho : option R; el_alpha : option R; el_tref : option R; el_ge : option R }.
Record ortho := mkOrtho { o_el : R; o_et : R; o_nu : R; o_glt : R; o_gtn : option R; o_gln : option R; o_rho : option R;
  o_al : option R; o_at : option R; o_an : option R; o_temp : option R; o_xt : option R; o_xc : option R; o_yt : option R; o_yc : option R; o_slt : option R }.
Record hyper := mkHyper { h_c10 : R; h_c01 : R; h_c20 : R; h_k : R; h_rho : R }.
Record bilinear := mkBilinear { b_limit : option R; b_slope : option R }.
Inductive nature := Elastic (n : elastic) | Ortho (n : ortho) | Hyper (n : hyper) | Bilinear (n : bilinear) | Nonlinear (table : Z).
Definition same_type (a b : nature) : bool :=
  match a, b with
  | Elastic _, Elastic _ | Ortho _, Ortho _ | Hyper _, Hyper _ | Bilinear _, Bilinear _ | Nonlinear _, Nonlinear _ => true
  | _, _ => false
  end.
(** The materials in the order of their creation: number, natures. *)
Definition materials := list (Z * list nature).
(** Model.cpp:736-743 getOrCreateMaterial. *)
Definition create (ms : materials) (id : Z) : materials :=
  if existsb (fun m => fst m =? id) ms then ms else ms ++ [(id, [])].
(** Material.cpp:50-55 addNature: invalid_argument when there is one of that type;
    no handler of the parser catches it. *)
Fixpoint add_nature (ms : materials) (id : Z) (n : nature) : outcome materials :=
  match ms with
  | [] => Ok []
  | (i, ns) :: r =>
    if i =? id then (if existsb (same_type n) ns then Throw else Ok ((i, ns ++ [n]) :: r))
    else do r <- add_nature r id n; Ok ((i, ns) :: r)
  end.

(** ** Cards *)
Definition real (d : option decimal) : option R := option_map dec_R d.
(** [n] reals that may be missing. *)
Fixpoint opt_reals (n : nat) (t : cursor) : outcome (list (option R) * cursor) :=
  match n with
  | O => Ok ([], t)
  | S n => do r <- optional_double t; let '(v, t) := r in do q <- opt_reals n t; let '(l, t) := q in Ok (real v :: l, t)
  end.
Fixpoint reals (n : nat) (t : cursor) : outcome (list R * cursor) :=
  match n with
  | O => Ok ([], t)
  | S n => do r <- nextDouble t; let '(v, t) := r in do q <- reals n t; let '(l, t) := q in Ok (dec_R v :: l, t)
  end.
Definition at_ (l : list (option R)) (i : nat) : option R := nth i l None.

(** NastranParser.cpp:1863-1922: the fields of MAT1 (stress limits and coordinate
    system are announced and ignored); 1873-1897 and Material.cpp:103-109: the
    constants ([Throw]: invalid_argument, not caught). *)
Definition read_mat1 (t : cursor) : outcome (Z * list (option R) * cursor) :=
  do r <- nextInt t; let '(id, t) := r in
  do r <- opt_reals 7 t; let '(l, t) := r in
  do r <- opt_reals 3 t; let '(_, t) := r in
  do r <- nextIntDefault 0 t; let '(_, t) := r in Ok (id, l, t).
Definition elastic_of (l : list (option R)) : outcome elastic :=
  do c <- mat1 (at_ l 0) (at_ l 1) (at_ l 2);
  do n <- new_nature c; let '(e, g, nu) := n in
  Ok (mkElastic e nu g (at_ l 3) (at_ l 4) (at_ l 5) (at_ l 6)).

(** NastranParser.cpp:1927-1948, MAT8. *)
Definition read_mat8 (t : cursor) : outcome (Z * nature * cursor) :=
  do r <- nextInt t; let '(id, t) := r in
  do r <- reals 4 t; let '(c, t) := r in
  do r <- opt_reals 11 t; let '(l, t) := r in
  match c with
  | [e1; e2; nu12; g12] =>
    let g1z := at_ l 0 in let g2z := at_ l 1 in
    Ok (id, Ortho (mkOrtho e1 e2 nu12 g12 g2z g1z (at_ l 2) (at_ l 3) (at_ l 4) None (at_ l 5) (at_ l 6) (at_ l 7) (at_ l 8) (at_ l 9) (at_ l 10)), t)
  | _ => UB
  end.

(** NastranParser.cpp:1953-1973, MATHP after its number. *)
Definition or_zero (x : option R) : R := match x with Some v => v | None => 0%R end.
Definition read_mathp (t : cursor) : outcome (nature * cursor) :=
  do r <- opt_reals 7 t; let '(l, t) := r in
  let a10 := or_zero (at_ l 0) in let a01 := or_zero (at_ l 1) in
  let d1 := match at_ l 2 with Some d => d | None => (1000 * (a10 + a01))%R end in
  do t <- skip 1 t;
  do r <- nextIntDefault 1 t; let '(na, t) := r in
  if 3 <? na then Throw else
  do r <- nextIntDefault 1 t; let '(nd, t) := r in
  if 1 <? nd then Throw else
  do t <- skip 5 t;
  do r <- opt_reals 1 t; let '(m, t) := r in
  Ok (Hyper (mkHyper a10 a01 (or_zero (at_ m 0)) d1 (or_zero (at_ l 3))), t).

(** NastranParser.cpp:1979-2024, MATS1 after its number. *)
Definition read_mats1 (t : cursor) : outcome (nature * cursor) :=
  do r <- nextIntDefault 0 t; let '(tid, t) := r in
  do r <- nextString t; let '(ty, t) := r in
  do r <- opt_reals 1 t; let '(h, t) := r in
  do r <- nextIntDefault 1 t; let '(yf, t) := r in
  do r <- nextIntDefault 1 t; let '(hr, t) := r in
  do r <- opt_reals 2 t; let '(lim, t) := r in
  if str_eqb ty (txt "NLELAST") then Ok (Nonlinear tid, t)
  else if str_eqb ty (txt "PLASTIC") then
    if negb (tid =? 0) then Throw
    else match at_ lim 1 with
         | Some _ => Throw
         | None => if negb (hr =? 1) then Throw else if negb (yf =? 1) then Throw
                   else Ok (Bilinear (mkBilinear (at_ lim 0) (at_ h 0)), t)
         end
  else Throw.

(** NastranParser.cpp:109-112 and 536-570: one card.  A parsing error dismisses the
    card (what it did remains: the material made by MATHP or MATS1); [Throw] stops
    the translation. *)
Definition dismiss {A} (m : outcome A) (otherwise : materials) (f : A -> outcome materials) : outcome materials :=
  match m with Ok x => f x | Throw => Ok otherwise | UB => UB | NoFuel => NoFuel end.
Definition run_card (ms : materials) (card : list str) : outcome materials :=
  match card with
  | [] => Ok ms
  | kw :: _ =>
    let t := mkCursor card 1 (if (length card <=? 1)%nat then KEYWORD else FIELD) in
    if str_eqb kw (txt "MAT1") then
      dismiss (read_mat1 t) ms (fun r => let '(id, l, _) := r in do n <- elastic_of l; add_nature (create ms id) id (Elastic n))
    else if str_eqb kw (txt "MAT8") then
      dismiss (read_mat8 t) ms (fun r => let '(id, n, _) := r in add_nature (create ms id) id n)
    else if str_eqb kw (txt "MATHP") then
      dismiss (nextInt t) ms (fun r => let '(id, t) := r in
        dismiss (read_mathp t) (create ms id) (fun r => add_nature (create ms id) id (fst r)))
    else if str_eqb kw (txt "MATS1") then
      dismiss (nextInt t) ms (fun r => let '(id, t) := r in
        dismiss (read_mats1 t) (create ms id) (fun r => add_nature (create ms id) id (fst r)))
    else Ok ms
  end.
Definition run_cards (cards : list (list str)) : outcome materials := foldM run_card cards [].

(** ** What is asked of a material *)
(** Material.cpp:57-65 findNature. *)
Definition find_elastic (ns : list nature) : option elastic := fold_right (fun n r => match n with Elastic e => Some e | _ => r end) None ns.
Definition find_ortho (ns : list nature) : option ortho := fold_right (fun n r => match n with Ortho e => Some e | _ => r end) None ns.
Definition find_hyper (ns : list nature) : option hyper := fold_right (fun n r => match n with Hyper e => Some e | _ => r end) None ns.
Definition find_bilinear (ns : list nature) : option bilinear := fold_right (fun n r => match n with Bilinear e => Some e | _ => r end) None ns.
(** Material.cpp:111-160: the getters; [mult] is the parameter WTMASS. *)
Definition constants (n : elastic) : SectionModel.nature := (el_e n, el_g n, el_nu n).
Definition get_rho (mult : option R) (rho : option R) : R :=
  match rho with None => 0%R | Some r => match mult with Some k => (r * k)%R | None => r end end.
Definition get_alpha (n : elastic) : R := or_zero (el_alpha n).
Definition get_tref (n : elastic) : R := or_zero (el_tref n).

(** ** Isotropic layers *)
(** Model.cpp:2184-2216 replaceIsotropicMaterialsInComposites: a composite is the
    materials of its layers and the materials assigned to it; [next] numbers the new
    materials. *)
Record composite := mkComposite { c_layers : list Z; c_assigned : list Z }.
Definition natures_of (ms : materials) (id : Z) : option (list nature) := option_map snd (find (fun m => fst m =? id) ms).
Definition isotropic_layer (mult : option R) (n : elastic) : outcome nature :=
  do e <- get_e (constants n); do nu <- get_nu (constants n); do g <- get_g (constants n);
  Ok (Ortho (mkOrtho e e nu g (Some g) (Some g) (Some (get_rho mult (el_rho n))) None None None None None None None None None)).
Definition assign (l : list Z) (id : Z) : list Z := if existsb (Z.eqb id) l then l else l ++ [id].
Definition unassign (l : list Z) (id : Z) : list Z := filter (fun i => negb (i =? id)) l.
Record replacing := mkReplacing { r_materials : materials; r_next : Z; r_done : list (Z * Z) }.
(** One layer of material [id]: its new material, the materials assigned. *)
Definition replace_layer (mult : option R) (st : replacing) (assigned : list Z) (id : Z) : outcome (replacing * list Z * Z) :=
  match natures_of (r_materials st) id with
  | None => Throw
  | Some ns =>
    match find (fun p => fst p =? id) (r_done st) with
    | Some (_, new) => Ok (st, assign assigned new, new)
    | None =>
      match find_ortho ns with
      | Some _ => Ok (st, assigned, id)
      | None =>
        match find_elastic ns with
        | None => UB
        | Some n =>
          do o <- isotropic_layer mult n;
          let new := r_next st in
          Ok (mkReplacing (r_materials st ++ [(new, [o])]) (new + 1) (r_done st ++ [(id, new)]), assign (unassign assigned id) new, new)
        end
      end
    end
  end.
Fixpoint replace_layers (mult : option R) (st : replacing) (assigned : list Z) (layers : list Z) : outcome (replacing * list Z * list Z) :=
  match layers with
  | [] => Ok (st, assigned, [])
  | id :: r =>
    do x <- replace_layer mult st assigned id; let '(st, assigned, new) := x in
    do y <- replace_layers mult st assigned r; let '(st, assigned, l) := y in Ok (st, assigned, new :: l)
  end.
Fixpoint replace_isotropic (mult : option R) (st : replacing) (cs : list composite) : outcome (replacing * list composite) :=
  match cs with
  | [] => Ok (st, [])
  | c :: r =>
    do x <- replace_layers mult st (c_assigned c) (c_layers c); let '(st, assigned, layers) := x in
    do y <- replace_isotropic mult st r; let '(st, cs) := y in Ok (st, mkComposite layers assigned :: cs)
  end.

(** ** Nastran *)
(** NastranWriter.cpp:380-411 writeMaterials: the numbers are those of the getters,
    as the Line class prints them. *)
Record wmaterial := mkWmaterial { wm_id : Z; wm_elastic : option (list wreal * option wreal) }.
(** E, G, NU, RHO, ALPHA, TREF; GE. *)
Definition write_material (tie : bool) (m : wmaterial) : str * list str :=
  (txt "MAT1", int_text (wm_id m) ::
    match wm_elastic m with
    | Some (l, ge) => map (real_field tie) l ++ [match ge with Some v => real_field tie v | None => [] end]
    | None => []
    end).

(** ** Aster *)
(** AsterWriter.cpp:938-1039 DEFI_MATERIAU: keywords, and their numbers by name
    ([None]: -DBL_MAX is printed).  [alpha] and [beta] are the Rayleigh factors of
    the model, given only if they are not zero. *)
Definition given (name : string) (v : option R) : list (string * option R) := match v with Some x => [(name, Some x)] | None => [] end.
Definition keyword_elas (mult alpha beta : option R) (n : elastic) : outcome (list (string * option R)) :=
  do e <- get_e (constants n); do nu <- get_nu (constants n);
  Ok ([("E"%string, Some e); ("NU"%string, Some nu); ("RHO"%string, Some (get_rho mult (el_rho n)))] ++
      given "AMOR_HYST" (el_ge n) ++ given "AMOR_ALPHA" alpha ++ given "AMOR_BETA" beta).
Definition keyword_hyper (n : hyper) : list (string * option R) :=
  [("C10"%string, Some (h_c10 n)); ("C01"%string, Some (h_c01 n)); ("C20"%string, Some (h_c20 n)); ("RHO"%string, Some (h_rho n)); ("K"%string, Some (h_k n))].
Definition keyword_ortho (mult : option R) (n : ortho) : list (string * option R) :=
  [("E_L"%string, Some (o_el n)); ("E_T"%string, Some (o_et n)); ("G_LT"%string, Some (o_glt n))] ++ given "G_TN" (o_gtn n) ++ given "G_LN" (o_gln n) ++
  [("NU_LT"%string, Some (o_nu n)); ("RHO"%string, Some (get_rho mult (o_rho n)))] ++
  given "XC" (o_xc n) ++ given "XT" (o_xt n) ++ given "YC" (o_yc n) ++ given "S_LT" (o_slt n) ++
  given "ALPHA_L" (o_al n) ++ given "ALPHA_T" (o_at n) ++ given "ALPHA_N" (o_an n) ++ given "TEMP_DEF_ALPHA" (o_temp n).
Definition keyword_ecro (n : bilinear) : list (string * option R) := [("D_SIGM_EPSI"%string, b_slope n); ("SY"%string, b_limit n)].
Definition defi_materiau (mult alpha beta : option R) (ns : list nature) : outcome (list (string * list (string * option R))) :=
  do el <- match find_elastic ns with Some n => do k <- keyword_elas mult alpha beta n; Ok [("ELAS"%string, k)] | None => Ok [] end;
  Ok (el ++ match find_hyper ns with Some n => [("ELAS_HYPER"%string, keyword_hyper n)] | None => [] end ++
      match find_ortho ns with Some n => [("ELAS_ORTH"%string, keyword_ortho mult n)] | None => [] end ++
      match find_bilinear ns with Some n => [("ECRO_LINE"%string, keyword_ecro n)] | None => [] end).
(** AsterWriter.cpp:2542-2560: the behaviour of a set of that material in a nonlinear
    analysis (small displacements). *)
Definition relation (ns : list nature) : string :=
  match find_bilinear ns with
  | Some _ => "VMIS_ISOT_LINE"
  | None => if existsb (same_type (Nonlinear 0)) ns then "ELAS_VMIS_LINE"
            else match find_hyper ns with Some _ => "ELAS_HYPER" | None => "ELAS" end
  end%string.
