(** Model of the section properties of beams (Abstract/Element.cpp, cards PBARL
    and PBEAML), of the elastic constants of isotropic materials (card MAT1,
    Abstract/Material.cpp) and of the additional (non structural) mass.
    Doubles are real numbers; a value equal to Globals::UNAVAILABLE_DOUBLE is
    [None]. *)
From Coq Require Import Reals ZArith List Bool.
From Verif Require Import Base.
Import ListNotations.
Open Scope R_scope.

(** ** Sections *)
(** Element.h:180-300: the constructor arguments, in order. *)
Inductive section :=
| Circular (radius : R)
| Tube (radius thickness : R)
| Rectangular (width height : R)
| ISection (upper_width lower_width upper_thickness lower_thickness height web : R).

(** Element.cpp:977-986. *)
Definition i_area (h1 h3 e1 e3 height e2 : R) : R := h1 * e1 + (height - e1 - e3) * e2 + h3 * e3.

(** Element.cpp:214-216, 249-251, 281-283, 977-986 getAreaCrossSection. *)
Definition area (s : section) : R :=
  match s with
  | Circular r => PI * r * r
  | Tube r t => PI * (r ^ 2 - t ^ 2)
  | Rectangular w h => w * h
  | ISection h1 h3 e1 e3 height e2 => i_area h1 h3 e1 e3 height e2
  end.

(** Element.cpp:218-220, 253-255, 285-287, 988-997 getMomentOfInertiaY. *)
Definition inertia_y (s : section) : R :=
  match s with
  | Circular r => r ^ 4 * PI / 4
  | Tube r t => (r ^ 4 - t ^ 4) * PI / 4
  | Rectangular w h => h * w ^ 3 / 12
  | ISection h1 h3 e1 e3 height e2 =>
      (h1 ^ 3 * e1 + h3 ^ 3 * e3 + (height - e1 - e3) * e2 ^ 3) / 12
  end.

(** Utility.h is_equal. *)
Definition near (tol x y : R) : bool :=
  if Rle_dec (Rabs (x - y)) (tol * Rmax (Rmax 1 (Rabs x)) (Rabs y)) then true else false.

(** Element.cpp:222-224, 257-259, 289-291, 999-1016 getMomentOfInertiaZ. *)
Definition inertia_z (tol : R) (s : section) : outcome R :=
  match s with
  | Circular r => Ok (r ^ 4 * PI / 4)
  | Tube r t => Ok ((r ^ 4 - t ^ 4) * PI / 4)
  | Rectangular w h => Ok (h ^ 3 * w / 12)
  | ISection h1 h3 e1 e3 height e2 =>
      let h2 := height - e1 - e3 in
      if negb (near tol e1 e3) then Throw
      else if negb (near tol h1 h3) then Throw
      else Ok (h2 ^ 3 * e2 / 12 + 2 * (e1 ^ 3 * h1) / 12 + 2 * (e1 * h1) * (h2 + e1) ^ 2 / 4)
  end.

(** Element.cpp:226-229, 261-264, 293-302, 1018-1029 getTorsionalConstant. *)
Definition torsion (s : section) : R :=
  match s with
  | Circular r => r ^ 4 * PI / 2
  | Tube r t => (r ^ 4 - t ^ 4) * PI / 2
  | Rectangular w h => w * h ^ 3 * (1 / 3 - 21 / 100 * h * (1 - h ^ 4 / (12 * w ^ 4)) / w)
  | ISection h1 h3 e1 e3 height e2 => (h1 * e1 ^ 3 + (height - e1 - e3) * e2 ^ 3 + h3 * e3 ^ 3) / 3
  end.

(** The kinds of NastranParser.cpp:2168-2218 (PBARL) and 2346-2396 (PBEAML) and
    how the dimensions of the card, in order, become constructor arguments. *)
Inductive shape := BAR | ROD | TUBE | I.
Definition section_of (k : shape) (dims : list R) : option section :=
  match k, dims with
  | BAR, [width; height] => Some (Rectangular width height)
  | ROD, [radius] => Some (Circular radius)
  | TUBE, [ext; int] => Some (Tube int (ext - int))
  | I, [height; lower_width; upper_width; web; lower_thickness; upper_thickness] =>
      Some (ISection upper_width lower_width upper_thickness lower_thickness height web)
  | _, _ => None
  end.

(** ** Elastic constants *)
(** NastranParser.cpp:1873-1897: the defaults of MAT1.  A division by zero is
    not defined here (IEEE gives an infinity or a NaN). *)
Definition divide (x y : R) : outcome R := if Req_EM_T y 0 then UB else Ok (x / y).
Definition mat1 (e g nu : option R) : outcome (option R * option R * option R) :=
  do x <- match nu with
          | Some _ => Ok (e, g, nu)
          | None =>
              match g, e with
              | None, _ => Ok (e, Some 0, Some 0)
              | Some _, None => Ok (Some 0, g, Some 0)
              | Some g', Some e' => do q <- divide e' (2 * g'); Ok (e, g, Some (q - 1))
              end
          end;
  let '(e, g, nu) := x in
  let e := match e, g, nu with
           | None, Some g', Some nu' => Some (2 * (1 + nu') * g')
           | _, _, _ => e
           end in
  do g <- match g, e, nu with
          | None, Some e', Some nu' => do q <- divide e' (2 * (1 + nu')); Ok (Some q)
          | _, _, _ => Ok g
          end;
  Ok (e, g, nu).

(** Material.cpp:103-109: the constructor of ElasticNature refuses E and G both
    unknown; 111-138: getE, getNu, getG. *)
Definition nature := (option R * option R * option R)%type.
Definition new_nature (c : nature) : outcome nature :=
  match c with (None, None, _) => Throw | _ => Ok c end.
Definition get_e (c : nature) : outcome R :=
  match c with
  | (None, _, None) => Ok 0
  | (Some e, _, _) => Ok e
  | (None, Some g, Some nu) => Ok (2 * (1 + nu) * g)
  | (None, None, Some nu) => UB
  end.
Definition get_nu (c : nature) : outcome R :=
  match c with
  | (_, None, None) | (None, _, None) => Ok 0
  | (Some e, Some g, None) => do q <- divide e (2 * g); Ok (q - 1)
  | (_, _, Some nu) => Ok nu
  end.
Definition get_g (c : nature) : outcome R :=
  match c with
  | (_, None, None) => Ok 0
  | (_, Some g, _) => Ok g
  | (Some e, None, Some nu) => divide e (2 * (1 + nu))
  | (None, None, Some nu) => UB
  end.

(** What a MAT1 card gives: E, G, nu as the getters return them. *)
Definition mat1_constants (e g nu : option R) : outcome (R * R * R) :=
  do c <- mat1 e g nu;
  do n <- new_nature c;
  do e' <- get_e n; do g' <- get_g n; do nu' <- get_nu n;
  Ok (e', g', nu').

(** ** Additional mass *)
(** Element.h:163-165 and 305-307 getAdditionalRho; [smallest] is DBL_MIN, the
    size is the area of a beam section or the thickness of a shell. *)
Definition additional_rho (smallest mass size : R) : R := mass / Rmax size smallest.

(** Model.cpp:904-936 emulateAdditionalMass.  A cell is its nodes; an element set
    is its material, its density of additional mass and its cells (those of its
    groups included).  A material number -1 - k is the k-th new material, which
    has only the density of its set. *)
Record eset := mkSet { mat : Z; extra : R; set_cells : list nat }.
Definition is_zero (tol x : R) : bool := if Rle_dec (Rabs x) tol then true else false.

Definition emulate_set (tol : R) (st : list (list Z) * list eset * list eset) (s : eset)
  : list (list Z) * list eset * list eset :=
  let '(cells, sets, added) := st in
  if is_zero tol (extra s) then (cells, sets ++ [s], added)
  else
    let copies := map (fun c => nth c cells []) (set_cells s) in
    (cells ++ copies,
     sets ++ [mkSet (mat s) (extra s) (set_cells s ++ seq (length cells) (length copies))],
     added ++ [mkSet (-1 - Z.of_nat (length added)) (extra s) (set_cells s)]).
Definition emulate_mass (tol : R) (cells : list (list Z)) (sets : list eset) : list (list Z) * list eset :=
  let '(cells', sets', added) := fold_left (emulate_set tol) sets (cells, [], []) in
  (cells', sets' ++ added).
