(** Model of the tables of a Systus file: springs between different components,
    direct matrices, linear relations, frequency functions of excitations.
    Definitions only.

    Simplifications: doubles are rationals; numbers are unbounded; the label of a
    table is always STANDARD; warnings and the marks "written" are left out; a
    stiffness or damping that the spring does not have (Element.cpp:1269-1275) is
    [None]; the six numbers of a DOFCoefs are a list. *)
From Coq Require Import ZArith QArith List Bool.
From Verif Require Import Base DofModel MatrixElementModel.
Import ListNotations.
Open Scope Z_scope.

(** The element sets fillTables looks at: springs with their pairs of components
    in the order of the map (Element.cpp:1289-1295), the three direct matrices,
    relations with their analysis and their coefficients by equation, node and
    component (Element.h:632-645). *)
Inductive tsource :=
| TSpring (dirs : list (dof * dof)) (stiffness damping : option Q)
| TStiffness (m : melement Q)
| TMass (m : melement Q)
| TDamping (m : melement Q)
| TRelation (analysis : Z) (coefs : list (list (list Q)))
| TOther.
Record tset := mkTSet { t_id : Z; t_source : tsource }.

(** SystusAsc.h:57-72. *)
Record table := mkTable { b_id : Z; b_type : Z; b_values : list Q }.

(** SystusWriter.h:124-125 and [tables]: tableByElementSet as a function,
    tableByLoadcase as the list of its assignments, the last one first. *)
Record tstate := mkTState { st_tables : list table; st_set : Z -> option Z; st_load : list (Z * Z) }.

(** tables.size()+1. *)
Definition next (st : tstate) : Z := Z.of_nat (length (st_tables st)) + 1.
(** SystusTable aTable{tId, ...}; tables.push_back(aTable). *)
Definition push (ty : Z) (vals : list Q) (st : tstate) : tstate :=
  mkTState (st_tables st ++ [mkTable (next st) ty vals]) (st_set st) (st_load st).
Definition bind_set (id r : Z) (st : tstate) : tstate :=
  mkTState (st_tables st) (fun x => if x =? id then Some r else st_set st x) (st_load st).

(** SystusWriter.cpp:1790-1801 and 1810-1821: codes and values. *)
Definition spring_values (a b : dof) (x : Q) : list Q :=
  [inject_Z (1100 + 11 * DOFToInt a); x;
   inject_Z (2200 + 11 * DOFToInt b); x;
   inject_Z (1200 + (10 * DOFToInt a + DOFToInt b)); (- x)%Q].

(** SystusWriter.cpp:1773-1828: the first pair of components only; [] is read
    past its end. *)
Definition spring_step (st : tstate) (s : tset) : outcome tstate :=
  match t_source s with
  | TSpring [] _ _ => UB
  | TSpring ((a, b) :: _) k c =>
    if dof_eqb a b then Ok st
    else
      let '(st1, r1) := match k with
                        | Some x => (push 0 (spring_values a b x) st, next st)
                        | None => (st, 0)
                        end in
      let '(st2, r2) := match c with
                        | Some x => (push 0 (spring_values a b x) st1, r1 + next st1 * 10000)
                        | None => (st1, r1)
                        end in
      Ok (bind_set (t_id s) r2 st2)
  | _ => Ok st
  end.

(** SystusAsc.cpp:93-94: code, value, code, value... *)
Definition alternate (l : list (Z * Q)) : list Q := flat_map (fun cv => [inject_Z (fst cv); snd cv]) l.
(** SystusWriter.cpp:1837-1844, 1847-1854 and 1857-1864. *)
Definition matrix_table (nb : nat) (factor : Z) (id : Z) (m : melement Q) (st : tstate) : outcome tstate :=
  do t <- table_fill m (Z.of_nat nb);
  Ok (bind_set id (next st * factor) (push 0 (alternate t) st)).
Definition stiffness_step (nb : nat) (st : tstate) (s : tset) : outcome tstate :=
  match t_source s with TStiffness m => matrix_table nb 1 (t_id s) m st | _ => Ok st end.
Definition mass_step (nb : nat) (st : tstate) (s : tset) : outcome tstate :=
  match t_source s with TMass m => matrix_table nb 100 (t_id s) m st | _ => Ok st end.
Definition damping_step (nb : nat) (st : tstate) (s : tset) : outcome tstate :=
  match t_source s with TDamping m => matrix_table nb 10000 (t_id s) m st | _ => Ok st end.

(** SystusWriter.cpp:1868-1888: relations of the analyses of the subcase. *)
Definition relation_values (nb : nat) (coefs : list (list (list Q))) : list Q :=
  flat_map (flat_map (firstn nb)) coefs.
Definition relation_step (active : list Z) (nb : nat) (st : tstate) (s : tset) : outcome tstate :=
  match t_source s with
  | TRelation an coefs =>
    if existsb (Z.eqb an) active
    then Ok (bind_set (t_id s) (next st) (push 0 (relation_values nb coefs) st))
    else Ok st
  | _ => Ok st
  end.

(** SystusWriter.cpp:1891-1945: the loadings of a load case; an excitation with
    the type of its load set (EXCITEID or not) and its function of the frequency,
    [None] when it is not found (a null pointer is followed).  [SystusTable(tId)]:
    type 1 (SystusAsc.h:65). *)
Inductive tloading :=
| TExcitation (exciteid : bool) (points : option (list (Q * Q)))
| TNoTable.
Definition points_values (l : list (Q * Q)) : list Q := flat_map (fun p => [fst p; snd p]) l.
Definition loading_step (c : Z) (st : tstate) (l : tloading) : outcome tstate :=
  match l with
  | TNoTable => Ok st
  | TExcitation false _ => Ok st
  | TExcitation true None => UB
  | TExcitation true (Some ps) =>
    let n := next st in
    let st1 := push 1 (points_values ps) st in
    Ok (mkTState (st_tables st1) (st_set st1) ((c, n) :: st_load st1))
  end.
Definition case_step (st : tstate) (cl : Z * list tloading) : outcome tstate :=
  foldM (loading_step (fst cl)) (snd cl) st.
(** The analyses of the subcase, each with its load cases; an unknown analysis
    ends the loop (1898-1901). *)
Fixpoint excitations (l : list (option (list (Z * list tloading)))) (st : tstate) : outcome tstate :=
  match l with
  | [] => Ok st
  | None :: _ => Ok st
  | Some cs :: r => do st1 <- foldM case_step cs st; excitations r st1
  end.

(** What the user chose and what the subcase holds: systusOutputMatrix is "table",
    systusDynamicMethod is "modal", components of a node, analyses, load cases. *)
Record tcase := mkTCase {
  q_table : bool; q_modal : bool; q_nb : nat; q_active : list Z;
  q_loads : list (option (list (Z * list tloading))) }.

(** SystusWriter.cpp:1766-1946, on cleared tables (2439-2442). *)
Definition no_table : tstate := mkTState [] (fun _ => None) [].
Definition fillTables (q : tcase) (sets : list tset) : outcome tstate :=
  do st <- (if q_table q then
              do s1 <- foldM spring_step sets no_table;
              do s2 <- foldM (stiffness_step (q_nb q)) sets s1;
              do s3 <- foldM (mass_step (q_nb q)) sets s2;
              foldM (damping_step (q_nb q)) sets s3
            else Ok no_table);
  do st <- foldM (relation_step (q_active q) (q_nb q)) sets st;
  if q_modal q then excitations (q_loads q) st else Ok st.

(** SystusWriter.cpp:3068-3075 and SystusAsc.cpp:43-65: the count, then for each
    table its number, its type when it is not 0, its values. *)
Definition write_tables (ts : list table) : Z * list (Z * list Q) :=
  (Z.of_nat (length ts),
   map (fun t => (b_id t, (if 0 <? b_type t then [inject_Z (b_type t)] else []) ++ b_values t)) ts).

(** std::map::operator[]: 0 when there is nothing. *)
Definition load_table (st : tstate) (c : Z) : option Z :=
  option_map snd (find (fun kv => fst kv =? c) (st_load st)).
(** SystusDat.cpp:265-268: the line FUNCTION. *)
Definition function_line (st : tstate) : option Z :=
  match st_load st with
  | [] => None
  | _ => Some (match load_table st 1 with Some n => n | None => 0 end)
  end.
