(** * What a model must satisfy for its command file to be accepted (specification) *)
From Coq Require Import Ascii String ZArith List Bool Arith Lia.
From Verif Require Import Base DofModel TextModel AsterScriptModel.
Import ListNotations.
Open Scope Z_scope.
Open Scope list_scope.

(** ** An accepted command file *)
(** The concepts that exist after some commands. *)
Definition text_eq_dec : forall s t : str, {s = t} + {s <> t} := list_eq_dec ascii_dec.
Definition step (alive : list str) (e : event) : list str :=
  match e with
  | Use _ => alive
  | Def n => name_text n :: alive
  | Del n => remove text_eq_dec (name_text n) alive
  end.
Definition alive (l : list event) : list str := fold_left step l [].
(** Every concept that is used or destroyed exists, and none that exists is defined
    again.  [name_text] is what is written. *)
Definition accepted (l : list event) : Prop :=
  forall before e rest, l = before ++ e :: rest ->
  match e with
  | Use n => In (name_text n) (alive before)
  | Def n => ~ In (name_text n) (alive before)
  | Del n => In (name_text n) (alive before)
  end.

(** ** Conditions on the model *)
Definition value_id (v : value) : Z := match v with VList i _ | VStep i _ _ | VTable i | VOther i => i end.
(** A list of reals that is written. *)
Definition listed (m : model) (i : Z) : Prop := In (VList i true) (m_values m) \/ In (VStep i false true) (m_values m).
Definition tabled (m : model) (i : Z) : Prop := In (VTable i) (m_values m).
Definition step_value (a : analysis) : list Z := match a_kind a with NonLinear _ v => [value_id v] | _ => [] end.
(** A set of constraints with at most one gap, whose nodes do not have a direction
    along z without being along y. *)
Definition plain_gaps (s : cset) : Prop :=
  (length (gaps s) <= 1)%nat /\ forall g x y z, In g (gaps s) -> In (x, y, z) g -> z = true -> y = true.
(** A set that can be assembled: some of its constraints are not contacts, and none
    depends on functions. *)
Definition assembled (s : cset) : Prop := (exists c, In c (cs_list s) /\ is_contact c = false) /\ cs_functions s = false.
(** A set of loads that gives a load to a static analysis. *)
Definition loading_set (s : lset) : Prop := ls_dload s = false /\ exists l, In l (ls_list s) /\ l <> Temperature.
Definition excited (m : model) (a : analysis) : Prop :=
  NoDup (map (fun x : Z * Z * Z => fst (fst x)) (excitations a)) /\
  forall e s t, In (e, s, t) (excitations a) ->
    0 <= e /\ tabled m t /\ exists l, In l (m_lsets m) /\ ls_id l = s /\ loading_set l /\ ls_functions l = false.
(** [done]: the analyses before. *)
Definition kind_ready (m : model) (done : list analysis) (a : analysis) : Prop :=
  match a_kind a with
  | Combination subs => m_materials m = true /\ NoDup subs /\ forall s, In s subs -> In s (map a_id done)
  | Static => Forall loading_set (a_loads a)
  | NonLinear p v =>
      Forall loading_set (a_loads a) /\ (exists i, v = VStep i false true) /\
      forall i, p = Some i -> exists q, In q done /\ a_id q = i /\ Forall loading_set (a_loads q)
  | Direct _ f => Forall assembled (a_csets a) /\ excited m a /\ listed m (freq_value f)
  | Modal => Forall assembled (a_csets a)
  | ModalComplex => False
  | ModalFreq _ d f =>
      match a_reuse a with
      | None => Forall assembled (a_csets a)
      | Some b => exists q, In q done /\ a_id q = b /\ a_kind q = Modal
      end /\ excited m a /\
      match freq_kind f with FList => listed m (freq_value f) | FSpread => freq_id f = freq_value f /\ 0 <= freq_id f | FInterpolate => False end /\
      match d with None => True | Some (DampCrit, t) => tabled m t | Some (DampG, _) => False end
  | Buckling s => Forall assembled (a_csets a) /\ In s (map a_id done)
  end.
Definition analysis_ready (m : model) (done : list analysis) (a : analysis) : Prop :=
  incl (a_csets a) (m_csets m) /\ incl (a_loads a) (m_lsets m) /\
  (forall i, In i (a_outputs a) -> listed m i) /\
  (In true (a_asserts a) -> match a_kind a with Modal | ModalFreq _ _ _ | Buckling _ => True | _ => False end) /\
  match a_kind a with ModalFreq _ _ _ => True | _ => a_reuse a = None end /\
  kind_ready m done a.
Record ready (m : model) : Prop := {
  rd_elements : m_elements m = true;
  rd_composites : (length (filter (fun n => negb (Nat.eqb n 0)) (m_composites m)) <= 1)%nat;
  rd_analyses : NoDup (map a_id (m_analyses m));
  rd_csets : NoDup (map cs_id (m_csets m));
  rd_lsets : NoDup (map ls_id (m_lsets m));
  rd_values : NoDup (map value_id (m_values m) ++ flat_map step_value (m_analyses m));
  rd_gaps : Forall plain_gaps (m_csets m);
  rd_positive : Forall (fun i => 0 <= i) (map a_id (m_analyses m) ++ map cs_id (m_csets m) ++ map ls_id (m_lsets m) ++
                  map value_id (m_values m) ++ flat_map step_value (m_analyses m));
  rd_each : forall done a rest, m_analyses m = done ++ a :: rest -> analysis_ready m done a
}.
