(** Model of the INCLUDE command of the bulk data.  Definitions only.

    Simplifications: a file is the list of its commands, an INCLUDE being the text of its
    line from the eighth character on; the other commands are only recorded, in order (an
    error in one of them is not modelled); file names are texts, on which fs::path works
    as boost::filesystem version 3 does, repeated separators aside; a file that exists
    can be read.  The recursion of the reader is bounded by a fuel: [NoFuel] for every
    fuel is a reader that never returns (it exhausts the stack). *)
From Coq Require Import Ascii String List Bool.
From Verif Require Import Base TextModel OptionsModel.
Import ListNotations.
Open Scope list_scope.

(** A command of the bulk data (NastranParser.cpp:536-570). *)
Inductive command := Card (text : str) | Include (rest : str).
(** What the reader does: one command read, or one file reported as missing. *)
Inductive event := Read (text : str) | Missing (path : str).
(** The file system: fs::exists and the contents. *)
Definition files := str -> option (list command).

Definition is_quote (c : ascii) : bool := Ascii.eqb c "'".
Definition is_sep (c : ascii) : bool := Ascii.eqb c "/".
(** NastranParser.cpp:1815-1819: the name, without the quotes around it; of a single
    quote, substr(1, npos) is empty. *)
Definition unquote (s : str) : str :=
  match s with
  | c :: r => if is_quote c && is_quote (last s " "%char) then removelast r else s
  | [] => []
  end.
Definition fileName (rest : str) : str := unquote (trim rest).
(** fs::path::parent_path: what is before the last separator. *)
Fixpoint after_sep (l : str) : option str :=
  match l with
  | [] => None
  | c :: r => if is_sep c then Some r else after_sep r
  end.
Definition parent_path (p : str) : str :=
  match after_sep (rev p) with
  | None => []
  | Some [] => ["/"%char]
  | Some d => rev d
  end.
(** fs::path::operator/. *)
Definition join (d n : str) : str :=
  match n with
  | [] => d
  | c :: _ => if null d || is_sep c || is_sep (last d " "%char) then d ++ n else d ++ "/"%char :: n
  end.
(** NastranParser.cpp:1820-1821. *)
Definition includePath (current rest : str) : str := join (parent_path current) (fileName rest).

(** NastranParser.cpp:536-570 parseBULKSection on the commands of the file [current],
    with 1813-1834 parseInclude; SolverInterfaces.cpp:163-182 handleParsingError: an
    exception that ends the reading in strict mode, one caught in the loop otherwise. *)
Fixpoint parseBulk (fuel : nat) (mode : tmode) (fs : files) (current : str) (commands : list command) : outcome (list event) :=
  match fuel with
  | O => NoFuel
  | S f =>
    do events <- mapM (fun c =>
      match c with
      | Card t => Ok [Read t]
      | Include rest =>
        let p := includePath current rest in
        match fs p with
        | Some inner => parseBulk f mode fs p inner
        | None => match mode with Strict => Throw | _ => Ok [Missing p] end
        end
      end) commands;
    Ok (concat events)
  end.
