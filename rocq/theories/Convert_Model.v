(** Model of pywmi/convert.py. *)

From Coq Require Import DecimalString.
From Verif Require Import Base Dict Smt Parse_Model Domain_Model Xadd_Model Cli_Model Smtlib_Model Minizinc_Model.

(** What can be found under a file name, by the way it is read.  None or an error: there
    is no such file, or it cannot be read that way. *)
Record sources := Sources {
  src_lines : string -> option (list string);       (* open(...).readlines() *)
  src_smt2 : string -> option (Res fm);             (* smt.read_smtlib *)
  src_state : string -> Res nstate;                 (* json.load of a density *)
  src_synthetic : string -> Res (dstate * string);  (* json.load: domain and theory *)
  src_smtlib : string -> Res (list command);        (* the commands SmtlibParser sees *)
  src_mzn : string -> option (list item) }.         (* the items MinizincParser sees *)

(** os.path.basename: what follows the last slash. *)
Fixpoint base_from (cur f : string) : string :=
  match f with
  | EmptyString => cur
  | String c r => if decide (c = "/"%char) then base_from r r else base_from cur r
  end.
Definition basename (f : string) : string := base_from f f.

(** ["A_{}".format(i) for i in range(n)] *)
Definition numbered (p : string) (n : nat) : list string :=
  map (fun i => p +:+ NilZero.string_of_uint (Nat.to_uint i)) (seq 0 n).

Section convert.
  Variable read : string -> option Qc.      (* float() of a text, or None *)
  Variable to_int : string -> option Z.     (* int() of a text, or None *)
  Variable fl : Qc -> Qc.                   (* float() of a number *)
  Variable simp : fm -> fm.                 (* pysmt's simplify *)
  Variable order : list (string * ty) -> list (string * ty). (* iterating over a set of symbols *)
  Variable src : sources.

  Definition sym_type (f : fm) : string * ty := match f with Sym x t => (x, t) | _ => (""%string, TBool) end.
  Definition part (name : string) (i : nat) : Res nat :=
    match split_on "_"%char (basename name) !! i with
    | Some p => match to_int p with Some z => Ok (Z.to_nat z) | None => Err ValueError end
    | None => Err IndexError
    end.
  (** convert.py:14-19 and 37-43: the domain of the mspn formats *)
  Definition mspn_domain (name : string) : Res domain :=
    let! reals := part name 1 in
    let! bools := part name 2 in
    make (Some (numbered "A_" bools)) (Some (RDict (map (fun x => (x, (Some 0%Qc, Some 1%Qc))) (numbered "x_" reals)))) None None.

  Definition smt2 (f : string) : Res fm := match src_smt2 src f with Some r => r | None => Err FileNotFoundErr end.

  (** convert.py:10-26 import_xadd_mspn *)
  Definition import_xadd_mspn (name : string) : Res density :=
    let! d := mspn_domain name in
    let! ls := match src_lines src name with Some ls => Ok ls | None => Err FileNotFoundErr end in
    let! l := match ls with l :: _ => Ok l | [] => Err IndexError end in
    let! w := nested_to_smt read l in
    Ok (Density d (BoolC true) w [BoolC true]).

  (** convert.py:29-45 import_wmi_mspn.  A file that exists is one that can be opened. *)
  Definition import_wmi_mspn (name : string) : Res density :=
    let! queries := match src_smt2 src (name +:+ ".query") with None => Ok [BoolC true] | Some r => let! q := r in Ok [q] end in
    let! support := smt2 (name +:+ ".support") in
    let! weight := match src_smt2 src (name +:+ ".weight") with None => Ok (RealC 1) | Some r => r end in
    let! d := mspn_domain name in
    Ok (Density d support weight queries).

  (** convert.py:48-59 import_smt_synthetic *)
  Definition import_smt_synthetic (name : string) : Res density :=
    let! ds := src_synthetic src name in
    let! d := dom_from_state (fst ds) in
    let! f := nested_to_smt read (snd ds) in
    let! b := get_bounds fl d in
    Ok (Density d (AndN [f; b]) (RealC 1) [BoolC true]).

  (** The variables of three formulas, convert.py:67 and 78. *)
  Definition three_vars (q s w : fm) : list (string * ty) := order (free_vars q ++ free_vars s ++ free_vars w).
  Definition names_with (t : ty) (l : list (string * ty)) : list string := map fst (filter (fun p => snd p = t) l).

  (** convert.py:62-71 import_wmi_generate_tree *)
  Definition import_tree (name : string) : Res density :=
    let! q := smt2 (name +:+ ".query") in
    let! s := smt2 (name +:+ ".support") in
    let! w := smt2 (name +:+ ".weights") in
    let vs := three_vars q s w in
    let! d := make (Some (names_with TBool vs))
                   (Some (RDict (set_all [] (map (fun x => (x, (Some 0%Qc, Some 1%Qc))) (names_with TReal vs))))) None None in
    Ok (Density d s w [q]).

  (** convert.py:74-82 import_wmi_generate_100 *)
  Definition import_100 (name : string) : Res density :=
    let! q := smt2 (name +:+ ".query") in
    let! s := smt2 (name +:+ ".support") in
    let! w := smt2 (name +:+ ".weights") in
    let! d := make (Some (names_with TBool (three_vars q s w))) None None (Some (Some (qz (-100)), Some (qz 100))) in
    Ok (Density d s w [q]).

  (** convert.py:85-89 import_smt *)
  Definition import_smt (name : string) : Res density :=
    let! cs := src_smtlib src name in
    let! r := Smtlib_Model.parse fl simp [] [] cs in
    let! d := make (Some (map fst (order (map sym_type (i_bools r)))))
                   (Some (RDict (set_all [] (map (fun p => (fst p, (None, None))) (order (map sym_type (i_reals r))))))) None None in
    Ok (Density d (i_support r) (i_weight r) (i_queries r)).

  (** convert.py:92-96 import_mzn; [fuel] bounds the nesting of includes. *)
  Definition import_mzn (fuel : nat) (name : string) : Res density :=
    let! its := match src_mzn src name with Some its => Ok its | None => Err FileNotFoundErr end in
    let! r := parse_minizinc fl simp (src_mzn src) fuel its in
    let! d := make (Some (map fst (order (map sym_type (mi_bools r)))))
                   (Some (RDict (set_all [] (map (fun p => (fst (sym_type (fst p)), snd p)) (mi_reals r))))) None None in
    Ok (Density d (mi_support r) (mi_weight r) (mi_queries r)).

  (** convert.py:99-121 import_wrap and Import.import_density *)
  Definition import_density (fuel : nat) (name : string) (dialect : option string) : Res density :=
    match dialect with
    | None => let! s := src_state src name in den_from_state read s
    | Some "xadd_mspn" => import_xadd_mspn name
    | Some "wmi_mspn" => import_wmi_mspn name
    | Some "smt_synthetic" => import_smt_synthetic name
    | Some "wmi_generate_tree" => import_tree name
    | Some "wmi_generate_100" => import_100 name
    | Some "smt" => import_smt name
    | Some "mzn" => import_mzn fuel name
    | Some _ => Err ValueError
    end%string.
End convert.
