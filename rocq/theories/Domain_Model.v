(** Model of pywmi/domain.py: [Domain], [Density], [FileDensity]. *)

From Coq Require Import DecimalString.
From Verif Require Import Base Dict Smt Parse_Model.

(** An interval of a real variable; [None] stands for a missing bound. *)
Notation interval := (option Qc * option Qc)%type.

(** domain.py:21-25 Domain.__init__.  Dictionaries are association lists in
    insertion order. *)
Record domain := Dom {
  d_vars : list string;
  d_types : list (string * ty);
  d_doms : list (string * interval) }.

(** [d[k]] on a dictionary. *)
Definition ditem {V} (d : list (string * V)) (k : string) : Res V :=
  match dget d k with Some v => Ok v | None => Err KeyError end.

(** domain.py:27-33 Domain.bool_vars, Domain.real_vars.  The dictionary lookup of a
    missing variable raises KeyError. *)
Definition vars_of_type (d : domain) (t : ty) : Res (list string) :=
  let! ts := rmapM (ditem (d_types d)) (d_vars d) in
  Ok (map fst (filter (fun p => snd p = t) (zip (d_vars d) ts))).
Definition bool_vars (d : domain) : Res (list string) := vars_of_type d TBool.
Definition real_vars (d : domain) : Res (list string) := vars_of_type d TReal.

(** domain.py:35-38 Domain.get_symbol. *)
Definition get_symbol (d : domain) (v : string) : Res fm :=
  let! t := ditem (d_types d) v in Ok (Sym v t).

Section get_bounds.
  (** [fl] is Python's [float()] on the bounds. *)
  Variable fl : Qc -> Qc.

  (** domain.py:57-63, one iteration of the loop. *)
  Definition bound_fms (d : domain) (p : string * interval) : Res (list fm) :=
    let '(v, (lb, ub)) := p in
    let! s := get_symbol d v in
    let! l := match lb with Some q => let! g := chk (LeN (RealC (fl q)) s) in Ok [g] | None => Ok [] end in
    let! u := match ub with Some q => let! g := chk (LeN s (RealC (fl q))) in Ok [g] | None => Ok [] end in
    Ok (l ++ u).

  (** domain.py:55-64 Domain.get_bounds. *)
  Definition get_bounds (d : domain) : Res fm :=
    let! bs := rmapM (bound_fms d) (d_doms d) in Ok (mkAnd (concat bs)).
End get_bounds.

(** Floats with infinity, as far as volumes need them. *)
Inductive xnum := Fin (q : Qc) | Inf.

(** domain.py:90-93, the loop. *)
Fixpoint box_loop (volume : Qc) (l : list (string * interval)) : xnum :=
  match l with
  | [] => Fin volume
  | (_, (Some lb, Some ub)) :: l => box_loop (volume * (ub - lb))%Qc l
  | _ => Inf
  end.

(** domain.py:83-94 Domain.get_bounding_box_volume. *)
Definition get_bounding_box_volume (d : domain) : Res xnum :=
  let! rs := real_vars d in
  match rs with [] => Ok (Fin 0) | _ => Ok (box_loop 1 (d_doms d)) end.

(** domain.py:96-98 Domain.get_volume. *)
Definition get_volume (d : domain) : Res xnum :=
  let! v := get_bounding_box_volume d in
  let! bs := bool_vars d in
  Ok (match v with Fin q => Fin (q * qpow (qz 2) (length bs))%Qc | Inf => Inf end).

(** The [real_variables] argument of [make]: a list of names or a dictionary. *)
Inductive real_arg := RNames (l : list string) | RDict (d : list (string * interval)).

(** [types.update({v: REAL for v in bounds})] *)
Definition set_all {V} (d : list (string * V)) (l : list (string * V)) : list (string * V) :=
  fold_left (fun d p => dset d (fst p) (snd p)) l d.

(** domain.py:100-123 Domain.make.  [real_variable_bounds] is a list (the dictionary
    case raises ValueError and is not modelled); an empty list counts as absent in
    the first test, as in Python. *)
Definition make (boolean_variables : option (list string)) (real_variables : option real_arg)
    (real_variable_bounds : option (list interval)) (real_bounds : option interval) : Res domain :=
  let bools := default [] boolean_variables in
  let truthy := match real_variable_bounds with Some (_ :: _) => true | _ => false end in
  let names := match real_variables with
               | Some (RNames l) => Some l | Some (RDict d) => Some (map fst d) | None => None end in
  match real_bounds, truthy with
  | Some _, true => Err ValueError
  | _, _ =>
    let! rvb := match real_bounds, names with
                | Some b, Some l => Ok (Some (map (fun _ => b) l))
                | Some b, None => Err TypeError
                | None, _ => Ok real_variable_bounds end in
    let! nb := match real_variables, rvb with
               | None, None => Ok ([], [])
               | Some (RDict d), None => Ok (map fst d, d)
               | Some (RNames _), None => Err AttributeError
               | Some (RNames l), Some bs => Ok (l, set_all [] (zip l bs))
               | Some (RDict _), Some _ => Err TypeError
               | None, Some _ => Err TypeError end in
    let '(names, bounds) := nb in
    let types := set_all [] (map (fun v => (v, TBool)) bools) in
    Ok (Dom (bools ++ names) (set_all types (map (fun p => (fst p, TReal)) bounds)) bounds)
  end.

(** * Serialisation *)

(** The dictionary built by get_state (what json.dump writes). *)
Record dstate := DState {
  s_vars : list string;
  s_types : list (string * string);
  s_doms : list (string * interval) }.

(** domain.py:135-141 export_type. *)
Definition export_type (t : ty) : Res string :=
  match t with TBool => Ok "bool" | TReal => Ok "real" | TInt => Err RuntimeErr end.

(** domain.py:134-147 Domain.get_state. *)
Definition dom_get_state (d : domain) : Res dstate :=
  let! ts := rmapM (fun p => let! s := export_type (snd p) in Ok (fst p, s)) (d_types d) in
  Ok (DState (d_vars d) ts (d_doms d)).

(** domain.py:151-157 import_type. *)
Definition import_type (s : string) : Res ty :=
  if decide (s = "bool") then Ok TBool else if decide (s = "real") then Ok TReal else Err RuntimeErr.

(** domain.py:149-162 Domain.from_state. *)
Definition dom_from_state (s : dstate) : Res domain :=
  let! ts := rmapM (fun p => let! t := import_type (snd p) in Ok (fst p, t)) (s_types s) in
  Ok (Dom (s_vars s) ts (s_doms s)).

(** domain.py:180-185 Density.__init__ (the default for the queries applied). *)
Record density := Density {
  n_dom : domain; n_support : fm; n_weight : fm; n_queries : list fm }.

Record nstate := NState {
  ns_dom : dstate; ns_queries : list string; ns_formula : string; ns_weights : string }.

Section density.
  Variable read : string -> option Qc.
  Variable to_float : Qc -> option Qc.
  Variable show : Qc -> string.
  Variable show_int : Z -> string.

  (** domain.py:191-197 Density.get_state. *)
  Definition den_get_state (n : density) : Res nstate :=
    let! d := dom_get_state (n_dom n) in
    let! qs := rmapM (smt_to_nested to_float show show_int) (n_queries n) in
    let! f := smt_to_nested to_float show show_int (n_support n) in
    let! w := smt_to_nested to_float show show_int (n_weight n) in
    Ok (NState d qs f w).

  (** domain.py:199-206 Density.from_state. *)
  Definition den_from_state (s : nstate) : Res density :=
    let! d := dom_from_state (ns_dom s) in
    let! f := nested_to_smt read (ns_formula s) in
    let! w := nested_to_smt read (ns_weights s) in
    let! qs := rmapM (nested_to_smt read) (ns_queries s) in
    Ok (Density d f w qs).
End density.

(** * Projection *)

(** [l.index(x)] *)
Fixpoint list_index (l : list string) (x : string) : Res nat :=
  match l with
  | [] => Err ValueError
  | y :: l => if decide (y = x) then Ok 0 else let! i := list_index l x in Ok (S i)
  end.

(** [row[i]] of a numpy row. *)
Definition item {A} (row : list A) (i : nat) : Res A :=
  match row !! i with Some q => Ok q | None => Err IndexError end.

(** domain.py:164-171 Domain.project.  The table is a list of rows. *)
Definition project (d : domain) (keep : list string) (data : list (list Qc)) : Res (domain * list (list Qc)) :=
  let! ts := rmapM (fun v => let! t := ditem (d_types d) v in Ok (v, t)) keep in
  let! bs := rmapM (fun v => let! b := ditem (d_doms d) v in Ok (v, b))
               (map fst (filter (fun p => snd p = TReal) ts)) in
  let! idx := rmapM (list_index (d_vars d)) keep in
  let! data' := rmapM (fun row => rmapM (item row) idx) data in
  Ok (Dom keep (set_all [] ts) (set_all [] bs), data').

(** * Directories *)

(** A directory: file names with contents, in some listing order. *)
Notation directory := (list (string * string)).

(** domain.py:210-224 file names. *)
Definition query_file (i : nat) : string :=
  "query_" +:+ NilZero.string_of_uint (Nat.to_uint i) +:+ ".smt2".

(** The pattern [query_*.smt2] of the glob. *)
Definition is_query_file (f : string) : bool :=
  String.prefix "query_" f && (11 <=? String.length f)%nat &&
  bool_decide (String.substring (String.length f - 5) 5 f = ".smt2").

(** [f.split("_")[-1]]: [cur] is what follows the last underscore seen so far. *)
Fixpoint last_piece (cur f : string) : string :=
  match f with
  | EmptyString => cur
  | String c r => if decide (c = "_"%char) then last_piece r r else last_piece cur r
  end.

(** [int(f.split("_")[-1][:-5])].  [int] accepts digits only here; Python also
    accepts signs and surrounding blanks. *)
Definition query_key (f : string) : Res nat :=
  let p := last_piece f f in
  match NilZero.uint_of_string (String.substring 0 (String.length p - 5) p) with
  | Some u => Ok (Nat.of_uint u)
  | None => Err ValueError
  end.

Definition key_le {A} (p q : nat * A) : Prop := (fst p <= fst q)%nat.
Global Instance key_le_dec {A} p q : Decision (@key_le A p q).
Proof. unfold key_le. apply _. Defined.

(** A density kept in files; the weight may be absent. *)
Record fdensity := FDensity {
  f_dom : domain; f_support : fm; f_weight : option fm; f_queries : list fm }.

Section files.
  (** json.dump/json.load of a domain state; smt.write_smtlib/smt.read_smtlib. *)
  Variable dump : dstate -> string.
  Variable load : string -> Res dstate.
  Variable write : fm -> string.
  Variable read : string -> Res fm.

  (** domain.py:236-237: one query file after the other. *)
  Fixpoint write_queries (dir : directory) (i : nat) (qs : list fm) : directory :=
    match qs with
    | [] => dir
    | q :: qs => write_queries (dset dir (query_file i) (write q)) (S i) qs
    end.

  (** domain.py:226-239 FileDensity.to_file; a missing directory is created empty. *)
  Definition to_file (n : fdensity) (dir : option directory) : Res directory :=
    let dir := default [] dir in
    let! s := dom_get_state (f_dom n) in
    let dir := dset dir "domain.json" (dump s) in
    let dir := dset dir "support.smt2" (write (f_support n)) in
    let dir := match f_weight n with Some w => dset dir "weight.smt2" (write w) | None => dir end in
    Ok (write_queries dir 0 (f_queries n)).

  Definition open_file (dir : directory) (f : string) : Res string :=
    match dget dir f with Some c => Ok c | None => Err FileNotFoundErr end.

  (** domain.py:241-259 FileDensity.from_file.  The listing order of the directory
      is the order of the list. *)
  Definition from_file (dir : directory) : Res fdensity :=
    let! c := open_file dir "domain.json" in
    let! s := load c in
    let! d := dom_from_state s in
    let! c := open_file dir "support.smt2" in
    let! sup := read c in
    let! w := match dget dir "weight.smt2" with
              | Some c => let! w := read c in Ok (Some w)
              | None => Ok None end in
    let files := filter is_query_file (map fst dir) in
    let! keyed := rmapM (fun f => let! k := query_key f in Ok (k, f)) files in
    let! qs := rmapM (fun p => let! c := open_file dir (snd p) in read c) (merge_sort key_le keyed) in
    Ok (FDensity d sup w qs).
End files.
