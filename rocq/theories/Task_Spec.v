(** What the tasks convert, normalize and plot of the command line are expected to do.
    Independent of the functions of Task_Model.v. *)

From Verif Require Import Base Smt Parse_Model Parse_Spec Domain_Model Domain_Spec Task_Model.

(** Densities the JSON format can hold exactly: no integer variables, and formulas that are
    well typed, with names the parser accepts and constants that are floats. *)
Definition exact_formula (to_float : Qc -> option Qc) (f : fm) : Prop :=
  storable to_float f = true /\ wf_fm f = true /\ typeof f <> None /\ exact_consts to_float f = true.
Definition exact_domain (d : domain) : Prop :=
  forall v t, (v, t) ∈ d_types d -> t = TBool \/ t = TReal.
Definition exact_density (to_float : Qc -> option Qc) (n : density) : Prop :=
  exact_domain (n_dom n) /\ exact_formula to_float (n_support n) /\
  exact_formula to_float (n_weight n) /\ Forall (exact_formula to_float) (n_queries n).

(** The file at [p] is a JSON file that is read back as [n]. *)
Definition holds_density (read : string -> option Qc) (fs : disk) (p : string) (n : density) : Prop :=
  exists s m, fs p = Some (CState s) /\ den_from_state read s = Ok m /\ same_density m n.

(** Outside [ps] the two disks agree. *)
Definition same_but (ps : list string) (fs fs' : disk) : Prop :=
  forall p, p ∉ ps -> fs' p = fs p.

(** mkstemp picks a path that does not exist and that can be written, on the disk [fs] and with
    up to two more files on it. *)
Definition fresh_ok (can_open : string -> bool) (fresh : disk -> string) (fs : disk) : Prop :=
  forall l fs', length l <= 2 -> same_but l fs fs' ->
    fs' (fresh fs') = None /\ can_open (fresh fs') = true.
