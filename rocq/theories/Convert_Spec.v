(** What an imported density is expected to be. *)

From Verif Require Import Base Dict Smt Xadd_Model Domain_Model Domain_Spec.

(** The assignments agree on the variables of the domain. *)
Definition same_on (d : domain) (e e' : env) : Prop :=
  (forall x, x ∈ names d TBool -> eb e x = eb e' x) /\ (forall x, x ∈ names d TReal -> er e x = er e' x).

(** The formulas of a density depend on the variables of its domain only. *)
Definition closed (n : density) : Prop := forall e e', same_on (n_dom n) e e' ->
  eval e (n_support n) = eval e' (n_support n) /\ eval e (n_weight n) = eval e' (n_weight n) /\
  Forall (fun q => eval e q = eval e' q) (n_queries n).

(** The domain has these booleans and these reals with their intervals, and no other
    variables. *)
Definition over (d : domain) (bools : list string) (reals : list (string * interval)) : Prop :=
  wf_domain d /\ (forall x, x ∈ names d TBool <-> x ∈ bools) /\ (forall x, x ∈ names d TReal <-> x ∈ map fst reals) /\
  (forall x i, (x, i) ∈ d_doms d <-> (x, i) ∈ reals).

(** Iterating over a set made from a list. *)
Definition iterates {A} (order : list A -> list A) : Prop :=
  forall l, NoDup (order l) /\ forall x, x ∈ order l <-> x ∈ l.

(** No variable with two types, and none of type int. *)
Definition one_type (vs : list (string * ty)) : Prop := forall x t t', (x, t) ∈ vs -> (x, t') ∈ vs -> t = t'.
Definition no_ints (vs : list (string * ty)) : Prop := forall x, (x, TInt) ∉ vs.

(** The character does not occur in the text. *)
Definition lacks (c : Ascii.ascii) (s : string) : Prop := c ∉ list_ascii_of_string s.

(** A file called ..._R_B_..., in any directory: [p1] is the text between the first and
    the second underscore, [p2] the one between the second and the third. *)
Definition file_fields (name p1 p2 : string) : Prop := exists dir p0 rest,
  lacks "_" p0 /\ lacks "_" p1 /\ lacks "_" p2 /\
  lacks "/" (p0 +:+ "_" +:+ p1 +:+ "_" +:+ p2 +:+ "_" +:+ rest) /\
  (name = p0 +:+ "_" +:+ p1 +:+ "_" +:+ p2 +:+ "_" +:+ rest \/
   name = dir +:+ "/" +:+ (p0 +:+ "_" +:+ p1 +:+ "_" +:+ p2 +:+ "_" +:+ rest)).
