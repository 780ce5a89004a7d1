(** Vocabulary for C12-C16. *)

From Verif Require Import Base Dict Smt Domain_Model.

(** A domain as the constructors of the code build it: distinct variables, each with
    a type, boolean or real, and an interval for exactly the real ones. *)
Record wf_domain (d : domain) : Prop := {
  wd_vars : NoDup (d_vars d);
  wd_types : NoDup (map fst (d_types d));
  wd_types_vars : forall v, v ∈ map fst (d_types d) <-> v ∈ d_vars d;
  wd_type : forall v t, (v, t) ∈ d_types d -> t = TBool \/ t = TReal;
  wd_doms : NoDup (map fst (d_doms d));
  wd_doms_real : forall v, v ∈ map fst (d_doms d) <-> (v, TReal) ∈ d_types d }.

(** [x] lies in the closed interval. *)
Definition inside (x : Qc) (b : interval) : Prop :=
  (forall l, fst b = Some l -> (l <= x)%Qc) /\ (forall u, snd b = Some u -> (x <= u)%Qc).

(** The variables of one type, in the order of the domain. *)
Definition names (d : domain) (t : ty) : list string :=
  filter (fun v => (v, t) ∈ d_types d) (d_vars d).

(** Product of the lengths of finite intervals. *)
Definition box (d : domain) (lens : list (string * Qc * Qc)) : Prop :=
  d_doms d = map (fun '(v, l, u) => (v, (Some l, Some u))) lens.
Definition box_size (lens : list (string * Qc * Qc)) : Qc :=
  qprod (map (fun '(_, l, u) => u - l)%Qc lens).

(** Same density up to the meaning of its formulas. *)
Definition same_files (n m : fdensity) : Prop :=
  f_dom n = f_dom m /\ fequiv (f_support n) (f_support m) /\
  match f_weight n, f_weight m with
  | Some w, Some w' => fequiv w w' | None, None => True | _, _ => False end /\
  Forall2 fequiv (f_queries n) (f_queries m).

Definition same_density (n m : density) : Prop :=
  n_dom n = n_dom m /\ fequiv (n_support n) (n_support m) /\ fequiv (n_weight n) (n_weight m) /\
  Forall2 fequiv (n_queries n) (n_queries m).
