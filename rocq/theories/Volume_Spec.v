(** Vocabulary for C51: the sum over the boolean worlds of the iterated integral of a
    weight over a support. *)

From Verif Require Import Base Dict Smt Math_Spec Domain_Model Domain_Spec Integral_Spec Toxadd_Spec.

(** The assignments that differ from [e] in the booleans [bs]. *)
Fixpoint worlds (bs : list string) (e : env) : list env :=
  match bs with
  | [] => [e]
  | b :: bs => flat_map (fun e => [upd_b e b true; upd_b e b false]) (worlds bs e)
  end.

(** The iterated integral of [F] over the real variables [xs], each between its two
    limits; the first one is the outermost. *)
Fixpoint iterated (F : env -> Qc -> Prop) (xs : list (string * Qc * Qc)) (e : env) : Qc -> Prop :=
  match xs with
  | [] => F e
  | (x, lo, hi) :: xs => integral (fun t y => iterated F xs (upd_r e x t) y) lo hi
  end.

(** The sum over the worlds of the integrals. *)
Definition wmi (F : env -> Qc -> Prop) (bs : list string) (xs : list (string * Qc * Qc)) (e : env) (v : Qc) : Prop :=
  exists vs, Forall2 (iterated F xs) (worlds bs e) vs /\ v = qsum vs.

(** Where the support holds and the bounds are met. *)
Definition region (d : domain) (support : fm) (e : env) : Prop :=
  eval e support = Some (VB true) /\ forall x b, (x, b) ∈ d_doms d -> inside (er e x) b.
(** The weight, restricted to the region [R]. *)
Definition restricted (R : env -> Prop) (weight : fm) (e : env) (y : Qc) : Prop :=
  (R e /\ eval e weight = Some (VN y)) \/ (~ R e /\ y = 0%Qc).

(** The intervals of the real variables in the order of the domain. *)
Definition intervals (d : domain) (xs : list (string * Qc * Qc)) : Prop :=
  map (fun '(x, _, _) => x) xs = names d TReal /\
  forall x lo hi, (x, lo, hi) ∈ xs -> (x, (Some lo, Some hi)) ∈ d_doms d /\ (lo <= hi)%Qc.

(** No comparison of [f] is between two terms that are equal whatever the values of the
    real variables [xs]. *)
Definition proper_tests (xs : list string) (f : fm) : Prop :=
  forall a b, (a, b) ∈ comparisons f -> forall e, exists e',
    (forall x, eb e x = eb e' x) /\ (forall x, x ∉ xs -> er e x = er e' x) /\ off e' a b.

(** pysmt's simplifier: a comparison of two constants becomes true or false, and no
    variable appears that was not there. *)
Definition folds (simp : fm -> fm) : Prop := forall a b, exists c, simp (LeN (RealC a) (RealC b)) = BoolC c.
Definition adds_none (simp : fm -> fm) : Prop := forall f x, x ∈ syms (simp f) -> x ∈ syms f.
