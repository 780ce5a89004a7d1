(** Vocabulary for C64. *)

From Verif Require Import Base Dict Smt Math_Spec Domain_Model Domain_Spec Sample_Model Sample_Spec.

(** A linear inequality as the code stores it: a sum of coefficients times variables, plus
    a constant (the empty key), is below zero.  Keys are distinct. *)
Definition inequality_over (d : domain) (b : list (list string * Qc)) : Prop :=
  NoDup (map fst b) /\ forall k c, (k, c) ∈ b -> k = [] \/ exists v, k = [v] /\ v ∈ names d TReal.

(** A polynomial over the real variables, with at least one term. *)
Definition polynomial_over (d : domain) (p : list (list string * Qc)) : Prop :=
  p <> [] /\ forall k c, (k, c) ∈ p -> forall v, v ∈ k -> v ∈ names d TReal.

(** The inequality holds at a point: strictly, unless it mentions no variable. *)
Definition meets (e : env) (b : list (list string * Qc)) : bool :=
  if forallb (fun kc => bool_decide (kc.1 = [])) b then qle (poly_val e b) 0 else qlt (poly_val e b) 0.
Definition region (bs : list (list (list string * Qc))) (e : env) : bool := forallb (meets e) bs.

(** Volume of the box (and of the booleans) times the average over the rows of the
    polynomial, counted as zero outside the region. *)
Definition estimate (d : domain) (lens : list (string * Qc * Qc)) (bs : list (list (list string * Qc)))
    (p : list (list string * Qc)) (rows : list (list Qc)) : Qc :=
  (qpow (qz 2) (length (names d TBool)) * box_size lens *
   (qsum (map (fun row => let e := row_env (d_vars d) row in if region bs e then poly_val e p else 0) rows) /
    qn (length rows)))%Qc.

(** Linear programming with scipy's default bounds: minimise [c . x] over the
    non-negative [x] with [a x <= b]. *)
Definition dot (xs ys : list Qc) : Qc := qsum (zip_with Qcmult xs ys).
Definition feasible (a : list (list Qc)) (b x : list Qc) : Prop :=
  Forall (fun q => 0 <= q)%Qc x /\ Forall2 (fun row q => dot row x <= q)%Qc a b.
Definition solver_sound (linprog : list Qc -> list (list Qc) -> list Qc -> option (list Qc)) : Prop :=
  forall c a b x, linprog c a b = Some x ->
    length x = length c /\ feasible a b x /\
    forall y, length y = length c -> feasible a b y -> (dot c x <= dot c y)%Qc.

(** The domain with other intervals. *)
Definition same_variables (d d' : domain) : Prop := d_vars d' = d_vars d /\ d_types d' = d_types d.
