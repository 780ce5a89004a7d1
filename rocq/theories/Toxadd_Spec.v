(** Vocabulary for C50: which formulas and weights are covered, and the points that
    lie on none of their hyperplanes. *)

From Verif Require Import Base Smt Math_Spec.

(** Formulas over boolean variables and linear comparisons. *)
Inductive bool_formula : fm -> Prop :=
| bf_const b : bool_formula (BoolC b)
| bf_sym x : bool_formula (Sym x TBool)
| bf_and l : Forall bool_formula l -> bool_formula (AndN l)
| bf_or l : Forall bool_formula l -> bool_formula (OrN l)
| bf_not a : bool_formula a -> bool_formula (NotN a)
| bf_imp a b : bool_formula a -> bool_formula b -> bool_formula (ImpN a b)
| bf_iff a b : bool_formula a -> bool_formula b -> bool_formula (IffN a b)
| bf_ite c a b : bool_formula c -> bool_formula a -> bool_formula b -> bool_formula (IteN c a b)
| bf_le a b : linear_expr a -> linear_expr b -> bool_formula (LeN a b)
| bf_lt a b : linear_expr a -> linear_expr b -> bool_formula (LtN a b).

(** Piecewise polynomial weights. *)
Inductive weight_formula : fm -> Prop :=
| wf_const q : weight_formula (RealC q)
| wf_sym x : weight_formula (Sym x TReal)
| wf_plus l : l <> [] -> Forall weight_formula l -> weight_formula (PlusN l)
| wf_times l : l <> [] -> Forall weight_formula l -> weight_formula (TimesN l)
| wf_minus a b : weight_formula a -> weight_formula b -> weight_formula (MinusN a b)
| wf_pow a n : weight_formula a -> weight_formula (PowN a (RealC (qn n)))
| wf_ite c a b : bool_formula c -> weight_formula a -> weight_formula b -> weight_formula (IteN c a b).

(** The comparisons in a formula. *)
Fixpoint comparisons (f : fm) : list (fm * fm) :=
  match f with
  | LeN a b | LtN a b | EqN a b => [(a, b)]
  | AndN l | OrN l | PlusN l | TimesN l => concat (map comparisons l)
  | NotN a | ExpN a | ToRealN a => comparisons a
  | ImpN a b | IffN a b | MinusN a b | PowN a b => comparisons a ++ comparisons b
  | IteN c a b => comparisons c ++ comparisons a ++ comparisons b
  | Sym _ _ | BoolC _ | RealC _ | IntC _ => []
  end.

(** The two sides of no comparison are equal at [e]. *)
Definition off_tests (e : env) (f : fm) : Prop := forall a b, (a, b) ∈ comparisons f -> off e a b.
