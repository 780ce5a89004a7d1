(** Vocabulary for C06-C11 and C58. *)

From Verif Require Import Base Dict Smt.

(** The value of a polynomial (a dictionary from monomials to coefficients) at a
    point. *)
Definition mono_val (e : env) (k : list string) : Qc := qprod (map (er e) k).
Definition poly_val (e : env) (p : list (list string * Qc)) : Qc :=
  qsum (map (fun kv => (kv.2 * mono_val e kv.1)%Qc) p).

(** Polynomial expressions: constants, real variables, sums, differences,
    products and powers with a constant natural exponent. *)
Inductive poly_expr : fm -> Prop :=
| pe_const q : poly_expr (RealC q)
| pe_sym x : poly_expr (Sym x TReal)
| pe_plus l : l <> [] -> Forall poly_expr l -> poly_expr (PlusN l)
| pe_minus a b : poly_expr a -> poly_expr b -> poly_expr (MinusN a b)
| pe_times l : l <> [] -> Forall poly_expr l -> poly_expr (TimesN l)
| pe_pow a n : poly_expr a -> poly_expr (PowN a (RealC (qn n))).

(** Those without a zeroth power. *)
Inductive poly_expr1 : fm -> Prop :=
| pe1_const q : poly_expr1 (RealC q)
| pe1_sym x : poly_expr1 (Sym x TReal)
| pe1_plus l : l <> [] -> Forall poly_expr1 l -> poly_expr1 (PlusN l)
| pe1_minus a b : poly_expr1 a -> poly_expr1 b -> poly_expr1 (MinusN a b)
| pe1_times l : l <> [] -> Forall poly_expr1 l -> poly_expr1 (TimesN l)
| pe1_pow a n : n <> 0 -> poly_expr1 a -> poly_expr1 (PowN a (RealC (qn n))).

(** Expressions without variables, and linear expressions: in a product at most
    one factor contains variables. *)
Inductive const_expr : fm -> Prop :=
| ce_const q : const_expr (RealC q)
| ce_plus l : l <> [] -> Forall const_expr l -> const_expr (PlusN l)
| ce_minus a b : const_expr a -> const_expr b -> const_expr (MinusN a b)
| ce_times l : l <> [] -> Forall const_expr l -> const_expr (TimesN l).
Inductive linear_expr : fm -> Prop :=
| le_const f : const_expr f -> linear_expr f
| le_sym x : linear_expr (Sym x TReal)
| le_plus l : l <> [] -> Forall linear_expr l -> linear_expr (PlusN l)
| le_minus a b : linear_expr a -> linear_expr b -> linear_expr (MinusN a b)
| le_times l1 a l2 : Forall const_expr l1 -> linear_expr a -> Forall const_expr l2 ->
    linear_expr (TimesN (l1 ++ a :: l2))
| le_pow a : linear_expr a -> linear_expr (PowN a (RealC (qn 1))).

(** [f] compares [a] and [b], possibly negated. *)
Inductive compares : fm -> fm -> fm -> Prop :=
| cmp_le a b : compares (LeN a b) a b
| cmp_lt a b : compares (LtN a b) a b
| cmp_not f a b : compares f a b -> compares (NotN f) a b.

(** The point does not lie on the hyperplane a = b. *)
Definition off (e : env) (a b : fm) : Prop :=
  exists x y, eval e a = Some (VN x) /\ eval e b = Some (VN y) /\ x <> y.

(** Conjunctions of (possibly negated) linear comparisons. *)
Inductive conj_of_bounds : fm -> Prop :=
| cb_cmp f a b : compares f a b -> linear_expr a -> linear_expr b -> conj_of_bounds f
| cb_and l : l <> [] -> Forall conj_of_bounds l -> conj_of_bounds (AndN l).

(** The point lies on no hyperplane of a comparison in [f]. *)
Inductive off_all (e : env) : fm -> Prop :=
| oa_cmp f a b : compares f a b -> off e a b -> off_all e f
| oa_and l : Forall (off_all e) l -> off_all e (AndN l).

(** What is assumed of the expressions of an algebra backend: [den] is the value of
    an expression at a point, [cond] the truth of a comparison. *)
Record sound_arith {E : Type} (real : Qc -> E) (symbol : string -> E) (eqb : E -> E -> bool)
  (mul add : E -> E -> E) (den : E -> env -> option Qc) : Prop := {
  sa_real : forall q e, den (real q) e = Some q;
  sa_symbol : forall x e, den (symbol x) e = Some (er e x);
  sa_eq : forall a b e, eqb a b = true -> den a e = den b e;
  sa_mul : forall a b e x y, den a e = Some x -> den b e = Some y -> den (mul a b) e = Some (x * y)%Qc;
  sa_add : forall a b e x y, den a e = Some x -> den b e = Some y -> den (add a b) e = Some (x + y)%Qc }.
Record sound_comp {E : Type} (le lt : E -> E -> E) (den : E -> env -> option Qc)
  (cond : E -> env -> option bool) : Prop := {
  sc_le : forall a b e x y, den a e = Some x -> den b e = Some y -> cond (le a b) e = Some (qle x y);
  sc_lt : forall a b e x y, den a e = Some x -> den b e = Some y -> cond (lt a b) e = Some (qlt x y) }.

(** The value of an arithmetic formula. *)
Definition fm_den (f : fm) (e : env) : option Qc := vnum (eval e f).

(** Conjunctions of literals as the bounds extractor understands them: comparisons,
    boolean symbols and constants, negation and conjunction. *)
Inductive literals_only : fm -> Prop :=
| lo_le a b : literals_only (LeN a b)
| lo_lt a b : literals_only (LtN a b)
| lo_sym x : literals_only (Sym x TBool)
| lo_const b : literals_only (BoolC b)
| lo_not f : literals_only f -> literals_only (NotN f)
| lo_and l : l <> [] -> Forall literals_only l -> literals_only (AndN l).
