(** Vocabulary for C34 and C35. *)

From Verif Require Import Base Dict Smt.

(** The value of a piecewise function at a point: the sum of the values of the
    pieces whose support holds. *)
Definition piece_value {E} (den : E -> env -> Qc) (e : env) (kc : E * fm) : option Qc :=
  match eval e kc.2 with
  | Some (VB true) => Some (den kc.1 e)
  | Some (VB false) => Some 0%Qc
  | _ => None
  end.
Definition pieces_value {E} (den : E -> env -> Qc) (e : env) (p : list (E * fm)) : option Qc :=
  qsum <$> mapM (piece_value den e) p.

(** A simplifier preserves the meaning of formulas. *)
Definition sound_simplifier (simplify : fm -> fm) : Prop :=
  forall e f b, eval e f = Some (VB b) -> eval e (simplify f) = Some (VB b).

(** Weight functions: constants, real variables, sums, differences, products,
    natural powers and conditionals. *)
Inductive weight_expr : fm -> Prop :=
| we_const q : weight_expr (RealC q)
| we_sym x : weight_expr (Sym x TReal)
| we_plus l : l <> [] -> Forall weight_expr l -> weight_expr (PlusN l)
| we_minus a b : weight_expr a -> weight_expr b -> weight_expr (MinusN a b)
| we_times l : l <> [] -> Forall weight_expr l -> weight_expr (TimesN l)
| we_pow a n : weight_expr a -> weight_expr (PowN a (RealC (qn n)))
| we_ite c a b : weight_expr a -> weight_expr b -> weight_expr (IteN c a b).

(** Sums and conditionals of leaves, with the list of the monomials (variables and
    coefficient) at the leaves. *)
Inductive additive (leaf : fm -> list (list string * Qc) -> Prop) : fm -> list (list string * Qc) -> Prop :=
| ad_leaf f l : leaf f l -> additive leaf f l
| ad_ite c a b la lb : additive leaf a la -> additive leaf b lb -> additive leaf (IteN c a b) (la ++ lb)
| ad_plus fs ls : fs <> [] -> Forall2 (additive leaf) fs ls -> additive leaf (PlusN fs) (concat ls).

(** Leaves: non-zero constants, variables, and a constant times a variable. *)
Inductive simple_leaf : fm -> list (list string * Qc) -> Prop :=
| sl_const q : q <> 0%Qc -> simple_leaf (RealC q) [([], q)]
| sl_sym x : simple_leaf (Sym x TReal) [([x], 1%Qc)]
| sl_scaled q x : q <> 0%Qc -> simple_leaf (TimesN [RealC q; Sym x TReal]) [([x], q)].

(** The product of the literal weights at a point: for each labelled boolean the
    first label where it is true, the second where it is false. *)
Definition label_value (e : env) (l : string * (fm * fm)) : option Qc :=
  vnum (eval e (if eb e l.1 then l.2.1 else l.2.2)).
Definition labels_value (e : env) (ls : list (string * (fm * fm))) : option Qc :=
  qprod <$> mapM (label_value e) ls.

(** The booleans that occur as the condition of a factor. *)
Definition label_var (f : fm) : option string :=
  match f with IteN (Sym x TBool) _ _ => Some x | _ => None end.
