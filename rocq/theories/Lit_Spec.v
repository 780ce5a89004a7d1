(** Vocabulary for C28, C29 and C62. *)

From Verif Require Import Base Dict Smt Math_Spec Lit_Model.

(** Formulas over boolean variables and linear inequalities (no equalities). *)
Inductive logic_formula : fm -> Prop :=
| lf_const b : logic_formula (BoolC b)
| lf_sym x : logic_formula (Sym x TBool)
| lf_and l : Forall logic_formula l -> logic_formula (AndN l)
| lf_or l : Forall logic_formula l -> logic_formula (OrN l)
| lf_not f : logic_formula f -> logic_formula (NotN f)
| lf_imp f g : logic_formula f -> logic_formula g -> logic_formula (ImpN f g)
| lf_iff f g : logic_formula f -> logic_formula g -> logic_formula (IffN f g)
| lf_ite c f g : logic_formula c -> logic_formula f -> logic_formula g -> logic_formula (IteN c f g)
| lf_le a b : linear_expr a -> linear_expr b -> logic_formula (LeN a b)
| lf_lt a b : linear_expr a -> linear_expr b -> logic_formula (LtN a b).

(** The point lies on the boundary of no inequality of the formula. *)
Fixpoint off_tests (e : env) (f : fm) : Prop :=
  match f with
  | LeN a b | LtN a b => off e a b
  | AndN l | OrN l => fold_right (fun g P => off_tests e g /\ P) True l
  | NotN g => off_tests e g
  | ImpN g h | IffN g h => off_tests e g /\ off_tests e h
  | IteN c g h => off_tests e c /\ off_tests e g /\ off_tests e h
  | _ => True
  end.

(** The truth of what a literal stands for. *)
Definition meaning_true (e : env) (m : meaning) : bool :=
  match m with
  | MBool x => eb e x
  | MTest f => bool_decide (eval e f = Some (VB true))
  end.

(** The assignment of the literals that gives each its meaning at [e]. *)
Definition literal_env (e : env) (table : list (string * meaning)) : env :=
  Env (fun lit => match dget table lit with Some m => meaning_true e m | None => false end) (er e).

(** A literal table is two-way: a key has a value exactly when the inverse table
    sends the value back to the key. *)
Definition two_way (s : linfo) : Prop :=
  (forall x lit, dget (booleans s) x = Some lit <-> dget (literals s) lit = Some (MBool x)) /\
  (forall f lit, dget (abstractions s) f = Some lit <-> dget (literals s) lit = Some (MTest f)).

Definition empty_linfo : linfo := LInfo [] [] [].

(** Insertions under a key not used before. *)
Definition fresh_insert (s : linfo) (o : lop) : Prop :=
  match o with
  | SetBool x _ => dget (booleans s) x = None
  | SetTest f _ => dget (abstractions s) f = None
  | _ => False
  end.

Fixpoint fresh_history (s : linfo) (os : list lop) : Prop :=
  match os with
  | [] => True
  | o :: os => fresh_insert s o /\ fresh_history (lstep s o).1 os
  end.
