(** Vocabulary for C69: expressions built with the operations of an algebra, and their
    values. *)

From Verif Require Import Base Dict Smt Math_Model Math_Spec Xadd_Model Resolve_Model Xalg_Model.

(** Expressions as an engine builds them: every constructor is one call of the algebra. *)
Inductive aexpr :=
| EReal (q : Qc)                  (* algebra.real(q) *)
| ESymbol (x : string)            (* algebra.symbol(x) *)
| EZero | EOne                    (* algebra.zero(), algebra.one() *)
| ECond (f : fm)                  (* algebra.parse_condition(f) *)
| ETimes (a b : aexpr)            (* algebra.times(a, b) *)
| EPlus (a b : aexpr)             (* algebra.plus(a, b) *)
| ENegate (a : aexpr)             (* algebra.negate(a) *)
| EPower (a : aexpr) (n : nat).   (* algebra.power(a, n) *)

(** The value at an assignment; a condition counts 1 where it holds and 0 elsewhere. *)
Fixpoint value (e : env) (t : aexpr) : Qc :=
  match t with
  | EReal q => q
  | ESymbol x => er e x
  | EZero => 0
  | EOne => 1
  | ECond f => if decide (eval e f = Some (VB true)) then 1 else 0
  | ETimes a b => value e a * value e b
  | EPlus a b => value e a + value e b
  | ENegate a => - value e a
  | EPower a n => qpow (value e a) n
  end%Qc.

Fixpoint conditions (t : aexpr) : list fm :=
  match t with
  | ECond f => [f]
  | ETimes a b | EPlus a b => conditions a ++ conditions b
  | ENegate a | EPower a _ => conditions a
  | _ => []
  end.
(** A condition is a boolean variable or compares two linear terms. *)
Definition condition (f : fm) : Prop :=
  (exists x, f = Sym x TBool) \/ (exists a b, compares f a b /\ linear_expr a /\ linear_expr b).
(** No comparison is between two terms that are equal at [e]. *)
Definition off_conditions (e : env) (t : aexpr) : Prop :=
  forall f a b, f ∈ conditions t -> compares f a b -> off e a b.

Section Build.
  Context {E : Type} `{EqDecision E} (A : alg E) (flat : E -> E) (simp : fm -> fm) (solve : list fm -> fm -> bool)
    (strat : bool * strategy).
  (** The calls, from left to right. *)
  Fixpoint build (t : aexpr) : M E nat :=
    match t with
    | EReal q => xa_real A q
    | ESymbol x => xa_symbol A x
    | EZero => xa_zero
    | EOne => xa_one
    | ECond f => xa_parse_condition simp f
    | ETimes a b => do! i := build a in do! j := build b in xa_times A flat simp solve strat i j
    | EPlus a b => do! i := build a in do! j := build b in xa_plus A flat simp solve strat i j
    | ENegate a => do! i := build a in xa_negate A flat simp solve strat i
    | EPower a n => do! i := build a in xa_power A flat simp solve strat i (Z.of_nat n)
    end.
End Build.
