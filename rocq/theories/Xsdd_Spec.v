(** Vocabulary for C36 and C38. *)

From Verif Require Import Base Dict Smt Math_Model Math_Spec Lit_Spec Lit_Model Engine_Spec Sdd_Model Sdd_Spec Piecewise_Model Piecewise_Spec.

(** The conditions of the conditionals in a weight function. *)
Fixpoint conditions (f : fm) : list fm :=
  match f with
  | IteN c a b => c :: conditions a ++ conditions b
  | PlusN l | TimesN l => concat (map conditions l)
  | MinusN a b => conditions a ++ conditions b
  | PowN a _ => conditions a
  | _ => []
  end.

(** A weight function whose conditions are formulas over booleans and linear
    inequalities. *)
Definition weight_function (w : fm) : Prop := weight_expr w /\ Forall logic_formula (conditions w).

(** A point of the reals that lies on the boundary of no inequality of the support or
    the weight.  (The other points have measure zero.) *)
Definition generic (s w : fm) (r : string -> Qc) : Prop :=
  forall b, off_tests (Env b r) s /\ Forall (off_tests (Env b r)) (conditions w).

(** An integral over the real variables: [I f a] says that the integral of [f] exists
    and is [a].  It is unique, linear, and does not see the points that are not
    generic. *)
Record integral_on (generic : (string -> Qc) -> Prop) (I : ((string -> Qc) -> Qc) -> Qc -> Prop) : Prop := {
  io_unique : forall f a b, I f a -> I f b -> a = b;
  io_zero : I (fun _ => 0%Qc) 0%Qc;
  io_add : forall f g a b, I f a -> I g b -> I (fun r => f r + g r)%Qc (a + b)%Qc;
  io_scale : forall f a c, I f a -> I (fun r => c * f r)%Qc (c * a)%Qc;
  io_null : forall f g a, (forall r, generic r -> f r = g r) -> I f a -> I g a }.

(** A point of the reals at which the support holds in some world. *)
Definition inside (s : fm) (r : string -> Qc) : Prop := exists b, eval (Env b r) s = Some (VB true).

(** Polynomials can be integrated over the parts of the support that are described by
    formulas. *)
Definition polynomials_integrable (I : ((string -> Qc) -> Qc) -> Qc -> Prop) (s : fm) : Prop :=
  forall p g b, logic_formula g ->
    (forall r, eval (Env b r) g = Some (VB true) -> inside s r) ->
    exists a, I (fun r => if bool_decide (eval (Env b r) g = Some (VB true)) then poly_val (Env b r) p else 0%Qc) a.

(** What is assumed of the algebra's integrate and to_float: an expression that has
    the values of [f] at the generic points is integrated to a number with the value
    of the integral of [f]. *)
Definition sound_integrator {E : Type} (den : E -> env -> option Qc) (generic : (string -> Qc) -> Prop)
  (I : ((string -> Qc) -> Qc) -> Qc -> Prop) (integrate : E -> Res E) : Prop :=
  forall x f a, (forall e, generic (er e) -> den x e = Some (f (er e))) -> I f a ->
    exists y, integrate x = Ok y /\ forall e, den y e = Some a.
Definition sound_number {E : Type} (den : E -> env -> option Qc) (to_float : E -> Res Qc) : Prop :=
  forall y a, (forall e, den y e = Some a) -> to_float y = Ok a.

(** What is assumed of a convex integrator: on the region where the given linear
    expressions are not positive it returns the integral of the polynomial; it may
    divide by zero if that is zero. *)
Definition sound_backend (generic : (string -> Qc) -> Prop) (I : ((string -> Qc) -> Qc) -> Qc -> Prop) (s : fm)
  (backend : list (list (list string * Qc)) -> list (list string * Qc) -> Res Qc) : Prop :=
  forall ds p, let holds r := forallb (fun d => qle (poly_val (Env (fun _ => false) r) d) 0) ds in
    (forall r, generic r -> holds r = true -> inside s r) ->
    exists a, I (fun r => if holds r then poly_val (Env (fun _ => false) r) p else 0%Qc) a /\
      (backend ds p = Ok a \/ a = 0%Qc /\ backend ds p = Err ZeroDivisionError).

(** A simplifier does not introduce boolean variables or boundaries. *)
Record keeps_tests (simplify : fm -> fm) : Prop := {
  kt_logic : forall f, logic_formula f -> logic_formula (simplify f);
  kt_off : forall f e, logic_formula f -> off_tests e f -> off_tests e (simplify f);
  kt_bools : forall f x, (x, TBool) ∈ syms (simplify f) -> (x, TBool) ∈ syms f }.

(** The managers that are made for the literal tables are sound. *)
Definition sound_managers (mgr : linfo -> manager) (own : linfo -> sdd -> Prop) : Prop :=
  forall i, sound_manager (upto (length (Lit_Model.literals i))) (mgr i) (own i).
(** Compiling formulas over [bools] gives diagrams none of whose nodes adds two parts
    with equally many but different booleans. *)
Definition aligned_compilation (mgr : linfo -> manager) (bools : list string) : Prop :=
  forall f g i node, logic_formula f -> (forall x, (x, TBool) ∈ syms f -> x ∈ bools) ->
    extract_literals f = Ok (g, i) -> compile_to_sdd (mgr i) g i = Ok node -> aligned i node.

(** A solver that answers "unsatisfiable" only for formulas that are true nowhere. *)
Definition sound_solver (unsat : fm -> bool) : Prop :=
  forall f, unsat f = true -> forall e, eval e f <> Some (VB true).

(** The formulas and weights on which conflict search succeeds. *)
Inductive scannable : fm -> Prop :=
| sc_sym x t : scannable (Sym x t)
| sc_bool b : scannable (BoolC b)
| sc_real q : scannable (RealC q)
| sc_int z : scannable (IntC z)
| sc_and l : l <> [] -> Forall scannable l -> scannable (AndN l)
| sc_or l : l <> [] -> Forall scannable l -> scannable (OrN l)
| sc_not f : scannable f -> scannable (NotN f)
| sc_imp f g : scannable f -> scannable g -> scannable (ImpN f g)
| sc_iff f g : scannable f -> scannable g -> scannable (IffN f g)
| sc_le a b : scannable (LeN a b)
| sc_lt a b : scannable (LtN a b)
| sc_plus l : scannable (PlusN l)
| sc_minus a b : scannable (MinusN a b)
| sc_times l : scannable (TimesN l).

(** The weight of a piece is a polynomial object, and not a bare number (which the
    conversion yields for instance for 1 + 1). *)
Definition is_poly (k : pkey) : Prop := match k with KPoly p => p <> [] | KNum _ => False end.
