(** Vocabulary for C48-C51: resolving a variable out of a diagram. *)

From Verif Require Import Base Dict Smt Math_Model Math_Spec Piecewise_Spec Xadd_Model Resolve_Model Integral_Spec Xadd_Spec.

(** Every expression of the algebra is a polynomial in the real variables. *)
Definition polynomials {E : Type} (den : E -> env -> option Qc) : Prop :=
  forall x, exists P : pdict, forall e, den x e = Some (poly_val e P).

(** What is assumed of the external functions: the expressions are polynomials, the
    algebra integrates them between bounds that do not depend on the variable; pysmt's
    simplifier keeps linear terms linear and their values, and turns a comparison into
    a constant or into the comparison of the simplified sides; iterating over a set
    gives every element once. *)
Record resolve_externals {E : Type} (simp : fm -> fm) (X : resolver E) (den : E -> env -> option Qc) : Prop := {
  re_poly : polynomials den;
  re_integ : forall x v l u,
    (forall e t, den l (upd_r e v t) = den l e) -> (forall e t, den u (upd_r e v t) = den u e) ->
    exists y, rs_integ X x v l u = Ok y /\
      forall e a b, den l e = Some a -> den u e = Some b -> (a <= b)%Qc ->
        exists w, den y e = Some w /\ integral (fun t z => den x (upd_r e v t) = Some z) a b w;
  re_term : forall f, linear_expr f -> linear_expr (simp f) /\ forall e, eval e (simp f) = eval e f;
  re_lt : forall f g, linear_expr f -> linear_expr g -> (exists b, simp (LtN f g) = BoolC b) \/ simp (LtN f g) = LtN (simp f) (simp g);
  re_triv : simp (LeN (RealC 0) (RealC 0)) = BoolC true;
  re_order : forall l, Permutation (rs_order X l) l }.

(** A bound that may be given for the variable [v]: a linear term whose value does not
    depend on [v]. *)
Definition bound_for (v : string) (b : option fm) : Prop :=
  match b with
  | None => True
  | Some f => linear_expr f /\ forall e t, eval (upd_r e v t) f = eval e f
  end.

(** [lo] and [hi] are the limits of integration under the assignment [e]: the values of
    the bounds; where a bound is missing, any number beyond which the diagram is zero. *)
Definition limits {E : Type} (den : E -> env -> option Qc) (nodes : list (nat * node E)) (e : env) (v : string)
    (id : nat) (ub lb : option fm) (lo hi : Qc) : Prop :=
  (lo <= hi)%Qc /\
  match lb with
  | Some f => eval e f = Some (VN lo)
  | None => forall t y, (t < lo)%Qc -> denotes den nodes (upd_r e v t) id y -> y = 0%Qc
  end /\
  match ub with
  | Some f => eval e f = Some (VN hi)
  | None => forall t y, (hi < t)%Qc -> denotes den nodes (upd_r e v t) id y -> y = 0%Qc
  end.

(** The function of [v] given by the diagram at [id], the others being fixed by [e]. *)
Definition along {E : Type} (den : E -> env -> option Qc) (nodes : list (nat * node E)) (e : env) (v : string)
    (id : nat) : Qc -> Qc -> Prop :=
  fun t y => denotes den nodes (upd_r e v t) id y.

(** No path tests the boolean [v] twice. *)
Definition read_once {E : Type} (nodes : list (nat * node E)) (v : string) (id : nat) : Prop :=
  forall a d ct cf b d' ct' cf', below nodes id a -> dget nodes a = Some (INode d ct cf) -> d_test d = Sym v TBool ->
    below nodes ct b \/ below nodes cf b -> dget nodes b = Some (INode d' ct' cf') -> d_test d' <> Sym v TBool.

(** On every path the tests come in the order in which the pool registered them. *)
Definition in_order {E : Type} (p : pool E) (id : nat) : Prop :=
  forall a d ct cf c d' ct' cf' i j, below (p_nodes p) id a -> dget (p_nodes p) a = Some (INode d ct cf) -> c = ct \/ c = cf ->
    dget (p_nodes p) c = Some (INode d' ct' cf') -> dget (p_tests p) (d_test d) = Some i ->
    dget (p_tests p) (d_test d') = Some j -> (i < j)%nat.
