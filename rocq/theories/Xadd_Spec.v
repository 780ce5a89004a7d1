(** Vocabulary for C42-C47: the value of a diagram, requests to a pool and
    histories of requests. *)

From Verif Require Import Base Dict Smt Math_Model Math_Spec Piecewise_Spec Xadd_Model Resolve_Model.

(** [denotes den nodes e id v]: following, from node [id], the true child where the
    assignment [e] satisfies the test and the false child where it does not ends in
    a leaf with value [v]. *)
Inductive denotes {E : Type} (den : E -> env -> option Qc) (nodes : list (nat * node E)) (e : env) :
    nat -> Qc -> Prop :=
| dn_leaf id x v : dget nodes id = Some (TNode x) -> den x e = Some v -> denotes den nodes e id v
| dn_true id d ct cf v : dget nodes id = Some (INode d ct cf) -> eval e (d_test d) = Some (VB true) ->
    denotes den nodes e ct v -> denotes den nodes e id v
| dn_false id d ct cf v : dget nodes id = Some (INode d ct cf) -> eval e (d_test d) = Some (VB false) ->
    denotes den nodes e cf v -> denotes den nodes e id v.

(** [below nodes a b]: node [b] can be reached from node [a]. *)
Inductive below {E : Type} (nodes : list (nat * node E)) : nat -> nat -> Prop :=
| bl_refl a : below nodes a a
| bl_step a d ct cf c b : dget nodes a = Some (INode d ct cf) -> c = ct \/ c = cf ->
    below nodes c b -> below nodes a b.

(** Every leaf of the diagram at [id] is the pool's zero or one. *)
Definition boolean_diagram {E : Type} (p : pool E) (id : nat) : Prop :=
  forall b x, below (p_nodes p) id b -> dget (p_nodes p) b = Some (TNode x) -> b = p_zero p \/ b = p_one p.

(** A solver that never calls satisfiable assertions unsatisfiable. *)
Definition sound_solver (solve : list fm -> fm -> bool) : Prop :=
  forall asserted t e, solve asserted t = false ->
    (forall a, a ∈ asserted -> eval e a = Some (VB true)) -> eval e t <> Some (VB true).

(** Every node keeps its content. *)
Definition keeps_nodes {E : Type} (p p' : pool E) : Prop :=
  (forall id n, dget (p_nodes p) id = Some n -> dget (p_nodes p') id = Some n) /\
  p_zero p' = p_zero p /\ p_one p' = p_one p.

(** Requests to a pool.  [WalkR vt vi a] stands for a user's bottom-up walk over the
    diagram at [a]; its visitors return or raise what [vt] and [vi] say. *)
Inductive request (E : Type) :=
| TerminalR (x : E)                              (* pool.terminal(x) *)
| InternalR (f : fm) (ct cf : nat)               (* pool.internal(Decision(f), ct, cf) *)
| BoolTestR (f : fm)                             (* pool.bool_test(Decision(f)) *)
| ApplyR (op : xop) (a b : nat)                  (* pool.apply(op, a, b) *)
| InvertR (a : nat)                              (* pool.invert(a) *)
| ReduceR (fast : bool) (a : nat)                (* SmtReduce(pool, fast).reduce(a) *)
| WalkR (vt : nat -> E -> Res nat) (vi : nat -> decision -> nat -> nat -> option nat -> option nat -> Res nat)
    (a : nat)                                    (* UserWalker(pool.diagram(a)).walk() *)
| ResolveR (s : strategy) (v : string) (ub lb : option fm) (a : nat)
                                                 (* ResolveIntegrator(pool, s).resolve_lb_ub(a, v, ub, lb) *)
| IntegrateR (s : strategy) (v : string) (a : nat). (* ResolveIntegrator(pool, s).integrate(a, v) *)
Arguments TerminalR {E}. Arguments InternalR {E}. Arguments BoolTestR {E}. Arguments ApplyR {E}.
Arguments InvertR {E}. Arguments ReduceR {E}. Arguments WalkR {E}.
Arguments ResolveR {E}. Arguments IntegrateR {E}.

(** The node ids a request mentions. *)
Definition mentions {E} (r : request E) : list nat :=
  match r with
  | TerminalR _ | BoolTestR _ => []
  | InternalR _ a b | ApplyR _ a b => [a; b]
  | InvertR a | ReduceR _ a | WalkR _ _ a | ResolveR _ _ _ _ a | IntegrateR _ _ a => [a]
  end.

(** Requests for a node by its content. *)
Definition by_content {E : Type} (r : request E) : Prop :=
  match r with TerminalR _ | InternalR _ _ _ | BoolTestR _ => True | _ => False end.

(** pysmt only builds well-typed formulas; a test is a boolean one, a bound a real one. *)
Definition well_typed {E} (r : request E) : Prop :=
  match r with
  | InternalR f _ _ | BoolTestR f => typeof f = Some TBool
  | ResolveR _ _ ub lb _ => (forall f, ub = Some f \/ lb = Some f -> typeof f = Some TReal)
  | _ => True
  end.

(** ** Walks with visitors that do not use the pool *)

Definition pure_walk {E B : Type} (vt : nat -> E -> Res B)
    (vi : nat -> decision -> nat -> nat -> option B -> option B -> Res B) (root : nat) : M E B :=
  bottom_up (fun id x => mlift (vt id x)) (fun id d ct cf tm fm => mlift (vi id d ct cf tm fm)) root.

(** The visits of the nodes of [order], one after the other; each internal node is
    given the results of its children. *)
Fixpoint visits {E B : Type} (vt : nat -> E -> Res B)
    (vi : nat -> decision -> nat -> nat -> option B -> option B -> Res B)
    (nodes : list (nat * node E)) (order : list nat) (results : list (nat * B)) : Res (list (nat * B)) :=
  match order with
  | [] => Ok results
  | id :: order =>
      let! m := match dget nodes id with
                | Some (TNode x) => vt id x
                | Some (INode d ct cf) => vi id d ct cf (dget results ct) (dget results cf)
                | None => Err RuntimeErr
                end in
      visits vt vi nodes order (results ++ [(id, m)])
  end.

(** Every node below [root] once, each after its children. *)
Definition bottom_up_order {E : Type} (nodes : list (nat * node E)) (root : nat) (order : list nat) : Prop :=
  NoDup order /\ (forall id, id ∈ order <-> below nodes root id) /\
  forall before id after d ct cf, order = before ++ id :: after -> dget nodes id = Some (INode d ct cf) ->
    ct ∈ before /\ cf ∈ before.

Section History.
  Context {E : Type} `{EqDecision E} (A : alg E) (flat : E -> E) (is_one is_zero : E -> Res bool)
    (simp : fm -> fm) (solve : list fm -> fm -> bool) (X : resolver E).

  Definition serve (r : request E) : M E nat :=
    match r with
    | TerminalR x => terminal x
    | InternalR f ct cf => internal simp (mkdec f) ct cf
    | BoolTestR f => bool_test simp (mkdec f)
    | ApplyR op a b => apply A flat simp op a b
    | InvertR a => invert A flat is_one is_zero simp a
    | ReduceR fast a => reduce simp solve fast a
    | WalkR vt vi a => pure_walk vt vi a
    | ResolveR s v ub lb a => resolve A flat simp solve X s v ub lb a
    | IntegrateR s v a => integrate A flat simp solve X s v a
    end.

  (** The diagram of a walk (inversion is one) that raised. *)
  Definition interrupted (r : request E) (res : Res nat) : list nat :=
    match r, res with
    | InvertR a, Err _ | WalkR _ _ a, Err _ => [a]
    | _, _ => []
    end.

  (** Pools reached from an empty pool by requests, whether they return or raise,
      that mention nodes existing in the pool at that moment; with the diagrams on
      which a walk has raised. *)
  Inductive history : list nat -> pool E -> Prop :=
  | hi_new ordering : history [] (new_pool A ordering)
  | hi_step bad p r : history bad p -> well_typed r -> (forall a, a ∈ mentions r -> is_Some (dget (p_nodes p) a)) ->
      history (interrupted r (serve r p).2 ++ bad) (serve r p).1.
  Definition reachable (p : pool E) : Prop := exists bad, history bad p.

  (** [q] is a later state of the pool [p]. *)
  Inductive continues (p : pool E) : pool E -> Prop :=
  | co_now : continues p p
  | co_later q r : continues p q -> well_typed r -> (forall a, a ∈ mentions r -> is_Some (dget (p_nodes q) a)) ->
      continues p (serve r q).1.
End History.

(** What is assumed of the algebra, of get_flat_expression, of pysmt's simplifier and
    of the SMT solver. *)
Record sound_externals {E : Type} (A : alg E) (flat : E -> E) (simp : fm -> fm) (solve : list fm -> fm -> bool)
    (den : E -> env -> option Qc) : Prop := {
  se_arith : sound_arith (a_real A) (a_symbol A) (a_eq A) (a_mul A) (a_add A) den;
  se_flat : forall x e v, den x e = Some v -> den (flat x) e = Some v;
  se_simp : sound_simplifier simp;
  se_type : forall f t, typeof f = Some t -> typeof (simp f) = Some t;
  se_solve : sound_solver solve }.

(** What a node says: its expression, or its test and its children. *)
Definition content {E : Type} (n : node E) : E + fm * nat * nat :=
  match n with TNode x => inl x | INode d ct cf => inr (d_test d, ct, cf) end.

(** [is_child nodes c a]: node [a] is internal and [c] is one of its children. *)
Definition is_child {E : Type} (nodes : list (nat * node E)) (c a : nat) : Prop :=
  exists d ct cf, dget nodes a = Some (INode d ct cf) /\ (c = ct \/ c = cf).

(** The structural fold of a diagram. *)
Inductive folds {E B : Type} (vt : nat -> E -> Res B)
    (vi : nat -> decision -> nat -> nat -> option B -> option B -> Res B)
    (nodes : list (nat * node E)) : nat -> B -> Prop :=
| fo_leaf id x m : dget nodes id = Some (TNode x) -> vt id x = Ok m -> folds vt vi nodes id m
| fo_node id d ct cf a b m : dget nodes id = Some (INode d ct cf) -> folds vt vi nodes ct a -> folds vt vi nodes cf b ->
    vi id d ct cf (Some a) (Some b) = Ok m -> folds vt vi nodes id m.

(** The algebra recognises zero and one. *)
Definition knows_zero_one {E : Type} (A : alg E) (is_one is_zero : E -> Res bool) : Prop :=
  is_one (alg_one A) = Ok true /\ is_one (alg_zero A) = Ok false /\ is_zero (alg_zero A) = Ok true.

(** The value of the operation; the logical operations on zero and one only. *)
Definition op_val (op : xop) (x y : Qc) (z : Qc) : Prop :=
  match op with
  | Multiplication => z = (x * y)%Qc
  | Summation => z = (x + y)%Qc
  | LogicalOr => (x = 0 \/ x = 1)%Qc -> (y = 0 \/ y = 1)%Qc -> (z = 0 \/ z = 1)%Qc /\ (z = 1 <-> x = 1 \/ y = 1)%Qc
  | LogicalAnd => (x = 0 \/ x = 1)%Qc -> (y = 0 \/ y = 1)%Qc -> (z = 0 \/ z = 1)%Qc /\ (z = 1 <-> x = 1 /\ y = 1)%Qc
  end.
