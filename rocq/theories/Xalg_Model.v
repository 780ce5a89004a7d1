(** Model of the algebra whose expressions are diagrams: pywmi/engines/pyxadd/algebra.py
    14-80 (PyXaddAlgebra), with what it inherits from
    pywmi/engines/algebraic_backend.py 53-64 (negate, power). *)

From Verif Require Import Base Dict Smt Math_Model Domain_Model Xadd_Model Resolve_Model Volume_Model.

Section Xalg.
  (** [A]: the symbolic backend, which is also the algebra of the pool (algebra.py:22-23;
      a pool given to the constructor together with another backend is left out). *)
  Context {E : Type} `{EqDecision E} (A : alg E) (flat : E -> E) (is_one is_zero : E -> Res bool)
    (simp : fm -> fm) (solve : list fm -> fm -> bool) (X : resolver E) (to_float : E -> Res Qc).
  (** algebra.py:15-19, 24: whether products and sums are reduced, and the strategy of
      the integrator *)
  Context (strat : bool * strategy).

  (** algebra.py:29-30 symbol *)
  Definition xa_symbol (x : string) : M E nat := terminal (a_symbol A x).
  (** algebra.py:32-33 real *)
  Definition xa_real (q : Qc) : M E nat := terminal (a_real A q).
  (** algebra.py:35-38 to_float *)
  Definition xa_to_float (id : nat) : M E Qc :=
    do! n := get_node id in
    match n with TNode x => mlift (to_float x) | INode _ _ _ => merr AssertionError end.

  (** algebra.py:45-46: one variable after the other; domain.py:41-42 get_symbol raises on
      a name that is not in the domain.  The type of the symbol is [rs_type] of its name,
      as in Volume_Model. *)
  Fixpoint xa_integrate_list (d : domain) (vs : list string) (id : nat) : M E nat :=
    match vs with
    | [] => mret id
    | v :: vs =>
        do! _ := mlift (get_symbol d v) in
        do! id := integrate A flat simp solve X strat.2 v id in
        xa_integrate_list d vs id
    end.
  (** algebra.py:45 [variables or domain.variables]: an empty list is false in Python *)
  Definition xa_variables (d : domain) (vs : option (list string)) : list string :=
    match vs with Some (v :: vs) => v :: vs | _ => d_vars d end.
  (** algebra.py:40-47 integrate *)
  Definition xa_integrate (d : domain) (id : nat) (vs : option (list string)) : M E nat :=
    xa_integrate_list d (xa_variables d vs) id.

  (** algebra.py:49-53 zero, one *)
  Definition xa_zero : M E nat := do! p := mget in mret (p_zero p).
  Definition xa_one : M E nat := do! p := mget in mret (p_one p).

  (** algebra.py:57-59, 63-65 with core.py:490-504: the default method of Diagram.reduce
      is "fast_smt" *)
  Definition xa_reduced (id : nat) : M E nat := if strat.1 then reduce simp solve true id else mret id.
  (** algebra.py:55-59 times *)
  Definition xa_times (a b : nat) : M E nat := do! r := apply A flat simp Multiplication a b in xa_reduced r.
  (** algebra.py:61-65 plus *)
  Definition xa_plus (a b : nat) : M E nat := do! r := apply A flat simp Summation a b in xa_reduced r.

  (** algebraic_backend.py:53-54 negate *)
  Definition xa_negate (a : nat) : M E nat := do! m := xa_real (qz (-1)) in xa_times a m.
  (** algebraic_backend.py:62-63: the loop *)
  Fixpoint xa_power_loop (n : nat) (result a : nat) : M E nat :=
    match n with
    | 0 => mret result
    | S n => do! r := xa_times result a in xa_power_loop n r a
    end.
  (** algebraic_backend.py:56-64 power with an int *)
  Definition xa_power (a : nat) (n : Z) : M E nat :=
    if (n <? 0)%Z then merr ValueError
    else do! one := xa_one in xa_power_loop (Z.to_nat n) one a.

  (** algebra.py:67-77 less_than, less_than_equal, greater_than, greater_than_equal *)
  Definition xa_compare (a b : nat) : M E nat := merr NotImplemented.
  (** algebra.py:79-80 parse_condition *)
  Definition xa_parse_condition (c : fm) : M E nat := bool_test simp (mkdec c).
End Xalg.
