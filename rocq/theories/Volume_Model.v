(** Model of PyXaddEngine.compute_volume: pywmi/engines/pyxadd/engine.py 145-158. *)

From Verif Require Import Base Dict Smt Math_Model Domain_Model Xadd_Model Resolve_Model Toxadd_Model.

Section Volume.
  Context {E : Type} `{EqDecision E} (A : alg E) (flat : E -> E) (is_one is_zero : E -> Res bool)
    (simp : fm -> fm) (solve : list fm -> fm -> bool) (X : resolver E).
  (** [fl]: Python's float() on the bounds; [to_float]: the algebra's to_float
      (algebraic_backend.py 83, 141, 170, 284), which fails on expressions that are
      not numbers. *)
  Context (fl : Qc -> Qc) (to_float : E -> Res Qc).

  (** engine.py:146-148; [support & bounds] *)
  Definition volume_support (add_bounds : bool) (d : domain) (support : fm) : Res fm :=
    if add_bounds then let! bounds := get_bounds fl d in chk (mkAnd [support; bounds]) else Ok support.

  (** engine.py:154-155; the type of the symbol is [rs_type] of its name *)
  Fixpoint integrate_all (s : strategy) (vs : list string) (id : nat) : M E nat :=
    match vs with
    | [] => mret id
    | v :: vs => do! id := integrate A flat simp solve X s v id in integrate_all s vs id
    end.

  (** resolve.py:43: the strategy; resolve.py:37 reduce_strategy=None means all *)
  Definition strategy_of (s : option strategy) : strategy := match s with Some s => s | None => FULL_REDUCE end.

  (** engine.py:145-158 PyXaddEngine.compute_volume.  domain.py:43-45 get_symbols looks
      up the type of every variable. *)
  Definition compute_volume (s : option strategy) (add_bounds : bool) (d : domain) (support weight : fm) : M E Qc :=
    do! support := mlift (volume_support add_bounds d support) in
    do! theory := translate A flat is_one is_zero simp true support in
    do! weight := translate A flat is_one is_zero simp false weight in
    do! t := as_node theory in
    do! w := as_node weight in
    do! combined := apply A flat simp Multiplication t w in
    do! symbols := mlift (rmapM (get_symbol d) (d_vars d)) in
    do! result := integrate_all (strategy_of s) (d_vars d) combined in
    do! p := mget in
    match dget (p_nodes p) result with
    | None => merr RuntimeErr                 (* core.py:217-227 get_node *)
    | Some (INode _ _ _) => merr AssertionError
    | Some (TNode x) => mlift (to_float x)
    end.
End Volume.
