(** Model of pywmi/engines/xsdd/engine.py: conflict search and the volume computed by
    XsddEngine. *)

From Verif Require Import Base Dict Smt Walk_Model Math_Model Engine_Model Domain_Model Lit_Model Sdd_Model Piecewise_Model.

(** smt_math.py:404-418 implies: [unsat] is the answer of the SMT solver. *)
Definition implies (unsat : fm -> bool) (term1 term2 : fm) : bool := unsat (AndN [term1; mkNot term2]).

(** Equality of the sets returned by get_free_variables. *)
Definition same_vars (a b : fm) : bool :=
  forallb (fun x => bool_decide (x ∈ syms b)) (syms a) && forallb (fun x => bool_decide (x ∈ syms a)) (syms b).

(** engine.py:173-189: the implications added for one pair. *)
Definition pair_conflicts (unsat : fm -> bool) (p q : fm) : list fm :=
  if same_vars p q then
    (if implies unsat p q then [ImpN p q] else []) ++
    (if implies unsat (mkNot p) q then [ImpN (mkNot p) q] else []) ++
    (if implies unsat q p then [ImpN q p] else []) ++
    (if implies unsat (mkNot q) p then [ImpN (mkNot q) p] else [])
  else [].

(** engine.py:172-173: all pairs i < j. *)
Fixpoint all_conflicts (unsat : fm -> bool) (l : list fm) : list fm :=
  match l with
  | [] => []
  | p :: l => flat_map (pair_conflicts unsat p) l ++ all_conflicts unsat l
  end.

(** engine.py:166-190 collect_conflicts.  The order of [list] of a set is not
    specified; the union is listed support first. *)
Definition collect_conflicts (unsat : fm -> bool) (support weight : fm) : Res (list fm) :=
  let! a := bounds_of true support in
  let! b := bounds_of true weight in
  Ok (all_conflicts unsat (set_union a b)).

(** engine.py:208-211: the base support. *)
Definition base_support (unsat : fm -> bool) (find_conflicts : bool) (support weight : fm) : Res fm :=
  if find_conflicts then
    let! cs := collect_conflicts unsat support weight in Ok (AndN [mkAnd cs; support])
  else Ok support.

Section xsdd.
  (** The parameters are the algebra, the manager that is made from the vtree for a
      literal table (engine.py:239-243), pysmt's simplifier, the solver, the
      algebra's [integrate] (for the domain and its real variables) and [to_float],
      and the boolean variables of the domain. *)
  Context {E : Type} (A : alg E) (mgr : linfo -> manager) (simplify : fm -> fm) (unsat : fm -> bool)
    (integrate : E -> Res E) (to_float : E -> Res Qc) (bools : list string).

  (** engine.py:329-353: one piece, without convex backend ([w_support &
      base_support]; debugging output left out). *)
  Definition piece_volume (base : fm) (kc : pkey * fm) : Res E :=
    let! (logic_support, literals) := extract_literals (AndN [kc.2; base]) in
    let! support_sdd := compile_to_sdd (mgr literals) logic_support literals in
    let! (expression, variables) := amc (nonconvex_semiring A literals) support_sdd in
    let! w := key_to_expression A kc.1 in
    let! vol := integrate (alg_times A expression w) in
    let! bool_worlds := alg_power A (a_real A (qz 2))
      (qz (Z.of_nat (length bools) - Z.of_nat (length variables))) in
    Ok (alg_times A vol bool_worlds).

  (** engine.py:322-368 compute_volume_from_pieces without convex backend *)
  Definition volume_from_pieces (base : fm) (pieces : list (pkey * fm)) : Res E :=
    fold_left (fun r kc =>
      let! volume := r in
      let! vol := piece_volume base kc in
      Ok (alg_plus A volume vol)) pieces (Ok (alg_zero A)).

  (** engine.py:192-234 compute_volume(False).  Registering tests with a PyXADD pool
      (lines 222-230) is left out: it only fixes an order. *)
  Definition compute_volume (find_conflicts strict : bool) (support weight : fm) : Res Qc :=
    let! base := base_support unsat find_conflicts support weight in
    let! pieces := split_weight simplify strict weight in
    let! volume := volume_from_pieces base pieces in
    to_float volume.

  (** engine.py:197-198 compute_volume(True) *)
  Definition compute_volume_bounds (find_conflicts strict : bool) (fl : Qc -> Qc) (dom : domain) (support weight : fm) : Res Qc :=
    let! bounds := get_bounds fl dom in
    compute_volume find_conflicts strict (with_constraint support bounds) weight.

  (** engine.py:370-382 integrate_convex; [backend] is the convex integrator for the
      domain restricted to the real variables. *)
  Context (backend : list pdict -> pdict -> Res Qc).
  Definition integrate_convex (convex_support polynomial_weight : fm) : Res Qc :=
    match (let! ineqs := get_inequalities convex_support in
           let! p := poly_from_smt polynomial_weight in
           backend ineqs p) with
    | Err ZeroDivisionError => Ok 0%Qc
    | r => r
    end.

  (** smt_math.py:87-96 to_smt, on a key *)
  Definition key_to_smt (k : pkey) : Res fm :=
    match k with KPoly p => poly_to_smt p | KNum _ => Err AttributeError end.

  (** [2 ** n] for an integer *)
  Definition pow2 (n : Z) : Qc := if (n <? 0)%Z then (/ qpow (qz 2) (Z.to_nat (- n)))%Qc else qpow (qz 2) (Z.to_nat n).

  (** engine.py:354-367: one piece, with convex backend *)
  Definition piece_convex (base : fm) (kc : pkey * fm) (volume : E) : Res E :=
    let! (logic_support, literals) := extract_literals (AndN [kc.2; base]) in
    let! support_sdd := compile_to_sdd (mgr literals) logic_support literals in
    let! regions := amc (convex_semiring literals) support_sdd in
    fold_left (fun r (region : fm * list string) =>
      let! volume := r in
      let missing := (Z.of_nat (length bools) - Z.of_nat (length region.2))%Z in
      let! w := key_to_smt kc.1 in
      let! vol := integrate_convex region.1 w in
      Ok (alg_plus A volume (a_real A (vol * pow2 missing)%Qc))) regions (Ok volume).

  Definition volume_convex (base : fm) (pieces : list (pkey * fm)) : Res E :=
    fold_left (fun r kc => let! volume := r in piece_convex base kc volume) pieces (Ok (alg_zero A)).

  (** engine.py:192-234 with a convex backend *)
  Definition compute_volume_convex (find_conflicts strict : bool) (support weight : fm) : Res Qc :=
    let! base := base_support unsat find_conflicts support weight in
    let! pieces := split_weight simplify strict weight in
    let! volume := volume_convex base pieces in
    to_float volume.
End xsdd.
