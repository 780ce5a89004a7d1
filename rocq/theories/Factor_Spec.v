(** Vocabulary for C37. *)

From Verif Require Import Base Dict Smt Math_Spec Lit_Model Lit_Spec Engine_Spec Sdd_Model Sdd_Spec Piecewise_Model.

(** * Variable groups *)

(** [groups] (sets of variables with a polynomial each) is a factorization of the
    polynomial [p] over the variables [reals]: no variable is in two groups, every
    variable is in a group, a factor mentions only the variables of its group, and
    the product of the factors has the values of [p]. *)
Record factorization (reals : list string) (p : list (list string * Qc))
  (groups : list (list string * list (list string * Qc))) : Prop := {
  fz_disjoint : forall i j g h v, groups !! i = Some g -> groups !! j = Some h -> i <> j -> v ∈ g.1 -> v ∉ h.1;
  fz_cover : forall v, v ∈ reals -> exists g, g ∈ groups /\ v ∈ g.1;
  fz_only : forall g v, g ∈ groups -> v ∈ g.1 -> v ∈ reals;
  fz_set : forall g, g ∈ groups -> NoDup g.1;
  fz_factor : forall g k q v, g ∈ groups -> (k, q) ∈ g.2 -> v ∈ k -> v ∈ g.1;
  fz_product : forall e, qprod (map (fun g => poly_val e g.2) groups) = poly_val e p;
  fz_constant : forall i j g h, groups !! i = Some g -> groups !! j = Some h -> g.1 = [] -> h.1 = [] -> i = j }.

(** * Integration one variable at a time *)

Notation rfn := ((string -> Qc) -> Qc).

(** The value does not depend on [v]. *)
Definition free_of (v : string) (f : rfn) : Prop :=
  forall r r', (forall x, x <> v -> r x = r' x) -> f r = f r'.
(** The function is zero outside a bounded range of [v]. *)
Definition within (v : string) (f : rfn) : Prop :=
  exists lo hi, forall r, f r <> 0%Qc -> (lo <= r v)%Qc /\ (r v <= hi)%Qc.

(** The truth of a formula as a number. *)
Definition truth (e : env) (f : fm) : Qc := if bool_decide (eval e f = Some (VB true)) then 1%Qc else 0%Qc.

(** What is used of integration.  [fine] are the functions considered (piecewise
    polynomials, say), [ae] is equality almost everywhere, [J v f] is the integral of
    [f] over [v], as a function of the other variables.  The points that are not
    generic do not matter; integration of functions that vanish outside a bounded
    range is local (the value at [r] depends only on the values of [f] on the line
    through [r] in direction [v]), additive, takes factors that do not depend on the
    variable out, and the order of two variables does not matter. *)
Record integration (generic : (string -> Qc) -> Prop) (fine : rfn -> Prop) (ae : rfn -> rfn -> Prop)
  (J : string -> rfn -> rfn) : Prop := {
  ig_refl : forall f, ae f f;
  ig_sym : forall f g, ae f g -> ae g f;
  ig_trans : forall f g h, ae f g -> ae g h -> ae f h;
  ig_null : forall f g, (forall r, generic r -> f r = g r) -> ae f g;
  ig_plus : forall f f' g g', ae f f' -> ae g g' -> ae (fun r => f r + g r)%Qc (fun r => f' r + g' r)%Qc;
  ig_times : forall f f' g g', ae f f' -> ae g g' -> ae (fun r => f r * g r)%Qc (fun r => f' r * g' r)%Qc;
  ig_number : forall a b, ae (fun _ => a) (fun _ => b) -> a = b;
  fi_point : forall f r r', fine f -> (forall x, r x = r' x) -> f r = f r';
  fi_same : forall f g, (forall r, f r = g r) -> fine f -> fine g;
  fi_number : forall a, fine (fun _ => a);
  fi_variable : forall x, fine (fun r => r x);
  fi_test : forall c a b w, compares c a b -> linear_expr a -> linear_expr b -> fine (fun r => truth (Env w r) c);
  fi_plus : forall f g, fine f -> fine g -> fine (fun r => f r + g r)%Qc;
  fi_times : forall f g, fine f -> fine g -> fine (fun r => f r * g r)%Qc;
  fi_integral : forall v f, fine f -> within v f -> fine (J v f);
  in_ae : forall v f g, fine f -> fine g -> within v f -> within v g -> ae f g -> ae (J v f) (J v g);
  in_local : forall v f g r r', (forall q q', (forall x, x <> v -> q x = r x) -> (forall x, x <> v -> q' x = r' x) ->
      q v = q' v -> f q = g q') -> J v f r = J v g r';
  in_zero : forall v r, J v (fun _ => 0%Qc) r = 0%Qc;
  in_plus : forall v f g, fine f -> fine g -> within v f -> within v g ->
    ae (J v (fun r => f r + g r)%Qc) (fun r => J v f r + J v g r)%Qc;
  in_factor : forall v f g, fine f -> fine g -> within v g -> free_of v f ->
    ae (J v (fun r => f r * g r)%Qc) (fun r => f r * J v g r)%Qc;
  in_swap : forall u v f, fine f -> within u f -> within v f -> ae (J u (J v f)) (J v (J u f)) }.

(** The joint integral over a list of variables. *)
Definition joint (J : string -> rfn -> rfn) (vs : list string) (f : rfn) : rfn := fold_right J f vs.

(** The expression [x] stands for the function [f]. *)
Definition shows {E : Type} (den : E -> env -> option Qc) (fine : rfn -> Prop) (ae : rfn -> rfn -> Prop) (f : rfn) (x : E) : Prop :=
  fine f /\ exists h, (forall e, den x e = Some (h (er e))) /\ ae h f.

(** What is assumed of the algebra: [integrate] integrates over a non-empty set of
    variables (of an empty one nothing is assumed: the algebras of pywmi read it as
    "all variables", see C69_empty_means_all_refuted),
    [parse_condition] gives the indicator function of a linear inequality (except on
    its boundary), [to_float] reads off a number. *)
Definition integrates {E : Type} (den : E -> env -> option Qc) (fine : rfn -> Prop) (ae : rfn -> rfn -> Prop)
  (J : string -> rfn -> rfn) (integrate : list string -> E -> Res E) : Prop :=
  forall vs f x, vs <> [] -> NoDup vs -> Forall (fun v => within v f) vs -> shows den fine ae f x ->
    exists y, integrate vs x = Ok y /\ shows den fine ae (joint J vs f) y.
Definition parses {E : Type} (den : E -> env -> option Qc) (parse_condition : fm -> Res E) : Prop :=
  forall c a b, compares c a b -> linear_expr a -> linear_expr b ->
    exists x h, parse_condition c = Ok x /\ (forall e, den x e = Some (h (er e))) /\
      forall e, off e a b -> h (er e) = truth e c.
Definition reads {E : Type} (den : E -> env -> option Qc) (fine : rfn -> Prop) (ae : rfn -> rfn -> Prop)
  (to_float : E -> Res Qc) : Prop :=
  forall x a, shows den fine ae (fun _ => a) x -> to_float x = Ok a.

(** * Diagrams *)

(** Every node but the false one is satisfiable (so it is in the diagrams of PySDD). *)
Inductive trimmed : sdd -> Prop :=
| tr_true : trimmed STrue
| tr_false : trimmed SFalse
| tr_lit z : trimmed (SLit z)
| tr_dec els : Forall (fun ps : sdd * sdd => trimmed ps.1 /\ trimmed ps.2) els ->
    (exists w, sat w (SDec els) = true) -> trimmed (SDec els).

(** The booleans of the elements that are not false. *)
Fixpoint live_names (i : linfo) (n : sdd) : list string :=
  match n with
  | STrue | SFalse => []
  | SLit z => match number_to_val i z with Ok (MBool x) => [x] | _ => [] end
  | SDec els => concat (map (fun ps : sdd * sdd =>
      match ps with
      | (SFalse, _) | (_, SFalse) => []
      | (p, s) => live_names i p ++ live_names i s
      end) els)
  end.

(** At every decision node, taking the elements from left to right: if an element
    mentions as many booleans as the elements before it together, it mentions the
    same ones. *)
Inductive live_aligned (i : linfo) : sdd -> Prop :=
| la_true : live_aligned i STrue
| la_false : live_aligned i SFalse
| la_lit z : live_aligned i (SLit z)
| la_dec els :
    Forall (fun ps : sdd * sdd => live_aligned i ps.1 /\ live_aligned i ps.2) els ->
    (forall before p s after, els = before ++ (p, s) :: after ->
       length (remove_dups (live_names i (SDec before))) = length (remove_dups (live_names i (SDec [(p, s)]))) ->
       same_set (live_names i (SDec before)) (live_names i (SDec [(p, s)]))) ->
    live_aligned i (SDec els).

(** * Bounded supports *)

(** [c] is one of the formulas whose conjunction [f] is. *)
Inductive conjunct (c : fm) : fm -> Prop :=
| cj_here : conjunct c c
| cj_and l f : f ∈ l -> conjunct c f -> conjunct c (AndN l).

Inductive lower_bound (v : string) : fm -> Prop :=
| lb_le q : lower_bound v (LeN (RealC q) (Sym v TReal))
| lb_lt q : lower_bound v (LtN (RealC q) (Sym v TReal)).
Inductive upper_bound (v : string) : fm -> Prop :=
| ub_le q : upper_bound v (LeN (Sym v TReal) (RealC q))
| ub_lt q : upper_bound v (LtN (Sym v TReal) (RealC q)).

(** The support bounds the variable from both sides. *)
Definition bounded_in (s : fm) (v : string) : Prop :=
  exists l u, lower_bound v l /\ upper_bound v u /\ conjunct l s /\ conjunct u s.

(** * The pieces of a weight *)

Definition has_term (t : list string * Qc) (k : pkey) : Prop := match k with KPoly q => t ∈ q | KNum _ => False end.
(** Two pieces that share a term are never active together. *)
Definition exclusive_terms (pieces : list (pkey * fm)) : Prop :=
  forall before k c after k' c' t e, pieces = before ++ (k, c) :: after -> (k', c') ∈ after ->
    has_term t k -> has_term t k' -> eval e c = Some (VB true) -> eval e c' = Some (VB true) -> False.

(** Compiling formulas over [bools] gives diagrams none of whose nodes adds two parts
    with equally many but different booleans. *)
Definition live_compilation (mgr : linfo -> manager) (bools : list string) : Prop :=
  forall f g i node, logic_formula f -> (forall x, (x, TBool) ∈ syms f -> x ∈ bools) ->
    extract_literals f = Ok (g, i) -> compile_to_sdd (mgr i) g i = Ok node -> live_aligned i node.

(** The simplifier introduces no variables. *)
Definition keeps_variables (simplify : fm -> fm) : Prop :=
  forall f x t, (x, t) ∈ syms (simplify f) -> (x, t) ∈ syms f.
