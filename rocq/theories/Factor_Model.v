(** Model of pywmi/engines/xsdd/engine_factorized.py: splitting a polynomial into
    groups of variables, and integrating over a decision diagram group by group. *)

From Verif Require Import Base Dict Smt Walk_Model Math_Model Lit_Model Sdd_Model Piecewise_Model Multimap_Model Resolve_Model Xsdd_Model.

(** smt_math.py:23-30 Polynomial.variables (a set) *)
Definition poly_variables (p : pdict) : list string := remove_dups (concat (map fst p)).

(** A group: its variables (a set) and its factor. *)
Notation group := (list string * pdict)%type.

(** engine_factorized.py:378, 381, 384: [result[k] *= q] on the defaultdict whose
    missing entries are the constant one *)
Definition group_mul (result : list group) (k : list string) (q : pdict) : Res (list group) :=
  let! r := poly_mul (default (poly_const 1) (dget result k)) q in Ok (dset result k r).

(** engine_factorized.py:370-386: the recursive call with [real_vars = []] *)
Definition poly_groups (weight : pdict) : Res (list group) :=
  match weight with
  | [] => Ok [([], poly_const 0)]
  | [(name, value)] =>
      let! result := fold_left (fun r v =>
        let! result := r in
        let! x := poly_from_smt (Sym v TReal) in
        group_mul result [v] x) name (Ok []) in
      group_mul result [] (poly_const value)
  | _ => Ok [(poly_variables weight, weight)]
  end.

(** engine_factorized.py:357-388 get_variable_groups_poly *)
Definition get_variable_groups_poly (weight : pdict) (real_vars : list string) : Res (list group) :=
  let! rest := poly_groups weight in
  Ok (map (fun v => ([v], poly_const 1)) (filter (fun v => v ∉ poly_variables weight) real_vars) ++ rest).

(** * Sets of group numbers, as duplicate-free lists *)
Definition tuni (a b : list nat) : list nat := a ++ filter (fun x => x ∉ a) b.
Definition tinter (a b : list nat) : list nat := filter (fun x => x ∈ b) a.
Definition tdiff (a b : list nat) : list nat := filter (fun x => x ∉ b) a.

(** engine_factorized.py:29-64 VariableTagAnalysis *)
Definition tag_analysis (literal_to_groups : list (Z * list nat)) : sddwalker (bool * list nat) := {|
  k_true _ := Ok (true, []);
  k_false _ := Ok (false, []);
  k_and p s _ _ := let feasible := p.1 && s.1 in Ok (feasible, if feasible then tuni p.2 s.2 else []);
  k_or l _ :=
    let feasible := existsb fst l in
    Ok (feasible, if feasible then fold_left (fun groups r => tuni groups r.2) l [] else []);
  k_lit z _ := Ok (true, remove_dups (default [] (dget literal_to_groups z))) |}.

(** node_to_groups: the entries for nodes (those for elements, line 48, are never
    read). *)
Definition node_groups (literal_to_groups : list (Z * list nat)) (node : sdd) : Res (list (sdd * list nat)) :=
  let! (_, cache) := walk_sdd_cache (tag_analysis literal_to_groups) node in
  Ok (map (fun kv : sdd * (bool * list nat) => (kv.1, kv.2.2)) cache).

(** SddNode.is_false *)
Definition is_false_node (n : sdd) : bool := match n with SFalse => true | _ => false end.

(** [d[k]] *)
Definition dlookup {K V} `{EqDecision K} (d : list (K * V)) (k : K) : Res V :=
  match dget d k with Some v => Ok v | None => Err KeyError end.

(** list.index *)
Definition list_index {A} `{EqDecision A} (l : list A) (x : A) : Res nat :=
  match list_find (fun y => y = x) l with Some (k, _) => Ok k | None => Err ValueError end.

Section integrator.
  (** The parameters are the algebra with [parse_condition] and [integrate] (for the
      domain), the order in which a set of group numbers is iterated, the literal
      table, the labels, the groups, node_to_groups and the order of the groups
      ([None] if not ordered). *)
  Context {E : Type} (A : alg E) (parse_condition : fm -> Res E) (integrate : list string -> E -> Res E)
    (iter : list nat -> list nat) (i : linfo) (labels : list (string * (fm * fm))) (groups : list group)
    (node_to_groups : list (sdd * list nat)) (order : option (list nat)).

  (** engine_factorized.py:187-199 FactorizedIntegrator.integrate *)
  Definition integrate_groups (expr : E) (tags : list nat) : Res E :=
    fold_left (fun r g =>
      let! result := r in
      match groups !! g with
      | Some (variables, poly) => integrate variables (alg_times A result (to_expression A poly))
      | None => Err KeyError
      end) tags (Ok expr).

  (** engine_factorized.py:164-185 walk_literal *)
  Definition walk_literal (literal : Z) : Res (E * list string) :=
    let! m := lit_meaning i literal in
    match m with
    | MBool x =>
        match dget labels x with
        | Some label =>
            let! p := poly_from_smt (if (0 <? literal)%Z then label.1 else label.2) in
            Ok (to_expression A p, if bool_decide (is_Some (dget (booleans i) x)) then [x] else [])
        | None => Ok (alg_one A, [x])
        end
    | MTest f =>
        let! x := parse_condition (if (literal <? 0)%Z then mkNot f else f) in
        Ok (x, [])
    end.

  (** engine_factorized.py:145-147: the shared tags, extended by everything from the
      first of them on *)
  Definition extend_shared (tags shared : list nat) : Res (list nat) :=
    match order with
    | Some ((_ :: _) as o) =>
        match shared with
        | [] => Ok shared
        | _ =>
            let! idx := rmapM (list_index o) shared in
            match idx with
            | [] => Ok shared
            | k :: ks => Ok (tuni shared (tinter tags (drop (fold_left Nat.min ks k) o)))
            end
        end
    | _ => Ok shared
    end.

  (** engine_factorized.py:156-159: the order of integration *)
  Definition shared_order (shared : list nat) : list nat :=
    match order with
    | Some ((_ :: _) as o) => filter (fun g => g ∈ shared) o
    | _ => iter shared
    end.

  (** Equal sets of group numbers are equal keys: the numbers in increasing order. *)
  Definition frozen (tags : list nat) : list nat := filter (fun g => g ∈ tags) (seq 0 (length groups)).
  Notation cache := (list (sdd * list nat * (E * list string))).

  (** engine_factorized.py:89-120 recursive and 138-162 walk_and; plus (122-136) is the
      addition of NonConvexWMISemiring. *)
  Fixpoint recursive (node : sdd) (tags : list nat) (c : cache) {struct node} : Res (E * list string * cache) :=
    let key := (node, frozen tags) in
    match dget c key with
    | Some r => Ok (r, c)
    | None =>
        match node with
        | SFalse => let r := (alg_zero A, []) in Ok (r, dset c key r)
        | STrue => let r := (alg_one A, []) in Ok (r, dset c key r)
        | SLit z =>
            let! (expression, variables) := walk_literal z in
            let! x := integrate_groups expression (iter tags) in
            Ok ((x, variables), dset c key (x, variables))
        | SDec els =>
            let! (r, c1) :=
              (fix go (els : list (sdd * sdd)) (acc : E * list string) (c : cache) : Res (E * list string * cache) :=
                match els with
                | [] => Ok (acc, c)
                | (prime, sub) :: els =>
                    let! (wa, c1) :=
                      (if is_false_node prime || is_false_node sub then Ok ((alg_zero A, []), c)
                       else
                         let! gp := dlookup node_to_groups prime in
                         let! gs := dlookup node_to_groups sub in
                         let tags_prime := tinter gp tags in
                         let tags_sub := tinter gs tags in
                         let! shared := extend_shared tags (tinter tags_prime tags_sub) in
                         let! (rp, c1) := recursive prime (tdiff tags_prime shared) c in
                         let! (rs, c2) := recursive sub (tdiff tags_sub shared) c1 in
                         let! x := integrate_groups (alg_times A rp.1 rs.1) (shared_order shared) in
                         Ok ((x, uni rp.2 rs.2), c2)) in
                    let! acc' := nonconvex_plus A acc wa in
                    go els acc' c1
                end) els (alg_zero A, []) c in
            Ok (r, dset c1 key r)
        end
    end.

  (** engine_factorized.py:89-94: the call from outside *)
  Definition factorized_integral (node : sdd) : Res (E * list string) :=
    let! tags := dlookup node_to_groups node in
    let! (r, _) := recursive node tags [] in Ok r.
End integrator.

(** * One term of the weight *)

(** engine_factorized.py:291-297 get_group *)
Fixpoint get_group (groups : list group) (v : string) : Res nat :=
  match groups with
  | [] => Err ValueError
  | (vs, _) :: groups =>
      if bool_decide (v ∈ vs) then Ok 0 else let! k := get_group groups v in Ok (S k)
  end.

(** engine_factorized.py:299-318 literal_to_groups *)
Definition test_groups (groups : list group) (i : linfo) : Res (list (Z * list nat)) :=
  fold_left (fun r (kv : fm * string) =>
    let! d := r in
    let! n := dlookup (numbered i) kv.2 in
    let! c := li_from_smt kv.1 in
    let! gs := rmapM (get_group groups) (li_variables c) in
    Ok (dset (dset d (Z.of_nat n) gs) (- Z.of_nat n)%Z gs)) (abstractions i) (Ok []).
Definition literal_groups (groups : list group) (i : linfo) (labels : list (string * (fm * fm))) : Res (list (Z * list nat)) :=
  let! d := test_groups groups i in
  fold_left (fun r (kv : string * (fm * fm)) =>
    let! d := r in
    let! lit := dlookup (booleans i) kv.1 in
    let! n := dlookup (numbered i) lit in
    let! gt := rmapM (get_group groups) (map fst (syms kv.2.1)) in
    let! gf := rmapM (get_group groups) (map fst (syms kv.2.2)) in
    Ok (dset (dset d (Z.of_nat n) gt) (- Z.of_nat n)%Z gf)) labels (Ok d).

(** sorted(..., key=...), which is stable *)
Fixpoint insert_by {A} (x : Z * A) (l : list (Z * A)) : list (Z * A) :=
  match l with
  | [] => [x]
  | y :: l' => if (x.1 <=? y.1)%Z then x :: l else y :: insert_by x l'
  end.
Definition sort_by {A} (l : list (Z * A)) : list A := map snd (fold_right insert_by [] l).

(** engine_factorized.py:272-284 group_order *)
Definition group_order (groups : list group) (real_vars : list string) : Res (list nat) :=
  let! keys := rmapM (fun g : group =>
    let! idx := rmapM (list_index real_vars) g.1 in
    Ok (fold_left (fun m k => Z.max m (Z.of_nat k)) idx (-1)%Z)) groups in
  Ok (sort_by (zip keys (seq 0 (length groups)))).

Section factorized.
  Context {E : Type} (A : alg E) (parse_condition : fm -> Res E) (integrate : list string -> E -> Res E)
    (iter : list nat -> list nat) (iter_fm : list fm -> list fm) (mgr : linfo -> manager) (simplify : fm -> fm) (unsat : fm -> bool)
    (to_float : E -> Res Qc) (bools reals : list string) (ordered : bool).

  (** engine_factorized.py:268-355 compute_volume_for_piece *)
  Definition piece_factorized (term : pdict) (i : linfo) (labels : list (string * (fm * fm))) (node : sdd) : Res E :=
    let! groups := get_variable_groups_poly term reals in
    let! order := (if ordered then let! o := group_order groups reals in Ok (Some o) else Ok None) in
    let! l2g := literal_groups groups i labels in
    let! n2g := node_groups l2g node in
    let! (expression, variables) :=
      factorized_integral A parse_condition integrate iter i labels groups n2g order node in
    let! bool_worlds := alg_power A (a_real A (qz 2))
      (qz (Z.of_nat (length bools) - Z.of_nat (length variables))) in
    let result := alg_times A expression bool_worlds in
    let! constant := match List.filter (fun g : group => bool_decide (g.1 = [])) groups with
      | [g] => Ok (to_expression A g.2)
      | [] => Ok (alg_one A)
      | _ => Err ValueError
      end in
    Ok (alg_times A constant result).

  (** engine_factorized.py:233-240: the supports of every term.  Polynomials with one
      term are equal if they are the same. *)
  Definition term_supports (pieces : list (pkey * fm)) : Res (multimap pdict fm) :=
    fold_left (fun r (kc : pkey * fm) =>
      let! m := r in
      match kc.1 with
      | KNum _ => Err AttributeError
      | KPoly p => Ok (fold_left (fun m t => mm_add m [t] kc.2) p m)
      end) pieces (Ok []).

  (** engine_factorized.py:249-266: one term *)
  Definition term_volume (base : fm) (labels : list (string * (fm * fm))) (ts : pdict * list fm) : Res E :=
    let support := AndN [mkOr (iter_fm ts.2); base] in
    let! (logic_support, literals) := extract_literals support in
    let! support_sdd := compile_to_sdd (mgr literals) logic_support literals in
    piece_factorized ts.1 literals labels support_sdd.

  (** engine_factorized.py:230-266 compute_volume_from_pieces *)
  Definition volume_from_terms (base : fm) (labels : list (string * (fm * fm))) (pieces : list (pkey * fm)) : Res E :=
    let! terms := term_supports pieces in
    fold_left (fun r ts =>
      let! volume := r in
      let! sub := term_volume base labels ts in
      Ok (alg_plus A volume sub)) terms (Ok (alg_zero A)).

  (** engine.py:195-234 compute_volume(False), with get_labels_and_weight of
      engine_factorized.py:227-228 *)
  Definition compute_volume_factorized (find_conflicts strict : bool) (support weight : fm) : Res Qc :=
    let! base := base_support unsat find_conflicts support weight in
    let! (labels, w) := extract_labels_and_weight weight in
    let! pieces := split_weight simplify strict w in
    let! volume := volume_from_terms base labels pieces in
    to_float volume.
End factorized.
