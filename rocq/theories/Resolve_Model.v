(** Model of pywmi/engines/pyxadd/resolve.py: integrating (or summing) a variable
    out of a diagram.  Only the default cache_result=True is modelled; the symbolic
    integrator (64-74) is never enabled, exports and logging are left out. *)

From Verif Require Import Base Dict Smt Math_Model Xadd_Model.

(** External functions: integrate_poly of the algebra for one variable with its lower
    and upper bound; [str] of a symbol (pysmt quotes names that are not simple); the
    iteration order of a set of names; the type a name was declared with (pysmt knows
    one type per name). *)
Record resolver (E : Type) := Resolver {
  rs_integ : E -> string -> E -> E -> Res E;
  rs_str : string -> string;
  rs_order : list string -> list string;
  rs_type : string -> ty }.
Arguments Resolver {E}. Arguments rs_integ {E}. Arguments rs_str {E}. Arguments rs_order {E}. Arguments rs_type {E}.

(** resolve.py:20-25: which reductions are made *)
Notation strategy := (bool * bool * bool)%type.
Definition FULL_REDUCE : strategy := (true, true, true).
Definition NO_REDUCE : strategy := (false, false, false).

(** smt_math.py:150-152 LinearInequality.variables *)
Definition li_variables (c : pdict) : list string := remove_dups (concat (map fst c)).

Section Resolve.
  Context {E : Type} `{EqDecision E} (A : alg E) (flat : E -> E) (simp : fm -> fm) (solve : list fm -> fm -> bool)
    (X : resolver E).
  Notation M := (M E).

  (** resolve.py:328-333 operator_to_bound *)
  Definition operator_to_bound (c : pdict) (v : string) : Res fm :=
    let result := fold_left (fun r o =>
        if bool_decide (o = v) then r
        else PlusN [r; TimesN [Sym o TReal; RealC (- li_coefficient c [o])]])
      (rs_order X (li_variables c)) (RealC (li_b c)) in
    if qeq (li_coefficient c [v]) 0 then Err ZeroDivisionError
    else Ok (simp (TimesN [result; RealC (1 / li_coefficient c [v])])).

  (** resolve.py:76-88 concrete_integrate *)
  Definition concrete_integrate (x : E) (v : string) (lb ub : fm) : Res E :=
    let! l := poly_from_smt lb in
    let! u := poly_from_smt ub in
    rs_integ X x v (to_expression A l) (to_expression A u).

  Section Node.
    (** resolve.py:39-42 method: whether reductions are made at all *)
    Context (method : bool).
    (** core.py:490-492: reduce(method="no_reduce") *)
    Definition reduce_with (id : nat) : M nat := if method then reduce simp solve true id else mret id.

    (** The recursive call with an upper and a lower bound *)
    Context (rec : option fm -> option fm -> nat -> M nat).

    (** resolve.py:212-224, 266-278: the consistency test; [None]: the branch is
        infeasible.  [checked] is whether a test that simplified to TRUE is replaced
        by one (in the lower part the test for TRUE is unreachable: 273-274 is nested
        in the case FALSE). *)
    Definition consistency (checked : bool) (other : option fm) (t : fm -> fm) : M (option nat) :=
      do! p := mget in
      match other with
      | None => mret (Some (p_one p))
      | Some o =>
          let t := simp (t o) in
          if bool_decide (t = BoolC false) then mret None
          else if checked && bool_decide (t = BoolC true) then mret (Some (p_one p))
          else do! r := bool_test simp (mkdec t) in mret (Some r)
      end.

    (** resolve.py:226-251, 280-305: with an old bound on this side the tighter of the
        two is used, otherwise the new one.  The results of both recursive calls are
        reduced. *)
    Definition tighter (old : option fm) (t : fm -> fm) (rec_old rec_new : M nat) : M nat :=
      match old with
      | None => rec_new
      | Some o =>
          do! p := mget in
          let t := simp (t o) in
          do! some := if bool_decide (t = BoolC true) then mret (p_zero p) else rec_old in
          do! best := if bool_decide (t = BoolC false) then mret (p_zero p) else rec_new in
          do! best := reduce_with best in
          do! some := reduce_with some in
          internal simp (mkdec t) best some
      end.

    (** resolve.py:211-259: the part below the new bound; the result and its
        consistency test *)
    Definition upper_part (ub lb : option fm) (bound : fm) (branch : nat) : M (nat * nat) :=
      do! c := consistency true lb (fun l => LtN l bound) in
      do! p := mget in
      match c with
      | None => mret (p_zero p, p_zero p)
      | Some c =>
          do! r := tighter ub (fun u => LtN bound u) (rec ub lb branch) (rec (Some bound) lb branch) in
          mret (r, c)
      end.

    (** resolve.py:264-308: the part above the new bound *)
    Definition lower_part (ub lb : option fm) (bound : fm) (branch : nat) : M (nat * nat) :=
      do! c := consistency false ub (fun u => LtN bound u) in
      do! p := mget in
      match c with
      | None => mret (p_zero p, p_zero p)
      | Some c =>
          do! r := tighter lb (fun l => LtN l bound) (rec ub lb branch) (rec ub (Some bound) branch) in
          mret (r, c)
      end.

    (** resolve.py:310-325: both parts together *)
    Definition combine (s : strategy) (lower upper : nat * nat) : M nat :=
      do! l := apply A flat simp Multiplication lower.1 lower.2 in
      do! u := apply A flat simp Multiplication upper.1 upper.2 in
      do! l := if s.1.2 then reduce_with l else mret l in
      do! u := if s.1.2 then reduce_with u else mret u in
      do! r := apply A flat simp Summation l u in
      if s.2 then reduce_with r else mret r.

    (** resolve.py:185-209: a test on the real variable; the bound it sets, the branch
        below the bound and the branch above it *)
    Definition split_at (v : string) (d : decision) (ct cf : nat) : Res (fm * nat * nat) :=
      let! c := dec_inequality d in
      let '(c, below, above) :=
        if qlt 0 (li_coefficient c [rs_str X v]) then (c, ct, cf) else (li_inverted c, cf, ct) in
      let! b := operator_to_bound c v in
      Ok (b, below, above).
  End Node.

  Definition method_of (s : strategy) : bool := negb (bool_decide (s = NO_REDUCE)).

  (** resolve.py:120-123 add_to_cache *)
  Definition add_to_cache (key : rkey) (r : nat) : M nat := fun p => (set_resolved p key r, Ok r).

  (** resolve.py:125-326 resolve_lb_ub *)
  Fixpoint resolve_fuel (n : nat) (s : strategy) (v : string) (ub lb : option fm) (id : nat) : M nat :=
    match n with
    | 0 => merr OutOfFuel
    | S n => fun p =>
        let key : rkey := (v, id, ub, lb) in
        match dget (p_resolved p) key with
        | Some r => (p, Ok r)
        | None =>
            (do! nd := get_node id in
             match nd with
             | TNode x =>
                 if bool_decide (id = p_zero p) then mret (p_zero p)
                 else if bool_decide (rs_type X v = TBool) then terminal (alg_times A (a_real A (qz 2)) x)
                 else match ub, lb with
                      | Some ub, Some lb =>
                          do! y := mlift (concrete_integrate x v lb ub) in
                          do! r := terminal y in
                          add_to_cache key r
                      | _, _ => add_to_cache key (p_zero p)
                      end
             | INode d ct cf =>
                 if bool_decide ((v, rs_type X v) ∈ free_vars (d_test d)) then
                   if bool_decide (rs_type X v = TBool) then apply A flat simp Summation ct cf
                   else
                     do! (bound, below, above) := mlift (split_at v d ct cf) in
                     do! upper := upper_part (method_of s) (resolve_fuel n s v) ub lb bound below in
                     do! lower := lower_part (method_of s) (resolve_fuel n s v) ub lb bound above in
                     do! r := combine (method_of s) s lower upper in
                     add_to_cache key r
                 else
                   do! t := resolve_fuel n s v ub lb ct in
                   do! f := resolve_fuel n s v ub lb cf in
                   do! r := internal simp d t f in
                   add_to_cache key r
             end) p
        end
    end.
  (** ResolveIntegrator(pool, reduce_strategy=s).resolve_lb_ub(id, v, ub, lb) *)
  Definition resolve (s : strategy) (v : string) (ub lb : option fm) (id : nat) : M nat :=
    resolve_fuel (S id) s v ub lb id.

  (** resolve.py:90-118 ResolveIntegrator(pool, reduce_strategy=s).integrate(id, v) *)
  Definition integrate (s : strategy) (v : string) (id : nat) : M nat :=
    do! id := if s.1.1 then reduce_with (method_of s) id else mret id in
    do! r := resolve s v None None id in
    if s.1.1 && s.1.2 && s.2 then reduce_with (method_of s) r else mret r.
End Resolve.
