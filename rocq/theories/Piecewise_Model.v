(** Model of pywmi/engines/xsdd/piecewise.py.

    A PiecewiseFunction is a dictionary from expressions to supports (formulas), in
    insertion order; keys are compared with [==] ([a_eq]).  The class is modelled for
    an arbitrary algebra; [two] is the Python number 2, which line 86-93 pass to the
    algebra.  pysmt's simplifier is the parameter [simplify].

    [strict] is not in the code: with [strict = true] the functions stop with
    RuntimeErr at exactly the two places where pieces can be lost (see [addpiece] and
    [pw_neg]); the code is [strict = false]. *)

From Verif Require Import Base Dict Smt Walk_Model Math_Model.

Section piecewise.
  Context {E : Type} (A : alg E) (two : E) (simplify : fm -> fm) (strict : bool).
  Implicit Types (p q : list (E * fm)).

  (** Dictionary operations on [pieces]. *)
  Definition kget p (e : E) : option fm := snd <$> List.find (fun kc => a_eq A kc.1 e) p.
  Definition kpop p (e : E) : list (E * fm) := List.filter (fun kc => negb (a_eq A kc.1 e)) p.
  Definition kset p (e : E) (c : fm) : list (E * fm) :=
    match kget p e with
    | Some _ => map (fun kc => if a_eq A kc.1 e then (kc.1, c) else kc) p
    | None => p ++ [(e, c)]
    end.
  Definition kmem p (e : E) : bool := match kget p e with Some _ => true | None => false end.

  (** FNode.is_false *)
  Definition is_false (c : fm) : bool := match c with BoolC false => true | _ => false end.

  (** piecewise.py:73-97 _addpiece2pieces.  [strict]: the expression and its double
      are both present (line 86 would drop the double, line 88 would fail). *)
  Definition addpiece p (e : E) (c : fm) : Res (list (E * fm)) :=
    if is_false c then Ok p
    else match kget p e with
    | Some old_c =>
        let new_c1 := simplify (mkAnd [mkOr [old_c; c]; mkNot (mkAnd [old_c; c])]) in
        let new_c2 := simplify (mkAnd [old_c; c]) in
        let e2 := alg_times A two e in
        if strict && kmem p e2 then Err RuntimeErr else
        let p1 := if is_false new_c1 then kpop p e else kset p e new_c1 in
        if is_false new_c2 then Ok (kpop p1 e2)
        else if kmem p1 e2 then Err AssertionError
        else Ok (kset p1 e2 new_c2)
    | None => Ok (kset p e (simplify c))
    end.

  Definition addall p (l : list (E * fm)) : Res (list (E * fm)) :=
    fold_left (fun r ec => let! p := r in addpiece p ec.1 ec.2) l (Ok p).

  (** piecewise.py:33-71 __add__ *)
  Definition pw_add p q : Res (list (E * fm)) :=
    match p, q with
    | [], _ => Ok q
    | _, [] => Ok p
    | _, _ => addall [] (List.filter (fun ec =>
                negb (is_false ec.2) && negb (a_eq A ec.1 (alg_zero A))) (p ++ q))
    end.

  (** piecewise.py:99-122 __mul__; the pairs are those of itertools.product, in
      order. *)
  Definition mul_piece (k1 k2 : E * fm) : list (E * fm) :=
    let sup := simplify (mkAnd [k1.2; k2.2]) in
    let zero := alg_zero A in
    let one := alg_one A in
    if negb (a_eq A k1.1 zero) && negb (a_eq A k2.1 zero) && negb (is_false sup) then
      let e := if a_eq A k1.1 one then k2.1
               else if a_eq A k2.1 one then k1.1
               else alg_times A k1.1 k2.1 in
      if negb (a_eq A e zero) then [(e, sup)] else []
    else [].
  Definition pw_mul p q : Res (list (E * fm)) :=
    addall [] (flat_map (fun k1 => flat_map (mul_piece k1) q) p).

  (** piecewise.py:124-128 __neg__: a dictionary comprehension.  [strict]: two
      expressions have the same negation (the comprehension would drop one). *)
  Definition pw_neg p : Res (list (E * fm)) :=
    fold_left (fun r kc =>
      let! d := r in
      let e := alg_negate A kc.1 in
      if strict && kmem d e then Err RuntimeErr else Ok (kset d e kc.2)) p (Ok []).

  (** piecewise.py:130-134 condition (the keys do not change) *)
  Definition pw_condition p (c : fm) : list (E * fm) := map (fun kc => (kc.1, mkAnd [kc.2; c])) p.

  (** piecewise.py:142-150 ite *)
  Definition pw_ite (c : fm) p q : Res (list (E * fm)) :=
    pw_add (pw_condition p c) (pw_condition q (mkNot c)).

  (** piecewise.py:152-162 symbol, real *)
  Definition pw_symbol (x : string) : list (E * fm) := [(a_symbol A x, BoolC true)].
  Definition pw_real (q : Qc) : list (E * fm) := [(a_real A q, BoolC true)].

  (** piecewise.py:218-224 walk_pow; [reduce] of an empty list (negative exponent)
      is a TypeError. *)
  Definition pw_pow (rec : fm -> Res (list (E * fm))) (a b : fm) : Res (list (E * fm)) :=
    let! base := rec a in
    match const_val b with
    | None => Err AssertionError
    | Some x =>
        match int_of_qc x with
        | None => Err AssertionError
        | Some z => if (z =? 0)%Z then Ok (pw_real 1)
                    else reduceM pw_mul (repeat base (Z.to_nat z))
        end
    end.

  (** piecewise.py:165-266 PiecewiseFunctionConverter.  [boolean_stack] starts as
      [False] and only [_walk_comparison] pushes to it, after checking that its top is
      True; hence the top is always False and the boolean cases fail with ValueError.
      Conditions of conditionals are not walked (line 215). *)
  Definition pw_walker : walker (Res (list (E * fm))) := {|
    w_and _ _ := Err ValueError;
    w_or _ _ := Err ValueError;
    w_plus rec l := let! ps := rmapM rec l in reduceM pw_add ps;
    w_minus rec a b := let! p := rec a in let! q := rec b in let! q' := pw_neg q in pw_add p q';
    w_times rec l := let! ps := rmapM rec l in reduceM pw_mul ps;
    w_not _ _ := Err ValueError;
    w_ite rec c a b := let! p := rec a in let! q := rec b in pw_ite c p q;
    w_pow rec a b := pw_pow rec a b;
    w_lte _ _ _ := Err ValueError;
    w_lt _ _ _ := Err ValueError;
    w_equals _ _ _ := Err RuntimeErr;
    w_symbol x t := match t with TReal => Ok (pw_symbol x) | _ => Err ValueError end;
    w_const f := match f with RealC q => Ok (pw_real q) | _ => Err ValueError end;
    w_cannot := Err RuntimeErr;
    w_fuel := Err OutOfFuel
  |}.

  (** piecewise.py:269-271 split_up_function *)
  Definition split_up_function (f : fm) : Res (list (E * fm)) := walk pw_walker (msize f) f.
End piecewise.

(** * The keys used by the engines

    Both XSDD engines split with PolynomialAlgebra (engine.py:316-317,
    engine_factorized.py:224-225).  [times(2, e)] gives the number 2 itself when
    [e] is one (algebraic_backend.py:38-39), so that keys are polynomials or plain
    numbers; a polynomial never equals a number (smt_math.py:123-124). *)
Inductive pkey := KNum (q : Qc) | KPoly (p : pdict).

(** smt_math.py:55-85: arithmetic of polynomials and numbers *)
Definition key_mul (a b : pkey) : pkey :=
  match a, b with
  | KNum x, KNum y => KNum (x * y)
  | KPoly p, KPoly q => KPoly (a_mul poly_alg p q)
  | KPoly p, KNum x => KPoly (a_mul poly_alg p (poly_const x))
  | KNum x, KPoly p => KPoly (a_mul poly_alg p (poly_const x))
  end.
Definition key_add (a b : pkey) : pkey :=
  match a, b with
  | KNum x, KNum y => KNum (x + y)
  | KPoly p, KPoly q => KPoly (poly_add p q)
  | KPoly p, KNum x => KPoly (poly_add p (poly_const x))
  | KNum x, KPoly p => KPoly (poly_add p (poly_const x))
  end.
Definition key_eqb (a b : pkey) : bool :=
  match a, b with
  | KNum x, KNum y => qeq x y
  | KPoly p, KPoly q => poly_eqb p q
  | _, _ => false
  end.
Definition key_alg : alg pkey := {|
  a_real q := KPoly (poly_const q); a_symbol x := KPoly [([x], 1%Qc)]; a_eq := key_eqb;
  a_mul := key_mul; a_add := key_add; a_le a _ := a; a_lt a _ := a |}.
Definition key_two : pkey := KNum (qz 2).

Definition split_weight (simplify : fm -> fm) (strict : bool) (f : fm) : Res (list (pkey * fm)) :=
  split_up_function key_alg key_two simplify strict f.

(** smt_math.py:42-50 [w_weight.to_expression(algebra)] in engine.py:345: a plain
    number has no such method. *)
Definition key_to_expression {E} (A : alg E) (k : pkey) : Res E :=
  match k with KPoly p => Ok (to_expression A p) | KNum _ => Err AttributeError end.

(** * Literal weights (pywmi/engines/xsdd/smt_to_sdd.py) *)

(** smt_to_sdd.py:167-172 get_bool_label *)
Definition get_bool_label (f : fm) : option (string * (fm * fm)) :=
  match f with
  | IteN (Sym x TBool) t e => Some (x, (t, e))
  | _ => None
  end.

(** smt_to_sdd.py:183-187: the loop over the factors. *)
Fixpoint label_loop (args : list fm) (labels : list (string * (fm * fm))) (terms : list fm)
  : list (string * (fm * fm)) * list fm :=
  match args with
  | [] => (labels, terms)
  | a :: args =>
      match get_bool_label a with
      | Some (x, te) => label_loop args (dset labels x te) terms
      | None => label_loop args labels (terms ++ [a])
      end
  end.

(** smt_to_sdd.py:178-191 extract_labels_and_weight *)
Definition extract_labels_and_weight (weight : fm) : Res (list (string * (fm * fm)) * fm) :=
  match weight with
  | TimesN args =>
      let (labels, terms) := label_loop args [] [] in
      let! w := mkTimes terms in Ok (labels, w)
  | _ => Ok ([], weight)
  end.
