(** Model of pywmi/smt_math.py (polynomials, linear inequalities, bounds) and of
    the arithmetic of pywmi/engines/algebraic_backend.py: AlgebraBackend.

    Numbers are exact rationals; the conversions [float(...)] are therefore the
    identity (smt_math.py:18-20, 321). *)

From Verif Require Import Base Dict Smt Walk_Model.

(** smt_math.py:13 CONST_KEY and the keys of poly_dict: tuples of names. *)
Notation mono := (list string).
Definition CONST_KEY : mono := [].

(** Polynomial.poly_dict, LinearInequality.inequality_dict. *)
Notation pdict := (list (mono * Qc)).

Definition mono_cmp : mono -> mono -> comparison := lexc str_cmp.

(** smt_math.py:88-95 Polynomial.dict_plus *)
Definition dict_plus (d1 d2 : pdict) : pdict :=
  fold_left (fun r kv =>
    match dget r kv.1 with
    | Some w => dset r kv.1 (w + kv.2)%Qc
    | None => dset r kv.1 kv.2
    end) d2 d1.

(** smt_math.py:98-106 Polynomial.dict_times: two nested loops over the items. *)
Definition times_step (force_linear : bool) (k1 : mono) (v1 : Qc) (r : Res pdict) (kv2 : mono * Qc)
  : Res pdict :=
  let! r := r in
  if negb (bool_decide (k1 = CONST_KEY)) && negb (bool_decide (kv2.1 = CONST_KEY)) && force_linear
  then Err ValueError
  else
    let key := psort str_cmp (k1 ++ kv2.1) in
    Ok (dset r key (default 0%Qc (dget r key) + v1 * kv2.2)%Qc).
Definition dict_times (force_linear : bool) (d1 d2 : pdict) : Res pdict :=
  fold_left (fun r kv1 => fold_left (times_step force_linear kv1.1 kv1.2) d2 r) d1 (Ok []).

(** functools.reduce: raises TypeError on the empty sequence. *)
Definition reduceM {A} (f : A -> A -> Res A) (l : list A) : Res A :=
  match l with
  | [] => Err TypeError
  | x :: l => fold_left (fun r y => let! r := r in f r y) l (Ok x)
  end.

Definition dict_neg (d : pdict) : pdict := map (fun kv => (kv.1, - kv.2)%Qc) d.
Definition dict_scale (d : pdict) (factor : Qc) : pdict := map (fun kv => (kv.1, kv.2 / factor)%Qc) d.

(** smt_math.py:289-291: [for _ in range(n): result = dict_times(result, base)]. *)
Fixpoint mul_loop (fl : bool) (n : nat) (base result : pdict) : Res pdict :=
  match n with
  | 0 => Ok result
  | S n => let! r := dict_times fl result base in mul_loop fl n base r
  end.

(** [int(q) == q], the integer. *)
Definition int_of_qc (q : Qc) : option Z :=
  if Pos.eqb (Qden (this q)) 1 then Some (Qnum (this q)) else None.

(** smt_math.py:273-292 walk_pow (the exponent is a constant node) *)
Definition math_pow (fl : bool) (rec : fm -> Res pdict) (base exponent : fm) : Res pdict :=
  match const_val exponent with
  | None => Err AssertionError
  | Some x =>
      match int_of_qc x with
      | None => Err ValueError
      | Some z =>
          if negb (z =? 1)%Z && fl then Err ValueError
          else let! b := rec base in mul_loop fl (Z.to_nat (z - 1)) b b
      end
  end.

(** smt_math.py:251-254 walk_minus *)
Definition math_minus (rec : fm -> Res pdict) (a b : fm) : Res pdict :=
  let! l := rec a in let! r := rec b in Ok (dict_plus l (dict_neg r)).

(** smt_math.py:296-300: the first key in sorted order with a non-zero coefficient. *)
Fixpoint first_nonzero (d : pdict) (keys : list mono) : option Qc :=
  match keys with
  | [] => None
  | k :: ks =>
      match dget d k with
      | Some v => if qeq v 0 then first_nonzero d ks else Some (qabs v)
      | None => first_nonzero d ks
      end
  end.

(** smt_math.py:294-304 walk_lte *)
Definition math_lte (rec : fm -> Res pdict) (a b : fm) : Res pdict :=
  let! r := math_minus rec a b in
  match first_nonzero r (psort mono_cmp (dkeys r)) with
  | None => Ok [(CONST_KEY, 0%Qc)]
  | Some factor => Ok (dict_scale r factor)
  end.

(** smt_math.py:235-327 MathDictConverter *)
Definition math_walker (fl : bool) : walker (Res pdict) := {|
  w_and _ _ := Err ValueError;
  w_or _ _ := Err ValueError;
  w_plus rec l := let! ds := rmapM rec l in reduceM (fun a b => Ok (dict_plus a b)) ds;
  w_minus rec a b := math_minus rec a b;
  w_times rec l := let! ds := rmapM rec l in reduceM (dict_times fl) ds;
  w_not rec a := let! d := rec a in Ok (dict_neg d);
  w_ite _ _ _ _ := Err ValueError;
  w_pow rec a b := math_pow fl rec a b;
  w_lte rec a b := math_lte rec a b;
  w_lt rec a b := math_lte rec a b;
  w_equals _ _ _ := Err ValueError;
  w_symbol n t := match t with TReal => Ok [([n], 1%Qc)] | _ => Err ValueError end;
  w_const f := match f with RealC q => Ok [(CONST_KEY, q)] | _ => Err ValueError end;
  w_cannot := Err RuntimeErr;
  w_fuel := Err OutOfFuel
|}.
Definition math_walk (fl : bool) (f : fm) : Res pdict := walk (math_walker fl) (msize f) f.

Definition nonzero (kv : mono * Qc) : bool := negb (qeq kv.2 0).

(** * Polynomial *)

(** smt_math.py:108-112 Polynomial.from_smt *)
Definition poly_from_smt (f : fm) : Res pdict :=
  let! d := math_walk false f in Ok (List.filter nonzero d).

(** smt_math.py:32-40 Polynomial.to_smt *)
Definition poly_key (k : mono) : Res fm :=
  match k with [] => Ok (RealC 1) | _ => mkTimes (map (fun n => Sym n TReal) k) end.
Definition poly_term (kv : mono * Qc) : Res fm :=
  let! t := poly_key kv.1 in
  if qeq kv.2 1 then Ok t else mkTimes [t; RealC kv.2].
Definition poly_to_smt (p : pdict) : Res fm :=
  let! ts := rmapM poly_term p in mkPlus ts.

(** smt_math.py:55-83 Polynomial.__add__, __mul__ (a number is first made a
    constant polynomial, [poly_const]). *)
Definition poly_const (c : Qc) : pdict := [(CONST_KEY, c)].
Definition poly_add (p q : pdict) : pdict := dict_plus p q.
Definition poly_mul (p q : pdict) : Res pdict := dict_times false p q.

(** smt_math.py:123-124 Polynomial.__eq__: equality of dictionaries. *)
Definition poly_eqb (p q : pdict) : bool :=
  (length p =? length q) && forallb (fun kv => bool_decide (dget q kv.1 = Some kv.2)) p.

(** * Algebra backends (pywmi/engines/algebraic_backend.py) *)

(** algebraic_backend.py:22-92: what a subclass provides ([real], [symbol], the
    operators of its expressions) ... *)
Record alg (E : Type) := Alg {
  a_real : Qc -> E; a_symbol : string -> E; a_eq : E -> E -> bool;
  a_mul : E -> E -> E; a_add : E -> E -> E; a_le : E -> E -> E; a_lt : E -> E -> E }.
Arguments a_real {E}. Arguments a_symbol {E}. Arguments a_eq {E}. Arguments a_mul {E}.
Arguments a_add {E}. Arguments a_le {E}. Arguments a_lt {E}.

(** ... and what AlgebraBackend derives from it. *)
Section Alg.
  Context {E : Type} (A : alg E).
  (** algebraic_backend.py:23-27 *)
  Definition alg_zero : E := a_real A 0.
  Definition alg_one : E := a_real A 1.
  (** algebraic_backend.py:35-43 *)
  Definition alg_times (a b : E) : E :=
    if a_eq A a alg_zero || a_eq A b alg_zero then alg_zero
    else if a_eq A a alg_one then b else if a_eq A b alg_one then a else a_mul A a b.
  (** algebraic_backend.py:45-51 *)
  Definition alg_plus (a b : E) : E :=
    if a_eq A a alg_zero then b else if a_eq A b alg_zero then a else a_add A a b.
  (** algebraic_backend.py:59-60 *)
  Definition alg_negate (a : E) : E := alg_times a (a_real A (- 1)).
  (** algebraic_backend.py:62-70 *)
  Fixpoint alg_power_loop (n : nat) (a result : E) : E :=
    match n with 0 => result | S n => alg_power_loop n a (alg_times result a) end.
  Definition alg_power (a : E) (power : Qc) : Res E :=
    match int_of_qc power with
    | None => Err ValueError
    | Some z => if (z <? 0)%Z then Err ValueError else Ok (alg_power_loop (Z.to_nat z) a alg_one)
    end.
  (** algebraic_backend.py:72-82 *)
  Definition alg_less_than (a b : E) : E := a_lt A a b.
  Definition alg_less_than_equal (a b : E) : E := a_le A a b.
  Definition alg_greater_than (a b : E) : E := alg_less_than (alg_negate a) (alg_negate b).
  Definition alg_greater_than_equal (a b : E) : E := alg_less_than_equal (alg_negate a) (alg_negate b).

  (** smt_math.py:42-50 Polynomial.to_expression ([var != CONST_KEY] is always
      true: var is a name) *)
  Definition to_expression (p : pdict) : E :=
    fold_left (fun result kv =>
      let term := fold_left (fun t v => alg_times t (a_symbol A v)) kv.1 alg_one in
      alg_plus result (alg_times term (a_real A kv.2))) p alg_zero.

  (** smt_math.py:180-193 LinearInequality.to_expression (the branch without
      NotImplementedError) *)
  Definition li_to_expression (d : pdict) : E :=
    let lhs := fold_left (fun result kv =>
      if bool_decide (kv.1 = CONST_KEY) then result
      else
        let term := fold_left (fun t v => alg_times t (a_symbol A v)) kv.1 alg_one in
        alg_plus result (alg_times term (a_real A kv.2))) d alg_zero in
    alg_less_than_equal lhs (a_real A (- default 0%Qc (dget d CONST_KEY))%Qc).
End Alg.

(** smt_math.py:135-143 PolynomialAlgebra.  [a * b] is poly_mul, which never fails
    ([times_total]); polynomials cannot be compared, so the comparison fields are
    never used. *)
Definition poly_alg : alg pdict := {|
  a_real := poly_const; a_symbol x := [([x], 1%Qc)]; a_eq := poly_eqb;
  a_mul p q := match poly_mul p q with Ok r => r | Err _ => [] end;
  a_add := poly_add; a_le _ _ := []; a_lt _ _ := [] |}.

(** algebraic_backend.py:125-140 PySmtAlgebra: the arithmetic of pysmt nodes; [==]
    is identity of hash-consed nodes. *)
Definition pysmt_alg : alg fm := {|
  a_real := RealC; a_symbol x := Sym x TReal; a_eq f g := bool_decide (f = g);
  a_mul f g := TimesN [f; g]; a_add f g := PlusN [f; g]; a_le := LeN; a_lt := LtN |}.
(** algebraic_backend.py:132-133 PySmtAlgebra.power *)
Definition pysmt_power (a : fm) (power : Qc) : Res fm := mkPow a (RealC power).
(** algebraic_backend.py:135-139 PySmtAlgebra.less_than, less_than_equal: the
    second argument of Ite is the bound method [self.one], not a node, so that
    creating the node fails. *)
Definition pysmt_less_than (a b : fm) : Res fm := Err AttributeError.
Definition pysmt_less_than_equal (a b : fm) : Res fm := Err AttributeError.

(** * LinearInequality *)

(** smt_math.py:147-148 LinearInequality.__init__ *)
Definition li_make (d : pdict) : pdict := List.filter nonzero d.

(** smt_math.py:163-165 from_smt *)
Definition li_from_smt (f : fm) : Res pdict :=
  let! d := math_walk true f in Ok (li_make d).

(** smt_math.py:154-161 coefficient, a, b *)
Definition li_coefficient (d : pdict) (k : mono) : Qc := default 0%Qc (dget d k).
Definition li_b (d : pdict) : Qc := (- li_coefficient d CONST_KEY)%Qc.

(** smt_math.py:167-178 to_smt *)
Definition li_term (kv : mono * Qc) : Res fm :=
  let! t := mkTimes (map (fun n => Sym n TReal) kv.1) in
  if qeq kv.2 1 then Ok t else mkTimes [t; RealC kv.2].
Definition li_to_smt (d : pdict) : Res fm :=
  match d with
  | [] => Ok (LeN (RealC 0) (RealC 0))
  | [([], c)] => Ok (LeN (RealC 0) (RealC (- c)))
  | _ =>
      let! ts := rmapM li_term (List.filter (fun kv => negb (bool_decide (kv.1 = CONST_KEY))) d) in
      let! s := mkPlus ts in
      Ok (LtN s (RealC (li_b d)))
  end.

(** smt_math.py:222-231 normalize *)
Definition qmax (x y : Qc) : Qc := if qlt x y then y else x.
Definition max_abs (d : pdict) : Qc :=
  match map (fun kv => qabs kv.2) d with [] => 0%Qc | x :: l => fold_left qmax l x end.
Definition li_normalize (d : pdict) : pdict :=
  match d with
  | [] => d
  | _ => if qeq (max_abs d) 0 then d else li_make (dict_scale d (max_abs d))
  end.

(** smt_math.py:233-234 inverted *)
Definition li_inverted (d : pdict) : pdict := li_make (dict_neg d).

(** Rounding of a positive integer to a double (53 significant bits, ties to
    even); overflow beyond 2^1024 is not modelled. *)
Definition round53 (z : Z) : Z :=
  let k := (Z.log2 z - 52)%Z in
  if (k <=? 0)%Z then z
  else
    let p := (2 ^ k)%Z in
    let q := (z / p)%Z in let r := (z mod p)%Z in
    let up := (p <? 2 * r)%Z || ((p =? 2 * r)%Z && Z.odd q) in
    ((if up then q + 1 else q) * p)%Z.

(** smt_math.py:195-197 lcm: int(num1 * num2 / gcd), a float division *)
Definition li_lcm (a b : Z) : Z := round53 (a * b / Z.gcd a b).

(** [int(q)]: truncation toward zero *)
Definition trunc (q : Qc) : Z := Z.quot (Qnum (this q)) (Zpos (Qden (this q))).

(** smt_math.py:199-214 scale_to_integer.  [limit_denominator()] (with its
    default bound 10^6) is the argument [lim].  Dividing by a zero gcd raises. *)
Definition li_scale_to_integer (lim : Qc -> Qc) (d : pdict) : Res pdict :=
  let fr := map (fun kv => (kv.1, lim kv.2)) d in
  let! l := reduceM (fun a b => Ok (li_lcm a b)) (map (fun kv => Zpos (Qden (this kv.2))) fr) in
  let fr := map (fun kv => (kv.1, kv.2 * qz l)%Qc) fr in
  let! g := reduceM (fun a b => Ok (Z.gcd a b)) (map (fun kv => Z.abs (Qnum (this kv.2))) fr) in
  if (g =? 0)%Z then Err ZeroDivisionError
  else Ok (li_make (map (fun kv => (kv.1, qz (trunc (kv.2 / qz g)%Qc))) fr)).

(** * BoundsWalker *)

(** Sets of formulas are lists without duplicates. *)
Definition set_union (l k : list fm) : list fm :=
  l ++ List.filter (fun x => negb (bool_decide (x ∈ l))) k.
Definition set_map (g : fm -> fm) (l : list fm) : list fm :=
  fold_left (fun r x => set_union r [g x]) l [].

(** smt_math.py:333-338 collect *)
Definition collect (rec : fm -> Res (list fm)) (args : list fm) : Res (list fm) :=
  let! ls := rmapM rec args in
  match ls with
  | [] => Err IndexError
  | l :: ls => Ok (fold_left set_union ls l)
  end.

(** smt_math.py:329-394 BoundsWalker *)
Definition bounds_walker (allow_or : bool) : walker (Res (list fm)) := {|
  w_and rec l := collect rec l;
  w_or rec l := if allow_or then collect rec l else Err ValueError;
  w_plus _ _ := if allow_or then Ok [] else Err ValueError;
  w_minus _ _ _ := if allow_or then Ok [] else Err ValueError;
  w_times _ _ := if allow_or then Ok [] else Err ValueError;
  w_not rec a := let! s := rec a in Ok (set_map mkNot s);
  w_ite _ _ _ _ := Err ValueError;
  w_pow _ _ _ := Err ValueError;
  w_lte _ a b := Ok [LtN a b];
  w_lt _ a b := Ok [LtN a b];
  w_equals _ _ _ := Err ValueError;
  w_symbol _ t := if negb allow_or && negb (bool_decide (t = TBool)) then Err ValueError else Ok [];
  w_const f :=
    if negb allow_or && negb (bool_decide (typeof f = Some TBool)) then Err ValueError else Ok [];
  w_cannot := Err RuntimeErr;
  w_fuel := Err OutOfFuel
|}.

(** smt_math.py:397-401 get_inequalities (the order of the set is unspecified in
    the code; the model fixes one) *)
Definition bounds_of (allow_or : bool) (f : fm) : Res (list fm) :=
  walk (bounds_walker allow_or) (msize f) f.
Definition get_inequalities (f : fm) : Res (list pdict) :=
  let! s := bounds_of false f in rmapM li_from_smt s.
