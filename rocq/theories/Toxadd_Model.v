(** Model of the translation of formulas and weights to diagrams:
    pywmi/engines/pyxadd/engine.py 17-123 (ToXaddWalker) with
    pywmi/smt_walk.py 98-110 (CachedSmtWalker).

    A walker has a cache from (formula, bool_mode) to results and uses a pool.  The
    cache belongs to the walker and is dropped when the walk ends or raises; the pool
    stays as it is at that moment.  The attribute bool_mode is an argument: it is
    changed only around the walk of the condition of a conditional weight
    (engine.py 70-72). *)

From Verif Require Import Base Dict Smt Walk_Model Math_Model Xadd_Model.

(** A walk returns a node id or, in boolean mode for arithmetic terms, a formula. *)
Inductive wres := WNode (id : nat) | WTerm (f : fm).

Notation wcache := (list ((fm * bool) * wres)).

Section ToXadd.
  Context {E : Type} `{EqDecision E} (A : alg E) (flat : E -> E) (is_one is_zero : E -> Res bool)
    (simp : fm -> fm).

  Definition W (B : Type) : Type := wcache -> M E (wcache * B).
  Definition wret {B} (b : B) : W B := fun c => mret (c, b).
  Definition werr {B} (x : exn) : W B := fun _ => merr x.
  Definition wbind {B C} (m : W B) (k : B -> W C) : W C := fun c => do! (c, b) := m c in k b c.
  Definition wlift {B} (m : M E B) : W B := fun c => do! b := m in mret (c, b).
  Definition wres_of {B} (r : Res B) : W B := wlift (mlift r).

  (** Using a result where a node id is expected: Pool.get_node does not know a
      formula (core.py:217-227). *)
  Definition as_node (r : wres) : M E nat :=
    match r with WNode i => mret i | WTerm _ => merr RuntimeErr end.

  (** smt_walk.py:50-51 walk_smt_multiple *)
  Fixpoint walk_multiple (rec : fm -> W wres) (l : list fm) : W (list wres) :=
    match l with
    | [] => wret []
    | f :: l => wbind (rec f) (fun r => wbind (walk_multiple rec l) (fun rs => wret (r :: rs)))
    end.

  (** The loops "result = self.pool.apply(op, result, arg)" of engine.py 28-31,
      35-38, 44-47 and 57-60. *)
  Fixpoint apply_all (op : xop) (result : nat) (args : list wres) : M E nat :=
    match args with
    | [] => mret result
    | r :: args =>
        do! i := as_node r in
        do! result := apply A flat simp op result i in
        apply_all op result args
    end.

  (** engine.py:88-91: n multiplications with the base *)
  Fixpoint times_base (n : nat) (result base : nat) : M E nat :=
    match n with
    | 0 => mret result
    | S n => do! result := apply A flat simp Multiplication result base in times_base n result base
    end.

  (** engine.py:66-68 in boolean mode: the formula that is walked instead; pysmt
      checks the types when it is built. *)
  Definition ite_expand (c a b : fm) : Res fm :=
    let! ca := chk (mkAnd [c; a]) in
    let! _ := chk (NotN c) in
    let! cb := chk (mkAnd [mkNot c; b]) in
    chk (mkOr [ca; cb]).
  (** engine.py:49-50: [left + (right * -1)]; pysmt makes the constant of the type
      of the other operand. *)
  Definition minus_expand (a b : fm) : Res fm :=
    let! m := chk (TimesN [b; match typeof b with Some TInt => IntC (-1) | _ => RealC (qz (-1)) end]) in
    chk (PlusN [a; m]).
  (** engine.py:96 [left <= right]: Python's operator on two walk results.  A node id
      is an int, and pysmt turns an int into a constant of the other operand's type;
      with two ids the result is a Python bool, which Decision cannot use. *)
  Definition le_results (l r : wres) : Res fm :=
    match l, r with
    | WTerm a, WTerm b => chk (LeN a b)
    | WNode i, WTerm b => chk (LeN (RealC (qn i)) b)
    | WTerm a, WNode j => chk (LeN a (RealC (qn j)))
    | WNode _, WNode _ => Err AttributeError
    end.

  (** engine.py:26-123; [recb] is walk_smt with bool_mode set to True. *)
  Definition tx_walker (mode : bool) (recb : fm -> W wres) : walker (W wres) := {|
    w_and rec l :=
      if mode then
        wbind (walk_multiple rec l) (fun rs =>
        wlift (do! p := mget in do! i := apply_all LogicalAnd (p_one p) rs in mret (WNode i)))
      else werr AssertionError;
    w_or rec l :=
      if mode then
        wbind (walk_multiple rec l) (fun rs =>
        wlift (do! p := mget in do! i := apply_all LogicalOr (p_zero p) rs in mret (WNode i)))
      else werr AssertionError;
    w_plus rec l :=
      if mode then wbind (wres_of (mkPlus l)) (fun f => wret (WTerm f))
      else
        wbind (walk_multiple rec l) (fun rs =>
        wlift (do! p := mget in do! i := apply_all Summation (p_zero p) rs in mret (WNode i)));
    w_minus rec a b := wbind (wres_of (minus_expand a b)) rec;
    w_times rec l :=
      if bool_decide (l = []) then werr AssertionError
      else if mode then wbind (wres_of (mkTimes l)) (fun f => wret (WTerm f))
      else
        wbind (walk_multiple rec l) (fun rs =>
        wlift (do! p := mget in do! i := apply_all Multiplication (p_one p) rs in mret (WNode i)));
    w_not rec a :=
      if mode then
        wbind (rec a) (fun r =>
        wlift (do! i := as_node r in do! i := invert A flat is_one is_zero simp i in mret (WNode i)))
      else werr AssertionError;
    w_ite rec c a b :=
      if mode then wbind (wres_of (ite_expand c a b)) rec
      else
        wbind (recb c) (fun rc =>
        wbind (rec a) (fun ra =>
        wbind (rec b) (fun rb =>
        wlift (
          do! ic := as_node rc in do! ia := as_node ra in
          do! t := apply A flat simp Multiplication ic ia in
          do! nc := invert A flat is_one is_zero simp ic in
          do! ib := as_node rb in
          do! f := apply A flat simp Multiplication nc ib in
          do! r := apply A flat simp Summation t f in
          mret (WNode r)))));
    w_pow rec a b :=
      wbind (rec a) (fun ra =>
      match const_val b with
      | None => werr PysmtValueError     (* pysmt builds no such node *)
      | Some x =>
          if negb (Pos.eqb (Qden (this x)) 1) then werr AssertionError
          else if (Qnum (this x) =? 0)%Z then wlift (do! p := mget in mret (WNode (p_one p)))
          else match Z.to_nat (Qnum (this x) - 1) with
               | 0 => wret ra
               | S n => wlift (do! i := as_node ra in do! i := times_base (S n) i i in mret (WNode i))
               end
      end);
    w_lte rec a b :=
      if mode then
        wbind (rec a) (fun ra => wbind (rec b) (fun rb =>
        wbind (wres_of (le_results ra rb)) (fun f =>
        wlift (do! i := bool_test simp (mkdec f) in mret (WNode i)))))
      else werr AssertionError;
    w_lt rec a b := wbind (wres_of (chk (LeN a b))) rec;
    w_equals _ _ _ := werr NotImplemented;
    w_symbol x t :=
      if mode then
        if bool_decide (t = TBool) then wlift (do! i := bool_test simp (mkdec (Sym x TBool)) in mret (WNode i))
        else wret (WTerm (Sym x t))
      else wlift (do! i := terminal (a_symbol A x) in mret (WNode i));
    w_const f :=
      match f with
      | BoolC b =>
          if mode then wlift (do! i := bool_test simp (mkdec (BoolC b)) in mret (WNode i))
          else werr AssertionError
      | RealC q =>
          if mode then wret (WTerm (RealC q))
          else wlift (do! i := terminal (a_real A q) in mret (WNode i))
      | IntC z =>                          (* Bool(value) of an int raises *)
          if mode then werr PysmtTypeError
          else wlift (do! i := terminal (a_real A (qz z)) in mret (WNode i))
      | _ => werr RuntimeErr               (* not a constant *)
      end;
    w_cannot := werr RuntimeErr;
    w_fuel := werr OutOfFuel
  |}.

  (** smt_walk.py:103-110 CachedSmtWalker.walk_smt with the key of engine.py:23-24 *)
  Fixpoint tx (n : nat) (mode : bool) (f : fm) : W wres :=
    match n with
    | 0 => werr OutOfFuel
    | S n => fun c =>
        match dget c (f, mode) with
        | Some r => mret (c, r)
        | None =>
            do! (c, r) := dispatch (tx_walker mode (tx n true)) (tx n mode) f c in
            mret (dset c (f, mode) r, r)
        end
    end.

  (** Fuel that is always enough. *)
  Fixpoint txsize (f : fm) : nat :=
    match f with
    | Sym _ _ | BoolC _ | RealC _ | IntC _ => 1
    | AndN l | OrN l | PlusN l | TimesN l => S (list_sum (map txsize l))
    | NotN a | ExpN a | ToRealN a => S (txsize a)
    | ImpN a b => 3 + txsize a + txsize b
    | IffN a b => 4 + txsize a + txsize b
    | MinusN a b => 4 + txsize a + txsize b
    | LtN a b => 2 + txsize a + txsize b
    | PowN a b | LeN a b | EqN a b => 1 + txsize a + txsize b
    | IteN c a b => 5 + 2 * txsize c + txsize a + txsize b
    end.

  (** ToXaddWalker(mode, pool).walk_smt(f) *)
  Definition translate (mode : bool) (f : fm) : M E wres :=
    do! (_, r) := tx (txsize f) mode f [] in mret r.
End ToXadd.
