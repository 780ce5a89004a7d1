(** Model of pywmi/smt_walk.py: the dispatcher shared by all formula walkers, and
    the identity walker.

    A walker class is a record of its [walk_*] methods; [self.walk_smt] is the
    argument [rec] of every method (open recursion), so that overriding
    [walk_smt] (CachedSmtWalker) is possible as in the code.  Python's recursion
    is given fuel; running out of fuel is the value [w_fuel] and theorems show
    that [msize f] is always enough. *)

From Verif Require Import Base Smt.

(** smt_walk.py:7-48: the methods of a walker returning [A]. *)
Record walker (A : Type) := Walker {
  w_and : (fm -> A) -> list fm -> A;
  w_or : (fm -> A) -> list fm -> A;
  w_plus : (fm -> A) -> list fm -> A;
  w_minus : (fm -> A) -> fm -> fm -> A;
  w_times : (fm -> A) -> list fm -> A;
  w_not : (fm -> A) -> fm -> A;
  w_ite : (fm -> A) -> fm -> fm -> fm -> A;
  w_pow : (fm -> A) -> fm -> fm -> A;
  w_lte : (fm -> A) -> fm -> fm -> A;
  w_lt : (fm -> A) -> fm -> fm -> A;
  w_equals : (fm -> A) -> fm -> fm -> A;
  w_symbol : string -> ty -> A;
  w_const : fm -> A;             (* the constant node: value and type *)
  w_cannot : A;                  (* line 93: RuntimeError "Cannot walk" *)
  w_fuel : A                     (* not in the code: out of fuel *)
}.
Arguments w_and {A}. Arguments w_or {A}. Arguments w_plus {A}. Arguments w_minus {A}.
Arguments w_times {A}. Arguments w_not {A}. Arguments w_ite {A}. Arguments w_pow {A}.
Arguments w_lte {A}. Arguments w_lt {A}. Arguments w_equals {A}. Arguments w_symbol {A}.
Arguments w_const {A}. Arguments w_cannot {A}. Arguments w_fuel {A}.

(** smt_walk.py:47-48 walk_implies: [self.walk_smt(smt.Or(smt.Not(left), right))]. *)
Definition imp_expand (a b : fm) : fm := mkOr [mkNot a; b].

(** smt_walk.py:53-95 SmtWalker.walk_smt.  The tests of the code are on disjoint
    node types, so their order is immaterial. *)
Definition dispatch {A} (w : walker A) (rec : fm -> A) (f : fm) : A :=
  match f with
  | AndN l => w_and w rec l
  | OrN l => w_or w rec l
  | ImpN a b => rec (imp_expand a b)
  | NotN a => w_not w rec a
  | TimesN l => w_times w rec l
  | PlusN l => w_plus w rec l
  | MinusN a b => w_minus w rec a b
  | IteN c a b => w_ite w rec c a b
  | PowN a b => w_pow w rec a b
  | LeN a b => w_lte w rec a b
  | LtN a b => w_lt w rec a b
  | EqN a b => w_equals w rec a b
  | Sym n t => w_symbol w n t
  | BoolC _ | RealC _ | IntC _ => w_const w f
  | IffN a b => w_and w rec [ImpN a b; ImpN b a]
  | ExpN _ | ToRealN _ => w_cannot w
  end.

Fixpoint walk {A} (w : walker A) (n : nat) (f : fm) : A :=
  match n with
  | 0 => w_fuel w
  | S n => dispatch w (walk w n) f
  end.

(** Fuel that is always enough. *)
Fixpoint msize (f : fm) : nat :=
  match f with
  | Sym _ _ | BoolC _ | RealC _ | IntC _ => 1
  | AndN l | OrN l | PlusN l | TimesN l => S (list_sum (map msize l))
  | NotN a | ExpN a | ToRealN a => S (msize a)
  | ImpN a b => 3 + msize a + msize b
  | IffN a b => 4 + msize a + msize b
  | MinusN a b | PowN a b | LeN a b | LtN a b | EqN a b => 1 + msize a + msize b
  | IteN c a b => 1 + msize c + msize a + msize b
  end.

(** smt_walk.py:113-158 SmtIdentityWalker.  [walk_constant] of an integer constant
    returns (does not raise) a ValueError object; the model reports [ValueError]. *)
Definition identity_walker : walker (Res fm) := {|
  w_and rec l := let! l' := rmapM rec l in chk (mkAnd l');
  w_or rec l := let! l' := rmapM rec l in chk (mkOr l');
  w_plus rec l := let! l' := rmapM rec l in let! r := mkPlus l' in chk r;
  w_minus rec a b := let! a' := rec a in let! b' := rec b in chk (MinusN a' b');
  w_times rec l := let! l' := rmapM rec l in let! r := mkTimes l' in chk r;
  w_not rec a := let! a' := rec a in let! _ := chk (NotN a') in Ok (mkNot a');
  w_ite rec c a b :=
    let! c' := rec c in let! a' := rec a in let! b' := rec b in chk (IteN c' a' b');
  w_pow rec a b := let! a' := rec a in let! b' := rec b in let! r := mkPow a' b' in chk r;
  w_lte rec a b := let! a' := rec a in let! b' := rec b in chk (LeN a' b');
  w_lt rec a b := let! a' := rec a in let! b' := rec b in chk (LtN a' b');
  w_equals rec a b := let! a' := rec a in let! b' := rec b in chk (EqN a' b');
  w_symbol n t := Ok (Sym n t);
  w_const f := match f with BoolC _ | RealC _ => Ok f | _ => Err ValueError end;
  w_cannot := Err RuntimeErr;
  w_fuel := Err OutOfFuel
|}.

Definition identity_walk (f : fm) : Res fm := walk identity_walker (msize f) f.
