(** Vocabulary for C56 and C57. *)

From Verif Require Import Base Smt Math_Spec.

(** The formula with every real constant replaced by its absolute value. *)
Fixpoint abs_consts (f : fm) : fm :=
  match f with
  | RealC q => RealC (if qlt q 0 then (- q)%Qc else q)
  | Sym _ _ | BoolC _ | IntC _ => f
  | AndN l => AndN (map abs_consts l)
  | OrN l => OrN (map abs_consts l)
  | PlusN l => PlusN (map abs_consts l)
  | TimesN l => TimesN (map abs_consts l)
  | NotN a => NotN (abs_consts a)
  | ImpN a b => ImpN (abs_consts a) (abs_consts b)
  | IffN a b => IffN (abs_consts a) (abs_consts b)
  | IteN c a b => IteN (abs_consts c) (abs_consts a) (abs_consts b)
  | MinusN a b => MinusN (abs_consts a) (abs_consts b)
  | PowN a b => PowN (abs_consts a) (abs_consts b)
  | LeN a b => LeN (abs_consts a) (abs_consts b)
  | LtN a b => LtN (abs_consts a) (abs_consts b)
  | EqN a b => EqN (abs_consts a) (abs_consts b)
  | ExpN a => ExpN (abs_consts a)
  | ToRealN a => ToRealN (abs_consts a)
  end.

(** Formulas without implications, equivalences and double negations (which the
    walkers rewrite), and without the nodes they do not accept. *)
Fixpoint core (f : fm) : bool :=
  match f with
  | Sym _ t => negb (bool_decide (t = TInt))
  | BoolC _ | RealC _ => true
  | IntC _ | ImpN _ _ | IffN _ _ | ExpN _ | ToRealN _ => false
  | AndN l | OrN l | PlusN l | TimesN l => (2 <=? length l)%nat && forallb core l
  | NotN a => core a && match a with NotN _ => false | _ => true end
  | IteN c a b => core c && core a && core b
  | MinusN a b | LeN a b | LtN a b | EqN a b => core a && core b
  | PowN a b => core a && negb (is_const a) && is_const b && core b
  end.

(** The comparisons of a formula that are not inside another comparison. *)
Fixpoint tests (f : fm) : list fm :=
  match f with
  | LeN _ _ | LtN _ _ => [f]
  | AndN l | OrN l | PlusN l | TimesN l => flat_map tests l
  | NotN a | ExpN a | ToRealN a => tests a
  | ImpN a b | IffN a b | MinusN a b | PowN a b | EqN a b => tests a ++ tests b
  | IteN c a b => tests c ++ tests a ++ tests b
  | Sym _ _ | BoolC _ | RealC _ | IntC _ => []
  end.

Definition linear_tests (f : fm) : Prop :=
  forall g, g ∈ tests f -> exists a b, compares g a b /\ linear_expr a /\ linear_expr b.

(** The two sides of every comparison differ at the point. *)
Definition off_all (e : env) (f : fm) : Prop :=
  forall g a b, g ∈ tests f -> compares g a b -> off e a b.
