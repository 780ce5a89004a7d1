(** What an SMT-LIB term means, independently of the importer. *)

From Verif Require Import Base Smt Smtlib_Model.

(** Declared names are booleans or numbers (integers are used as numbers). *)
Inductive skind := KBool | KNum.

(** The operators of the theories of booleans, integers and reals, with integers used
    where reals are expected.  Nothing is said about operands of the wrong kind, a
    wrong number of operands, or a division by zero. *)
Inductive op_meaning : string -> list val -> val -> Prop :=
| om_eq x y : op_meaning "=" [VN x; VN y] (VB (qeq x y))
| om_iff a b : op_meaning "=" [VB a; VB b] (VB (Bool.eqb a b))
| om_gt x y : op_meaning ">" [VN x; VN y] (VB (qlt y x))
| om_ge x y : op_meaning ">=" [VN x; VN y] (VB (qle y x))
| om_lt x y : op_meaning "<" [VN x; VN y] (VB (qlt x y))
| om_le x y : op_meaning "<=" [VN x; VN y] (VB (qle x y))
| om_imp a b : op_meaning "=>" [VB a; VB b] (VB (implb a b))
| om_plus q qs : op_meaning "+" (map VN (q :: qs)) (VN (qsum (q :: qs)))
| om_minus x y : op_meaning "-" [VN x; VN y] (VN (x - y))
| om_neg x : op_meaning "-" [VN x] (VN (- x))
| om_times q qs : op_meaning "*" (map VN (q :: qs)) (VN (qprod (q :: qs)))
| om_div x y : y <> 0%Qc -> op_meaning "/" [VN x; VN y] (VN (x / y))
| om_and b bs : op_meaning "and" (map VB (b :: bs)) (VB (forallb id (b :: bs)))
| om_or b bs : op_meaning "or" (map VB (b :: bs)) (VB (existsb id (b :: bs)))
| om_not b : op_meaning "not" [VB b] (VB (negb b))
| om_ite_num (c : bool) x y : op_meaning "ite" [VB c; VN x; VN y] (VN (if c then x else y))
| om_ite_bool (c : bool) a b :
    op_meaning "ite" [VB c; VB a; VB b] (VB (if c then a else b)).

(** [meaning sg e t v]: under the assignment [e] the term [t] over the declared names
    [sg] has the value [v].  A term without a value is ill typed (or divides by
    zero, or is outside the fragment). *)
Inductive meaning (sg : list (string * skind)) (e : env) : sterm -> val -> Prop :=
| m_num z : meaning sg e (TNum z) (VN (qz z))
| m_dec q : meaning sg e (TDec q) (VN q)
| m_true : meaning sg e (TId "true") (VB true)
| m_false : meaning sg e (TId "false") (VB false)
| m_bool x : x <> "true"%string -> x <> "false"%string -> (x, KBool) ∈ sg ->
    meaning sg e (TId x) (VB (eb e x))
| m_number x : x <> "true"%string -> x <> "false"%string -> (x, KNum) ∈ sg ->
    meaning sg e (TId x) (VN (er e x))
| m_app op args vs v :
    Forall2 (meaning sg e) args vs -> op_meaning op vs v -> meaning sg e (TApp op args) v.

(** The names declared by a file, in order. *)
Definition kind_of_sort (sort : string) : skind :=
  if decide (sort = "Bool"%string) then KBool else KNum.
Definition declares (c : command) : list (string * skind) :=
  match c with
  | CDeclareConst x sort | CDeclareFun x _ sort => [(x, kind_of_sort sort)]
  | _ => []
  end.
Definition signature (domA : list string) (domX : list (string * ty))
    (cs : list command) : list (string * skind) :=
  map (fun x => (x, KBool)) domA ++ map (fun '(x, _) => (x, KNum)) domX
  ++ concat (map declares cs).

(** The terms asserted, given as weight, and asked by a file, in order. *)
Definition asserted (cs : list command) : list sterm :=
  concat (map (fun c => match c with CAssert t => [t] | _ => [] end) cs).
Definition weights (cs : list command) : list sterm :=
  concat (map (fun c => match c with CWeight t => [t] | _ => [] end) cs).
Definition queried (cs : list command) : list sterm :=
  concat (map (fun c => match c with CQuery t => [t] | _ => [] end) cs).

(** Every decimal in the term is a floating-point number. *)
Fixpoint exact_decimals (fl : Qc -> Qc) (t : sterm) : Prop :=
  match t with
  | TDec q => fl q = q
  | TApp _ args =>
      (fix all (l : list sterm) : Prop :=
         match l with [] => True | t :: l => exact_decimals fl t /\ all l end) args
  | _ => True
  end.

(** The term uses no binary constant, and +, *, and, or always have two operands or
    more: those operators are accepted with one operand of any type. *)
Fixpoint regular (t : sterm) : Prop :=
  match t with
  | TBin _ => False
  | TApp op args =>
      (op ∈ ["+"; "*"; "and"; "or"]%string -> (2 <= length args)%nat) /\
      (fix all (l : list sterm) : Prop :=
         match l with [] => True | t :: l => regular t /\ all l end) args
  | _ => True
  end.

(** The symbols declared by a file: booleans, and numbers with their type. *)
Definition declared_bools (cs : list command) : list fm :=
  concat (map (fun c => match c with
    | CDeclareConst x sort | CDeclareFun x _ sort =>
        if decide (sort = "Bool"%string) then [Sym x TBool] else []
    | _ => [] end) cs).
Definition declared_numbers (cs : list command) : list fm :=
  concat (map (fun c => match c with
    | CDeclareConst x sort | CDeclareFun x _ sort =>
        if decide (sort = "Bool"%string) then []
        else [Sym x (if decide (sort = "Int"%string) then TInt else TReal)]
    | _ => [] end) cs).

(** Terms whose arithmetic operators have at most two operands and whose divisors are
    written as constants: for these acceptance does not depend on what was read
    before. *)
Definition literal (t : sterm) : Prop :=
  match t with TNum _ | TDec _ => True | _ => False end.
Fixpoint pairwise (t : sterm) : Prop :=
  match t with
  | TApp op args =>
      (op ∈ ["+"; "*"]%string -> length args = 2%nat) /\
      (op = "/"%string -> match args with [_; d] => literal d | _ => True end) /\
      (fix all (l : list sterm) : Prop :=
         match l with [] => True | t :: l => pairwise t /\ all l end) args
  | _ => True
  end.

(** A file of declarations, well-typed boolean assertions and boolean queries, over
    the names declared so far ([sg]). *)
Fixpoint well_typed_file (fl : Qc -> Qc) (sg : list (string * skind)) (cs : list command) : Prop :=
  match cs with
  | [] => True
  | c :: cs =>
      match c with
      | CDeclareConst x sort | CDeclareFun x 0 sort =>
          x ∉ map fst sg /\ x ∉ unsupported_symbols /\ x <> "true"%string /\ x <> "false"%string /\
          sort ∈ ["Int"; "Real"; "Bool"]%string
      | CAssert t | CQuery t =>
          pairwise t /\ exact_decimals fl t /\ exists e b, meaning sg e t (VB b)
      | _ => False
      end /\ well_typed_file fl (sg ++ declares c) cs
  end.
