(** Model of the SMT-LIB importer: pywmi/parser/smtlib/visitor.py and
    pywmi/parser/smtlib/smtlibParser.py.

    The model starts from the parse tree: the lexer and the parser are generated by
    ANTLR from smtlib.g4 and are not modelled.  Everything the visitor does with the
    tree is: the dictionaries ({'value', 'type', 'obj'}) it passes around are objects
    with an identity, because [_cast] changes them in place and a declared variable
    always yields the same dictionary.  The entry 'var' of those dictionaries is never
    read in a way that has an effect and is left out. *)

From Verif Require Import Base Smt Dict.

(** * Parse trees *)

(** smtlib.g4, rule term.  [TNum]: a numeral or a hexadecimal constant, by its value;
    [TDec]: a decimal, by the exact number its digits denote; [TBin]: a token of the
    rule Binary (zeros and ones, first digit 0), by its digits; [TId]: a simple symbol;
    [TQuoted]: a symbol between bars; [TApp]: an operator applied to terms (the
    grammar asks for at least one); [TQuotedApp]: the same with a quoted operator;
    [TUnsupported]: a string, a let, forall, exists, match or annotated term, and
    identifiers of the forms (_ ...) and (as ...). *)
Inductive sterm :=
| TNum (z : Z)
| TDec (q : Qc)
| TBin (digits : list bool)
| TId (x : string)
| TQuoted (x : string)
| TApp (op : string) (args : list sterm)
| TQuotedApp (op : string) (args : list sterm)
| TUnsupported.

(** smtlib.g4, rule command.  A sort is given by its name.  [CDeclareFun] carries the
    number of argument sorts; [COther] is any of the commands that the visitor answers
    with "Operation not supported". *)
Inductive command :=
| CAssert (t : sterm)
| CDeclareConst (x : string) (sort : string)
| CDeclareFun (x : string) (arity : nat) (sort : string)
| CWeight (t : sterm)
| CQuery (t : sterm)
| COther.

(** * The visitor's state *)

(** The entry 'type' of a dictionary: 'bool', 'int' or 'float'. *)
Inductive stag := GBool | GInt | GFloat.
Global Instance stag_eq_dec : EqDecision stag.
Proof. solve_decision. Defined.

Record obj := Obj { o_value : fm; o_type : stag }.

(** visitor.py:13-30, the fields of a Visitor.  The dictionaries live in [v_heap],
    their identity is their position. *)
Record vstate := VS {
  v_heap : list obj;
  v_vars : list (string * nat);
  v_bools : list fm;
  v_reals : list fm;
  v_support : list fm;
  v_weight : option fm;
  v_queries : list fm }.

Definition set_heap (s : vstate) (h : list obj) : vstate :=
  VS h (v_vars s) (v_bools s) (v_reals s) (v_support s) (v_weight s) (v_queries s).

(** A new dictionary. *)
Definition valloc (s : vstate) (o : obj) : vstate * nat :=
  (set_heap s (v_heap s ++ [o]), length (v_heap s)).

(** Reading a dictionary; every identity handed out exists. *)
Definition vget (s : vstate) (a : nat) : Res obj :=
  match v_heap s !! a with Some o => Ok o | None => Err KeyError end.

(** Changing a dictionary. *)
Definition vset (s : vstate) (a : nat) (o : obj) : vstate :=
  set_heap s (<[a := o]> (v_heap s)).

(** pysmt's ToReal: constants are converted, real terms returned as they are. *)
Definition to_real (f : fm) : Res fm :=
  match typeof f with
  | Some TReal => Ok f
  | Some TInt => match f with IntC z => Ok (RealC (qz z)) | _ => Ok (ToRealN f) end
  | _ => Err PysmtTypeError
  end.

(** pysmt's Div: a constant divisor becomes a multiplication.  For another divisor
    pysmt builds a DIV node, which the formulas of this model do not have: the model
    reports it as a failure (simplification). *)
Definition mkDiv (f g : fm) : Res fm :=
  match g with
  | RealC q => if qeq q 0 then Err ZeroDivisionError else chk (TimesN [f; RealC (1 / q)])
  | _ => Err NotImplemented
  end.

(** pysmt's EqualsOrIff. *)
Definition mkEqOrIff (f g : fm) : fm :=
  match typeof f with Some TBool => IffN f g | _ => EqN f g end.

(** visitor.py:33-44, Visitor._cast. *)
Definition cast (s : vstate) (a b : nat) : Res (vstate * bool) :=
  let! oa := vget s a in
  let! ob := vget s b in
  if decide (o_type oa = o_type ob) then Ok (s, true)
  else match o_type oa, o_type ob with
  | GFloat, GInt | GInt, GFloat =>
      let! va := to_real (o_value oa) in
      let s1 := vset s a (Obj va (o_type oa)) in
      let! ob1 := vget s1 b in
      let! vb := to_real (o_value ob1) in
      let s2 := vset s1 b (Obj vb (o_type ob1)) in
      let! oa2 := vget s2 a in
      let s3 := vset s2 a (Obj (o_value oa2) GFloat) in
      let! ob3 := vget s3 b in
      Ok (vset s3 b (Obj (o_value ob3) GFloat), true)
  | _, _ => Ok (s, false)
  end.

(** What a symbol or a term gives back: a dictionary with 'obj' variable or expr, or
    one with 'obj' symbol. *)
Inductive vres := VExpr (a : nat) | VSymbol (x : string).

(** smtlib.g4, rule predefSymbol without not, Bool, true and false. *)
Definition unsupported_symbols : list string :=
  ["continued-execution"; "error"; "immediate-exit"; "incomplete"; "logic"; "memout";
   "sat"; "success"; "theory"; "unknown"; "unsupported"; "unsat"]%string.

(** visitor.py:89-94, 102-114, visitSimpleSymbol and visitPredefSymbol. *)
Definition visit_symbol (s : vstate) (x : string) : Res (vstate * vres) :=
  if decide (x = "true"%string) then
    let '(s1, a) := valloc s (Obj (BoolC true) GBool) in Ok (s1, VExpr a)
  else if decide (x = "false"%string) then
    let '(s1, a) := valloc s (Obj (BoolC false) GBool) in Ok (s1, VExpr a)
  else if decide (x ∈ unsupported_symbols) then Err ParsingError
  else Ok (s, VSymbol x).

(** visitor.py:246, same_type_op. *)
Definition same_type_op : list string :=
  ["="; ">"; ">="; "<"; "<="; "=>"; "+"; "-"; "*"; "/"; "and"; "or"]%string.

(** int(digits, 2) for a non-empty list of digits. *)
Definition bin_val (l : list bool) : Z :=
  fold_left (fun z (b : bool) => (2 * z + (if b then 1 else 0))%Z) l 0%Z.

(** visitor.py:268-377, the value and the type of an application other than ite, from
    the operands' dictionaries. *)
Definition app_value (op : string) (os : list obj) : Res (fm * stag) :=
  let vs := map o_value os in
  if decide (op = "="%string) then
    match vs with
    | [f; g] => let! v := chk (mkEqOrIff f g) in Ok (v, GBool)
    | _ => Err ParsingError
    end
  else if decide (op = ">"%string) then
    match vs with
    | [f; g] => let! v := chk (mkGT f g) in Ok (v, GBool)
    | _ => Err ParsingError
    end
  else if decide (op = ">="%string) then
    match vs with
    | [f; g] => let! v := chk (mkGE f g) in Ok (v, GBool)
    | _ => Err ParsingError
    end
  else if decide (op = "<"%string) then
    match vs with
    | [f; g] => let! v := chk (LtN f g) in Ok (v, GBool)
    | _ => Err ParsingError
    end
  else if decide (op = "<="%string) then
    match vs with
    | [f; g] => let! v := chk (LeN f g) in Ok (v, GBool)
    | _ => Err ParsingError
    end
  else if decide (op = "=>"%string) then
    match vs with
    | [f; g] => let! v := chk (ImpN f g) in Ok (v, GBool)
    | _ => Err ParsingError
    end
  else if decide (op = "+"%string) then
    let! f := mkPlus vs in
    let! v := chk f in
    match os with o :: _ => Ok (v, o_type o) | [] => Err IndexError end
  else if decide (op = "-"%string) then
    match os with
    | [o1; o2] => let! v := chk (MinusN (o_value o1) (o_value o2)) in Ok (v, o_type o1)
    | [o] =>
        match o_type o with
        | GInt => let! v := chk (TimesN [o_value o; IntC (-1)]) in Ok (v, GInt)
        | GFloat => let! v := chk (TimesN [o_value o; RealC (- (1))]) in Ok (v, GFloat)
        | GBool => Err ParsingError
        end
    | _ => Err ParsingError
    end
  else if decide (op = "*"%string) then
    let! f := mkTimes vs in
    let! v := chk f in
    match os with o :: _ => Ok (v, o_type o) | [] => Err IndexError end
  else if decide (op = "/"%string) then
    match vs with
    | [f; g] =>
        let! x := to_real f in
        let! y := to_real g in
        let! v := mkDiv x y in Ok (v, GFloat)
    | _ => Err ParsingError
    end
  else if decide (op = "and"%string) then
    let! v := chk (mkAnd vs) in Ok (v, GBool)
  else if decide (op = "or"%string) then
    let! v := chk (mkOr vs) in Ok (v, GBool)
  else if decide (op = "not"%string) then
    match vs with
    | [f] => let! v := chk (mkNot f) in Ok (v, GBool)
    | _ => Err ParsingError
    end
  else Err ParsingError.

(** visitor.py:378-392, ite: the branches are cast to each other before they are
    read. *)
Definition ite_value (s : vstate) (ts : list nat) : Res (vstate * (fm * stag)) :=
  match ts with
  | [c; t; e] =>
      let! oc := vget s c in
      if decide (o_type oc = GBool) then
        let! (s1, same) := cast s t e in
        if same : bool then
          let! oc := vget s1 c in
          let! ot := vget s1 t in
          let! oe := vget s1 e in
          let! v := chk (IteN (o_value oc) (o_value ot) (o_value oe)) in
          Ok (s1, (v, o_type ot))
        else Err ParsingError
      else Err ParsingError
  | _ => Err ParsingError
  end.

Section Visitor.
  (** float(text) of a decimal: the number [fl q] nearest to the one written. *)
  Variable fl : Qc -> Qc.

  (** visitor.py:253-267, the loop over the operands: each is visited, compared with
      the one before it ([last]; for an operator outside same_type_op [last] stays the
      first operand and is not compared), and collected. *)
  Definition operands (visit : vstate -> sterm -> Res (vstate * vres)) (op : string)
      : list sterm -> vstate -> option nat -> Res (vstate * list nat) :=
    fix go (l : list sterm) (s : vstate) (last : option nat) : Res (vstate * list nat) :=
      match l with
      | [] => Ok (s, [])
      | t :: l =>
          let! (s1, r) := visit s t in
          match r with
          | VSymbol _ => Err ParsingError
          | VExpr a =>
              let! (s2, last2) :=
                match last with
                | None => Ok (s1, a)
                | Some b =>
                    if decide (op ∈ same_type_op) then
                      let! (s2, same) := cast s1 b a in
                      if same : bool then Ok (s2, a) else Err ParsingError
                    else Ok (s1, b)
                end in
              let! (s3, rest) := go l s2 (Some last2) in
              Ok (s3, a :: rest)
          end
      end.

  (** visitor.py:241-399, visitTerm (with visitSpec_constant 172-183, visitNumeral,
      visitDecimal, visitHexadecimal, visitBinary 130-155 and visitQual_identifer
      216-220). *)
  Fixpoint visit_term (s : vstate) (t : sterm) {struct t} : Res (vstate * vres) :=
    match t with
    | TNum z => let '(s1, a) := valloc s (Obj (IntC z) GInt) in Ok (s1, VExpr a)
    | TDec q => let '(s1, a) := valloc s (Obj (RealC (fl q)) GFloat) in Ok (s1, VExpr a)
    | TBin ds =>
        match drop 2 ds with
        | [] => Err ValueError
        | ds => let '(s1, a) := valloc s (Obj (IntC (bin_val ds)) GInt) in Ok (s1, VExpr a)
        end
    | TId x =>
        let! (s1, r) := visit_symbol s x in
        match r with
        | VSymbol y =>
            match dget (v_vars s1) y with
            | Some a => Ok (s1, VExpr a)
            | None => Ok (s1, VSymbol y)
            end
        | VExpr a => Ok (s1, VExpr a)
        end
    | TQuoted _ => Err TypeError
    | TApp op args =>
        let! (s0, _) := visit_symbol s op in
        let! (s1, ts) := operands visit_term op args s0 None in
        if decide (op = "ite"%string) then
          let! (s2, (v, ty)) := ite_value s1 ts in
          let '(s3, a) := valloc s2 (Obj v ty) in Ok (s3, VExpr a)
        else
          let! os := rmapM (vget s1) ts in
          let! (v, ty) := app_value op os in
          let '(s2, a) := valloc s1 (Obj v ty) in Ok (s2, VExpr a)
    | TQuotedApp _ _ => Err TypeError
    | TUnsupported => Err ParsingError
    end.

  (** visitor.py:654-675 and 680-706: a declaration.  (A declaration of true or false
      passes a formula to pysmt's Symbol as the name; the model reports a
      TypeError.) *)
  Definition declare (s : vstate) (x : string) (sort : string) : Res vstate :=
    if decide (x ∈ unsupported_symbols) then Err ParsingError
    else if decide (x = "true"%string \/ x = "false"%string) then Err TypeError
    else match dget (v_vars s) x with
    | Some _ => Err ParsingError
    | None =>
        if decide (sort = "Int"%string) then
          let '(s1, a) := valloc s (Obj (Sym x TInt) GInt) in
          Ok (VS (v_heap s1) (dset (v_vars s1) x a) (v_bools s1)
                 (v_reals s1 ++ [Sym x TInt]) (v_support s1) (v_weight s1) (v_queries s1))
        else if decide (sort = "Real"%string) then
          let '(s1, a) := valloc s (Obj (Sym x TReal) GFloat) in
          Ok (VS (v_heap s1) (dset (v_vars s1) x a) (v_bools s1)
                 (v_reals s1 ++ [Sym x TReal]) (v_support s1) (v_weight s1) (v_queries s1))
        else if decide (sort = "Bool"%string) then
          let '(s1, a) := valloc s (Obj (Sym x TBool) GBool) in
          Ok (VS (v_heap s1) (dset (v_vars s1) x a) (v_bools s1 ++ [Sym x TBool])
                 (v_reals s1) (v_support s1) (v_weight s1) (v_queries s1))
        else Err ParsingError
    end.

  (** Reading term['type'] and term['value'] of a visited term: a bare symbol has
      neither. *)
  Definition expr_of (r : vres) : Res nat :=
    match r with VExpr a => Ok a | VSymbol _ => Err KeyError end.

  (** visitor.py:644-779, visitCommand. *)
  Definition visit_command (s : vstate) (c : command) : Res vstate :=
    match c with
    | CAssert t =>
        let! (s1, r) := visit_term s t in
        let! a := expr_of r in
        let! o := vget s1 a in
        if decide (o_type o = GBool) then
          Ok (VS (v_heap s1) (v_vars s1) (v_bools s1) (v_reals s1)
                 (v_support s1 ++ [o_value o]) (v_weight s1) (v_queries s1))
        else Err ParsingError
    | CDeclareConst x sort => declare s x sort
    | CDeclareFun x n sort =>
        if decide (x ∈ unsupported_symbols) then Err ParsingError
        else match dget (v_vars s) x with
        | Some _ => Err ParsingError
        | None => if decide (0 < n)%nat then Err ParsingError else declare s x sort
        end
    | CWeight t =>
        let! (s1, r) := visit_term s t in
        match v_weight s1 with
        | Some _ => Err ParsingError
        | None =>
            let! a := expr_of r in
            let! o := vget s1 a in
            let! s2 :=
              match o_type o with
              | GFloat => Ok s1
              | GInt => let! v := to_real (o_value o) in Ok (vset s1 a (Obj v (o_type o)))
              | GBool => Err AttributeError
              end in
            let! o := vget s2 a in
            Ok (VS (v_heap s2) (v_vars s2) (v_bools s2) (v_reals s2) (v_support s2)
                   (Some (o_value o)) (v_queries s2))
        end
    | CQuery t =>
        let! (s1, r) := visit_term s t in
        let! a := expr_of r in
        let! o := vget s1 a in
        let! s2 :=
          match o_type o with
          | GBool => Ok s1
          | GInt => let! v := to_real (o_value o) in Ok (vset s1 a (Obj v (o_type o)))
          | GFloat => Err AttributeError
          end in
        let! o := vget s2 a in
        Ok (VS (v_heap s2) (v_vars s2) (v_bools s2) (v_reals s2) (v_support s2)
               (v_weight s2) (v_queries s2 ++ [o_value o]))
    | COther => Err ParsingError
    end.

  (** The commands of a file, in order; the first exception ends the import. *)
  Fixpoint visit_commands (s : vstate) (cs : list command) : Res vstate :=
    match cs with
    | [] => Ok s
    | c :: cs => let! s1 := visit_command s c in visit_commands s1 cs
    end.

  (** visitor.py:13-30, Visitor.__init__: [domA] boolean and [domX] numeric symbols
      known in advance, by name (and type). *)
  Definition enter (s : vstate) (x : string) (o : obj) : vstate :=
    let '(s1, a) := valloc s o in
    VS (v_heap s1) (dset (v_vars s1) x a) (v_bools s1) (v_reals s1) (v_support s1)
       (v_weight s1) (v_queries s1).
  Definition vinit (domA : list string) (domX : list (string * ty)) : vstate :=
    let s0 := VS [] [] (map (fun x => Sym x TBool) domA)
                 (map (fun '(x, t) => Sym x t) domX) [] None [] in
    let s1 := fold_left (fun s x => enter s x (Obj (Sym x TBool) GBool)) domA s0 in
    fold_left (fun s '(x, t) => enter s x (Obj (Sym x t) GFloat)) domX s1.

  (** What SmtlibParser.parse returns: support, weight, boolean variables, real
      variables, queries.  (The two lists of variables become sets.) *)
  Record imported := Imported {
    i_support : fm; i_weight : fm; i_bools : list fm; i_reals : list fm; i_queries : list fm }.

  (** visitor.py:65-75, visitStart, and smtlibParser.py:13-36, SmtlibParser.parse.
      [simp] is pysmt's simplify. *)
  Definition parse (simp : fm -> fm) (domA : list string) (domX : list (string * ty))
      (cs : list command) : Res imported :=
    let! s := visit_commands (vinit domA domX) cs in
    let! sup := chk (mkAnd (v_support s)) in
    let w := match v_weight s with None => RealC 1 | Some w => w end in
    Ok (Imported (simp sup) (simp w) (v_bools s) (v_reals s) (v_queries s)).
End Visitor.
