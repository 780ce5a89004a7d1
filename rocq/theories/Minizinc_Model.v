(** Model of the MiniZinc importer: pywmi/parser/minizinc/visitor.py and
    pywmi/parser/minizinc/minizincParser.py.

    The model starts from the parse tree: the lexer and the parser are generated by
    ANTLR from minizinc.g4 and are not modelled.  Visiting an expression has no effect
    on the visitor, and the dictionaries _cast changes in place are always new ones
    (visitor.py:520, 530, 629), so they are plain records here.  pysmt's table of symbols is
    not modelled. *)

From Verif Require Import Base Smt Dict Smtlib_Model.

(** * Parse trees *)

(** minizinc.g4:122-130.  [OOther] is any operator answered with "Operation not
    supported". *)
Inductive mop :=
| ODiv | OMult | OMinus | OPlus | ONq | OEq | OGe | OLe | OGt | OLt
| OAnd | OXor | OOr | ORimpl | OImpl | OEquiv | OOther.
Inductive muop := UNot | UPlus | UMinus.

(** minizinc.g4:122-163, rules expr, expr_atom, num_expr.  [MInt] carries the integer
    its digits denote.  [MIf] has the expressions of
    if-then-elseif-then-else in the order written (an odd number, at least three).
    [MFloat] carries the exact number its digits denote.  [MTail] is an expression
    followed by an array access or an annotation, [MOther] one of the atoms answered
    with an error (string, set, array, let, call, _). *)
Inductive mexpr :=
| MBin (op : mop) (l r : mexpr)
| MUn (op : muop) (a : mexpr)
| MId (x : string)
| MBool (b : bool)
| MInt (z : Z)
| MFloat (q : Qc)
| MIf (es : list mexpr)
| MTail (a : mexpr)
| MOther.

(** minizinc.g4:96-102.  [TyName] is an identifier used as a type, [TyOther] any of the
    types answered with "Type not supported". *)
Inductive mtype := TyBool | TyInt | TyFloat | TyString | TyName (x : string) | TyRange (lo hi : mexpr) | TyOther.

(** minizinc.g4:23-71, rule item.  [IVar var ty x annotated e]: a declaration, of a
    decision variable if [var]. *)
Inductive item :=
| IVar (var : bool) (ty : mtype) (x : string) (annotated : bool) (e : option mexpr)
| IAssign (x : string) (e : mexpr)
| IConstraint (e : mexpr)
| IWeight (e : mexpr)
| IQuery (e : mexpr)
| IInclude (file : string)
| IOther.

(** * Expressions *)

(** {"value", "type", "var"} of an expression and of an entry of self.variables. *)
Record mval := MV { m_value : fm; m_type : stag; m_var : bool }.
Record mentry := ME { e_value : option fm; e_type : stag; e_var : bool }.

(** visitor.py:35-46 _cast; None when it returns False. *)
Definition mcast (a b : mval) : Res (option (mval * mval)) :=
  if decide (m_type a = m_type b) then Ok (Some (a, b))
  else match m_type a, m_type b with
  | GFloat, GInt | GInt, GFloat =>
      let! va := to_real (m_value a) in
      let! vb := to_real (m_value b) in
      Ok (Some (MV va GFloat (m_var a), MV vb GFloat (m_var b)))
  | _, _ => Ok None
  end.

(** visitor.py:411-488, what follows the cast in visitExpr. *)
Definition bin_value (op : mop) (l r : mval) : Res mval :=
  let f := m_value l in
  let g := m_value r in
  let var := m_var l || m_var r in
  let bool_ (h : fm) := let! v := chk h in Ok (MV v GBool var) in
  match op with
  | OOther => Err ParsingError
  | ODiv => let! x := to_real f in let! y := to_real g in let! v := mkDiv x y in Ok (MV v GFloat var)
  | OMult => let! v := chk (TimesN [f; g]) in Ok (MV v (m_type l) var)
  | OMinus => let! v := chk (MinusN f g) in Ok (MV v (m_type l) var)
  | OPlus => let! v := chk (PlusN [f; g]) in Ok (MV v (m_type l) var)
  | ONq => let! v := chk (EqN f g) in bool_ (mkNot v)
  | OEq => bool_ (IffN f g)
  | OGe => bool_ (mkGE f g)
  | OLe => bool_ (LeN f g)
  | OGt => bool_ (mkGT f g)
  | OLt => bool_ (LtN f g)
  | OAnd => bool_ (mkAnd [f; g])
  | OXor => let! v := chk (IffN f g) in bool_ (mkNot v)
  | OOr => bool_ (mkOr [f; g])
  | ORimpl => bool_ (ImpN g f)
  | OImpl => bool_ (ImpN f g)
  | OEquiv => bool_ (IffN f g)
  end.

(** visitor.py:501-520, unary operators. *)
Definition un_value (op : muop) (a : mval) : Res mval :=
  match op, m_type a with
  | UPlus, _ => Ok a
  | UNot, GBool => let! v := chk (mkNot (m_value a)) in Ok (MV v GBool (m_var a))
  | UMinus, GFloat => let! v := chk (TimesN [m_value a; RealC (- (1))]) in Ok (MV v GFloat (m_var a))
  | UMinus, GInt => let! v := chk (TimesN [m_value a; IntC (-1)]) in Ok (MV v GInt (m_var a))
  | _, _ => Err ParsingError
  end.

(** visitor.py:754-766, 773-786, one conditional from visited parts. *)
Definition one_ite (c t e : mval) : Res mval :=
  if decide (m_type c = GBool) then
    let! te := mcast t e in
    match te with
    | None => Err ParsingError
    | Some (t, e) =>
        let! v := chk (IteN (m_value c) (m_value t) (m_value e)) in
        Ok (MV v (m_type t) (m_var c || m_var t || m_var e))
    end
  else Err ParsingError.

(** visitor.py:768-789, the loop: [l] lists what is before the last conditional, from
    the end. *)
Fixpoint ite_loop (l : list (Res mval)) (ite : mval) : Res mval :=
  match l with
  | t :: c :: l => let! t := t in let! c := c in let! i := one_ite c t ite in ite_loop l i
  | [] => Ok ite
  | [_] => Err ParsingError
  end.
Definition ite_value (l : list (Res mval)) : Res mval :=
  match rev l with
  | e :: t :: c :: l => let! c := c in let! t := t in let! e := e in let! i := one_ite c t e in ite_loop l i
  | _ => Err ParsingError
  end.

Section Visitor.
  (** float(text) of a decimal. *)
  Variable fl : Qc -> Qc.

  (** visitor.py:400-566 visitExpr, visitExpr_atom, visitExpr_atom_head, visitExpr_atom_tail *)
  Fixpoint visit (vars : list (string * mentry)) (t : mexpr) {struct t} : Res mval :=
    match t with
    | MBin op l r =>
        let! l := visit vars l in
        let! r := visit vars r in
        let! lr := mcast l r in
        match lr with None => Err ParsingError | Some (l, r) => bin_value op l r end
    | MUn op a => let! a := visit vars a in un_value op a
    | MId x =>
        match dget vars x with
        | None => Err ParsingError
        | Some en => match e_value en with
                     | None => Err ParsingError
                     | Some f => Ok (MV f (e_type en) (e_var en))
                     end
        end
    | MBool b => Ok (MV (BoolC b) GBool false)
    | MInt z => Ok (MV (IntC z) GInt false)
    | MFloat q => Ok (MV (RealC (fl q)) GFloat false)
    | MIf es => ite_value (map (visit vars) es)
    | MTail a => let! _ := visit vars a in Err ParsingError
    | MOther => Err ParsingError
    end.

  (** visitor.py:570-651 visitNum_expr, visitNum_expr_atom, visitNum_expr_atom_head: the
      endpoints of an interval.  Other operators and literals are excluded by the
      grammar. *)
  Fixpoint visit_num (vars : list (string * mentry)) (t : mexpr) {struct t} : Res mval :=
    match t with
    | MBin op l r =>
        let! l := visit_num vars l in
        let! r := visit_num vars r in
        let! lr := mcast l r in
        match lr with
        | None => Err ParsingError
        | Some (l, r) =>
            match op with
            | ODiv | OMult | OMinus | OPlus => bin_value op l r
            | _ => Err ParsingError
            end
        end
    | MUn op a => let! a := visit_num vars a in match op with UNot => Err ParsingError | _ => un_value op a end
    | MId _ | MInt _ | MFloat _ | MIf _ | MTail _ => visit vars t
    | MBool _ | MOther => Err ParsingError
    end.

  (** * Items *)

  (** The fields of a Visitor (visitor.py:21-26).  [ms_reals] is the dictionary from
      symbols to [lower, upper]. *)
  Record mstate := MS {
    ms_vars : list (string * mentry);
    ms_bools : list fm;
    ms_reals : list (fm * (option Qc * option Qc));
    ms_support : list fm;
    ms_weight : option fm;
    ms_queries : list fm }.

  (** pysmt's simplify. *)
  Variable simp : fm -> fm.

  (** [constant_value()] of a node.  For a node that is not a number pysmt returns
      whatever payload it has; the model reports a failure (simplification). *)
  Definition constant_value (f : fm) : Res Qc :=
    match f with RealC q => Ok q | IntC z => Ok (qz z) | _ => Err RuntimeErr end.

  (** visitor.py:311-329 visitBase_ti_expr, 341-351 visitBase_type and 355-381 visitBase_ti_expr_tail: the type,
      and the endpoints of an interval.  A name used as a type yields a string, which
      is then indexed: TypeError. *)
  Definition visit_type (s : mstate) (var : bool) (ty : mtype) : Res (stag * option (fm * fm)) :=
    match ty with
    | TyBool => Ok (GBool, None)
    | TyInt => Ok (GInt, None)
    | TyFloat => Ok (GFloat, None)
    | TyString => Err ParsingError
    | TyName _ => Err TypeError
    | TyRange lo hi =>
        let! a := visit_num (ms_vars s) lo in
        let! b := visit_num (ms_vars s) hi in
        let! ab := mcast a b in
        match ab with
        | None => Err ParsingError
        | Some (a, b) =>
            if decide (m_type a = GBool) then Err ParsingError
            else if var then Ok (m_type a, Some (m_value a, m_value b)) else Err ParsingError
        end
    | TyOther => Err ParsingError
    end.

  (** visitor.py:134-146 and 207-218: the expression given to a variable of type [g]. *)
  Definition fits (var : bool) (g : stag) (x : mval) : Res fm :=
    if negb var && m_var x then Err ParsingError
    else if decide (g = m_type x) then Ok (m_value x)
    else match g, m_type x with
         | GFloat, GInt => to_real (m_value x)
         | _, _ => Err ParsingError
         end.

  Definition sort_of (g : stag) : ty := match g with GBool => TBool | GInt => TInt | GFloat => TReal end.

  (** visitor.py:88-93 visitTi_expr_and_id, 118-182 visitVar_decl_item *)
  Definition visit_decl (s : mstate) (var : bool) (ty : mtype) (x : string) (annotated : bool) (e : option mexpr) : Res mstate :=
    let! gr := visit_type s var ty in
    let g := fst gr in
    if annotated then Err ParsingError
    else match dget (ms_vars s) x with
    | Some _ => Err ParsingError
    | None =>
        let! v := match e with
                  | None => Ok None
                  | Some e => let! a := visit (ms_vars s) e in let! f := fits var g a in Ok (Some f)
                  end in
        if var then
          let y := Sym x (sort_of g) in
          let vars := dset (ms_vars s) x (ME (Some y) g true) in
          let bools := match g with GBool => ms_bools s ++ [y] | _ => ms_bools s end in
          let reals := match g with GBool => ms_reals s | _ => dset (ms_reals s) y (None, None) end in
          let! reals := match snd gr with
                        | None => Ok reals
                        | Some (lo, hi) =>
                            let! a := constant_value (simp lo) in
                            let! b := constant_value (simp hi) in
                            Ok (dset reals y (Some a, Some b))
                        end in
          let! support := match v with
                          | None => Ok (ms_support s)
                          | Some f => let! q := chk (mkEqOrIff y f) in Ok (ms_support s ++ [q])
                          end in
          Ok (MS vars bools reals support (ms_weight s) (ms_queries s))
        else
          Ok (MS (dset (ms_vars s) x (ME (option_map simp v) g false)) (ms_bools s) (ms_reals s) (ms_support s)
                 (ms_weight s) (ms_queries s))
    end.

  (** visitor.py:196-225 visitAssign_item.  A decision variable always has a value (its
      symbol), so line 223, which uses an undefined name, is not reached. *)
  Definition visit_assign (s : mstate) (x : string) (e : mexpr) : Res mstate :=
    let! a := visit (ms_vars s) e in
    match dget (ms_vars s) x with
    | None => Err ParsingError
    | Some en =>
        match e_value en with
        | Some _ => Err ParsingError
        | None =>
            let! f := fits (e_var en) (e_type en) a in
            Ok (MS (dset (ms_vars s) x (ME (Some (simp f)) (e_type en) (e_var en))) (ms_bools s) (ms_reals s) (ms_support s)
                   (ms_weight s) (ms_queries s))
        end
    end.

  (** visitor.py:229-234 visitConstraint_item, 268-281 visitWeight_item, 285-292
      visitQuery_item *)
  Definition visit_constraint (s : mstate) (e : mexpr) : Res mstate :=
    let! a := visit (ms_vars s) e in
    if decide (m_type a = GBool) then
      Ok (MS (ms_vars s) (ms_bools s) (ms_reals s) (ms_support s ++ [m_value a]) (ms_weight s) (ms_queries s))
    else Err ParsingError.
  Definition visit_weight (s : mstate) (e : mexpr) : Res mstate :=
    let! a := visit (ms_vars s) e in
    match ms_weight s with
    | Some _ => Err ParsingError
    | None =>
        let! f := match m_type a with
                  | GFloat => Ok (m_value a)
                  | GInt => to_real (m_value a)
                  | GBool => Err ParsingError
                  end in
        Ok (MS (ms_vars s) (ms_bools s) (ms_reals s) (ms_support s) (Some f) (ms_queries s))
    end.
  Definition visit_query (s : mstate) (e : mexpr) : Res mstate :=
    let! a := visit (ms_vars s) e in
    if decide (m_type a = GBool) then
      Ok (MS (ms_vars s) (ms_bools s) (ms_reals s) (ms_support s) (ms_weight s) (ms_queries s ++ [m_value a]))
    else Err ParsingError.

  (** visitor.py:14-32 Visitor.__init__: the variables known in advance; numbers count as
      float whatever their type.  [domA], [domX] and their contents are shared with the
      caller. *)
  Definition sym_name (f : fm) : string := match f with Sym x _ => x | _ => "" end.
  Definition minit (domA : list fm) (domX : list (fm * (option Qc * option Qc))) (weight : option fm) : mstate :=
    let vars := fold_left (fun d b => dset d (sym_name b) (ME (Some b) GBool true)) domA [] in
    let vars := fold_left (fun d r => dset d (sym_name (fst r)) (ME (Some (fst r)) GFloat true)) domX vars in
    MS vars domA domX [] weight [].

  (** visitor.py:69-79 visitMinizinc, after the items: support and weight, simplified. *)
  Definition finish (s : mstate) : Res (fm * fm) :=
    let! sup := chk (mkAnd (ms_support s)) in
    Ok (simp sup, simp (match ms_weight s with None => RealC 1 | Some w => w end)).

  (** visitor.py:97-114 visitInclude_item, given the state and result of the nested
      visitor.  The nested visitor works on the same lists of variables. *)
  Definition include_result (s t : mstate) (r : fm * fm) : mstate :=
    MS (ms_vars t) (ms_bools t) (ms_reals t) (ms_support s ++ [fst r])
       (if decide (snd r = RealC 1) then ms_weight s else Some (snd r)) (ms_queries s ++ ms_queries t).

  (** The files by their path (relative paths are taken as resolved).  [fuel] bounds the
      nesting of includes; a file that includes itself exhausts Python's stack. *)
  Variable files : string -> option (list item).

  Fixpoint visit_items (fuel : nat) (s : mstate) (its : list item) {struct fuel} : Res mstate :=
    match fuel with
    | 0 => Err OutOfFuel
    | S fuel =>
        fold_left (fun r it => let! s := r in
          match it with
          | IVar var ty x ann e => visit_decl s var ty x ann e
          | IAssign x e => visit_assign s x e
          | IConstraint e => visit_constraint s e
          | IWeight e => visit_weight s e
          | IQuery e => visit_query s e
          | IInclude f =>
              match files f with
              | None => Err FileNotFoundErr
              | Some its =>
                  let! t := visit_items fuel (minit (ms_bools s) (ms_reals s) (ms_weight s)) its in
                  let! r := finish t in Ok (include_result s t r)
              end
          | IOther => Err ParsingError
          end) its (Ok s)
    end.

  (** What MinizincParser.parse returns (minizincParser.py:13-35), without the table of
      variables. *)
  Record mimported := MI {
    mi_support : fm; mi_weight : fm; mi_bools : list fm; mi_reals : list (fm * (option Qc * option Qc)); mi_queries : list fm }.
  Definition parse_minizinc (fuel : nat) (its : list item) : Res mimported :=
    let! s := visit_items fuel (minit [] [] None) its in
    let! r := finish s in
    Ok (MI (fst r) (snd r) (ms_bools s) (ms_reals s) (ms_queries s)).
End Visitor.
