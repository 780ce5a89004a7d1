(** Vocabulary for the properties of the nested text form (C01, C02). *)

From Verif Require Import Base Smt Parse_Model.

(** * Texts of operator trees (independent of the parser) *)

(** An operator tree as written: a bare word, or "(op arg ... arg)". *)
Inductive tree := Leaf (w : string) | Op (op : string) (args : list tree).

(** The words of the text of a tree, in order. *)
Fixpoint words (t : tree) : list string :=
  match t with
  | Leaf w => [w]
  | Op op args => "(" :: op :: concat (map words args) ++ [")"]
  end.

(** The parse result one expects. *)
Fixpoint as_node (t : tree) : node :=
  match t with
  | Leaf w => Node (Some w) []
  | Op op args => Node (Some op) (map as_node args)
  end.

Fixpoint all_chars (p : ascii -> bool) (s : string) : bool :=
  match s with EmptyString => true | String c r => p c && all_chars p r end.

(** The characters below 256 Python regards as whitespace: tab to carriage return,
    the separators 28 to 31, the space, next line and the no-break space. *)
Definition whitespace (c : ascii) : bool :=
  bool_decide (nat_of_ascii c ∈ [9; 10; 11; 12; 13; 28; 29; 30; 31; 32; 133; 160]).

(** A word: non-empty, without whitespace and parentheses. *)
Definition clean (w : string) : bool :=
  negb (bool_decide (w = "")) && all_chars (fun c => negb (whitespace c) && negb (is_par c)) w.

(** Every word of the tree is a word and every operator is allowed. *)
Fixpoint tree_ok (ops : list string) (t : tree) : bool :=
  match t with
  | Leaf w => clean w
  | Op op args => clean op && bool_decide (op ∈ ops) && forallb (tree_ok ops) args
  end.

Definition starts_delim (s : string) : bool :=
  match s with EmptyString => true | String c _ => whitespace c || is_par c end.

(** [spaced ws s]: the text [s] consists of the words and parentheses [ws]
    separated by arbitrary whitespace; whitespace is only required between two
    words. *)
Inductive spaced : list string -> string -> Prop :=
| sp_nil w : all_chars whitespace w = true -> spaced [] w
| sp_par w p ts s : all_chars whitespace w = true -> is_par p = true -> spaced ts s ->
    spaced (String p EmptyString :: ts) (w +:+ String p EmptyString +:+ s)
| sp_word w a ts s : all_chars whitespace w = true -> clean a = true -> starts_delim s = true ->
    spaced ts s -> spaced (a :: ts) (w +:+ a +:+ s).

(** Number of opening minus closing parentheses in a list of words. *)
Definition depth (ws : list string) : Z :=
  fold_right (fun w d => if decide (w = "(") then d + 1 else if decide (w = ")") then d - 1 else d)%Z
    0%Z ws.

(** Number of arguments each operator takes; [None]: any number. *)
Definition arity_of (op : string) : option nat :=
  if bool_decide (op ∈ ["~"; "exp"]) then Some 1
  else if bool_decide (op ∈ ["^"; "-"; "<="; "<"; ">"; ">="; "="; "const"; "var"]) then Some 2
  else if bool_decide (op = "ite") then Some 3
  else None.

(** Somewhere in the tree an operator has the wrong number of arguments. *)
Inductive bad_arity : tree -> Prop :=
| ba_here op args n : arity_of op = Some n -> length args <> n -> bad_arity (Op op args)
| ba_arg op args t : op <> "const" -> op <> "var" -> t ∈ args -> bad_arity t ->
    bad_arity (Op op args).

(** * Which formulas can be written and what is actually stored *)

(** No integer symbols, constants or casts; all symbol names are words; every
    real constant is in range of the float type. *)
Fixpoint storable (to_float : Qc -> option Qc) (f : fm) : bool :=
  match f with
  | Sym n t => negb (bool_decide (t = TInt)) && clean n
  | BoolC _ => true
  | RealC q => match to_float q with Some _ => true | None => false end
  | IntC _ | ToRealN _ => false
  | AndN l | OrN l | PlusN l | TimesN l => forallb (storable to_float) l
  | NotN a | ExpN a => storable to_float a
  | ImpN a b | IffN a b | MinusN a b | PowN a b | LeN a b | LtN a b | EqN a b =>
      storable to_float a && storable to_float b
  | IteN c t e => storable to_float c && storable to_float t && storable to_float e
  end.

(** What reading back the text gives: every real constant rounded to a float, and
    every boolean constant TRUE (!). *)
Fixpoint stored (to_float : Qc -> option Qc) (f : fm) : fm :=
  match f with
  | Sym n t => Sym n t
  | BoolC _ => BoolC true
  | RealC q => RealC (default q (to_float q))
  | IntC z => IntC z
  | AndN l => AndN (map (stored to_float) l)
  | OrN l => OrN (map (stored to_float) l)
  | PlusN l => PlusN (map (stored to_float) l)
  | TimesN l => TimesN (map (stored to_float) l)
  | NotN a => NotN (stored to_float a)
  | ExpN a => ExpN (stored to_float a)
  | ToRealN a => ToRealN (stored to_float a)
  | ImpN a b => ImpN (stored to_float a) (stored to_float b)
  | IffN a b => IffN (stored to_float a) (stored to_float b)
  | MinusN a b => MinusN (stored to_float a) (stored to_float b)
  | PowN a b => PowN (stored to_float a) (stored to_float b)
  | LeN a b => LeN (stored to_float a) (stored to_float b)
  | LtN a b => LtN (stored to_float a) (stored to_float b)
  | EqN a b => EqN (stored to_float a) (stored to_float b)
  | IteN c t e => IteN (stored to_float c) (stored to_float t) (stored to_float e)
  end.

(** No FALSE constant, and every real constant is exactly a float. *)
Fixpoint exact_consts (to_float : Qc -> option Qc) (f : fm) : bool :=
  match f with
  | BoolC b => b
  | RealC q => bool_decide (to_float q = Some q)
  | Sym _ _ | IntC _ => true
  | AndN l | OrN l | PlusN l | TimesN l => forallb (exact_consts to_float) l
  | NotN a | ExpN a | ToRealN a => exact_consts to_float a
  | ImpN a b | IffN a b | MinusN a b | PowN a b | LeN a b | LtN a b | EqN a b =>
      exact_consts to_float a && exact_consts to_float b
  | IteN c t e => exact_consts to_float c && exact_consts to_float t && exact_consts to_float e
  end.

(** What is assumed of CPython's [float(Fraction)], [repr(float)] and
    [float(str)]: one is a float, rounding a float changes nothing, the printed
    form of a float is a word and reads back as that float. *)
Record float_ok (read : string -> option Qc) (to_float : Qc -> option Qc)
    (show : Qc -> string) : Prop := {
  fo_one : to_float 1%Qc = Some 1%Qc;
  fo_idem : forall q r, to_float q = Some r -> to_float r = Some r;
  fo_read : forall r, to_float r = Some r -> read (show r) = Some r;
  fo_show : forall r, to_float r = Some r -> clean (show r) = true
}.

(** Every binary float is a dyadic rational. *)
Definition dyadic (q : Qc) : Prop := exists (m : Z) (k : nat), (q * qpow (qz 2) k)%Qc = qz m.

(** * What a text means (independent of the parser and of pysmt's nodes)

    The value of an operator tree under an assignment: "&" is conjunction, "+" is
    a sum, ">=" is at least, and so on; [None] where the operator does not apply
    to the values (or is "exp", whose value is not rational).  [read] gives the
    number a word stands for.  "const bool" is only given a meaning for words that
    stand for true: see [C01_false_constant_refuted]. *)
Fixpoint tree_val (read : string -> option Qc) (e : env) (t : tree) : option val :=
  let num a := vnum (tree_val read e a) in
  let truth a := vbool (tree_val read e a) in
  match t with
  | Leaf _ => None
  | Op op l =>
      let two (k : Qc -> Qc -> option val) :=
        match l with [a; b] => x ← num a; y ← num b; k x y | _ => None end in
      if decide (op = "&") then (fun bs => VB (forallb id bs)) <$> mapM truth l
      else if decide (op = "|") then (fun bs => VB (existsb id bs)) <$> mapM truth l
      else if decide (op = "~") then
        match l with [a] => b ← truth a; Some (VB (negb b)) | _ => None end
      else if decide (op = "->") then
        match l with [a; b] => p ← truth a; q ← truth b; Some (VB (implb p q)) | _ => None end
      else if decide (op = "ite") then
        match l with
        | [c; a; b] => p ← truth c; x ← tree_val read e a; y ← tree_val read e b; vite p x y
        | _ => None
        end
      else if decide (op = "+") then (fun qs => VN (qsum qs)) <$> mapM num l
      else if decide (op = "*") then (fun qs => VN (qprod qs)) <$> mapM num l
      else if decide (op = "-") then two (fun x y => Some (VN (x - y)%Qc))
      else if decide (op = "^") then two (fun x y => n ← nat_of_qc y; Some (VN (qpow x n)))
      else if decide (op = "<=") then two (fun x y => Some (VB (qle x y)))
      else if decide (op = "<") then two (fun x y => Some (VB (qlt x y)))
      else if decide (op = ">=") then two (fun x y => Some (VB (qle y x)))
      else if decide (op = ">") then two (fun x y => Some (VB (qlt y x)))
      else if decide (op = "=") then two (fun x y => Some (VB (qeq x y)))
      else if decide (op = "const") then
        match l with
        | [Leaf k; Leaf w] =>
            if decide (k = "real") then VN <$> read w
            else if bool_decide (k = "bool") && bool_decide (w ∈ ["True"; "true"; "1"])
            then Some (VB true) else None
        | _ => None
        end
      else if decide (op = "var") then
        match l with
        | [Leaf k; Leaf x] =>
            if decide (k = "real") then Some (VN (er e x))
            else if decide (k = "bool") then Some (VB (eb e x)) else None
        | _ => None
        end
      else None
  end.
