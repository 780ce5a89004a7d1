(** Model of pywmi/parse.py: the nested text form of formulas.

    Characters are the 256 code points of [ascii]; code points above 255 are not
    represented.  Python strings are Coq [string]s. *)

From Verif Require Import Base Smt.

(** Characters at which [str.split()] splits (Python's [str.isspace], restricted
    to code points below 256): 9-13, 28-31, 32, 133, 160. *)
Definition is_ws (c : ascii) : bool :=
  let n := nat_of_ascii c in
  ((9 <=? n) && (n <=? 13)) || ((28 <=? n) && (n <=? 32)) || (n =? 133) || (n =? 160).

Definition lpar : ascii := "("%char.
Definition rpar : ascii := ")"%char.

Definition is_par (c : ascii) : bool := bool_decide (c = lpar) || bool_decide (c = rpar).

(** parse.py:25 [chars.replace('(', ' ( ').replace(')', ' ) ')]: the two
    replacements do not interfere, so they are done in one pass. *)
Fixpoint pad (s : string) : string :=
  match s with
  | EmptyString => EmptyString
  | String c r =>
      if is_par c then String " "%char (String c (String " "%char (pad r)))
      else String c (pad r)
  end.

(** [str.split()] with accumulator [cur] for the word being read. *)
Fixpoint split_go (cur : string) (s : string) : list string :=
  match s with
  | EmptyString => if decide (cur = EmptyString) then [] else [cur]
  | String c r =>
      if is_ws c then
        if decide (cur = EmptyString) then split_go EmptyString r
        else cur :: split_go EmptyString r
      else split_go (cur +:+ String c EmptyString) r
  end.

(** parse.py:23-25 tokenize *)
Definition tokenize (s : string) : list string := split_go EmptyString (pad s).

(** parse.py:7-13 class Node.  [name = None] until the first token is read. *)
Inductive node := Node (name : option string) (children : list node).

Definition node_name (n : node) : option string := let 'Node x _ := n in x.
Definition node_children (n : node) : list node := let 'Node _ c := n in c.

(** parse.py:28-50 tokenized_string_to_ast.  The Python stack holds references to
    nodes that are already attached to their parent; here a stack frame is the
    not yet finished node, and it is attached to its parent when it is popped (or
    at the end of input).  A node on the stack is the last child of the frame
    below it and that frame receives no other child meanwhile, so the resulting
    tree is the same.  [root] is the last root that was closed. *)
Definition frame : Type := option string * list node.

(** Attach all open frames to their parents. *)
Fixpoint close_all (n : node) (below : list frame) : node :=
  match below with
  | [] => n
  | (nm, ch) :: rest => close_all (Node nm (ch ++ [n])) rest
  end.

Definition final_root (stack : list frame) (root : option node) : option node :=
  match stack with
  | [] => root
  | (nm, ch) :: rest => Some (close_all (Node nm ch) rest)
  end.

Fixpoint machine (operators : option (list string)) (stack : list frame)
    (root : option node) (toks : list string) : Res (option node) :=
  match toks with
  | [] => Ok (final_root stack root)
  | t :: toks =>
      if decide (t = "(") then machine operators ((None, []) :: stack) root toks
      else if decide (t = ")") then
        match stack with
        | [] => Err IndexError                                  (* stack.pop() *)
        | [(nm, ch)] => machine operators [] (Some (Node nm ch)) toks
        | (nm, ch) :: (pnm, pch) :: rest =>
            machine operators ((pnm, pch ++ [Node nm ch]) :: rest) root toks
        end
      else
        match stack with
        | [] => Err AttributeError                    (* None.has_name() *)
        | (Some nm, ch) :: rest =>
            machine operators ((Some nm, ch ++ [Node (Some t) []]) :: rest) root toks
        | (None, ch) :: rest =>
            match operators with
            | Some ops =>
                if decide (t ∈ ops) then machine operators ((Some t, ch) :: rest) root toks
                else Err RuntimeErr                      (* "Disallowed token" *)
            | None => machine operators ((Some t, ch) :: rest) root toks
            end
        end
  end.

Definition tokenized_string_to_ast (operators : option (list string)) (toks : list string)
  : Res (option node) := machine operators [] None toks.

(** parse.py:19-20 string_to_ast *)
Definition string_to_ast (operators : option (list string)) (s : string) : Res (option node) :=
  tokenized_string_to_ast operators (tokenize s).

(** parse.py:62 SmtParser.operators *)
Definition smt_operators : list string :=
  ["ite"; "^"; "~"; "&"; "|"; "*"; "+"; "-"; "exp"; "<="; "<"; ">"; ">="; "->"; "=";
   "const"; "var"].

Section Parse.
  (** CPython's [float(str)]: the exact value read, [None] for ValueError (or for
      nan and infinities, which pysmt.Real rejects). *)
  Variable read_float : string -> option Qc.

  Definition chk_res (r : Res fm) : Res fm := rbind r chk.

  (** The children of the n-ary / fixed arity operators (parse.py:81-84). *)
  Definition arity (n : nat) (ch : list node) (k : Res fm) : Res fm :=
    if length ch =? n then k else Err GenericException.

  Definition apply1 (c : fm -> Res fm) (l : list fm) : Res fm :=
    match l with [a] => c a | _ => Err GenericException end.
  Definition apply2 (c : fm -> fm -> Res fm) (l : list fm) : Res fm :=
    match l with [a; b] => c a b | _ => Err GenericException end.
  Definition apply3 (c : fm -> fm -> fm -> Res fm) (l : list fm) : Res fm :=
    match l with [a; b; d] => c a b d | _ => Err GenericException end.

  (** parse.py:114-121: constants.  [bool(c_value)] is Python truthiness of the
      token: every non-empty string is true, [None] (a child "()") is false. *)
  Definition parse_const (names : list (option string)) : Res fm :=
    match names with
    | [ct; cv] =>
        if decide (ct = Some "bool") then
          Ok (BoolC (match cv with Some s => negb (bool_decide (s = "")) | None => false end))
        else if decide (ct = Some "real") then
          match cv with
          | Some s => match read_float s with Some q => Ok (RealC q) | None => Err ValueError end
          | None => Err TypeError
          end
        else Err GenericException
    | _ => Err ValueError                                  (* tuple unpacking *)
    end.

  (** parse.py:122-130: variables.  The per-process symbol table of pysmt (which
      rejects re-declaring a name with another type) is not modelled. *)
  Definition parse_var (names : list (option string)) : Res fm :=
    match names with
    | [vt; vn] =>
        let mk t := match vn with Some n => Ok (Sym n t) | None => Err TypeError end in
        if decide (vt = Some "bool") then mk TBool
        else if decide (vt = Some "real") then mk TReal
        else Err GenericException
    | _ => Err ValueError
    end.

  (** parse.py:76-132 SmtParser.ast_to_smt *)
  Fixpoint ast_to_smt (n : node) {struct n} : Res fm :=
    let 'Node name ch := n in
    let conv := rmapM ast_to_smt ch in
    match name with
    | None => Err RuntimeErr
    | Some op =>
        if decide (op = "ite") then
          arity 3 ch (let! l := conv in apply3 (fun c t e => chk (IteN c t e)) l)
        else if decide (op = "~") then
          arity 1 ch (let! l := conv in
                      apply1 (fun a => let! _ := chk (NotN a) in Ok (mkNot a)) l)
        else if decide (op = "^") then
          arity 2 ch (let! l := conv in apply2 (fun a b => chk_res (mkPow a b)) l)
        else if decide (op = "&") then let! l := conv in chk (mkAnd l)
        else if decide (op = "|") then let! l := conv in chk (mkOr l)
        else if decide (op = "*") then let! l := conv in chk_res (mkTimes l)
        else if decide (op = "+") then let! l := conv in chk_res (mkPlus l)
        else if decide (op = "-") then
          arity 2 ch (let! l := conv in apply2 (fun a b => chk (MinusN a b)) l)
        else if decide (op = "exp") then
          arity 1 ch (let! l := conv in apply1 (fun a => chk (ExpN a)) l)
        else if decide (op = "<=") then
          arity 2 ch (let! l := conv in apply2 (fun a b => chk (LeN a b)) l)
        else if decide (op = ">=") then
          arity 2 ch (let! l := conv in apply2 (fun a b => chk (mkGE a b)) l)
        else if decide (op = "<") then
          arity 2 ch (let! l := conv in apply2 (fun a b => chk (LtN a b)) l)
        else if decide (op = ">") then
          arity 2 ch (let! l := conv in apply2 (fun a b => chk (mkGT a b)) l)
        else if decide (op = "=") then
          arity 2 ch (let! l := conv in apply2 (fun a b => chk (EqN a b)) l)
        else if decide (op = "const") then parse_const (map node_name ch)
        else if decide (op = "var") then parse_var (map node_name ch)
        else Err RuntimeErr
    end.

  (** parse.py:53-54, 67-68 nested_to_smt *)
  Definition nested_to_smt (s : string) : Res fm :=
    let! r := string_to_ast (Some smt_operators) s in
    match r with
    | Some n => ast_to_smt n
    | None => Err AttributeError                           (* None.name *)
    end.

  (** parse.py:57-58, 70-74 combined_nested_to_wmi: the first child is the
      support, the remaining ones (under the same operator) the weight. *)
  Definition combined_nested_to_wmi (s : string) : Res (fm * fm) :=
    let! r := string_to_ast (Some smt_operators) s in
    match r with
    | Some (Node nm (c :: cs)) =>
        let! f := ast_to_smt c in
        let! w := ast_to_smt (Node nm cs) in
        Ok (f, w)
    | Some (Node nm []) => Err IndexError
    | None => Err AttributeError
    end.

  (** CPython's [float(Fraction)] ([None]: OverflowError) and the text
      [str.format] produces for that float; and for an int. *)
  Variable to_float : Qc -> option Qc.
  Variable show_float : Qc -> string.
  Variable show_int : Z -> string.

  Definition format_type (t : ty) : string :=
    match t with TReal => "real" | TInt => "int" | TBool => "bool" end.

  (** [" ".join(...)] *)
  Fixpoint join_sp (l : list string) : string :=
    match l with
    | [] => ""
    | [s] => s
    | s :: rest => s +:+ " " +:+ join_sp rest
    end.

  (** parse.py:146-147 convert_children *)
  Definition paren (op : string) (args : list string) : string :=
    "(" +:+ op +:+ " " +:+ join_sp args +:+ ")".

  (** parse.py:135-201 smt_to_nested.  The implication and equivalence cases
      recurse on [smt.Or(smt.Not(l), r)]; [pn] is the printed form of
      [smt.Not(l)], which pysmt simplifies when [l] is itself a negation. *)
  Fixpoint smt_to_nested (f : fm) {struct f} : Res string :=
    let pn (a : fm) : Res string :=
      match a with
      | NotN c => smt_to_nested c
      | _ => let! s := smt_to_nested a in Ok (paren "~" [s])
      end in
    let un op (a : fm) := let! s := smt_to_nested a in Ok (paren op [s]) in
    let bin op (a b : fm) :=
      let! s := smt_to_nested a in let! t := smt_to_nested b in Ok (paren op [s; t]) in
    match f with
    | AndN l => let! ss := rmapM smt_to_nested l in Ok (paren "&" ss)
    | OrN l => let! ss := rmapM smt_to_nested l in Ok (paren "|" ss)
    | ImpN a b =>
        let! na := pn a in let! sb := smt_to_nested b in Ok (paren "|" [na; sb])
    | IffN a b =>
        let! na := pn a in let! sb := smt_to_nested b in
        let! nb := pn b in let! sa := smt_to_nested a in
        Ok (paren "&" [paren "|" [na; sb]; paren "|" [nb; sa]])
    | NotN a => un "~" a
    | TimesN l => let! ss := rmapM smt_to_nested l in Ok (paren "*" ss)
    | PlusN l => let! ss := rmapM smt_to_nested l in Ok (paren "+" ss)
    | MinusN a b => bin "-" a b
    | ExpN a => un "exp" a
    | IteN c t e =>
        let! sc := smt_to_nested c in let! st := smt_to_nested t in
        let! se := smt_to_nested e in Ok (paren "ite" [sc; st; se])
    | PowN a b =>
        match const_val b with
        | Some q => if decide (q = 1%Qc) then smt_to_nested a else bin "^" a b
        | None => bin "^" a b
        end
    | LeN a b => bin "<=" a b
    | LtN a b => bin "<" a b
    | EqN a b => bin "=" a b
    | Sym n t => Ok ("(var " +:+ format_type t +:+ " " +:+ n +:+ ")")
    | BoolC b => Ok ("(const bool " +:+ (if b then "True" else "False") +:+ ")")
    | RealC q =>
        match to_float q with
        | Some r => Ok ("(const real " +:+ show_float r +:+ ")")
        | None => Err GenericException                       (* OverflowError *)
        end
    | IntC z => Ok ("(const int " +:+ show_int z +:+ ")")
    | ToRealN _ => Err RuntimeErr                            (* "Cannot convert" *)
    end.
End Parse.
