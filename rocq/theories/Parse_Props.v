(** C01, C02: the nested text form (pywmi/parse.py). *)

From Verif Require Import Base Smt Parse_Model Parse_Spec Parse_Proofs.

(** * A concrete float type used in the examples: it has the two values 1.0 and
    2.5 only, printed as Python prints them. *)

Definition ex_to_float (q : Qc) : option Qc :=
  if decide (q = 1%Qc) then Some 1%Qc
  else if decide (q = Q2Qc (5 # 2)) then Some (Q2Qc (5 # 2)) else None.
Definition ex_show (q : Qc) : string := if decide (q = 1%Qc) then "1.0" else "2.5".
Definition ex_read (s : string) : option Qc :=
  if decide (s = "1.0") then Some 1%Qc
  else if decide (s = "2.5") then Some (Q2Qc (5 # 2)) else None.

Lemma ex_float_ok : float_ok ex_read ex_to_float ex_show.
Proof.
  split.
  - done.
  - intros q r. unfold ex_to_float. repeat destruct (decide _); naive_solver.
  - intros r. unfold ex_to_float, ex_show, ex_read.
    repeat destruct (decide (r = _)); intros; simplify_eq; done.
  - intros r. unfold ex_show. destruct (decide _); done.
Qed.

(** x <= 2.5 & (a -> ~b), and a weight ite(a, x^1, 2.5 * x). *)
Definition ex_formula : fm :=
  AndN [LeN (Sym "x" TReal) (RealC (Q2Qc (5 # 2)));
        ImpN (Sym "a" TBool) (NotN (Sym "b" TBool))].
Definition ex_weight : fm :=
  IteN (Sym "a" TBool) (PowN (Sym "x" TReal) (RealC 1%Qc))
    (TimesN [RealC (Q2Qc (5 # 2)); Sym "x" TReal]).

(** * C01 *)

(** Full claim: writing and reading back gives a formula with the same value
    under every assignment.  False for FALSE and for constants that are not
    floats (below); proved for every other formula. *)
Theorem C01_roundtrip_partial : forall read to_float show show_int f,
  float_ok read to_float show ->
  storable to_float f = true -> wf_fm f = true -> typeof f <> None ->
  exact_consts to_float f = true ->
  exists s f', smt_to_nested to_float show show_int f = Ok s /\
               nested_to_smt read s = Ok f' /\ typeof f' = typeof f /\ fequiv f' f.
Proof. exact roundtrip_exact. Qed.
Print Assumptions C01_roundtrip_partial.

Example C01_roundtrip_case1 :
  storable ex_to_float ex_formula = true /\ wf_fm ex_formula = true /\
  typeof ex_formula = Some TBool /\ exact_consts ex_to_float ex_formula = true /\
  smt_to_nested ex_to_float ex_show (fun _ => "") ex_formula =
    Ok "(& (<= (var real x) (const real 2.5)) (| (~ (var bool a)) (~ (var bool b))))".
Proof. by vm_compute. Qed.
Example C01_roundtrip_case2 :
  storable ex_to_float ex_weight = true /\ wf_fm ex_weight = true /\
  typeof ex_weight = Some TReal /\ exact_consts ex_to_float ex_weight = true /\
  smt_to_nested ex_to_float ex_show (fun _ => "") ex_weight =
    Ok "(ite (var bool a) (var real x) (* (const real 2.5) (var real x)))".
Proof. by vm_compute. Qed.

(** Without the restriction on constants: exactly what the read formula means
    ([stored] rounds every number to a float and turns FALSE into TRUE). *)
Theorem C01_roundtrip_characterised : forall read to_float show show_int,
  float_ok read to_float show -> forall f,
  storable to_float f = true -> wf_fm f = true -> typeof f <> None ->
  exists s f', smt_to_nested to_float show show_int f = Ok s /\
               nested_to_smt read s = Ok f' /\ typeof f' = typeof f /\
               fequiv f' (stored to_float f).
Proof. exact roundtrip. Qed.
Print Assumptions C01_roundtrip_characterised.

(** FALSE is read back as TRUE (parse.py:117 applies [bool] to a string). *)
Theorem C01_false_constant_refuted : forall read to_float show show_int,
  exists s, smt_to_nested to_float show show_int (BoolC false) = Ok s /\
            nested_to_smt read s = Ok (BoolC true).
Proof. exact false_reads_true. Qed.
Print Assumptions C01_false_constant_refuted.

(** A constant that is not a binary fraction, such as 1/3, changes. *)
Theorem C01_rounding_refuted : forall read to_float show show_int s f',
  float_ok read to_float show ->
  (forall q r, to_float q = Some r -> dyadic r) ->
  smt_to_nested to_float show show_int (RealC (Q2Qc (1 # 3))) = Ok s ->
  nested_to_smt read s = Ok f' -> ~ fequiv f' (RealC (Q2Qc (1 # 3))).
Proof. exact third_changes. Qed.
Print Assumptions C01_rounding_refuted.

(** A float type that rounds 1/3 to 1. *)
Example C01_rounding_case :
  let to_float q := if decide (q = Q2Qc (1 # 3)) then Some 1%Qc else ex_to_float q in
  float_ok ex_read to_float ex_show /\
  (forall q r, to_float q = Some r -> dyadic r) /\
  smt_to_nested to_float ex_show (fun _ => "") (RealC (Q2Qc (1 # 3))) = Ok "(const real 1.0)" /\
  nested_to_smt ex_read "(const real 1.0)" = Ok (RealC 1).
Proof.
  assert (Hd1 : dyadic 1%Qc) by (exists 1%Z, 0; done).
  assert (Hd2 : dyadic (Q2Qc (5 # 2))).
  { exists 5%Z, 1. by apply Qc_is_canon. }
  cbn zeta. split; [|split; [|split; by vm_compute]].
  - split.
    + done.
    + intros q r. unfold ex_to_float. repeat destruct (decide _); naive_solver.
    + intros r. unfold ex_to_float, ex_show, ex_read.
      destruct (decide (r = Q2Qc (1 # 3))) as [->|]; [done|].
      repeat destruct (decide (r = _)); intros; simplify_eq; done.
    + intros r. unfold ex_show. destruct (decide (r = 1%Qc)); done.
  - intros q r. unfold ex_to_float. repeat destruct (decide _); intros; simplify_eq; done.
Qed.

(** Integer variables can be written but not read. *)
Theorem C01_integer_refuted : forall read to_float show show_int,
  exists s e, smt_to_nested to_float show show_int (Sym "n" TInt) = Ok s /\
            nested_to_smt read s = Err e.
Proof. exact int_var_rejected. Qed.
Print Assumptions C01_integer_refuted.

(** * C02 *)

(** The text of a tree, with any whitespace, is parsed into that tree. *)
Theorem C02_parse_recovers_tree : forall ops op args s,
  tree_ok ops (Op op args) = true -> spaced (words (Op op args)) s ->
  string_to_ast (Some ops) s = Ok (Some (as_node (Op op args))).
Proof. exact parse_tree_text. Qed.
Print Assumptions C02_parse_recovers_tree.

Example C02_parse_case :
  tree_ok smt_operators (Op "&" [Op "var" [Leaf "bool"; Leaf "a"]; Op "const" [Leaf "bool"; Leaf "1"]]) = true /\
  spaced ["("; "~"; "a"; ")"] " (~  a ) ".
Proof.
  split; [by vm_compute|].
  apply (sp_par " " "("%char); [done|done|].
  apply (sp_word "" "~"); [done|by vm_compute|done|].
  apply (sp_word "  " "a"); [done|by vm_compute|done|].
  apply (sp_par " " ")"%char); [done|done|]. by apply sp_nil.
Qed.

(** A closing parenthesis without an open one is rejected. *)
Theorem C02_surplus_close_rejected : forall ops pre post,
  depth pre = 0%Z -> exists e, tokenized_string_to_ast ops (pre ++ ")" :: post) = Err e.
Proof. exact machine_surplus. Qed.
Print Assumptions C02_surplus_close_rejected.
Example C02_surplus_close_case : depth ["("; "~"; "a"; ")"] = 0%Z.
Proof. done. Qed.

(** A word outside every parenthesis is rejected. *)
Theorem C02_bare_token_rejected : forall ops pre w post,
  depth pre = 0%Z -> w <> "(" -> exists e, tokenized_string_to_ast ops (pre ++ w :: post) = Err e.
Proof. exact machine_bare. Qed.
Print Assumptions C02_bare_token_rejected.

(** An unknown operator is rejected. *)
Theorem C02_unknown_operator_rejected : forall ops pre w post,
  w <> "(" -> w <> ")" -> w ∉ ops ->
  exists e, tokenized_string_to_ast (Some ops) (pre ++ "(" :: w :: post) = Err e.
Proof. exact machine_unknown. Qed.
Print Assumptions C02_unknown_operator_rejected.
Example C02_unknown_operator_case : "xor" ∉ smt_operators /\ "xor" <> "(" /\ "xor" <> ")".
Proof. split; [|done]. apply (bool_decide_eq_true_1 _). by vm_compute. Qed.

(** A text in which some operator has the wrong number of arguments is rejected. *)
Theorem C02_wrong_arity_rejected : forall read op args s,
  tree_ok smt_operators (Op op args) = true -> spaced (words (Op op args)) s ->
  bad_arity (Op op args) -> exists e, nested_to_smt read s = Err e.
Proof. exact bad_arity_text. Qed.
Print Assumptions C02_wrong_arity_rejected.
Example C02_wrong_arity_case :
  bad_arity (Op "&" [Op "~" [Op "var" [Leaf "bool"; Leaf "a"]; Op "var" [Leaf "bool"; Leaf "b"]]]).
Proof. eapply ba_arg; [done|done|apply elem_of_list_here|]. by eapply ba_here. Qed.

(** A missing closing parenthesis, a second tree after the first one, and an
    operator after its arguments are all accepted without an error. *)
Theorem C02_malformed_accepted_refuted : forall read,
  nested_to_smt read "(~ (var bool a)" = Ok (NotN (Sym "a" TBool)) /\
  nested_to_smt read "(var bool a) (var bool b)" = Ok (Sym "b" TBool) /\
  nested_to_smt read "((var bool a) ~)" = Ok (NotN (Sym "a" TBool)).
Proof. intros read; split; [|split]; reflexivity. Qed.
Print Assumptions C02_malformed_accepted_refuted.

(** * C63 *)

(** Reading a text gives every operator its usual meaning: whenever the text of
    an operator tree is read as a formula, the formula has the value of the tree. *)
Theorem C63_operators_mean : forall read op l s f e v,
  tree_ok smt_operators (Op op l) = true -> spaced (words (Op op l)) s ->
  nested_to_smt read s = Ok f -> tree_val read e (Op op l) = Some v -> eval e f = Some v.
Proof. exact text_value. Qed.
Print Assumptions C63_operators_mean.

Example C63_operators_case :
  let x := Op "var" [Leaf "real"; Leaf "x"] in
  let a := Op "var" [Leaf "bool"; Leaf "a"] in
  let k := Op "const" [Leaf "real"; Leaf "2.5"] in
  let t := Op "&" [Op ">=" [x; k]; Op "|" [Op "~" [a]; Op "<" [k; Op "+" [x; x]]]] in
  let s := "(& (>= (var real x) (const real 2.5)) (| (~ (var bool a)) (< (const real 2.5) (+ (var real x) (var real x)))))" in
  tree_ok smt_operators t = true /\ tokenize s = words t /\
  (exists f, nested_to_smt ex_read s = Ok f) /\
  tree_val ex_read (Env (fun _ => true) (fun _ => qz 3)) t = Some (VB true) /\
  tree_val ex_read (Env (fun _ => true) (fun _ => qz 1)) t = Some (VB false).
Proof. cbn zeta. repeat split; try by vm_compute. eexists. by vm_compute. Qed.

(** The combined form "(op support part ... part)" holds the support and, under
    the same operator, the parts of the weight. *)
Theorem C63_combined_means : forall read op t l s f w e,
  tree_ok smt_operators (Op op (t :: l)) = true -> spaced (words (Op op (t :: l))) s ->
  combined_nested_to_wmi read s = Ok (f, w) ->
  (forall v, tree_val read e t = Some v -> eval e f = Some v) /\
  (forall v, tree_val read e (Op op l) = Some v -> eval e w = Some v).
Proof. exact combined_value. Qed.
Print Assumptions C63_combined_means.

Example C63_combined_case :
  let x := Op "var" [Leaf "real"; Leaf "x"] in
  let k := Op "const" [Leaf "real"; Leaf "2.5"] in
  let s := "(* (< (var real x) (const real 2.5)) (var real x) (const real 2.5))" in
  tokenize s = words (Op "*" [Op "<" [x; k]; x; k]) /\
  exists f w, combined_nested_to_wmi ex_read s = Ok (f, w) /\
    tree_val ex_read (Env (fun _ => true) (fun _ => qz 2)) (Op "*" [x; k]) = Some (VN (qz 5)).
Proof.
  cbn zeta. split; [by vm_compute|]. do 2 eexists. split; [by vm_compute|].
  vm_compute. do 2 f_equal. by apply Qc_is_canon.
Qed.

(** "->" is on the list of accepted operators, but no text using it is read
    (SmtParser.ast_to_smt has no case for it). *)
Theorem C63_implication_refuted : forall read l s,
  tree_ok smt_operators (Op "->" l) = true -> spaced (words (Op "->" l)) s ->
  exists e, nested_to_smt read s = Err e.
Proof.
  intros read l s Hok Hs. unfold nested_to_smt.
  rewrite (parse_tree_text _ _ _ _ Hok Hs). by eexists.
Qed.
Print Assumptions C63_implication_refuted.

Example C63_implication_case :
  tree_ok smt_operators (Op "->" [Op "var" [Leaf "bool"; Leaf "a"]; Op "var" [Leaf "bool"; Leaf "b"]]) = true /\
  tree_val ex_read (Env (fun _ => true) (fun _ => 0%Qc))
    (Op "->" [Op "var" [Leaf "bool"; Leaf "a"]; Op "var" [Leaf "bool"; Leaf "b"]]) = Some (VB true).
Proof. by vm_compute. Qed.
