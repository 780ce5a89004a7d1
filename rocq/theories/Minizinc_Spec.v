(** What a MiniZinc file (with weights and queries) means, independently of the importer. *)

From Verif Require Import Base Smt Dict Xadd_Model Smtlib_Model Minizinc_Model.

(** * Expressions *)

(** The binary operators of booleans and numbers.  Nothing is said about operands of the
    wrong kind, division by zero, and the operators of [OOther]. *)
Inductive op_means : mop -> val -> val -> val -> Prop :=
| om_div x y : y <> 0%Qc -> op_means ODiv (VN x) (VN y) (VN (x / y))
| om_mult x y : op_means OMult (VN x) (VN y) (VN (x * y))
| om_minus x y : op_means OMinus (VN x) (VN y) (VN (x - y))
| om_plus x y : op_means OPlus (VN x) (VN y) (VN (x + y))
| om_nq x y : op_means ONq (VN x) (VN y) (VB (negb (qeq x y)))
| om_nqb a b : op_means ONq (VB a) (VB b) (VB (negb (Bool.eqb a b)))
| om_eq x y : op_means OEq (VN x) (VN y) (VB (qeq x y))
| om_eqb a b : op_means OEq (VB a) (VB b) (VB (Bool.eqb a b))
| om_ge x y : op_means OGe (VN x) (VN y) (VB (qle y x))
| om_le x y : op_means OLe (VN x) (VN y) (VB (qle x y))
| om_gt x y : op_means OGt (VN x) (VN y) (VB (qlt y x))
| om_lt x y : op_means OLt (VN x) (VN y) (VB (qlt x y))
| om_and a b : op_means OAnd (VB a) (VB b) (VB (a && b))
| om_xor a b : op_means OXor (VB a) (VB b) (VB (xorb a b))
| om_or a b : op_means OOr (VB a) (VB b) (VB (a || b))
| om_rimpl a b : op_means ORimpl (VB a) (VB b) (VB (implb b a))
| om_impl a b : op_means OImpl (VB a) (VB b) (VB (implb a b))
| om_equiv a b : op_means OEquiv (VB a) (VB b) (VB (Bool.eqb a b)).

(** + is the identity, also on booleans (where MiniZinc has no such operator). *)
Inductive unop_means : muop -> val -> val -> Prop :=
| um_not b : unop_means UNot (VB b) (VB (negb b))
| um_plus v : unop_means UPlus v v
| um_minus x : unop_means UMinus (VN x) (VN (- x)).

(** if c1 then t1 elseif c2 then t2 ... else e: the values of all parts, as written. *)
Inductive if_means : list val -> val -> Prop :=
| if_last (b : bool) v w : if_means [VB b; v; w] (if b then v else w)
| if_more (b : bool) v l w : if_means l w -> if_means (VB b :: v :: l) (if b then v else w).

(** [means fl rho t v]: when the names have the values [rho], [t] has the value [v].
    Decimals denote the floating-point number [fl] reads. *)
Inductive means (fl : Qc -> Qc) (rho : string -> option val) : mexpr -> val -> Prop :=
| mm_bin op l r a b v : means fl rho l a -> means fl rho r b -> op_means op a b v -> means fl rho (MBin op l r) v
| mm_un op t a v : means fl rho t a -> unop_means op a v -> means fl rho (MUn op t) v
| mm_id x v : rho x = Some v -> means fl rho (MId x) v
| mm_bool b : means fl rho (MBool b) (VB b)
| mm_int z : means fl rho (MInt z) (VN (qz z))
| mm_float q : means fl rho (MFloat q) (VN (fl q))
| mm_if es vs v : Forall2 (means fl rho) es vs -> if_means vs v -> means fl rho (MIf es) v.

(** * Files *)

(** include puts the items of the file in its place. *)
Inductive expands (files : string -> option (list item)) : list item -> list item -> Prop :=
| ex_nil : expands files [] []
| ex_include f its l1 rest l2 :
    files f = Some its -> expands files its l1 -> expands files rest l2 ->
    expands files (IInclude f :: rest) (l1 ++ l2)
| ex_item it rest l : (forall f, it <> IInclude f) -> expands files rest l -> expands files (it :: rest) (it :: l).

(** What a file says about one assignment of the decision variables: which numbers and
    booleans are decision variables, whether the requirements hold, and the values of
    weights and queries. *)
Record outcome := Out {
  o_bools : list string;
  o_numbers : list (string * option ty * (option Qc * option Qc));
  o_support : list bool;
  o_weights : list Qc;
  o_queries : list bool }.

(** The type of an interval whose endpoints are built from numerals (nothing is said
    about others). *)
Fixpoint numeral_type (t : mexpr) : option ty :=
  match t with
  | MInt _ => Some TInt
  | MFloat _ => Some TReal
  | MUn _ t => numeral_type t
  | MBin op l r =>
      match op, numeral_type l, numeral_type r with
      | ODiv, Some _, Some _ => Some TReal
      | _, Some TInt, Some TInt => Some TInt
      | _, Some _, Some _ => Some TReal
      | _, _, _ => None
      end
  | _ => None
  end.
Definition interval_type (lo hi : mexpr) : option ty := numeral_type (MBin OPlus lo hi).

Definition set_name (rho : string -> option val) (x : string) (v : option val) : string -> option val :=
  fun y => if decide (y = x) then v else rho y.

(** The declaration of a decision variable: its value under the assignment [e], and
    what it adds to the lists of decision variables. *)
Inductive declares_var (fl : Qc -> Qc) (e : env) (rho : string -> option val) (x : string) :
    mtype -> val -> list string -> list (string * option ty * (option Qc * option Qc)) -> Prop :=
| dv_bool : declares_var fl e rho x TyBool (VB (eb e x)) [x] []
| dv_int : declares_var fl e rho x TyInt (VN (er e x)) [] [(x, Some TInt, (None, None))]
| dv_float : declares_var fl e rho x TyFloat (VN (er e x)) [] [(x, Some TReal, (None, None))]
| dv_range lo hi a b :
    means fl rho lo (VN a) -> means fl rho hi (VN b) ->
    declares_var fl e rho x (TyRange lo hi) (VN (er e x)) [] [(x, interval_type lo hi, (Some a, Some b))].

(** [runs fl e rho its o]: the items, read in order when the names have the values [rho].
    A parameter declared without a value has none until it is assigned; assigning a
    decision variable requires it to have that value. *)
Inductive runs (fl : Qc -> Qc) (e : env) : (string -> option val) -> list item -> outcome -> Prop :=
| r_nil rho : runs fl e rho [] (Out [] [] [] [] [])
| r_var rho ty x v bs ns its o :
    declares_var fl e rho x ty v bs ns ->
    runs fl e (set_name rho x (Some v)) its o ->
    runs fl e rho (IVar true ty x false None :: its)
      (Out (bs ++ o_bools o) (ns ++ o_numbers o) (o_support o) (o_weights o) (o_queries o))
| r_var_is rho ty x v bs ns t w its o :
    declares_var fl e rho x ty v bs ns ->
    means fl rho t w ->
    runs fl e (set_name rho x (Some v)) its o ->
    runs fl e rho (IVar true ty x false (Some t) :: its)
      (Out (bs ++ o_bools o) (ns ++ o_numbers o) (bool_decide (v = w) :: o_support o) (o_weights o) (o_queries o))
| r_par rho ty x its o :
    runs fl e (set_name rho x None) its o ->
    runs fl e rho (IVar false ty x false None :: its) o
| r_par_is rho ty x t w its o :
    means fl rho t w ->
    runs fl e (set_name rho x (Some w)) its o ->
    runs fl e rho (IVar false ty x false (Some t) :: its) o
| r_assign rho x t w its o :
    rho x = None -> means fl rho t w ->
    runs fl e (set_name rho x (Some w)) its o ->
    runs fl e rho (IAssign x t :: its) o
| r_assign_var rho x v t w its o :
    rho x = Some v -> means fl rho t w -> runs fl e rho its o ->
    runs fl e rho (IAssign x t :: its)
      (Out (o_bools o) (o_numbers o) (bool_decide (v = w) :: o_support o) (o_weights o) (o_queries o))
| r_constraint rho t b its o :
    means fl rho t (VB b) -> runs fl e rho its o ->
    runs fl e rho (IConstraint t :: its) (Out (o_bools o) (o_numbers o) (b :: o_support o) (o_weights o) (o_queries o))
| r_weight rho t q its o :
    means fl rho t (VN q) -> runs fl e rho its o ->
    runs fl e rho (IWeight t :: its) (Out (o_bools o) (o_numbers o) (o_support o) (q :: o_weights o) (o_queries o))
| r_query rho t b its o :
    means fl rho t (VB b) -> runs fl e rho its o ->
    runs fl e rho (IQuery t :: its) (Out (o_bools o) (o_numbers o) (o_support o) (o_weights o) (b :: o_queries o)).

Definition no_names : string -> option val := fun _ => None.

(** The simplifier keeps the value of every formula that has one. *)
Definition keeps_value (simp : fm -> fm) : Prop := forall e f v, eval e f = Some v -> eval e (simp f) = Some v.

(** The decision variable of a number: its name, its type if the file fixes it, its
    interval. *)
Definition number_is (p : fm * (option Qc * option Qc)) (n : string * option ty * (option Qc * option Qc)) : Prop :=
  let '(x, t, i) := n in
  snd p = i /\ exists t', fst p = Sym x t' /\ t' <> TBool /\ (t = None \/ t = Some t').

(** * Well-typed files (without include) *)

(** What is known of a name: its type, whether it is a decision variable, whether it has
    a value. *)
Record known := Known { k_type : stag; k_var : bool; k_set : bool }.
Definition ctx := string -> option known.

Definition num (g : stag) : Prop := g <> GBool.
(** Two types that can be used together, and the type of the result. *)
Definition kindred (g h : stag) : Prop := g = h \/ (num g /\ num h).
Definition join (g h : stag) : stag := if decide (g = h) then g else GFloat.

(** A divisor written as a number other than zero. *)
Definition divisor (fl : Qc -> Qc) (t : mexpr) : Prop :=
  match t with MInt z => z <> 0%Z | MFloat q => fl q <> 0%Qc | _ => False end.

(** Well-typed expressions.  Left out, compared with MiniZinc: = and == of numbers, !=
    of booleans, and divisors that are not numerals. *)
Inductive typed_as (fl : Qc -> Qc) (G : ctx) : mexpr -> stag -> Prop :=
| ta_arith op l r g h : op ∈ [OMult; OMinus; OPlus] -> typed_as fl G l g -> typed_as fl G r h -> num g -> num h ->
    typed_as fl G (MBin op l r) (join g h)
| ta_div l d g : typed_as fl G l g -> num g -> divisor fl d -> typed_as fl G (MBin ODiv l d) GFloat
| ta_compare op l r g h : op ∈ [ONq; OGe; OLe; OGt; OLt] -> typed_as fl G l g -> typed_as fl G r h -> num g -> num h ->
    typed_as fl G (MBin op l r) GBool
| ta_bool op l r : op ∈ [OEq; OAnd; OXor; OOr; ORimpl; OImpl; OEquiv] -> typed_as fl G l GBool -> typed_as fl G r GBool ->
    typed_as fl G (MBin op l r) GBool
| ta_not t : typed_as fl G t GBool -> typed_as fl G (MUn UNot t) GBool
| ta_sign op t g : op <> UNot -> typed_as fl G t g -> num g -> typed_as fl G (MUn op t) g
| ta_id x k : G x = Some k -> k_set k = true -> typed_as fl G (MId x) (k_type k)
| ta_true b : typed_as fl G (MBool b) GBool
| ta_int z : typed_as fl G (MInt z) GInt
| ta_float q : typed_as fl G (MFloat q) GFloat
| ta_if c t e g h : typed_as fl G c GBool -> typed_as fl G t g -> typed_as fl G e h -> kindred g h ->
    typed_as fl G (MIf [c; t; e]) (join g h)
| ta_elseif c t es g h : typed_as fl G c GBool -> typed_as fl G t g -> typed_as fl G (MIf es) h -> kindred g h ->
    typed_as fl G (MIf (c :: t :: es)) (join g h).

(** The names in an expression. *)
Fixpoint names (t : mexpr) : list string :=
  match t with
  | MBin _ l r => names l ++ names r
  | MUn _ t | MTail t => names t
  | MId x => [x]
  | MIf es => concat (map names es)
  | _ => []
  end.
Definition no_vars (G : ctx) (t : mexpr) : Prop := forall x k, x ∈ names t -> G x = Some k -> k_var k = false.

(** Endpoints of intervals: numerals with signs, sums, differences and products. *)
Fixpoint numeral (t : mexpr) : Prop :=
  match t with
  | MInt _ | MFloat _ => True
  | MUn op t => op <> UNot /\ numeral t
  | MBin op l r => op ∈ [OMult; OMinus; OPlus] /\ numeral l /\ numeral r
  | _ => False
  end.

Inductive var_type : mtype -> stag -> Prop :=
| vt_bool : var_type TyBool GBool
| vt_int : var_type TyInt GInt
| vt_float : var_type TyFloat GFloat
| vt_range lo hi : numeral lo -> numeral hi ->
    var_type (TyRange lo hi) (match interval_type lo hi with Some TInt => GInt | _ => GFloat end).
Inductive par_type : mtype -> stag -> Prop :=
| pt_bool : par_type TyBool GBool
| pt_int : par_type TyInt GInt
| pt_float : par_type TyFloat GFloat.

(** A value of type [h] can be given to a name of type [g]. *)
Definition accepts (g h : stag) : Prop := g = h \/ (g = GFloat /\ h = GInt).

Definition set_ctx (G : ctx) (x : string) (k : known) : ctx := fun y => if decide (y = x) then Some k else G y.

(** [weighted]: the weight has been given. *)
Inductive well_typed (fl : Qc -> Qc) : ctx -> bool -> list item -> Prop :=
| wt_nil G weighted : well_typed fl G weighted []
| wt_var G weighted ty g x its :
    var_type ty g -> G x = None -> well_typed fl (set_ctx G x (Known g true true)) weighted its ->
    well_typed fl G weighted (IVar true ty x false None :: its)
| wt_var_is G weighted ty g x t h its :
    var_type ty g -> G x = None -> typed_as fl G t h -> accepts g h ->
    well_typed fl (set_ctx G x (Known g true true)) weighted its ->
    well_typed fl G weighted (IVar true ty x false (Some t) :: its)
| wt_par G weighted ty g x its :
    par_type ty g -> G x = None -> well_typed fl (set_ctx G x (Known g false false)) weighted its ->
    well_typed fl G weighted (IVar false ty x false None :: its)
| wt_par_is G weighted ty g x t h its :
    par_type ty g -> G x = None -> typed_as fl G t h -> no_vars G t -> accepts g h ->
    well_typed fl (set_ctx G x (Known g false true)) weighted its ->
    well_typed fl G weighted (IVar false ty x false (Some t) :: its)
| wt_assign G weighted g x t h its :
    G x = Some (Known g false false) -> typed_as fl G t h -> no_vars G t -> accepts g h ->
    well_typed fl (set_ctx G x (Known g false true)) weighted its ->
    well_typed fl G weighted (IAssign x t :: its)
| wt_constraint G weighted t its :
    typed_as fl G t GBool -> well_typed fl G weighted its -> well_typed fl G weighted (IConstraint t :: its)
| wt_weight G t g its :
    typed_as fl G t g -> num g -> well_typed fl G true its -> well_typed fl G false (IWeight t :: its)
| wt_query G weighted t its :
    typed_as fl G t GBool -> well_typed fl G weighted its -> well_typed fl G weighted (IQuery t :: its).

Definition no_ctx : ctx := fun _ => None.

(** The simplifier keeps types, and a number without variables becomes a constant. *)
Definition keeps_type (simp : fm -> fm) : Prop := forall f t, typeof f = Some t -> typeof (simp f) = Some t.
Definition folds (simp : fm -> fm) : Prop :=
  forall f t, free_vars f = [] -> typeof f = Some t -> t <> TBool -> is_const (simp f) = true.
