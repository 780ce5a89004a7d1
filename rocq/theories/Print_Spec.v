(** Vocabulary for C59. *)

From Verif Require Import Base Smt Math_Spec Transform_Model.

(** Identifiers: letters, digits and underscores, not starting with a digit, and not
    a word of the printed language. *)
Definition ident_char (c : ascii) : bool :=
  let n := N_of_ascii c in
  ((48 <=? n)%N && (n <=? 57)%N) || ((65 <=? n)%N && (n <=? 90)%N) || ((97 <=? n)%N && (n <=? 122)%N) || (n =? 95)%N.
Definition ident (s : string) : bool :=
  match s with
  | String c _ => negb ((48 <=? N_of_ascii c)%N && (N_of_ascii c <=? 57)%N) &&
      forallb ident_char (list_ascii_of_string s) &&
      negb (bool_decide (s ∈ ["True"; "False"; "if"; "then"; "else"]%string))
  | EmptyString => false
  end.

(** The real constants of a formula. *)
Fixpoint constants (f : fm) : list Qc :=
  match f with
  | RealC q => [q]
  | Sym _ _ | BoolC _ | IntC _ => []
  | AndN l | OrN l | PlusN l | TimesN l => flat_map constants l
  | NotN a | ExpN a | ToRealN a => constants a
  | ImpN a b | IffN a b | MinusN a b | PowN a b | EqN a b | LeN a b | LtN a b => constants a ++ constants b
  | IteN c a b => constants c ++ constants a ++ constants b
  end.

(** [a <= b] is linear, its variables are identifiers, and once normalised (by
    normalize_formula) its coefficients are among the numbers [exact]. *)
Definition readable_test (exact : Qc -> Prop) (a b : fm) : Prop :=
  linear_expr a /\ linear_expr b /\ (forall x t, (x, t) ∈ syms a ++ syms b -> ident x = true) /\
  forall g q, normalize_formula (LeN a b) = Ok g -> q ∈ constants g -> exact q.

(** Formulas over boolean variables and such comparisons. *)
Inductive readable (exact : Qc -> Prop) : fm -> Prop :=
| rd_const b : readable exact (BoolC b)
| rd_sym x : ident x = true -> readable exact (Sym x TBool)
| rd_and l : 2 <= length l -> Forall (readable exact) l -> readable exact (AndN l)
| rd_or l : 2 <= length l -> Forall (readable exact) l -> readable exact (OrN l)
| rd_not f : readable exact f -> readable exact (NotN f)
| rd_imp f g : readable exact f -> readable exact g -> readable exact (ImpN f g)
| rd_iff f g : readable exact f -> readable exact g -> readable exact (IffN f g)
| rd_ite c f g : readable exact c -> readable exact f -> readable exact g -> readable exact (IteN c f g)
| rd_le a b : readable_test exact a b -> readable exact (LeN a b)
| rd_lt a b : readable_test exact a b -> readable exact (LtN a b).

(** What is relied on about the decimal text of a non-integral number, for the
    numbers in [exact] (the doubles): digits, a point, an exponent, a leading minus
    sign for negative numbers only; different numbers have different texts. *)
Definition digit_char (c : ascii) : bool := (48 <=? N_of_ascii c)%N && (N_of_ascii c <=? 57)%N.
Definition float_char (c : ascii) : bool := digit_char c || bool_decide (c ∈ ["."; "e"; "-"; "+"]%char).
Record float_format (fmt : Qc -> string) (exact : Qc -> Prop) : Prop := {
  ff_pos : forall q, exact q -> (0 < q)%Qc -> exists c s, fmt q = String c s /\ digit_char c = true /\
    forallb float_char (list_ascii_of_string s) = true /\ exists c', In c' (list_ascii_of_string s) /\ (c' = "." \/ c' = "e")%char;
  ff_neg : forall q, exact (- q)%Qc -> (0 < q)%Qc -> exact q /\ fmt (- q)%Qc = String "-" (fmt q);
  ff_inj : forall q r, exact q -> exact r -> fmt q = fmt r -> q = r }.
