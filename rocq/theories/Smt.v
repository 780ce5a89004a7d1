(** Formulas (pysmt's [FNode]), the pysmt constructors used by the code, and the
    meaning of formulas.

    This is the shared specification vocabulary: theorems about the code compare
    [eval] before and after.  pysmt itself is not part of /repo; the constructors
    below record the behaviour of pysmt's [FormulaManager] that the code relies on
    (see DESIGN.md, trusted base). *)

From Verif Require Import Base.

(** pysmt types BOOL, REAL, INT. *)
Inductive ty := TBool | TReal | TInt.

(** pysmt node kinds used in /repo (pywmi/smt_walk.py:53-95 lists them).
    [RealC] carries the exact value of the [fractions.Fraction] constant. *)
Inductive fm :=
| Sym (n : string) (t : ty)
| BoolC (b : bool)
| RealC (q : Qc)
| IntC (z : Z)
| AndN (l : list fm)
| OrN (l : list fm)
| NotN (f : fm)
| ImpN (f g : fm)
| IffN (f g : fm)
| IteN (c t e : fm)
| PlusN (l : list fm)
| MinusN (f g : fm)
| TimesN (l : list fm)
| PowN (f g : fm)
| LeN (f g : fm)
| LtN (f g : fm)
| EqN (f g : fm)
| ExpN (f : fm)
| ToRealN (f : fm).

Definition is_bool_lit (f : fm) : bool :=
  match f with Sym _ TBool => true | _ => false end.

(** Structural induction with hypotheses for the elements of argument lists. *)
Section fm_ind.
  Variable P : fm -> Prop.
  Hypothesis HSym : forall n t, P (Sym n t).
  Hypothesis HBoolC : forall b, P (BoolC b).
  Hypothesis HRealC : forall q, P (RealC q).
  Hypothesis HIntC : forall z, P (IntC z).
  Hypothesis HAnd : forall l, Forall P l -> P (AndN l).
  Hypothesis HOr : forall l, Forall P l -> P (OrN l).
  Hypothesis HNot : forall f, P f -> P (NotN f).
  Hypothesis HImp : forall f g, P f -> P g -> P (ImpN f g).
  Hypothesis HIff : forall f g, P f -> P g -> P (IffN f g).
  Hypothesis HIte : forall c t e, P c -> P t -> P e -> P (IteN c t e).
  Hypothesis HPlus : forall l, Forall P l -> P (PlusN l).
  Hypothesis HMinus : forall f g, P f -> P g -> P (MinusN f g).
  Hypothesis HTimes : forall l, Forall P l -> P (TimesN l).
  Hypothesis HPow : forall f g, P f -> P g -> P (PowN f g).
  Hypothesis HLe : forall f g, P f -> P g -> P (LeN f g).
  Hypothesis HLt : forall f g, P f -> P g -> P (LtN f g).
  Hypothesis HEq : forall f g, P f -> P g -> P (EqN f g).
  Hypothesis HExp : forall f, P f -> P (ExpN f).
  Hypothesis HToReal : forall f, P f -> P (ToRealN f).

  Fixpoint fm_ind' (f : fm) : P f :=
    let all := fix all (l : list fm) : Forall P l :=
      match l with
      | [] => Forall_nil_2 P
      | x :: xs => Forall_cons_2 P x xs (fm_ind' x) (all xs)
      end in
    match f with
    | Sym n t => HSym n t
    | BoolC b => HBoolC b
    | RealC q => HRealC q
    | IntC z => HIntC z
    | AndN l => HAnd l (all l)
    | OrN l => HOr l (all l)
    | NotN f => HNot f (fm_ind' f)
    | ImpN f g => HImp f g (fm_ind' f) (fm_ind' g)
    | IffN f g => HIff f g (fm_ind' f) (fm_ind' g)
    | IteN c t e => HIte c t e (fm_ind' c) (fm_ind' t) (fm_ind' e)
    | PlusN l => HPlus l (all l)
    | MinusN f g => HMinus f g (fm_ind' f) (fm_ind' g)
    | TimesN l => HTimes l (all l)
    | PowN f g => HPow f g (fm_ind' f) (fm_ind' g)
    | LeN f g => HLe f g (fm_ind' f) (fm_ind' g)
    | LtN f g => HLt f g (fm_ind' f) (fm_ind' g)
    | EqN f g => HEq f g (fm_ind' f) (fm_ind' g)
    | ExpN f => HExp f (fm_ind' f)
    | ToRealN f => HToReal f (fm_ind' f)
    end.
End fm_ind.

(** * Meaning of formulas *)

Inductive val := VB (b : bool) | VN (q : Qc).

(** An assignment: a truth value for every boolean symbol and a number for every
    real (or integer) symbol. *)
Record env := Env { eb : string -> bool; er : string -> Qc }.

Definition upd_b (e : env) (x : string) (b : bool) : env :=
  Env (fun y => if decide (y = x) then b else eb e y) (er e).
Definition upd_r (e : env) (x : string) (q : Qc) : env :=
  Env (eb e) (fun y => if decide (y = x) then q else er e y).

Definition vbool (o : option val) : option bool :=
  match o with Some (VB b) => Some b | _ => None end.
Definition vnum (o : option val) : option Qc :=
  match o with Some (VN q) => Some q | _ => None end.

(** The exponent of a power must be a natural number (as a rational constant). *)
Definition nat_of_qc (q : Qc) : option nat :=
  if (Pos.eqb (Qden (this q)) 1) && (0 <=? Qnum (this q))%Z
  then Some (Z.to_nat (Qnum (this q))) else None.

(** Conditional on values; both branches must have the same type. *)
Definition vite (b : bool) (vg vh : val) : option val :=
  match vg, vh with
  | VB x, VB y => Some (VB (if b then x else y))
  | VN x, VN y => Some (VN (if b then x else y))
  | _, _ => None
  end.

(** Value of a formula; [None] exactly when the formula is ill typed, applies
    [Exp], or raises to a power that is not a natural number. *)
Fixpoint eval (e : env) (f : fm) {struct f} : option val :=
  match f with
  | Sym n TBool => Some (VB (eb e n))
  | Sym n _ => Some (VN (er e n))
  | BoolC b => Some (VB b)
  | RealC q => Some (VN q)
  | IntC z => Some (VN (qz z))
  | AndN l => (fun bs : list bool => VB (forallb id bs)) <$> mapM (fun g => vbool (eval e g)) l
  | OrN l => (fun bs : list bool => VB (existsb id bs)) <$> mapM (fun g => vbool (eval e g)) l
  | NotN g => b ← vbool (eval e g); Some (VB (negb b))
  | ImpN g h => a ← vbool (eval e g); b ← vbool (eval e h); Some (VB (implb a b))
  | IffN g h => a ← vbool (eval e g); b ← vbool (eval e h); Some (VB (Bool.eqb a b))
  | IteN c g h =>
      b ← vbool (eval e c); vg ← eval e g; vh ← eval e h; vite b vg vh
  | PlusN l => (fun qs : list Qc => VN (qsum qs)) <$> mapM (fun g => vnum (eval e g)) l
  | TimesN l => (fun qs : list Qc => VN (qprod qs)) <$> mapM (fun g => vnum (eval e g)) l
  | MinusN g h => a ← vnum (eval e g); b ← vnum (eval e h); Some (VN (a - b)%Qc)
  | PowN g h =>
      a ← vnum (eval e g); b ← vnum (eval e h); n ← nat_of_qc b; Some (VN (qpow a n))
  | LeN g h => a ← vnum (eval e g); b ← vnum (eval e h); Some (VB (qle a b))
  | LtN g h => a ← vnum (eval e g); b ← vnum (eval e h); Some (VB (qlt a b))
  | EqN g h => a ← vnum (eval e g); b ← vnum (eval e h); Some (VB (qeq a b))
  | ExpN _ => None
  | ToRealN g => a ← vnum (eval e g); Some (VN a)
  end.

(** Two formulas have the same meaning. *)
Definition fequiv (f g : fm) : Prop := forall e, eval e f = eval e g.

(** * pysmt constructors *)

(** FormulaManager.And: no argument gives TRUE, one argument is returned as is. *)
Definition mkAnd (l : list fm) : fm :=
  match l with [] => BoolC true | [f] => f | _ => AndN l end.
(** FormulaManager.Or. *)
Definition mkOr (l : list fm) : fm :=
  match l with [] => BoolC false | [f] => f | _ => OrN l end.
(** FormulaManager.Not: a double negation is removed. *)
Definition mkNot (f : fm) : fm :=
  match f with NotN g => g | _ => NotN f end.
(** FormulaManager.Plus / Times: no argument is an assertion failure. *)
Definition mkPlus (l : list fm) : Res fm :=
  match l with [] => Err AssertionError | [f] => Ok f | _ => Ok (PlusN l) end.
Definition mkTimes (l : list fm) : Res fm :=
  match l with [] => Err AssertionError | [f] => Ok f | _ => Ok (TimesN l) end.

Definition is_const (f : fm) : bool :=
  match f with BoolC _ | RealC _ | IntC _ => true | _ => false end.

Definition const_val (f : fm) : option Qc :=
  match f with RealC q => Some q | IntC z => Some (qz z) | _ => None end.

(** Value of [base ** exponent] for constants with an integral exponent; other
    exponents leave the rationals and are not modelled ([None]). *)
Definition qpowz (x : Qc) (y : Qc) : option Qc :=
  if Pos.eqb (Qden (this y)) 1 then
    let z := Qnum (this y) in
    if (0 <=? z)%Z then Some (qpow x (Z.to_nat z))
    else if qeq x 0 then None else Some (qpow (/ x)%Qc (Z.to_nat (- z)))
  else None.

(** FormulaManager.Pow: the exponent must be a constant; a constant base is
    folded.  (Folding with a non-integral exponent is reported as a failure.) *)
Definition mkPow (b x : fm) : Res fm :=
  if is_const x then
    match b, const_val x with
    | RealC q, Some y => match qpowz q y with Some r => Ok (RealC r) | None => Err GenericException end
    | IntC z, Some y => match qpowz (qz z) y with Some r => Ok (RealC r) | None => Err GenericException end
    | BoolC _, _ => Err AssertionError
    | _, _ => Ok (PowN b x)
    end
  else Err PysmtValueError.

(** FormulaManager.Implies / Iff / Ite / Minus / LE / LT / Equals build nodes. *)
Definition mkGE (f g : fm) : fm := LeN g f.
Definition mkGT (f g : fm) : fm := LtN g f.

Global Instance ty_eq_dec : EqDecision ty.
Proof. solve_decision. Defined.

Global Instance exn_eq_dec : EqDecision exn.
Proof. solve_decision. Defined.

Global Instance val_eq_dec : EqDecision val.
Proof. solve_decision. Defined.

(** * Types

    pysmt rejects ill typed nodes when they are created (FormulaManager.create_node
    runs the SimpleTypeChecker). *)

Definition ty_num (t : ty) : bool := match t with TBool => false | _ => true end.

Definition all_ty (t : ty) (l : list (option ty)) : bool :=
  forallb (fun o => bool_decide (o = Some t)) l.

Definition nary_num (l : list (option ty)) : option ty :=
  match l with
  | Some t :: _ => if ty_num t && all_ty t l then Some t else None
  | _ => None
  end.

Fixpoint typeof (f : fm) : option ty :=
  match f with
  | Sym _ t => Some t
  | BoolC _ => Some TBool
  | RealC _ => Some TReal
  | IntC _ => Some TInt
  | AndN l | OrN l => if all_ty TBool (map typeof l) then Some TBool else None
  | NotN g => if bool_decide (typeof g = Some TBool) then Some TBool else None
  | ImpN g h | IffN g h =>
      if bool_decide (typeof g = Some TBool) && bool_decide (typeof h = Some TBool)
      then Some TBool else None
  | IteN c g h =>
      if bool_decide (typeof c = Some TBool) && bool_decide (typeof g = typeof h)
      then typeof g else None
  | PlusN l | TimesN l => nary_num (map typeof l)
  | MinusN g h | PowN g h => nary_num [typeof g; typeof h]
  | LeN g h | LtN g h | EqN g h =>
      match nary_num [typeof g; typeof h] with Some _ => Some TBool | None => None end
  | ExpN g => if bool_decide (typeof g = Some TReal) then Some TReal else None
  | ToRealN g => match typeof g with Some TInt | Some TReal => Some TReal | _ => None end
  end.

(** Creation of a node: pysmt's type check. *)
Definition chk (f : fm) : Res fm :=
  match typeof f with Some _ => Ok f | None => Err PysmtTypeError end.

(** * Basic facts *)

Lemma eval_and_nil e : eval e (AndN []) = Some (VB true).
Proof. done. Qed.

Lemma mapM_Forall2_vbool e l bs :
  mapM (fun g => vbool (eval e g)) l = Some bs <->
  Forall2 (fun g b => eval e g = Some (VB b)) l bs.
Proof.
  rewrite mapM_Some. split; intros H; eapply Forall2_impl; try exact H; cbn; intros g b Hg.
  - destruct (eval e g) as [[]|]; simpl in *; congruence.
  - by rewrite Hg.
Qed.

Lemma mapM_Forall2_vnum e l qs :
  mapM (fun g => vnum (eval e g)) l = Some qs <->
  Forall2 (fun g q => eval e g = Some (VN q)) l qs.
Proof.
  rewrite mapM_Some. split; intros H; eapply Forall2_impl; try exact H; cbn; intros g b Hg.
  - destruct (eval e g) as [[]|]; simpl in *; congruence.
  - by rewrite Hg.
Qed.

Lemma typeof_mkNot g : typeof g = Some TBool -> typeof (mkNot g) = Some TBool.
Proof.
  intros H. assert (typeof (NotN g) = Some TBool) as Hdef.
  { cbn [typeof]. by rewrite bool_decide_true. }
  destruct g; try exact Hdef. cbn [mkNot].
  cbn [typeof] in H. by case_bool_decide.
Qed.

(** A conjunct's type: lists of booleans. *)
Lemma all_ty_Forall t l :
  all_ty t (map typeof l) = true <-> Forall (fun f => typeof f = Some t) l.
Proof.
  unfold all_ty. induction l as [|f l IH]; simpl.
  - split; [constructor|done].
  - rewrite andb_true_iff, bool_decide_eq_true, IH. by rewrite Forall_cons.
Qed.

Lemma nary_num_Forall l t :
  nary_num (map typeof l) = Some t ->
  ty_num t = true /\ l <> [] /\ Forall (fun f => typeof f = Some t) l.
Proof.
  intros H. destruct l as [|f l]; [done|]. cbn [map nary_num] in H.
  destruct (typeof f) as [t'|] eqn:Hf; [|done].
  destruct (ty_num t' && all_ty t' (Some t' :: map typeof l)) eqn:E; [|done].
  injection H as ->. apply andb_true_iff in E as [E1 E2].
  split; [done|]. split; [done|]. apply (all_ty_Forall t (f :: l)).
  cbn [map]. by rewrite Hf.
Qed.

Lemma nary_num_intro l t :
  ty_num t = true -> l <> [] -> Forall (fun f => typeof f = Some t) l ->
  nary_num (map typeof l) = Some t.
Proof.
  intros H1 H2 H3. destruct l as [|f l]; [done|].
  assert (all_ty t (map typeof (f :: l)) = true) as Ha by (by apply all_ty_Forall).
  inversion H3; subst. cbn [map nary_num] in *. rewrite H4 in *. by rewrite H1, Ha.
Qed.

(** All facts about reading back, by one induction. *)
Definition typed (f : fm) : Prop := typeof f <> None.

Lemma Forall_typed_bool l t :
  Forall (fun f => typeof f = Some t) l -> Forall typed l.
Proof. intros H; eapply Forall_impl; [exact H|]. intros f Hf. unfold typed. by rewrite Hf. Qed.

Lemma typed_and l : typed (AndN l) -> Forall (fun f => typeof f = Some TBool) l.
Proof.
  unfold typed. cbn [typeof]. destruct (all_ty TBool (map typeof l)) eqn:E; [|done].
  intros _. by apply all_ty_Forall.
Qed.
Lemma typed_plus l : typed (PlusN l) ->
  exists t, ty_num t = true /\ l <> [] /\ Forall (fun f => typeof f = Some t) l.
Proof.
  unfold typed. cbn [typeof]. destruct (nary_num (map typeof l)) as [t|] eqn:E; [|done].
  intros _. exists t. by apply nary_num_Forall.
Qed.
Lemma typed_not a : typed (NotN a) -> typeof a = Some TBool.
Proof. unfold typed. cbn [typeof]. by case_bool_decide. Qed.
Lemma typed_imp a b : typed (ImpN a b) -> typeof a = Some TBool /\ typeof b = Some TBool.
Proof. unfold typed. cbn [typeof]. repeat case_bool_decide; done. Qed.
Lemma typed_ite c t e : typed (IteN c t e) ->
  typeof c = Some TBool /\ typeof t = typeof e /\ typed t.
Proof. unfold typed. cbn [typeof]. repeat case_bool_decide; done. Qed.
Lemma typed_minus a b : typed (MinusN a b) ->
  exists t, ty_num t = true /\ typeof a = Some t /\ typeof b = Some t.
Proof.
  unfold typed. cbn [typeof].
  destruct (nary_num [typeof a; typeof b]) as [t|] eqn:E; [|done]. intros _.
  apply (nary_num_Forall [a; b]) in E as (? & _ & H2). inversion H2 as [|? ? ? H3]; subst.
  inversion H3; subst. eauto.
Qed.
Lemma typed_le a b : typed (LeN a b) ->
  exists t, ty_num t = true /\ typeof a = Some t /\ typeof b = Some t.
Proof.
  unfold typed. cbn [typeof].
  destruct (nary_num [typeof a; typeof b]) as [t|] eqn:E; [|done]. intros _.
  apply (nary_num_Forall [a; b]) in E as (? & _ & H2). inversion H2 as [|? ? ? H3]; subst.
  inversion H3; subst. eauto.
Qed.


Definition has_ty (t : ty) (v : val) : Prop :=
  match t, v with TBool, VB _ => True | TReal, VN _ | TInt, VN _ => True | _, _ => False end.

(** A typed formula evaluates to a value of its type. *)
Lemma eval_typed e f t v : typeof f = Some t -> eval e f = Some v -> has_ty t v.
Proof.
  revert t v. induction f as [n ty|b|q|z|l IH|l IH|f IH|f g IHf IHg|f g IHf IHg|c f g IHc IHf IHg|l IH
                   |f g IHf IHg|l IH|f g IHf IHg|f g IHf IHg|f g IHf IHg|f g IHf IHg|f IH|f IH]
      using fm_ind'; intros t v Ht Hv; cbn [typeof eval] in *; simplify_option_eq.
  all: try done.
  all: try (by (repeat case_match; simplify_eq; simpl)).
  all: try (match goal with H : nary_num _ = Some ?t |- _ =>
              unfold nary_num in H; repeat case_match; simplify_eq end;
            match goal with H : _ && _ = true |- _ => apply andb_true_iff in H as [H _] end;
            match goal with |- has_ty ?t _ => by destruct t end).
  - pose proof (IHf _ _ Ht eq_refl) as Hf. unfold vite in Hv.
    repeat case_match; simplify_eq; by destruct t.
  - apply (nary_num_Forall [f; g]) in Ht as [Hn _]. by destruct t.
  - apply (nary_num_Forall [f; g]) in Ht as [Hn _]. by destruct t.
Qed.

Lemma eval_bool_typed e f : typeof f = Some TBool ->
  eval e f = None \/ exists b, eval e f = Some (VB b).
Proof.
  intros Ht. destruct (eval e f) as [v|] eqn:Hv; [|by left]. right.
  pose proof (eval_typed _ _ _ _ Ht Hv) as H. destruct v; [eauto|done].
Qed.

Lemma eval_num_typed e f t : typeof f = Some t -> ty_num t = true ->
  eval e f = None \/ exists q, eval e f = Some (VN q).
Proof.
  intros Ht Hn. destruct (eval e f) as [v|] eqn:Hv; [|by left]. right.
  pose proof (eval_typed _ _ _ _ Ht Hv) as H. destruct v; [|eauto]. by destruct t.
Qed.

Lemma eval_mkNot e g : typeof g = Some TBool -> eval e (mkNot g) = eval e (NotN g).
Proof.
  intros Ht. destruct g; try done. cbn [mkNot typeof] in *. case_bool_decide as H; [|done].
  cbn [eval]. destruct (eval_bool_typed e g H) as [->|[b ->]]; [done|]. simpl.
  by rewrite negb_involutive.
Qed.

(** * Decidable equality of formulas *)

Global Instance Qc_eq_dec' : EqDecision Qc := Qc_eq_dec.

Global Instance fm_eq_dec : EqDecision fm.
Proof.
  hnf. fix IH 1. intros f g.
  destruct f as [n t|b|q|z|l|l|f|f f'|f f'|f f' f''|l|f f'|l|f f'|f f'|f f'|f f'|f|f];
    destruct g as [n0 t0|b0|q0|z0|l0|l0|g|g g'|g g'|g g' g''|l0|g g'|l0|g g'|g g'|g g'|g g'|g|g];
    try (right; discriminate).
  - destruct (decide (n = n0)); [|right; congruence].
    destruct (decide (t = t0)); [left|right]; congruence.
  - destruct (decide (b = b0)); [left|right]; congruence.
  - destruct (decide (q = q0)); [left|right]; congruence.
  - destruct (decide (z = z0)); [left|right]; congruence.
  - destruct (@list_eq_dec _ IH l l0); [left|right]; congruence.
  - destruct (@list_eq_dec _ IH l l0); [left|right]; congruence.
  - destruct (IH f g); [left|right]; congruence.
  - destruct (IH f g); [|right; congruence]. destruct (IH f' g'); [left|right]; congruence.
  - destruct (IH f g); [|right; congruence]. destruct (IH f' g'); [left|right]; congruence.
  - destruct (IH f g); [|right; congruence]. destruct (IH f' g'); [|right; congruence].
    destruct (IH f'' g''); [left|right]; congruence.
  - destruct (@list_eq_dec _ IH l l0); [left|right]; congruence.
  - destruct (IH f g); [|right; congruence]. destruct (IH f' g'); [left|right]; congruence.
  - destruct (@list_eq_dec _ IH l l0); [left|right]; congruence.
  - destruct (IH f g); [|right; congruence]. destruct (IH f' g'); [left|right]; congruence.
  - destruct (IH f g); [|right; congruence]. destruct (IH f' g'); [left|right]; congruence.
  - destruct (IH f g); [|right; congruence]. destruct (IH f' g'); [left|right]; congruence.
  - destruct (IH f g); [|right; congruence]. destruct (IH f' g'); [left|right]; congruence.
  - destruct (IH f g); [left|right]; congruence.
  - destruct (IH f g); [left|right]; congruence.
Defined.

(** * Shape of formulas *)

(** Shape invariants of pysmt nodes: conjunctions, disjunctions, sums and
    products have at least two arguments; the exponent of a power is a constant
    and its base is not. *)
Fixpoint wf_fm (f : fm) : bool :=
  match f with
  | AndN l | OrN l | PlusN l | TimesN l => (2 <=? length l) && forallb wf_fm l
  | PowN a b => negb (is_const a) && is_const b && wf_fm a && wf_fm b
  | NotN a | ExpN a | ToRealN a => wf_fm a
  | ImpN a b | IffN a b | MinusN a b | LeN a b | LtN a b | EqN a b => wf_fm a && wf_fm b
  | IteN c t e => wf_fm c && wf_fm t && wf_fm e
  | Sym _ _ | BoolC _ | RealC _ | IntC _ => true
  end.

(** No integers (constants, symbols, casts) and no [Exp]. *)
Fixpoint plain (f : fm) : bool :=
  match f with
  | Sym _ t => negb (bool_decide (t = TInt))
  | BoolC _ | RealC _ => true
  | IntC _ | ExpN _ | ToRealN _ => false
  | AndN l | OrN l | PlusN l | TimesN l => forallb plain l
  | NotN a => plain a
  | ImpN a b | IffN a b | MinusN a b | LeN a b | LtN a b | EqN a b | PowN a b => plain a && plain b
  | IteN c t e => plain c && plain t && plain e
  end.

(** The symbols of a formula. *)
Fixpoint syms (f : fm) : list (string * ty) :=
  match f with
  | Sym n t => [(n, t)]
  | BoolC _ | RealC _ | IntC _ => []
  | AndN l | OrN l | PlusN l | TimesN l => concat (map syms l)
  | NotN a | ExpN a | ToRealN a => syms a
  | ImpN a b | IffN a b | MinusN a b | LeN a b | LtN a b | EqN a b | PowN a b => syms a ++ syms b
  | IteN c t e => syms c ++ syms t ++ syms e
  end.
