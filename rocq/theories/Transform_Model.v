(** Model of pywmi/transform: the two formula transformations. *)

From Verif Require Import Base Dict Smt Walk_Model Math_Model Lit_Model.

(** PositiveCoefficientsWalker: the identity walker with [walk_constant] replaced;
    a REAL constant becomes [Real(abs(value))].
    transform/positive_coefficients.py:8-13 *)
Definition positive_walker : walker (Res fm) := {|
  w_and := w_and identity_walker;
  w_or := w_or identity_walker;
  w_plus := w_plus identity_walker;
  w_minus := w_minus identity_walker;
  w_times := w_times identity_walker;
  w_not := w_not identity_walker;
  w_ite := w_ite identity_walker;
  w_pow := w_pow identity_walker;
  w_lte := w_lte identity_walker;
  w_lt := w_lt identity_walker;
  w_equals := w_equals identity_walker;
  w_symbol := w_symbol identity_walker;
  w_const f := match f with RealC q => Ok (RealC (qabs q)) | _ => w_const identity_walker f end;
  w_cannot := w_cannot identity_walker;
  w_fuel := w_fuel identity_walker
|}.

(** make_coefficients_positive.  transform/positive_coefficients.py:16-17 *)
Definition make_coefficients_positive (f : fm) : Res fm := walk positive_walker (msize f) f.

(** [LinearInequality.from_smt(comparison).normalize().to_smt()].
    transform/smt_normalize.py:35,38 *)
Definition normalize_inequality (f : fm) : Res fm :=
  let! d := li_from_smt f in li_to_smt (li_normalize d).

(** NormalizationWalker.  Its methods are those of the identity walker, written
    out again, except for the comparisons, whose two sides are not walked.  An
    integer constant gives a ValueError object, as in the identity walker.
    transform/smt_normalize.py:9-53 *)
Definition normalization_walker : walker (Res fm) := {|
  w_and rec l := let! l' := rmapM rec l in chk (mkAnd l');
  w_or rec l := let! l' := rmapM rec l in chk (mkOr l');
  w_plus rec l := let! l' := rmapM rec l in let! r := mkPlus l' in chk r;
  w_minus rec a b := let! a' := rec a in let! b' := rec b in chk (MinusN a' b');
  w_times rec l := let! l' := rmapM rec l in let! r := mkTimes l' in chk r;
  w_not rec a := let! a' := rec a in let! _ := chk (NotN a') in Ok (mkNot a');
  w_ite rec c a b :=
    let! c' := rec c in let! a' := rec a in let! b' := rec b in chk (IteN c' a' b');
  w_pow rec a b := let! a' := rec a in let! b' := rec b in let! r := mkPow a' b' in chk r;
  w_lte rec a b := normalize_inequality (LeN a b);
  w_lt rec a b := normalize_inequality (LtN a b);
  w_equals rec a b := let! a' := rec a in let! b' := rec b in chk (EqN a' b');
  w_symbol n t := Ok (Sym n t);
  w_const f := match f with BoolC _ | RealC _ => Ok f | _ => Err ValueError end;
  w_cannot := Err RuntimeErr;
  w_fuel := Err OutOfFuel
|}.

(** normalize_formula.  transform/smt_normalize.py:56-58 *)
Definition normalize_formula (f : fm) : Res fm := walk normalization_walker (msize f) f.
