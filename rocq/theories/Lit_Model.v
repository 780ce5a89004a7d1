(** Model of pywmi/engines/xsdd/literals.py: the two-way literal table, literal
    numbering and the extraction of literals from a formula. *)

From stdpp Require Export pretty.
From Verif Require Import Base Dict Smt Math_Model.

(** What a literal stands for: the name of a boolean variable (a Python string) or
    an inequality (an FNode).  literals.py:45-50 *)
Inductive meaning := MBool (x : string) | MTest (f : fm).

(** LiteralInfo's attributes [abstractions], [booleans] (InverseDictDelegate) and
    their shared inverse [literals].  literals.py:44-63.  The label dictionary is
    not part of this record (see Piecewise_Model.v and Factor_Model.v).  The numbering cache is never
    marked valid (78-81), so the numbers are functions of [literals]. *)
Record linfo := LInfo {
  abstractions : list (fm * string);
  booleans : list (string * string);
  literals : list (string * meaning) }.

(** InverseDictDelegate.__setitem__ of a delegate with contents [d], whose keys are
    stored in the inverse through [inj].  literals.py:23-27 *)
Definition delegate_set {K} `{EqDecision K} (inj : K -> meaning) (d : list (K * string))
  (inv : list (string * meaning)) (k : K) (item : string) :
  Res (list (K * string) * list (string * meaning)) :=
  if bool_decide (is_Some (dget d k)) || negb (bool_decide (is_Some (dget inv item)))
  then Ok (dset d k item, dset inv item (inj k))
  else Err AssertionError.

(** InverseDictDelegate.__delitem__: the entry is removed before its value is read,
    so the second statement always raises; the first component is what the call
    leaves behind.  literals.py:29-33 *)
Definition delegate_del {K} `{EqDecision K} (d : list (K * string)) (k : K) :
  list (K * string) * Res unit :=
  match dget d k with
  | None => (d, Err KeyError)
  | Some _ =>
      let d' := ddel d k in
      (d', match dget d' k with Some _ => Ok tt | None => Err KeyError end)
  end.

(** InverseDictDelegate.clear: deleting while iterating raises RuntimeError at the
    second step of the loop (CPython checks the size before looking for the next
    entry).  literals.py:35-41 *)
Definition delegate_clear {K} `{EqDecision K} (d : list (K * string)) (inv : list (string * meaning)) :
  list (K * string) * list (string * meaning) * Res unit :=
  if forallb (fun kv : K * string => bool_decide (is_Some (dget inv kv.2))) d then
    match d with
    | [] => (d, inv, Ok tt)
    | (k, v) :: d' => (d', ddel inv v, Err RuntimeErr)
    end
  else (d, inv, Err AssertionError).

(** The mutating operations of the two delegates of a LiteralInfo. *)
Inductive lop :=
| SetBool (x : string) (lit : string)
| SetTest (f : fm) (lit : string)
| DelBool (x : string)
| DelTest (f : fm)
| ClearBool
| ClearTest.

(** One operation: the object afterwards and how the call ended. *)
Definition lstep (s : linfo) (o : lop) : linfo * Res unit :=
  match o with
  | SetBool x l =>
      match delegate_set MBool (booleans s) (literals s) x l with
      | Ok (d, inv) => (LInfo (abstractions s) d inv, Ok tt)
      | Err e => (s, Err e)
      end
  | SetTest f l =>
      match delegate_set MTest (abstractions s) (literals s) f l with
      | Ok (d, inv) => (LInfo d (booleans s) inv, Ok tt)
      | Err e => (s, Err e)
      end
  | DelBool x => let '(d, r) := delegate_del (booleans s) x in (LInfo (abstractions s) d (literals s), r)
  | DelTest f => let '(d, r) := delegate_del (abstractions s) f in (LInfo d (booleans s) (literals s), r)
  | ClearBool =>
      let '(d, inv, r) := delegate_clear (booleans s) (literals s) in (LInfo (abstractions s) d inv, r)
  | ClearTest =>
      let '(d, inv, r) := delegate_clear (abstractions s) (literals s) in (LInfo d (booleans s) inv, r)
  end.

(** A history of calls on one object (exceptions are caught by the caller). *)
Definition lrun (s : linfo) (os : list lop) : linfo := fold_left (fun s o => (lstep s o).1) os s.

(** LiteralInfo.__init__.  literals.py:46-63 *)
Definition linfo_make (abs : list (fm * string)) (bools : list (string * string)) : Res linfo :=
  if existsb (fun kv : string * string => bool_decide (kv.2 ∈ map snd abs)) bools then Err AssertionError
  else
    let inv := fold_left (fun m (kv : string * string) => dset m kv.2 (MBool kv.1)) bools [] in
    let inv := fold_left (fun m (kv : fm * string) => dset m kv.2 (MTest kv.1)) abs inv in
    Ok (LInfo abs bools inv).

(** LiteralInfo.numbered and inv_numbered.  literals.py:65-81 *)
Definition numbered (s : linfo) : list (string * nat) :=
  imap (fun i (kv : string * meaning) => (kv.1, i + 1)) (literals s).
Definition inv_numbered (s : linfo) : list (nat * string) :=
  imap (fun i (kv : string * meaning) => (i + 1, kv.1)) (literals s).

(** number_to_lit and number_to_val.  literals.py:83-90 *)
Definition number_to_lit (s : linfo) (z : Z) : Res string :=
  match dget (inv_numbered s) (Z.abs_nat z) with Some l => Ok l | None => Err KeyError end.
Definition number_to_val (s : linfo) (z : Z) : Res meaning :=
  let! l := number_to_lit s z in
  match dget (literals s) l with Some m => Ok m | None => Err KeyError end.

(** is_number_boolean: [isinstance(lit, str)], and every literal name is a string.
    literals.py:92-99 *)
Definition is_lit_boolean (lit : string) : bool := true.
Definition is_number_boolean (s : linfo) (z : Z) : Res bool :=
  let! l := number_to_lit s z in Ok (is_lit_boolean l).

(** to_canonical.  literals.py:108-109 *)
Definition to_canonical (f : fm) : Res fm :=
  let! d := li_from_smt f in li_to_smt (li_normalize d).

(** is_all_real.  literals.py:117-125 *)
Fixpoint is_all_real (f : fm) : bool :=
  match f with
  | Sym _ t => bool_decide (t = TReal)
  | RealC _ | IntC _ => true
  | TimesN l | PlusN l => forallb is_all_real l
  | MinusN a b | PowN a b => is_all_real a && is_all_real b
  | _ => false
  end.

(** The two dictionaries filled by the nested function [recurse]. *)
Record lst := LSt { s_abs : list (fm * string); s_bools : list (string * string) }.

(** Arguments are translated from left to right. *)
Definition smapM {S A B} (f : A -> S -> Res (B * S)) : list A -> S -> Res (list B * S) :=
  fix go (l : list A) (s : S) : Res (list B * S) :=
    match l with
    | [] => Ok ([], s)
    | x :: xs =>
        let! (y, s1) := f x s in
        let! (ys, s2) := go xs s1 in
        Ok (y :: ys, s2)
    end.

(** The boolean symbol case.  literals.py:145-149 *)
Definition rec_symbol (x : string) (t : ty) (s : lst) : Res (fm * lst) :=
  if bool_decide (t = TBool) then
    match dget (s_bools s) x with
    | Some lit => Ok (Sym lit TBool, s)
    | None =>
        let lit := ("b" +:+ pretty (length (s_bools s)))%string in
        Ok (Sym lit TBool, LSt (s_abs s) (dset (s_bools s) x lit))
    end
  else Err AssertionError.

(** The comparison case.  literals.py:153-158 *)
Definition rec_test (f a b : fm) (s : lst) : Res (fm * lst) :=
  if is_all_real a && is_all_real b then
    let! c := to_canonical f in
    match dget (s_abs s) c with
    | Some lit => Ok (Sym lit TBool, s)
    | None =>
        let lit := ("a" +:+ pretty (length (s_abs s)))%string in
        Ok (Sym lit TBool, LSt (dset (s_abs s) c lit) (s_bools s))
    end
  else Err AssertionError.

(** [recurse].  literals.py:141-160.  The lru_cache is left out: translating a
    formula again gives the same result and changes nothing (lemma [recurse_again]
    in Lit_Proofs.v), so a cache of any size is invisible. *)
Fixpoint recurse (f : fm) (s : lst) {struct f} : Res (fm * lst) :=
  match f with
  | BoolC b => Ok (BoolC b, s)
  | Sym x t => rec_symbol x t s
  | AndN l => let! (l', s1) := smapM recurse l s in Ok (mkAnd l', s1)
  | OrN l => let! (l', s1) := smapM recurse l s in Ok (mkOr l', s1)
  | NotN g => let! (g', s1) := recurse g s in Ok (mkNot g', s1)
  | ImpN g h =>
      let! (g', s1) := recurse g s in let! (h', s2) := recurse h s1 in Ok (ImpN g' h', s2)
  | IffN g h =>
      let! (g', s1) := recurse g s in let! (h', s2) := recurse h s1 in Ok (IffN g' h', s2)
  | IteN c g h =>
      let! (c', s1) := recurse c s in let! (g', s2) := recurse g s1 in
      let! (h', s3) := recurse h s2 in Ok (IteN c' g' h', s3)
  | LeN a b | LtN a b | EqN a b => rec_test f a b s
  | _ => Err RuntimeErr
  end.

(** extract_and_replace_literals (the fresh pysmt environment is not modelled).
    literals.py:128-164 *)
Definition extract_literals (f : fm) : Res (fm * linfo) :=
  let! (g, s) := recurse f (LSt [] []) in
  let! i := linfo_make (s_abs s) (s_bools s) in
  Ok (g, i).
