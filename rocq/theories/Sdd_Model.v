(** Model of pywmi/engines/xsdd/semiring.py, sdd_iterator.py, smt_to_sdd.py and of
    the two semirings of pywmi/engines/xsdd/engine.py.

    The PySDD library is not part of /repo: a node of a decision diagram is
    represented by its unfolding, and a manager by the operations the code calls. *)

From Verif Require Import Base Dict Smt Walk_Model Math_Model Lit_Model.

(** A diagram node: true, false, a literal (a signed variable number), or a decision
    node with (prime, sub) elements. *)
Inductive sdd :=
| STrue
| SFalse
| SLit (z : Z)
| SDec (els : list (sdd * sdd)).

Section sdd_ind.
  Variable P : sdd -> Prop.
  Hypothesis HT : P STrue.
  Hypothesis HF : P SFalse.
  Hypothesis HL : forall z, P (SLit z).
  Hypothesis HD : forall els, Forall (fun ps : sdd * sdd => P ps.1 /\ P ps.2) els -> P (SDec els).
  Fixpoint sdd_ind' (n : sdd) : P n :=
    match n with
    | STrue => HT
    | SFalse => HF
    | SLit z => HL z
    | SDec els =>
        HD els ((fix all (l : list (sdd * sdd)) : Forall (fun ps : sdd * sdd => P ps.1 /\ P ps.2) l :=
          match l with
          | [] => Forall_nil_2 _
          | (p, s) :: l => Forall_cons_2 _ (p, s) l (conj (sdd_ind' p) (sdd_ind' s)) (all l)
          end) els)
    end.
End sdd_ind.

Fixpoint sdd_eqb (a b : sdd) : bool :=
  match a, b with
  | STrue, STrue => true
  | SFalse, SFalse => true
  | SLit x, SLit y => (x =? y)%Z
  | SDec l, SDec k =>
      (fix go (l k : list (sdd * sdd)) : bool :=
        match l, k with
        | [], [] => true
        | (p, s) :: l, (q, t) :: k => sdd_eqb p q && sdd_eqb s t && go l k
        | _, _ => false
        end) l k
  | _, _ => false
  end.

Lemma sdd_eqb_eq a : forall b, sdd_eqb a b = true <-> a = b.
Proof.
  induction a using sdd_ind'; intros b; destruct b; cbn; try (split; congruence).
  - rewrite Z.eqb_eq. split; congruence.
  - revert els0. induction H as [|[p s] l [Hp Hs] _ IH]; intros [|[q t] k]; try (split; congruence).
    cbn in Hp, Hs. rewrite !andb_true_iff, Hp, Hs, (IH k). split.
    + intros [[-> ->] H]. injection H as ->. done.
    + intros [= -> -> ->]. done.
Qed.
Global Instance sdd_eq_dec : EqDecision sdd.
Proof.
  intros a b. destruct (sdd_eqb a b) eqn:E; [left; by apply sdd_eqb_eq|right].
  intros H. apply sdd_eqb_eq in H. congruence.
Defined.

(** semiring.py:11-25 SddWalker: the methods of a walker returning [R]. *)
Record sddwalker (R : Type) := SddWalker {
  k_true : sdd -> Res R;
  k_false : sdd -> Res R;
  k_and : R -> R -> sdd -> sdd -> Res R;
  k_or : list R -> sdd -> Res R;
  k_lit : Z -> sdd -> Res R }.
Arguments k_true {R}. Arguments k_false {R}. Arguments k_and {R}. Arguments k_or {R}. Arguments k_lit {R}.

(** sdd_iterator.py:117-160 SddIterator.depth_first_rec with semiring.py:106-137
    walk_callback, for [smooth=False] (the only use in /repo).  The first argument
    of the result is the value, the second the cache [_wmc_cache]. *)
Section iterator.
  Context {R : Type} (w : sddwalker R).
  Notation cache := (list (sdd * R)).
  Fixpoint depth_first_rec (node : sdd) (c : cache) {struct node} : Res (R * cache) :=
    match dget c node with
    | Some r => Ok (r, c)
    | None =>
        match node with
        | SFalse => let! r := k_false w node in Ok (r, dset c node r)
        | STrue => let! r := k_true w node in Ok (r, dset c node r)
        | SLit z => let! r := k_lit w z node in Ok (r, dset c node r)
        | SDec els =>
            let! (rvalues, c1) :=
              (fix go (els : list (sdd * sdd)) (c : cache) : Res (list (R * R * sdd * sdd) * cache) :=
                match els with
                | [] => Ok ([], c)
                | (prime, sub) :: els =>
                    let! (rp, c1) := depth_first_rec prime c in
                    let! (rs, c2) := depth_first_rec sub c1 in
                    let! (rest, c3) := go els c2 in
                    Ok ((rp, rs, prime, sub) :: rest, c3)
                end) els c in
            let! child_results := rmapM (fun x : R * R * sdd * sdd =>
              k_and w x.1.1.1 x.1.1.2 x.1.2 x.2) rvalues in
            let! r := k_or w child_results node in
            Ok (r, dset c1 node r)
        end
    end.

  (** semiring.py:140-144 walk with return_cache=True: the cache starts empty
      (sdd_iterator.py:91). *)
  Definition walk_sdd_cache (node : sdd) : Res (R * cache) := depth_first_rec node [].
  Definition walk_sdd (node : sdd) : Res R := let! (r, _) := walk_sdd_cache node in Ok r.
End iterator.

(** semiring.py:28-51 Semiring ([weight] included, as two subclasses override it) *)
Record semiring (R : Type) := Semiring {
  r_one : R;
  r_zero : R;
  r_times : R -> R -> Res R;
  r_plus : R -> R -> Res R;
  r_weight : Z -> Res R }.
Arguments r_one {R}. Arguments r_zero {R}. Arguments r_times {R}. Arguments r_plus {R}. Arguments r_weight {R}.

(** semiring.py:47-51 Semiring.weight *)
Definition default_weight {R} (negate : R -> R) (positive_weight : Z -> Res R) (a : Z) : Res R :=
  if (a <? 0)%Z then let! r := positive_weight (- a)%Z in Ok (negate r) else positive_weight a.

(** semiring.py:67-76 SemiringWalker.walk_or *)
Definition or_fold {R} (S : semiring R) (l : list R) : Res R :=
  match l with
  | [] => Ok (r_zero S)
  | [r] => Ok r
  | r :: l => fold_left (fun acc x => let! a := acc in r_plus S a x) l (Ok r)
  end.

(** semiring.py:54-79 SemiringWalker *)
Definition semiring_walker {R} (S : semiring R) : sddwalker R := {|
  k_true _ := Ok (r_one S);
  k_false _ := Ok (r_zero S);
  k_and p s _ _ := r_times S p s;
  k_or l _ := or_fold S l;
  k_lit z _ := r_weight S z |}.

(** semiring.py:101-103 amc *)
Definition amc {R} (S : semiring R) (node : sdd) : Res R := walk_sdd (semiring_walker S) node.

(** semiring.py:82-98 WMCSemiring ([weights] is a dictionary; exact numbers) *)
Definition wmc_semiring (weights : list (Z * Qc)) : semiring Qc := {|
  r_one := 1%Qc;
  r_zero := 0%Qc;
  r_times a b := Ok (a * b)%Qc;
  r_plus a b := Ok (a + b)%Qc;
  r_weight := default_weight (fun a => (1 - a)%Qc)
    (fun z => match dget weights z with Some q => Ok q | None => Err KeyError end) |}.

(** * Compilation (smt_to_sdd.py) *)

(** The methods of pysdd's SddManager that are called. *)
Record manager := Manager {
  m_true : sdd;
  m_false : sdd;
  m_l : Z -> sdd;
  m_conjoin : sdd -> sdd -> sdd;
  m_disjoin : sdd -> sdd -> sdd;
  m_negate : sdd -> sdd }.

(** functools.reduce *)
Definition reduce1 {A} (f : A -> A -> A) (l : list A) : Res A :=
  match l with [] => Err TypeError | x :: l => Ok (fold_left f l x) end.

(** smt_to_sdd.py:29-90 SddConversionWalker.  [raise NotImplemented()] raises
    TypeError.  The cache of CachedSmtWalker is left out: the methods have no
    state, so a repeated visit returns the same node. *)
Definition sdd_converter (M : manager) (varnums : list (string * nat)) : walker (Res sdd) := {|
  w_and rec l := let! l' := rmapM rec l in reduce1 (m_conjoin M) l';
  w_or rec l := let! l' := rmapM rec l in reduce1 (m_disjoin M) l';
  w_plus _ _ := Err TypeError;
  w_minus _ _ _ := Err TypeError;
  w_times _ _ := Err TypeError;
  w_not rec a := let! a' := rec a in Ok (m_negate M a');
  w_ite rec c a b :=
    let! c' := rec c in let! a' := rec a in let! b' := rec b in
    Ok (m_disjoin M (m_conjoin M c' a') (m_conjoin M (m_negate M c') b'));
  w_pow _ _ _ := Err TypeError;
  w_lte _ _ _ := Err TypeError;
  w_lt _ _ _ := Err TypeError;
  w_equals _ _ _ := Err TypeError;
  w_symbol n t :=
    if bool_decide (t = TBool) then
      match dget varnums n with Some k => Ok (m_l M (Z.of_nat k)) | None => Err KeyError end
    else Err AssertionError;
  w_const f := match f with
    | BoolC true => Ok (m_true M) | BoolC false => Ok (m_false M) | _ => Err AssertionError end;
  w_cannot := Err RuntimeErr;
  w_fuel := Err OutOfFuel |}.

(** smt_to_sdd.py:127-150 compile_to_sdd, with the manager made for the vtree *)
Definition compile_to_sdd (M : manager) (f : fm) (i : linfo) : Res sdd :=
  walk (sdd_converter M (numbered i)) (msize f) f.

(** smt_to_sdd.py:93-117 PySmtConversion *)
Definition smt_positive_weight (i : linfo) (a : Z) : Res fm :=
  match (if (a <? 0)%Z then None else dget (inv_numbered i) (Z.to_nat a)) with
  | None => Err KeyError
  | Some lit =>
      match dget (literals i) lit with
      | None => Err KeyError
      | Some (MBool x) =>
          (* a name that is not a key of [booleans] stays a string *)
          if bool_decide (is_Some (dget (booleans i) x)) then Ok (Sym x TBool) else Err TypeError
      | Some (MTest f) => Ok f
      end
  end.
Definition smt_semiring (i : linfo) : semiring fm := {|
  r_one := BoolC true;
  r_zero := BoolC false;
  r_times a b := Ok (AndN [a; b]);
  r_plus a b := Ok (OrN [a; b]);
  r_weight := default_weight mkNot (smt_positive_weight i) |}.

(** smt_to_sdd.py:153-162 recover_formula; [simplify] is pysmt's simplifier. *)
Definition recover_formula (simplify : fm -> fm) (node : sdd) (i : linfo) : Res fm :=
  let! f := amc (smt_semiring i) node in Ok (simplify f).

(** * The semirings of pywmi/engines/xsdd/engine.py *)

(** Union of Python sets, as duplicate-free lists. *)
Definition uni (a b : list string) : list string := a ++ filter (fun x => x ∉ a) b.
Definition diff (a b : list string) : list string := filter (fun x => x ∉ b) a.

(** engine.py:66-75: the meaning of a literal; sets are keyed by variable name. *)
Definition lit_meaning (i : linfo) (a : Z) : Res meaning := number_to_val i a.

(** engine.py:43-77 ConvexWMISemiring *)
Definition convex_weight (i : linfo) (a : Z) : Res (list (fm * list string)) :=
  let! m := lit_meaning i a in
  match m with
  | MBool x => Ok [(BoolC true, [x])]
  | MTest f => Ok [(if (a <? 0)%Z then mkNot f else f, [])]
  end.
Definition convex_times (a b : list (fm * list string)) : list (fm * list string) :=
  flat_map (fun p1 : fm * list string =>
    map (fun p2 : fm * list string => (AndN [p1.1; p2.1], uni p1.2 p2.2)) b) a.
Definition convex_semiring (i : linfo) : semiring (list (fm * list string)) := {|
  r_one := [(BoolC true, [])];
  r_zero := [];
  r_times a b := Ok (convex_times a b);
  r_plus a b := Ok (a ++ b);
  r_weight := convex_weight i |}.

(** engine.py:80-127 NonConvexWMISemiring *)
Section nonconvex.
  Context {E : Type} (A : alg E) (i : linfo).
  Definition nonconvex_plus (a b : E * list string) : Res (E * list string) :=
    if (length a.2 =? length b.2)%nat then Ok (alg_plus A a.1 b.1, uni a.2 b.2)
    else
      let missing_a := length (diff b.2 a.2) in
      let missing_b := length (diff a.2 b.2) in
      let! bool_worlds_a := alg_power A (a_real A (qz 2)) (qn missing_a) in
      let! bool_worlds_b := alg_power A (a_real A (qz 2)) (qn missing_b) in
      let w_a := alg_times A a.1 bool_worlds_a in
      let w_b := alg_times A b.1 bool_worlds_b in
      Ok (alg_plus A w_a w_b, uni a.2 b.2).
  Definition nonconvex_weight (a : Z) : Res (E * list string) :=
    let! m := lit_meaning i a in
    match m with
    | MBool x => Ok (alg_one A, [x])
    | MTest f =>
        let! d := li_from_smt (if (a <? 0)%Z then mkNot f else f) in
        Ok (li_to_expression A d, [])
    end.
  Definition nonconvex_semiring : semiring (E * list string) := {|
    r_one := (alg_one A, []);
    r_zero := (alg_zero A, []);
    r_times a b := Ok (alg_times A a.1 b.1, uni a.2 b.2);
    r_plus := nonconvex_plus;
    r_weight := nonconvex_weight |}.
End nonconvex.
