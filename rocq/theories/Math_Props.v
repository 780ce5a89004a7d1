(** Properties C06-C11 and C58: polynomials, linear inequalities, bounds, algebra
    backends. *)

From Verif Require Import Base Dict Smt Walk_Model Math_Model Math_Spec Poly_Proofs Linear_Proofs
  Arith_Proofs Bounds_Proofs.

Definition X := Sym "x" TReal.
Definition Y := Sym "y" TReal.
Definition pt (x y : Qc) : env :=
  Env (fun _ => false) (fun n => if decide (n = "x") then x else if decide (n = "y") then y else 0%Qc).

(** * C06 *)

(** Converting succeeds and keeps the value at every point.  Partial: zeroth powers
    are excluded (see the refutation). *)
Theorem C06_from_smt_value_partial f : poly_expr1 f ->
  exists p, poly_from_smt f = Ok p /\ forall e, eval e f = Some (VN (poly_val e p)).
Proof. exact (from_smt_value f). Qed.
Print Assumptions C06_from_smt_value_partial.

(** (x + y) * (x - 2y)^2 *)
Definition ex06 : fm :=
  TimesN [PlusN [X; Y]; PowN (MinusN X (TimesN [RealC (qz 2); Y])) (RealC (qn 2))].
Example C06_example : poly_expr1 ex06.
Proof. unfold ex06. repeat (constructor || done). Qed.

(** x^0 is converted to x. *)
Theorem C06_zeroth_power_refuted :
  exists f p e, poly_expr f /\ poly_from_smt f = Ok p /\ eval e f <> Some (VN (poly_val e p)).
Proof.
  exists (PowN X (RealC (qn 0))), [(["x"], 1%Qc)], (pt (qz 2) 0).
  split; [repeat constructor|]. split; [by vm_compute|]. dec.
Qed.
Print Assumptions C06_zeroth_power_refuted.

(** * C07 *)

(** The converted polynomials compare equal exactly when the expressions denote
    the same function. *)
Theorem C07_equality_decides f g : poly_expr1 f -> poly_expr1 g ->
  exists p q, poly_from_smt f = Ok p /\ poly_from_smt g = Ok q /\ (poly_eqb p q = true <-> fequiv f g).
Proof. exact (equal_iff_same_function f g). Qed.
Print Assumptions C07_equality_decides.

Example C07_example :
  poly_from_smt (TimesN [PlusN [X; Y]; MinusN X Y]) <> Err ValueError /\
  (p ← match poly_from_smt (TimesN [PlusN [X; Y]; MinusN X Y]) with Ok p => Some p | _ => None end;
   q ← match poly_from_smt (MinusN (PowN X (RealC (qn 2))) (TimesN [Y; Y])) with Ok p => Some p | _ => None end;
   Some (poly_eqb p q)) = Some true.
Proof. split; [by vm_compute|by vm_compute]. Qed.

(** The sum of two polynomials that cancel is not recognised as the zero polynomial:
    [__add__] keeps zero coefficients. *)
Theorem C07_sum_refuted :
  exists p q, poly_from_smt X = Ok p /\ poly_from_smt (MinusN Y X) = Ok q /\
    exists r, poly_from_smt Y = Ok r /\ (forall e, poly_val e (poly_add p q) = poly_val e r) /\
      poly_eqb (poly_add p q) r = false.
Proof.
  eexists _, _. split; [vm_compute; reflexivity|]. split; [vm_compute; reflexivity|].
  eexists. split; [vm_compute; reflexivity|]. split; [|by vm_compute].
  intros e. unfold poly_add. rewrite pv_plus. unfold poly_val, mono_val. cbn [map fst snd qsum qprod fold_right].
  change (Q2Qc (-1 # 1)) with (- (1))%Qc. qclra.
Qed.
Print Assumptions C07_sum_refuted.

(** * C08 *)

Theorem C08_sum p q e : poly_val e (poly_add p q) = (poly_val e p + poly_val e q)%Qc.
Proof. exact (pv_plus e p q). Qed.
Print Assumptions C08_sum.

Theorem C08_product p q : exists r, poly_mul p q = Ok r /\
  forall e, poly_val e r = (poly_val e p * poly_val e q)%Qc.
Proof. exact (poly_mul_value p q). Qed.
Print Assumptions C08_product.

(** Negation and power, as computed by the polynomial algebra. *)
Theorem C08_negation p e : poly_val e (alg_negate poly_alg p) = (- poly_val e p)%Qc.
Proof. exact (poly_alg_negate p e). Qed.
Print Assumptions C08_negation.

Theorem C08_power p n : exists r, alg_power poly_alg p (qn n) = Ok r /\
  forall e, poly_val e r = qpow (poly_val e p) n.
Proof. exact (poly_alg_power p n). Qed.
Print Assumptions C08_power.

(** Writing a polynomial back as a formula keeps its value, unless it has no terms. *)
Theorem C08_to_smt_partial p : p <> [] -> exists g, poly_to_smt p = Ok g /\
  forall e, eval e g = Some (VN (poly_val e p)).
Proof. exact (poly_to_smt_sound p). Qed.
Print Assumptions C08_to_smt_partial.

(** The zero polynomial cannot be written back. *)
Theorem C08_zero_refuted : exists f p, poly_expr1 f /\ poly_from_smt f = Ok p /\ poly_to_smt p = Err AssertionError.
Proof. exists (MinusN X X), []. split; [repeat constructor|]. split; by vm_compute. Qed.
Print Assumptions C08_zero_refuted.

(** Writing a polynomial as an expression of any sound algebra keeps its value. *)
Theorem C08_to_expression {E} (A : alg E) den e p :
  sound_arith (a_real A) (a_symbol A) (a_eq A) (a_mul A) (a_add A) den ->
  den (to_expression A p) e = Some (poly_val e p).
Proof. intros H. exact (to_expression_value A den H e p). Qed.
Print Assumptions C08_to_expression.

Example C08_example :
  poly_val (pt (qz 2) (qz 3)) [(["x"; "y"], qz 2); ([], qz 1)] = qz 13 /\
  sound_arith (a_real pysmt_alg) (a_symbol pysmt_alg) (a_eq pysmt_alg) (a_mul pysmt_alg) (a_add pysmt_alg) fm_den.
Proof. split; [dec|exact pysmt_sound_arith]. Qed.

(** * C09 *)

(** Every linear comparison is accepted; written back it holds exactly where the
    comparison holds, and the inverted inequality exactly where it does not, away
    from the hyperplane. *)
Theorem C09_half_space f a b : compares f a b -> linear_expr a -> linear_expr b ->
  exists d g h, li_from_smt f = Ok d /\ li_to_smt d = Ok g /\ li_to_smt (li_inverted d) = Ok h /\
    forall e, off e a b -> eval e g = eval e f /\ eval e h = eval e (NotN f).
Proof.
  intros Hc Ha Hb. destruct (li_from_smt_ok f a b Hc Ha Hb) as [d Hd].
  destruct (li_half_space f a b d Hc (linear_expr_real _ Ha) (linear_expr_real _ Hb) Hd) as (g & h & H).
  exists d, g, h. split; [exact Hd|exact H].
Qed.
Print Assumptions C09_half_space.

(** The same for any comparison of real expressions that is accepted. *)
Theorem C09_accepted f a b d :
  compares f a b -> typeof a = Some TReal -> typeof b = Some TReal -> li_from_smt f = Ok d ->
  exists g h, li_to_smt d = Ok g /\ li_to_smt (li_inverted d) = Ok h /\
    forall e, off e a b -> eval e g = eval e f /\ eval e h = eval e (NotN f).
Proof. exact (li_half_space f a b d). Qed.
Print Assumptions C09_accepted.

(** What is accepted has only linear terms, with coefficients other than zero. *)
Theorem C09_linear f d : li_from_smt f = Ok d ->
  forall k v, (k, v) ∈ d -> length k <= 1 /\ v <> 0%Qc.
Proof. exact (li_linear f d). Qed.
Print Assumptions C09_linear.

Ltac lin := first [apply le_sym | solve [apply le_const; repeat constructor] | apply le_minus; lin].

(** not (2x <= y - 3) *)
Definition ex09 : fm := NotN (LeN (TimesN [RealC (qz 2); X]) (MinusN Y (RealC (qz 3)))).
Example C09_example :
  compares ex09 (TimesN [RealC (qz 2); X]) (MinusN Y (RealC (qz 3))) /\
  linear_expr (TimesN [RealC (qz 2); X]) /\ linear_expr (MinusN Y (RealC (qz 3))) /\
  off (pt 1 1) (TimesN [RealC (qz 2); X]) (MinusN Y (RealC (qz 3))).
Proof.
  split; [by repeat constructor|]. split; [|split].
  - apply (le_times [RealC (qz 2)] X []); [repeat constructor|lin|constructor].
  - lin.
  - eexists _, _. split; [vm_compute; reflexivity|]. split; [vm_compute; reflexivity|]. dec.
Qed.

(** On the hyperplane itself the meaning changes: x <= 1 becomes x < 1. *)
Theorem C09_boundary_refuted : exists d g e,
  li_from_smt (LeN X (RealC 1)) = Ok d /\ li_to_smt d = Ok g /\
  eval e (LeN X (RealC 1)) = Some (VB true) /\ eval e g = Some (VB false).
Proof.
  eexists _, _, (pt 1 1). split; [vm_compute; reflexivity|]. split; [vm_compute; reflexivity|].
  split; by vm_compute.
Qed.
Print Assumptions C09_boundary_refuted.

(** * C10 *)

(** The inequality objects of the code: distinct terms, no zero coefficient. *)
Definition inequality (d : list (list string * Qc)) : Prop :=
  NoDup (map fst d) /\ forall k v, (k, v) ∈ d -> v <> 0%Qc.

Theorem C10_normalize d : inequality d ->
  exists g g', li_to_smt d = Ok g /\ li_to_smt (li_normalize d) = Ok g' /\ fequiv g' g.
Proof.
  intros [H1 H2]. destruct (li_to_smt_sound d H1) as (g & Hg & _).
  destruct (li_normalize_same d g H1 H2 Hg) as (g' & H). exists g, g'. split; [exact Hg|exact H].
Qed.
Print Assumptions C10_normalize.

(** [lim] is Python's [Fraction.limit_denominator()], which leaves fractions with a
    denominator up to 10^6 alone.  [M] is a common denominator. *)
Theorem C10_scale_to_integer_partial lim M d : inequality d -> d <> [] ->
  (forall q : Qc, (Zpos (Qden (this q)) <= 10 ^ 6)%Z -> lim q = q) ->
  (forall k v, (k, v) ∈ d -> (Zpos (Qden (this v)) <= 10 ^ 6)%Z) ->
  (0 < M <= 2 ^ 53)%Z -> (forall k v, (k, v) ∈ d -> (Zpos (Qden (this v)) | M)%Z) ->
  exists g d' g', li_to_smt d = Ok g /\ li_scale_to_integer lim d = Ok d' /\
    (forall k v, (k, v) ∈ d' -> exists z, v = qz z) /\ li_to_smt d' = Ok g' /\ fequiv g' g.
Proof.
  intros [H1 H2] Hne Hlim H6 HM HD. destruct (li_to_smt_sound d H1) as (g & Hg & _). exists g.
  destruct (li_scale_same lim M d g Hne H1 H2 (fun k v Hin => Hlim v (H6 k v Hin)) HM HD Hg) as (d' & g' & H).
  exists d', g'. split; [exact Hg|exact H].
Qed.
Print Assumptions C10_scale_to_integer_partial.

Definition ex10 : list (list string * Qc) :=
  [(["x"], Q2Qc (3 # 4)); (["y"], Q2Qc (-5 # 6)); ([], Q2Qc (1 # 2))].
Example C10_example : inequality ex10 /\ ex10 <> [] /\
  (forall k v, (k, v) ∈ ex10 -> (Zpos (Qden (this v)) <= 10 ^ 6)%Z) /\
  (forall k v, (k, v) ∈ ex10 -> (Zpos (Qden (this v)) | 12)%Z) /\
  li_scale_to_integer (fun q => q) ex10 = Ok [(["x"], qz 9); (["y"], qz (-10)); ([], qz 6)].
Proof.
  assert (forall P : Qc -> Prop, P (Q2Qc (3 # 4)) -> P (Q2Qc (-5 # 6)) -> P (Q2Qc (1 # 2)) ->
    forall k v, (k, v) ∈ ex10 -> P v) as H.
  { intros P P1 P2 P3 k v Hin. unfold ex10 in Hin.
    repeat (apply elem_of_cons in Hin as [[= _ ->]|Hin]; [assumption|]). by apply elem_of_nil in Hin. }
  split; [split; [dec|apply H; dec]|]. split; [done|]. split; [apply H; by vm_compute|].
  split; [apply H|by vm_compute].
  - by exists 3%Z.
  - by exists 2%Z.
  - by exists 6%Z.
Qed.

(** With three denominators whose least common multiple exceeds 2^53 the float
    division rounds it, every coefficient is truncated to zero, and the inequality
    becomes trivially true.  [lim] may be the identity here. *)
Theorem C10_large_denominators_refuted : exists d g d' g' e,
  inequality d /\ (forall k v, (k, v) ∈ d -> (Zpos (Qden (this v)) <= 10 ^ 6)%Z) /\
  li_to_smt d = Ok g /\ li_scale_to_integer (fun q => q) d = Ok d' /\ li_to_smt d' = Ok g' /\
  eval e g = Some (VB false) /\ eval e g' = Some (VB true).
Proof.
  exists [(["x"], Q2Qc (1 # 999983)); (["y"], Q2Qc (1 # 999979)); ([], Q2Qc (1 # 999961))].
  eexists _, _, _, (pt 1 1).
  split; [split; [dec|]|split].
  - intros k v Hin. repeat (apply elem_of_cons in Hin as [[= _ ->]|Hin]; [dec|]). by apply elem_of_nil in Hin.
  - intros k v Hin. repeat (apply elem_of_cons in Hin as [[= _ ->]|Hin]; [by vm_compute|]). by apply elem_of_nil in Hin.
  - split; [vm_compute; reflexivity|]. split; [vm_compute; reflexivity|].
    split; [vm_compute; reflexivity|]. split; by vm_compute.
Qed.
Print Assumptions C10_large_denominators_refuted.

(** The trivial inequality (no terms) cannot be scaled. *)
Theorem C10_trivial_refuted lim : li_scale_to_integer lim [] = Err TypeError.
Proof. reflexivity. Qed.
Print Assumptions C10_trivial_refuted.

(** * C11 *)

(** A conjunction of (possibly negated) linear comparisons is accepted, and the
    extracted inequalities hold together exactly where it holds. *)
Theorem C11_bounds_equivalent_partial f : conj_of_bounds f ->
  exists ds, get_inequalities f = Ok ds /\
    forall e, off_all e f ->
      (exists v, eval e f = Some (VB v)) /\
      (eval e f = Some (VB true) <->
       forall d, d ∈ ds -> exists g, li_to_smt d = Ok g /\ eval e g = Some (VB true)).
Proof. exact (inequalities_equivalent f). Qed.
Print Assumptions C11_bounds_equivalent_partial.

(** Exactly the formulas built from comparisons, boolean symbols and constants with
    conjunction and negation pass the walker. *)
Theorem C11_accepted f : (exists s, bounds_of false f = Ok s) <-> literals_only f.
Proof.
  split; [intros [s H]; exact (bounds_accepts_only _ f s H)|].
  intros H. exact (bounds_accepts (msize f) f H (le_n _)).
Qed.
Print Assumptions C11_accepted.

Definition ex11 : fm := AndN [LeN X Y; AndN [NotN (LtN Y (RealC 1)); LeN (RealC 0) X]].
Example C11_example : conj_of_bounds ex11 /\ off_all (pt 1 (qz 2)) ex11 /\
  literals_only ex11 /\ ~ literals_only (OrN [LeN X Y; LeN Y X]).
Proof.
  split; [|split; [|split]].
  - unfold ex11. constructor; [done|]. constructor; [|constructor; [|constructor]].
    + eapply cb_cmp; [repeat constructor|lin|lin].
    + apply cb_and; [done|].
      constructor; [|constructor; [|constructor]]; (eapply cb_cmp; [repeat constructor|lin|lin]).
  - apply oa_and. constructor; [|constructor; [|constructor]].
    + eapply oa_cmp; [constructor|]. eexists _, _. split; [vm_compute; reflexivity|].
      split; [vm_compute; reflexivity|]. dec.
    + apply oa_and. constructor; [|constructor; [|constructor]].
      * eapply oa_cmp; [constructor; constructor|]. eexists _, _. split; [vm_compute; reflexivity|].
        split; [vm_compute; reflexivity|]. dec.
      * eapply oa_cmp; [constructor|]. eexists _, _. split; [vm_compute; reflexivity|].
        split; [vm_compute; reflexivity|]. dec.
  - unfold ex11. repeat (constructor || done).
  - intros H. inversion H.
Qed.

(** A negated conjunction is accepted although it is not convex, and its bounds are
    those of another formula. *)
Theorem C11_negated_conjunction_refuted : exists f ds e,
  f = NotN (AndN [LeN X (RealC 0); LeN Y (RealC 0)]) /\ get_inequalities f = Ok ds /\
  off e X (RealC 0) /\ off e Y (RealC 0) /\ eval e f = Some (VB true) /\
  exists d g, d ∈ ds /\ li_to_smt d = Ok g /\ eval e g = Some (VB false).
Proof.
  eexists _, _, (pt 1 (qz (-1))). split; [reflexivity|]. split; [vm_compute; reflexivity|].
  split; [by eexists _, _; split; [vm_compute; reflexivity|]; split; [vm_compute; reflexivity|dec]|].
  split; [by eexists _, _; split; [vm_compute; reflexivity|]; split; [vm_compute; reflexivity|dec]|].
  split; [by vm_compute|]. eexists _, _. split; [by right; left|]. split; [vm_compute; reflexivity|].
  by vm_compute.
Qed.
Print Assumptions C11_negated_conjunction_refuted.

(** Boolean literals, and even FALSE, are dropped. *)
Theorem C11_boolean_literal_refuted e :
  get_inequalities (BoolC false) = Ok [] /\ eval e (BoolC false) = Some (VB false) /\
  get_inequalities (Sym "a" TBool) = Ok [].
Proof. repeat split. Qed.
Print Assumptions C11_boolean_literal_refuted.

(** * C58 *)

(** For a backend whose expressions are interpreted soundly, the shortcuts of
    times, plus, negate and power do not change the value. *)
Theorem C58_arithmetic {E} (A : alg E) den e a b x y :
  sound_arith (a_real A) (a_symbol A) (a_eq A) (a_mul A) (a_add A) den ->
  den a e = Some x -> den b e = Some y ->
  den (alg_times A a b) e = Some (x * y)%Qc /\ den (alg_plus A a b) e = Some (x + y)%Qc /\
  den (alg_negate A a) e = Some (- x)%Qc /\
  forall n, exists r, alg_power A a (qn n) = Ok r /\ den r e = Some (qpow x n).
Proof.
  intros HA Hx Hy. split; [exact (alg_times_value A den HA e a b x y Hx Hy)|].
  split; [exact (alg_plus_value A den HA e a b x y Hx Hy)|].
  split; [exact (alg_negate_value A den HA e a x Hx)|].
  intros n. exact (alg_power_value A den HA e a x n Hx).
Qed.
Print Assumptions C58_arithmetic.

Theorem C58_comparisons {E} (A : alg E) den cond e a b x y :
  sound_arith (a_real A) (a_symbol A) (a_eq A) (a_mul A) (a_add A) den ->
  sound_comp (a_le A) (a_lt A) den cond ->
  den a e = Some x -> den b e = Some y ->
  cond (alg_less_than A a b) e = Some (qlt x y) /\
  cond (alg_less_than_equal A a b) e = Some (qle x y) /\
  cond (alg_greater_than A a b) e = Some (qlt y x) /\
  cond (alg_greater_than_equal A a b) e = Some (qle y x).
Proof. intros HA HC. exact (alg_comparisons A den cond HA e HC a b x y). Qed.
Print Assumptions C58_comparisons.

(** A linear inequality written as an expression of a sound algebra: the closed
    half-space. *)
Theorem C58_inequality {E} (A : alg E) den cond e d :
  sound_arith (a_real A) (a_symbol A) (a_eq A) (a_mul A) (a_add A) den ->
  sound_comp (a_le A) (a_lt A) den cond -> NoDup (map fst d) ->
  cond (li_to_expression A d) e = Some (qle (poly_val e d) 0).
Proof. intros HA HC. exact (li_to_expression_value A den cond HA e HC d). Qed.
Print Assumptions C58_inequality.

(** The polynomial algebra. *)
Theorem C58_polynomials p q e :
  poly_val e (alg_times poly_alg p q) = (poly_val e p * poly_val e q)%Qc /\
  poly_val e (alg_plus poly_alg p q) = (poly_val e p + poly_val e q)%Qc.
Proof. split; [exact (poly_alg_times p q e)|exact (poly_alg_plus p q e)]. Qed.
Print Assumptions C58_polynomials.

(** The algebra of pysmt formulas is sound; its own power too. *)
Theorem C58_pysmt :
  sound_arith (a_real pysmt_alg) (a_symbol pysmt_alg) (a_eq pysmt_alg) (a_mul pysmt_alg) (a_add pysmt_alg) fm_den /\
  forall a n, typeof a = Some TReal -> exists r, pysmt_power a (qn n) = Ok r /\
    forall e x, eval e a = Some (VN x) -> eval e r = Some (VN (qpow x n)).
Proof. split; [exact pysmt_sound_arith|exact pysmt_power_value]. Qed.
Print Assumptions C58_pysmt.

(** Its comparisons never succeed. *)
Theorem C58_pysmt_comparison_refuted a b :
  pysmt_less_than a b = Err AttributeError /\ pysmt_less_than_equal a b = Err AttributeError.
Proof. split; reflexivity. Qed.
Print Assumptions C58_pysmt_comparison_refuted.

Definition ex58_cond (f : fm) (e : env) : option bool := vbool (eval e f).
Example C58_example :
  sound_comp (a_le pysmt_alg) (a_lt pysmt_alg) fm_den ex58_cond /\
  fm_den (alg_times pysmt_alg X (alg_plus pysmt_alg (RealC 0) Y)) (pt (qz 2) (qz 5)) = Some (qz 10).
Proof.
  split; [|vm_compute; f_equal; dec].
  split; intros a b e x y Hx Hy; unfold fm_den in *; unfold ex58_cond; cbn [a_le a_lt pysmt_alg eval];
    apply Check_Proofs.vnum_some in Hx, Hy; rewrite Hx, Hy; reflexivity.
Qed.
