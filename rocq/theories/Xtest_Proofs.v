(** Lemmas for C44 and C48: a linear test always gives a node. *)

From Verif Require Import Base Dict Smt Smt_Facts Math_Model Math_Spec Poly_Proofs Arith_Proofs Linear_Proofs Walk_Model
  Primal_Proofs Piecewise_Spec Xadd_Model Resolve_Model Xadd_Spec Xadd_Proofs Xwalk_Proofs.

Section Test.
  Context {E : Type} `{EqDecision E} (A : alg E) (simp : fm -> fm) (den : E -> env -> option Qc).
  Notation inv := (inv A simp den).

  (** ** A linear test always gives a node *)
  Lemma internal_linear f a c ct cf p : compares f a c -> linear_expr a -> linear_expr c ->
    typeof a = Some TReal -> typeof c = Some TReal -> simp (LeN (RealC 0) (RealC 0)) = BoolC true ->
    inv p -> exists q i, internal simp (mkdec f) ct cf p = (q, Ok i).
  Proof.
    intros Hcmp La Lc Ta Tc Hs Hi. unfold internal. destruct (bool_decide (ct = cf)); [by eexists _, _|].
    assert (dec_is_bool (mkdec f) = false) as Hb.
    { destruct Hcmp as [| |g ? ? Hcmp]; [done|done|]. by destruct Hcmp. }
    assert (d_test (mkdec f) ∉ [BoolC true; BoolC false]) as Hin.
    { rewrite !elem_of_cons, elem_of_nil. cbn. destruct Hcmp; naive_solver. }
    destruct (li_from_smt_ok f a c Hcmp La Lc) as [i Ei].
    assert (dwf i) as Wi.
    { unfold li_from_smt, math_walk in Ei. destruct (walk _ _ f) as [i'|] eqn:E'; cbn [rbind] in Ei; [|done].
      injection Ei as <-. apply dwf_lfilter. apply (walk_compares _ _ _ _ _ Hcmp E' Ta Tc). }
    destruct (li_to_smt_sound i Wi) as (g & Hg & _).
    unfold mbind, mlift, valid_branches. rewrite bool_decide_eq_false_2 by done. rewrite Hb.
    unfold dec_inequality. cbn [d_ineq d_test mkdec]. rewrite Ei. cbn [rbind]. rewrite Hg. cbn [rbind].
    destruct (bool_decide_reflect (simp g = BoolC true)) as [|Hne]; [by eexists _, _|].
    destruct (bool_decide (simp g = BoolC false)); [by eexists _, _|].
    unfold cons_node, mbind, mlift, to_canonical. cbn [d_canonical d_test mkdec]. rewrite Hb, Ei. cbn [rbind].
    destruct (psort mono_cmp (dkeys i)) as [|k0 ks] eqn:Ek.
    { exfalso. apply Hne. pose proof (psort_perm mono_cmp (dkeys i)) as Hp. rewrite Ek in Hp.
      apply Permutation_nil_l in Hp. destruct i; [|done]. cbn in Hg. by injection Hg as <-. }
    assert (forall q, dwf (li_make (dict_scale i q))) as W1.
    { intros q. apply dwf_lfilter. unfold dwf, dict_scale, dkeys in *. by rewrite map_map. }
    assert (forall q, dwf (li_make (dict_neg (dict_scale i q)))) as W2.
    { intros q. apply dwf_lfilter. unfold dwf, dict_neg, dict_scale, dkeys in *. by rewrite !map_map. }
    assert (forall d' ct' cf', exists q j, (let '(p0, r) := add_test (d_test d') p in
      match r with
      | Ok i0 => match dget (p_internal p0) (i0, ct', cf') with
        | Some id => (p0, Ok id)
        | None => let '(p2, r0) := register (INode d' ct' cf') p0 in
                  match r0 with
                  | Ok a0 => (Pool (p_counter p2) (p_nodes p2) (dset (p_internal p2) (i0, ct', cf') a0) (p_exprs p2) (p_tests p2)
             (p_apply p2) (p_ordering p2) (p_zero p2) (p_one p2) (p_profiles p2) (p_reduced p2) (p_resolved p2), Ok a0)
                  | Err x => (p2, Err x)
                  end
        end
      | Err x => (p0, Err x) end) = (q, Ok j)) as Hadd.
    { intros d' ct' cf'. destruct (add_test_ok A simp den p (d_test d') Hi) as (p1 & j & -> & _).
      destruct (dget (p_internal p1) (j, ct', cf')); [by eexists _, _|]. cbn. by eexists _, _. }
    destruct (qlt _ 0).
    - destruct (li_to_smt_sound _ (W2 (qabs (li_coefficient i k0)))) as (t & -> & _). cbn [rbind]. apply Hadd.
    - destruct (li_to_smt_sound _ (W1 (qabs (li_coefficient i k0)))) as (t & -> & _). cbn [rbind]. apply Hadd.
  Qed.
End Test.
