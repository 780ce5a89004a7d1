(** Lemmas for C48-C51: the bound a linear test sets on a variable. *)

From Verif Require Import Base Dict Smt Smt_Facts Math_Model Math_Spec Poly_Proofs Arith_Proofs Linear_Proofs
  Piecewise_Spec Xadd_Model Xadd_Spec Xadd_Proofs Resolve_Model.

Lemma coef_in (c : pdict) k v : dwf c -> (k, v) ∈ c -> li_coefficient c k = v.
Proof. intros Hw Hin. unfold li_coefficient. by rewrite (In_dget _ _ _ Hw Hin). Qed.

Definition lin_sum (c : pdict) (e : env) (l : list string) : Qc :=
  qsum (map (fun o => li_coefficient c [o] * er e o)%Qc l).

Lemma qsum_perm l k : Permutation l k -> qsum l = qsum k.
Proof. unfold qsum. induction 1; cbn [fold_right]; [done|congruence|ring|congruence]. Qed.
Lemma lin_sum_perm c e l k : Permutation l k -> lin_sum c e l = lin_sum c e k.
Proof. intros H. apply qsum_perm. by apply Permutation_map. Qed.

Lemma lin_sum_app c e l k : lin_sum c e (l ++ k) = (lin_sum c e l + lin_sum c e k)%Qc.
Proof. unfold lin_sum. by rewrite map_app, qsum_app. Qed.

Lemma sub_value c e d : linear_dict c -> (forall kv, kv ∈ d -> kv ∈ c) -> dwf d ->
  poly_val e d = (li_coefficient d [] + lin_sum c e (concat (map fst d)))%Qc.
Proof.
  intros [Hw Hl]. induction d as [|[k v] d IH]; intros Hsub Hd; [unfold lin_sum; cbn; ring|].
  unfold dwf in Hd. cbn [dkeys map fst] in Hd. inversion Hd as [|? ? Hni Hd']; subst.
  rewrite pv_cons, IH; [|intros kv Hkv; apply Hsub; by right|done].
  assert ((k, v) ∈ c) as Hin by (apply Hsub; by left).
  destruct (Hl k v Hin) as [Hlen _]. destruct k as [|o [|? ?]]; [| |cbn in Hlen; lia].
  - cbn [map fst concat app]. unfold li_coefficient. cbn [dget]. rewrite decide_True by done.
    apply dget_None in Hni. rewrite Hni. unfold mono_val. cbn. ring.
  - cbn [map fst concat]. rewrite lin_sum_app. unfold lin_sum at 2. cbn [map qsum fold_right].
    rewrite (coef_in c [o] v Hw Hin). unfold li_coefficient at 2. cbn [dget]. rewrite decide_False by done.
    fold (li_coefficient d []). unfold mono_val. cbn [map qprod fold_right]. ring.
Qed.

Lemma nodup_names c : linear_dict c -> NoDup (concat (map fst c)).
Proof.
  intros [Hw Hl]. induction c as [|[k v] c IH]; [constructor|].
  unfold dwf in Hw. cbn [dkeys map fst] in Hw. inversion Hw as [|? ? Hni Hw']; subst.
  assert (NoDup (concat (map fst c))) as IH'.
  { apply IH; [done|]. intros k' v' Hin. apply (Hl k' v'). by right. }
  destruct (Hl k v) as [Hlen _]; [by left|]. destruct k as [|o [|? ?]]; [done| |cbn in Hlen; lia].
  cbn [map fst concat app]. constructor; [|done]. intros Hin. apply Hni.
  apply elem_of_list_In, in_concat in Hin as (k' & Hk' & Ho). apply in_map_iff in Hk' as ([k'' v'] & <- & Hkv).
  cbn in *. destruct (Hl k'' v') as [Hlen' _]; [right; by apply elem_of_list_In|].
  destruct k'' as [|o' [|? ?]]; [done| |cbn in Hlen'; lia]. destruct Ho as [->|[]].
  apply elem_of_list_fmap. exists ([o], v'). split; [done|]. by apply elem_of_list_In.
Qed.

Lemma variables_perm c : linear_dict c -> Permutation (li_variables c) (concat (map fst c)).
Proof.
  intros Hc. apply NoDup_Permutation; [apply NoDup_remove_dups|by apply nodup_names|].
  intros x. apply elem_of_remove_dups.
Qed.

Lemma dict_value c e : linear_dict c -> poly_val e c = (li_coefficient c [] + lin_sum c e (li_variables c))%Qc.
Proof.
  intros Hc. rewrite (lin_sum_perm _ _ _ _ (variables_perm c Hc)). apply sub_value; [done|done|apply Hc].
Qed.

(** The value is linear in each variable. *)
Lemma value_at c e v t : linear_dict c ->
  poly_val (upd_r e v t) c = (li_coefficient c [v] * t + poly_val (upd_r e v 0) c)%Qc.
Proof.
  intros Hc. rewrite !(dict_value c _ Hc).
  assert (v ∈ li_variables c \/ li_coefficient c [v] = 0%Qc) as Hv.
  { unfold li_coefficient. destruct (dget c [v]) as [q|] eqn:E; [left|by right].
    apply dget_In in E. apply elem_of_remove_dups, elem_of_list_In, in_concat. exists [v]. split; [|by left].
    apply in_map_iff. exists ([v], q). split; [done|by apply elem_of_list_In]. }
  assert (NoDup (li_variables c)) as Hnd by apply NoDup_remove_dups.
  enough (lin_sum c (upd_r e v t) (li_variables c) =
    (if bool_decide (v ∈ li_variables c) then li_coefficient c [v] * t else 0) + lin_sum c (upd_r e v 0) (li_variables c))%Qc as ->.
  { destruct (bool_decide_reflect (v ∈ li_variables c)); [ring|]. destruct Hv as [|Hv]; [done|]. rewrite Hv. ring. }
  clear Hv. revert Hnd. generalize (li_variables c) as l. intros l Hnd.
  induction Hnd as [|o l Hni Hnd IH].
  { rewrite bool_decide_eq_false_2 by (intros H; by apply elem_of_nil in H). unfold lin_sum. cbn. ring. }
  unfold lin_sum, qsum in *. cbn [map fold_right]. rewrite IH. cbn [upd_r er].
  destruct (decide (o = v)) as [->|Hne].
  - rewrite (bool_decide_eq_false_2 (v ∈ l)) by done. rewrite bool_decide_eq_true_2 by by left. ring.
  - assert (bool_decide (v ∈ o :: l) = bool_decide (v ∈ l)) as ->.
    { apply bool_decide_ext. rewrite elem_of_cons. split; [by intros [->|]|by right]. }
    ring.
Qed.

(** ** The names in the test of a dictionary *)

Lemma mkPlus_vars ts s : mkPlus ts = Ok s -> free_vars s = concat (map free_vars ts).
Proof. unfold mkPlus. destruct ts as [|t [|t' ts]]; [done| |]; intros [= <-]; [|done]. cbn. by rewrite app_nil_r. Qed.
Lemma li_term_vars o q t : li_term ([o], q) = Ok t -> free_vars t = [(o, TReal)].
Proof. unfold li_term. cbn. destruct (qeq q 1); intros [= <-]; done. Qed.

Lemma terms_vars d ts : Forall (fun kv => exists o : string, kv.1 = [o]) d -> rmapM li_term d = Ok ts ->
  concat (map free_vars ts) = map (fun o => (o, TReal)) (concat (map fst d)).
Proof.
  intros Hd. revert ts. induction Hd as [|[k q] d [o Ho] Hd IH]; intros ts; cbn [rmapM].
  { by intros [= <-]. }
  cbn in Ho. subst k. destruct (li_term ([o], q)) as [t|] eqn:Et; cbn [rbind]; [|done].
  destruct (rmapM li_term d) as [ts'|]; cbn [rbind]; [|done]. intros [= <-].
  cbn [map concat fst]. rewrite (li_term_vars _ _ _ Et), IH by done. done.
Qed.

Lemma test_vars c f : linear_dict c -> li_to_smt c = Ok f ->
  forall x t, (x, t) ∈ free_vars f <-> t = TReal /\ [x] ∈ dkeys c.
Proof.
  intros [Hw Hl] Hf x t.
  set (nc := fun kv : mono * Qc => negb (bool_decide (kv.1 = CONST_KEY))).
  assert (forall f, (let! ts := rmapM li_term (List.filter nc c) in let! s := mkPlus ts in Ok (LtN s (RealC (li_b c)))) = Ok f ->
    (x, t) ∈ free_vars f <-> t = TReal /\ [x] ∈ dkeys c) as Hgen.
  { clear Hf f. intros f Hf. destruct (rmapM _ _) as [ts|] eqn:Et; cbn [rbind] in Hf; [|done].
    destruct (mkPlus ts) as [s|] eqn:Es; cbn [rbind] in Hf; [|done]. injection Hf as <-.
    cbn [free_vars]. rewrite app_nil_r, (mkPlus_vars _ _ Es).
    assert (Forall (fun kv => exists o : string, kv.1 = [o]) (List.filter nc c)) as Hs.
    { apply Forall_forall. intros [k q] Hin. apply elem_of_list_In, filter_In in Hin as [Hin Hk].
      apply elem_of_list_In in Hin. destruct (Hl k q Hin) as [Hlen _]. unfold nc in Hk. cbn in *.
      apply negb_true_iff, bool_decide_eq_false in Hk. destruct k as [|o [|? ?]]; [done|by eexists|cbn in Hlen; lia]. }
    rewrite (terms_vars _ _ Hs Et). rewrite elem_of_list_fmap. split.
    - intros (o & [= -> ->] & Ho). split; [done|]. apply elem_of_list_In, in_concat in Ho as (k & Hk & Hin).
      apply in_map_iff in Hk as ([k' q] & <- & Hkv). cbn in Hin. apply elem_of_list_In in Hkv.
      pose proof Hs as Hs'. rewrite Forall_forall in Hs'. destruct (Hs' _ Hkv) as [o' Ho']. cbn in Ho'. subst k'.
      destruct Hin as [->|[]]. apply elem_of_list_In, filter_In in Hkv as [Hkv _].
      apply elem_of_list_fmap. exists ([o], q). split; [done|]. by apply elem_of_list_In.
    - intros [-> Hk]. exists x. split; [done|]. apply elem_of_list_fmap in Hk as ([k q] & Hk & Hkv). cbn in Hk. subst k.
      apply elem_of_list_In, in_concat. exists [x]. split; [|by left]. apply in_map_iff. exists ([x], q).
      split; [done|]. apply filter_In. split; [by apply elem_of_list_In|done]. }
  unfold li_to_smt in Hf. destruct c as [|[[|k0 k] q] [|kv c]].
  - injection Hf as <-. cbn. split; [intros H; by apply elem_of_nil in H|]. intros [_ H]. by apply elem_of_nil in H.
  - injection Hf as <-. cbn. split; [intros H; by apply elem_of_nil in H|]. intros [_ H].
    by apply elem_of_list_singleton in H.
  - by apply Hgen.
  - by apply Hgen.
  - by apply Hgen.
Qed.

(** ** The test as a bound *)

Lemma only_const_no_key c x : only_const c = true -> [x] ∉ dkeys c.
Proof.
  unfold only_const. destruct c as [|[[|] q] [|]]; try done; intros _ H; [by apply elem_of_nil in H|].
  cbn in H. by apply elem_of_list_singleton in H.
Qed.

Lemma test_eval c f e : linear_dict c -> li_to_smt c = Ok f -> eval e f = Some (VB (li_holds e c)).
Proof.
  intros [Hw _] Hf. destruct (li_to_smt_sound c Hw) as (g & Hg & He). rewrite Hf in Hg. simplify_eq. apply He.
Qed.

Lemma test_indep c f e v q : linear_dict c -> li_to_smt c = Ok f -> (v, TReal) ∉ free_vars f ->
  eval (upd_r e v q) f = eval e f.
Proof.
  intros Hc Hf Hv. rewrite !(test_eval c f _ Hc Hf). do 2 f_equal.
  assert (poly_val (upd_r e v q) c = poly_val e c) as Hp.
  { apply pv_indep. intros k w Hin Hk. apply Hv. apply (test_vars c f Hc Hf). split; [done|].
    destruct (proj2 Hc k w Hin) as [Hlen _]. destruct k as [|o [|? ?]]; [by apply elem_of_nil in Hk| |cbn in Hlen; lia].
    apply elem_of_list_singleton in Hk. subst o. apply elem_of_list_fmap. by exists ([v], w). }
  unfold li_holds. by rewrite Hp.
Qed.

Lemma test_coef c f v : linear_dict c -> li_to_smt c = Ok f -> (v, TReal) ∈ free_vars f ->
  li_coefficient c [v] <> 0%Qc /\ only_const c = false.
Proof.
  intros Hc Hf Hv. apply (test_vars c f Hc Hf) in Hv as [_ Hv]. split.
  - apply elem_of_list_fmap in Hv as ([k q] & Hk & Hin). cbn in Hk. subst k. rewrite (coef_in c [v] q); [|apply Hc|done].
    by apply (proj2 Hc [v] q).
  - destruct (only_const c) eqn:E; [|done]. by apply (only_const_no_key c v) in E.
Qed.

Lemma linear_dict_inverted c : linear_dict c -> linear_dict (li_inverted c).
Proof. apply (linear_dict_make (fun kv => - kv.2)%Qc). Qed.

Lemma coef_inverted c k : linear_dict c -> li_coefficient (li_inverted c) k = (- li_coefficient c k)%Qc.
Proof.
  intros [Hw Hl]. unfold li_coefficient. destruct (dget c k) as [q|] eqn:E.
  - assert (dget (li_inverted c) k = Some (- q)%Qc) as ->; [|done].
    apply In_dget; [apply (linear_dict_inverted c); by split|]. apply elem_of_list_In, filter_In.
    apply dget_In in E. destruct (Hl k q E) as [_ Hq]. split.
    + apply in_map_iff. exists (k, q). split; [done|]. by apply elem_of_list_In.
    + unfold nonzero. cbn. apply negb_true_iff. destruct (qeq (- q) 0) eqn:E0; [|done]. apply qeq_spec in E0.
      exfalso. apply Hq. qclra.
  - assert (dget (li_inverted c) k = None) as ->; [|done]. apply dget_None. apply dget_None in E. intros Hin. apply E.
    apply elem_of_list_fmap in Hin as ([k' q] & -> & Hin). apply elem_of_list_In, filter_In in Hin as [Hin _].
    apply in_map_iff in Hin as ([k'' q'] & [= <- <-] & Hin). apply elem_of_list_fmap. exists (k'', q'). split; [done|].
    by apply elem_of_list_In.
Qed.

Lemma value_inverted c e : poly_val e (li_inverted c) = (- poly_val e c)%Qc.
Proof. unfold li_inverted, li_make. by rewrite pv_filter, pv_neg. Qed.

Section Bound.
  Context {E : Type} (simp : fm -> fm) (X : resolver E).

  Definition bound_step (c : pdict) (v : string) (r : fm) (o : string) : fm :=
    if bool_decide (o = v) then r else PlusN [r; TimesN [Sym o TReal; RealC (- li_coefficient c [o])]].

  Lemma bound_step_ok c v l : forall r, linear_expr r -> typeof r = Some TReal ->
    let s := fold_left (bound_step c v) l r in
    linear_expr s /\ typeof s = Some TReal /\
    forall e x, eval e r = Some (VN x) -> eval e s = Some (VN (x - lin_sum c (upd_r e v 0) l)%Qc).
  Proof.
    induction l as [|o l IH]; intros r Hr Tr; cbn [fold_left]; cbv zeta.
    - split; [done|]. split; [done|]. intros e x Hx. rewrite Hx. do 2 f_equal. unfold lin_sum. cbn. ring.
    - assert (linear_expr (bound_step c v r o) /\ typeof (bound_step c v r o) = Some TReal /\
        forall e x, eval e r = Some (VN x) ->
          eval e (bound_step c v r o) = Some (VN (x - li_coefficient c [o] * er (upd_r e v 0) o)%Qc)) as (H1 & H2 & H3).
      { unfold bound_step. destruct (bool_decide_reflect (o = v)) as [->|Hne].
        - split; [done|]. split; [done|]. intros e x Hx. rewrite Hx. do 2 f_equal. cbn. rewrite decide_True by done. ring.
        - split; [|split].
          + apply le_plus; [done|]. constructor; [done|]. constructor; [|constructor].
            apply (le_times [] (Sym o TReal) [RealC (- li_coefficient c [o])]); [constructor|apply le_sym|].
            constructor; [|constructor]. constructor.
          + cbn. by rewrite Tr.
          + intros e x Hx. cbn. rewrite Hx. cbn. rewrite decide_False by done. do 2 f_equal. ring. }
      destruct (IH _ H1 H2) as (I1 & I2 & I3). split; [done|]. split; [done|].
      intros e x Hx. rewrite (I3 _ _ (H3 _ _ Hx)). do 2 f_equal. unfold lin_sum, qsum. cbn [map fold_right]. ring.
  Qed.
End Bound.
