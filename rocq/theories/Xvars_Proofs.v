(** Lemmas for C51: the variables in the tests of the diagrams a pool builds. *)

From Verif Require Import Base Dict Smt Smt_Facts Math_Model Math_Spec Poly_Proofs Arith_Proofs Linear_Proofs Walk_Model
  Walk_Proofs Piecewise_Spec Xadd_Model Resolve_Model Integral_Spec Xadd_Spec Resolve_Spec Xadd_Proofs Xwalk_Proofs
  Resolve_Bounds Resolve_Proofs Volume_Spec.

(** ** The names in the keys of a dictionary *)

Section Keys.
  Context (N : string -> Prop).
  Definition keys_in (d : pdict) : Prop := Forall (fun kv => Forall N kv.1) d.

  Lemma keys_in_dset d k v : keys_in d -> Forall N k -> keys_in (dset d k v).
  Proof.
    intros H Hk. induction H as [|[k' w] d Hk' H IH]; cbn [dset]; [constructor; [done|constructor]|].
    destruct (decide _); by constructor.
  Qed.
  Lemma keys_in_plus d1 d2 : keys_in d1 -> keys_in d2 -> keys_in (dict_plus d1 d2).
  Proof.
    intros H1 H2. unfold dict_plus. revert d1 H1.
    induction H2 as [|[k v] d2 Hk H2 IH]; intros d1 H1; cbn [fold_left]; [done|].
    apply IH. cbn [fst snd] in *. destruct (dget d1 k); by apply keys_in_dset.
  Qed.
  Lemma keys_in_map (g : mono * Qc -> Qc) d : keys_in d -> keys_in (map (fun kv => (kv.1, g kv)) d).
  Proof. induction 1 as [|kv d Hk H IH]; constructor; done. Qed.
  Lemma keys_in_times d1 d2 d : keys_in d1 -> keys_in d2 -> dict_times true d1 d2 = Ok d -> keys_in d.
  Proof.
    intros H1 H2. unfold dict_times.
    assert (forall r, keys_in r ->
      fold_left (fun r kv1 => fold_left (times_step true kv1.1 kv1.2) d2 r) d1 (Ok r) = Ok d ->
      keys_in d) as H; [|apply H; constructor].
    induction H1 as [|[k1 v1] d1 Hk1 H1 IH]; intros r Hr; cbn [fold_left].
    { by intros [= <-]. }
    cbn in Hk1. cbn [fst snd].
    assert (forall r, keys_in r -> forall r', fold_left (times_step true k1 v1) d2 (Ok r) = Ok r' ->
      keys_in r') as Hin.
    { clear -Hk1 H2. induction H2 as [|[k2 v2] d2 Hk2 H2 IH]; intros r Hr r'; cbn [fold_left].
      { by intros [= <-]. }
      cbn in Hk2. unfold times_step at 2. cbn [rbind fst snd].
      destruct (_ && true) eqn:E.
      - by rewrite times_inner_err.
      - apply IH. apply keys_in_dset; [done|]. rewrite (psort_perm str_cmp _). by apply Forall_app. }
    destruct (fold_left (times_step true k1 v1) d2 (Ok r)) as [r'|] eqn:E.
    - apply IH. by eapply Hin.
    - by rewrite times_outer_err.
  Qed.
End Keys.

Lemma free_vars_mkNot a : free_vars (mkNot a) = free_vars a.
Proof. by destruct a. Qed.

Lemma walk_keys_in (N : string -> Prop) n : forall f d, walk (math_walker true) n f = Ok d ->
  (forall x, (x, TReal) ∈ free_vars f -> N x) -> keys_in N d.
Proof.
  induction n as [|n IH]; intros f d Hw HN; [done|]. cbn [walk] in Hw.
  assert (HL : forall l ds, rmapM (walk (math_walker true) n) l = Ok ds ->
    (forall x, (x, TReal) ∈ concat (map free_vars l) -> N x) -> Forall (keys_in N) ds).
  { intros l ds H. apply rmapM_Forall2 in H. induction H as [|f' d' l ds H0 H IHl]; intros HN'; constructor.
    - eapply IH; [done|]. intros x Hx. apply HN'. cbn. apply elem_of_app. by left.
    - apply IHl. intros x Hx. apply HN'. cbn. apply elem_of_app. by right. }
  assert (HM : forall a b r, math_minus (walk (math_walker true) n) a b = Ok r ->
    (forall x, (x, TReal) ∈ free_vars a ++ free_vars b -> N x) -> keys_in N r).
  { intros a b r. unfold math_minus. destruct (walk _ n a) as [da|] eqn:Ea; [|done].
    destruct (walk _ n b) as [db|] eqn:Eb; [|done]. intros [= <-] Hab.
    apply keys_in_plus; [|apply (keys_in_map N (fun kv => - kv.2)%Qc)]; (eapply IH; [done|]); intros x Hx; apply Hab, elem_of_app; auto. }
  assert (HR : forall a b r, math_lte (walk (math_walker true) n) a b = Ok r ->
    (forall x, (x, TReal) ∈ free_vars a ++ free_vars b -> N x) -> keys_in N r).
  { intros a b r. unfold math_lte. destruct (math_minus _ a b) as [m|] eqn:Em; [|done]. cbn [rbind].
    destruct (first_nonzero _ _) as [c|]; intros [= <-] Hab.
    - apply (keys_in_map N (fun kv => kv.2 / c)%Qc). by eapply HM.
    - by repeat constructor. }
  destruct f as [x t|b|q|z|l|l|a|a b|a b|c a b|l|a b|l|a b|a b|a b|a b|a|a];
    cbn [dispatch math_walker w_and w_or w_plus w_minus w_times w_not w_ite w_pow w_lte w_lt
         w_equals w_symbol w_const w_cannot] in Hw; try done.
  - destruct t; try done. injection Hw as <-. repeat constructor. apply HN. by left.
  - injection Hw as <-. by repeat constructor.
  - destruct (walk _ n a) as [da|] eqn:Ea; [|done]. injection Hw as <-.
    apply (keys_in_map N (fun kv => - kv.2)%Qc). by eapply IH.
  - eapply IH; [done|]. intros x Hx. apply HN. unfold imp_expand in Hx. cbn in Hx. by rewrite app_nil_r, free_vars_mkNot in Hx.
  - destruct (rmapM _ l) as [ds|] eqn:E; [|done]. cbn [rbind] in Hw.
    eapply (reduce_inv (keys_in N)); [exact Hw|by eapply HL|]. intros x y w Hx Hy [= <-]. by apply keys_in_plus.
  - by eapply HM.
  - destruct (rmapM _ l) as [ds|] eqn:E; [|done]. cbn [rbind] in Hw.
    eapply (reduce_inv (keys_in N)); [exact Hw|by eapply HL|]. intros x y w Hx Hy. by apply keys_in_times.
  - unfold math_pow in Hw. destruct (const_val b) as [x|]; [|done]. destruct (int_of_qc x) as [z|]; [|done].
    destruct (z =? 1)%Z eqn:Ez; [|done]. cbn [negb andb] in Hw. apply Z.eqb_eq in Ez. subst.
    destruct (walk _ n a) as [da|] eqn:Ea; [|done]. cbn in Hw. injection Hw as <-. eapply IH; [done|].
    intros y Hy. apply HN. cbn. apply elem_of_app. by left.
  - by eapply HR.
  - by eapply HR.
Qed.

Lemma li_keys_in (N : string -> Prop) f c : li_from_smt f = Ok c -> (forall x, (x, TReal) ∈ free_vars f -> N x) -> keys_in N c.
Proof.
  unfold li_from_smt, math_walk. destruct (walk _ _ f) as [d|] eqn:E; [|done]. intros [= <-] HN.
  pose proof (walk_keys_in N _ _ _ E HN) as H. unfold keys_in in *. rewrite Forall_forall in *. intros kv Hkv. apply H.
  apply elem_of_list_In, filter_In in Hkv as [Hkv _]. by apply elem_of_list_In.
Qed.

(** ** The tests of a diagram *)

(** The test mentions variables, and only those in [S]. *)
Definition over (S : string * ty -> Prop) (t : fm) : Prop :=
  (forall x, x ∈ free_vars t -> S x) /\ free_vars t <> [].

Lemma over_mono (S S' : string * ty -> Prop) t : (forall x, S x -> S' x) -> over S t -> over S' t.
Proof. intros H [H1 H2]. split; auto. Qed.

Section Made.
  Context (simp : fm -> fm) (HC : folds simp).

  (** The test of a new node. *)
  Lemma dict_test c t : linear_dict c -> li_to_smt c = Ok t -> simp t <> BoolC true -> simp t <> BoolC false ->
    exists x v, ([x], v) ∈ c.
  Proof.
    intros Hc Ht H1 H2. destruct c as [|[[|x k] v] c].
    - injection Ht as <-. destruct (HC 0%Qc 0%Qc) as [[] ?]; done.
    - destruct c as [|[[|y k] w] c].
      + injection Ht as <-. destruct (HC 0%Qc (- v)%Qc) as [[] ?]; done.
      + exfalso. destruct Hc as [Hw _]. unfold dwf in Hw. cbn in Hw. inversion Hw as [|? ? Hn _]; subst. apply Hn. by left.
      + destruct Hc as [_ Hl]. destruct (Hl (y :: k) w) as [Hlen _]; [right; by left|]. destruct k; [|cbn in Hlen; lia].
        exists y, w. right. by left.
    - destruct Hc as [_ Hl]. destruct (Hl (x :: k) v) as [Hlen _]; [by left|]. destruct k; [|cbn in Hlen; lia].
      exists x, v. by left.
  Qed.

  Lemma dict_over (S : string * ty -> Prop) c t : linear_dict c -> li_to_smt c = Ok t ->
    keys_in (fun x => S (x, TReal)) c -> (exists x v, ([x], v) ∈ c) -> over S t.
  Proof.
    intros Hc Ht Hk (x & v & Hx). pose proof (test_vars c t Hc Ht) as Hv. split.
    - intros [y ty] Hy. apply Hv in Hy as [-> Hy]. apply elem_of_list_fmap in Hy as ([k w] & Hkw & Hin). cbn in Hkw. subst k.
      unfold keys_in in Hk. rewrite Forall_forall in Hk. specialize (Hk _ Hin). cbn in Hk. by inversion Hk.
    - assert ((x, TReal) ∈ free_vars t) as Hin.
      { apply Hv. split; [done|]. apply elem_of_list_fmap. by exists ([x], v). }
      intros Hn. rewrite Hn in Hin. by apply elem_of_nil in Hin.
  Qed.

  Lemma make_keys (S : string -> Prop) (g : mono * Qc -> Qc) c : keys_in S c -> keys_in S (li_make (map (fun kv => (kv.1, g kv)) c)).
  Proof.
    intros H. apply (keys_in_map S g) in H. unfold keys_in in *. rewrite Forall_forall in *. intros kv Hkv. apply H.
    apply elem_of_list_In, filter_In in Hkv as [Hkv _]. by apply elem_of_list_In.
  Qed.
  Lemma make_key (g : mono * Qc -> Qc) c k v : (k, v) ∈ c -> g (k, v) <> 0%Qc ->
    (k, g (k, v)) ∈ li_make (map (fun kv => (kv.1, g kv)) c).
  Proof.
    intros Hin Hg. apply elem_of_list_In, filter_In. split.
    - apply in_map_iff. exists (k, v). split; [done|]. by apply elem_of_list_In.
    - unfold nonzero. cbn. apply negb_true_iff. destruct (qeq _ 0) eqn:E; [|done]. by apply qeq_spec in E.
  Qed.

  Lemma coef_nonzero c k : linear_dict c -> k ∈ dkeys c -> li_coefficient c k <> 0%Qc.
  Proof.
    intros [Hw Hl] Hk. apply elem_of_list_fmap in Hk as ([k' v] & -> & Hin). cbn. rewrite (coef_in c k' v Hw Hin). by apply (Hl k' v).
  Qed.
  Lemma qabs_nonzero q : q <> 0%Qc -> qabs q <> 0%Qc.
  Proof.
    intros Hq Hz. apply Hq. unfold qabs in Hz. destruct (qle 0 q); [done|].
    assert (q = - - q)%Qc as -> by ring. rewrite Hz. ring.
  Qed.

  Lemma made_test f ct cf bs d ct' cf' : valid_branches simp (mkdec f) = Ok bs -> (forall b, bs <> [b]) ->
    (exists x, f = Sym x TBool) \/ (exists a b, f = LeN a b \/ f = LtN a b) ->
    to_canonical simp (mkdec f) ct cf = Ok (d, ct', cf') -> over (fun x => x ∈ free_vars f) (d_test d).
  Proof.
    intros Hv Hbs [[x ->]|(a & b & Hf)].
    { cbn. rewrite bool_decide_eq_true_2 by done. intros [= <- _ _]. cbn. split; [done|done]. }
    assert (dec_is_bool (mkdec f) = false /\ f ∉ [BoolC true; BoolC false]) as [Hb Hn].
    { split; [by destruct Hf as [->| ->]|]. rewrite !elem_of_cons, elem_of_nil. destruct Hf as [->| ->]; by intros [|[|]]. }
    unfold valid_branches in Hv. cbn [d_test mkdec] in Hv. rewrite bool_decide_eq_false_2 in Hv by done. rewrite Hb in Hv.
    unfold dec_inequality in Hv. cbn [d_ineq d_test mkdec] in Hv. unfold to_canonical. cbn [d_canonical mkdec d_test]. rewrite Hb.
    destruct (li_from_smt f) as [i|] eqn:Ei; cbn [rbind] in *; [|done].
    destruct (li_to_smt i) as [g|] eqn:Eg; cbn [rbind] in *; [|done]. injection Hv as Hv.
    pose proof (linear_dict_from _ _ Ei) as Hi. pose proof (li_keys_in (fun x => (x, TReal) ∈ free_vars f) _ _ Ei (fun x H => H)) as Hk.
    destruct (bool_decide_reflect (simp g = BoolC true)); [by subst; edestruct Hbs|].
    destruct (bool_decide_reflect (simp g = BoolC false)); [by subst; edestruct Hbs|].
    destruct (dict_test i g Hi Eg) as (x & v & Hx); [done|done|].
    destruct (psort mono_cmp (dkeys i)) as [|k0 ks] eqn:Ek; [done|].
    assert (k0 ∈ dkeys i) as Hk0.
    { rewrite <- (psort_perm mono_cmp (dkeys i)), Ek. by left. }
    pose proof (qabs_nonzero _ (coef_nonzero i k0 Hi Hk0)) as Hf0. set (q := qabs (li_coefficient i k0)) in *. clearbody q.
    assert (v <> 0%Qc) as Hv0 by (by apply (proj2 Hi [x] v)).
    assert (v / q <> 0)%Qc as Hvq.
    { intros Hz. apply Hv0. replace v with (v / q * q)%Qc by (field; exact Hf0). rewrite Hz. ring. }
    destruct (qlt _ 0).
    - destruct (li_to_smt (li_make _)) as [t|] eqn:Et; cbn [rbind]; [|done]. intros Heq. injection Heq as Hd ? ?. subst d. cbn [d_test].
      unfold dict_neg, dict_scale in Et. rewrite map_map in Et. cbn [fst] in Et.
      eapply dict_over; [|exact Et| |].
      + by apply (linear_dict_make (fun kv => - (kv.2 / q))%Qc).
      + by apply (make_keys _ (fun kv => - (kv.2 / q))%Qc).
      + exists x, (- (v / q))%Qc. apply (make_key (fun kv => - (kv.2 / q))%Qc i [x] v); [done|]. cbn [snd]. intros Hz. apply Hvq.
        replace (v / q)%Qc with (- - (v / q))%Qc by ring. rewrite Hz. ring.
    - destruct (li_to_smt (li_make _)) as [t|] eqn:Et; cbn [rbind]; [|done]. intros Heq. injection Heq as Hd ? ?. subst d. cbn [d_test].
      eapply dict_over; [|exact Et| |].
      + by apply (linear_dict_make (fun kv => kv.2 / q)%Qc).
      + by apply (make_keys _ (fun kv => kv.2 / q)%Qc).
      + exists x, (v / q)%Qc. by apply (make_key (fun kv => kv.2 / q)%Qc i [x] v).
  Qed.
End Made.

(** The variables of a bound. *)
Lemma li_var_key c o : linear_dict c -> o ∈ li_variables c -> [o] ∈ dkeys c.
Proof.
  intros [_ Hl] Ho. unfold li_variables in Ho. apply elem_of_remove_dups, elem_of_list_In, in_concat in Ho as (k & Hk & Ho).
  apply in_map_iff in Hk as ([k' w] & <- & Hin). cbn in Ho. apply elem_of_list_In in Hin. destruct (Hl k' w Hin) as [Hlen _].
  destruct k' as [|y [|? ?]]; cbn in *; [done| |lia]. destruct Ho as [->|[]]. apply elem_of_list_fmap. by exists ([o], w).
Qed.
Lemma inverted_keys c : linear_dict c -> forall k, k ∈ dkeys (li_inverted c) -> k ∈ dkeys c.
Proof.
  intros _ k Hk. apply elem_of_list_fmap in Hk as ([k' w] & -> & Hin). cbn.
  apply elem_of_list_In in Hin. unfold li_inverted, li_make in Hin. apply filter_In in Hin as [Hin _].
  apply in_map_iff in Hin as ([k2 w2] & Heq & Hin). injection Heq as <- _. apply elem_of_list_In in Hin.
  apply elem_of_list_fmap. by exists (k2, w2).
Qed.
Lemma bound_step_vars c v l : forall r x, x ∈ free_vars (fold_left (bound_step c v) l r) ->
  x ∈ free_vars r \/ exists o, x = (o, TReal) /\ o <> v /\ o ∈ l.
Proof.
  induction l as [|o l IH]; intros r x Hx; cbn [fold_left] in Hx; [by left|].
  destruct (IH _ _ Hx) as [H|(o' & -> & Hn & Ho)]; [|right; exists o'; split_and!; [done|done|by right]].
  unfold bound_step in H. destruct (bool_decide_reflect (o = v)) as [->|Hne]; [by left|].
  cbn in H. rewrite ?app_nil_r in H. apply elem_of_app in H as [H|H]; [by left|].
  apply elem_of_list_singleton in H. subst. right. exists o. split_and!; [done|done|by left].
Qed.
Lemma to_bound_vars {E : Type} simp (X : resolver E) c v B : adds_none simp -> (forall l, Permutation (rs_order X l) l) -> linear_dict c ->
  operator_to_bound simp X c v = Ok B -> forall x, x ∈ free_vars B -> exists o, x = (o, TReal) /\ o <> v /\ [o] ∈ dkeys c.
Proof.
  intros HN Ho Hc. unfold operator_to_bound. destruct (qeq _ 0); [done|]. intros [= <-] x Hx. apply HN in Hx. cbn in Hx. rewrite ?app_nil_r in Hx.
  apply bound_step_vars in Hx as [Hx|(o & -> & Hn & Hin)]; [by apply elem_of_nil in Hx|].
  exists o. split_and!; [done|done|]. apply li_var_key; [done|]. by rewrite (Ho _) in Hin.
Qed.
Lemma split_vars {E : Type} simp (X : resolver E) v d ct cf B bl ab : adds_none simp -> (forall l, Permutation (rs_order X l) l) -> good d ->
  (v, TReal) ∈ free_vars (d_test d) -> split_at simp X v d ct cf = Ok (B, bl, ab) -> forall x, x ∈ free_vars B -> x ∈ free_vars (d_test d) /\ x <> (v, TReal).
Proof.
  intros HN Ho Hg Hv Hs x Hx. unfold split_at, dec_inequality in Hs. destruct Hg as [_ [[y Hy]|(c & Hi & Ht & _ & Hc)]].
  { rewrite Hy in Hv. cbn in Hv. by apply elem_of_list_singleton in Hv. }
  rewrite Hi in Hs. cbn [rbind] in Hs.
  assert (forall c', linear_dict c' -> (forall k, k ∈ dkeys c' -> k ∈ dkeys c) -> operator_to_bound simp X c' v = Ok B ->
    x ∈ free_vars (d_test d) /\ x <> (v, TReal)) as H.
  { intros c' Hc' Hk Hb. destruct (to_bound_vars simp X c' v B HN Ho Hc' Hb x Hx) as (o & -> & Hn & Hin).
    split; [|congruence]. apply (test_vars c _ Hc Ht). split; [done|]. by apply Hk. }
  destruct (qlt 0 _).
  - destruct (operator_to_bound simp X c v) as [b|] eqn:Eb; [|done]. cbn in Hs. injection Hs as -> _ _. by apply (H c).
  - destruct (operator_to_bound simp X (li_inverted c) v) as [b|] eqn:Eb; [|done]. cbn in Hs. injection Hs as -> _ _.
    apply (H (li_inverted c)); [by apply linear_dict_inverted|by apply inverted_keys|done].
Qed.

Section Vars.
  Context {E : Type} `{EqDecision E} (A : alg E) (flat : E -> E) (simp : fm -> fm) (solve : list fm -> fm -> bool)
    (X : resolver E) (den : E -> env -> option Qc).
  Context (HA : sound_arith (a_real A) (a_symbol A) (a_eq A) (a_mul A) (a_add A) den)
    (HF : forall x e v, den x e = Some v -> den (flat x) e = Some v) (HS : sound_simplifier simp)
    (HT : forall f t, typeof f = Some t -> typeof (simp f) = Some t) (HV : sound_solver solve).
  Context (HE : resolve_externals simp X den) (HC : folds simp) (HN : adds_none simp).
  Notation inv := (inv A simp den).

  Lemma tested_up p q P a : inv p -> ext p q -> dlt (p_nodes p) a -> tested p P a -> tested q P a.
  Proof. intros. by apply (tested_iff A simp den p q). Qed.
  Lemma tested_down p q P a : inv p -> ext p q -> dlt (p_nodes p) a -> tested q P a -> tested p P a.
  Proof. intros. by apply (tested_iff A simp den p q). Qed.
  Lemma tested_mono (p : pool E) (P Q : fm -> Prop) a : (forall t, P t -> Q t) -> tested p P a -> tested p Q a.
  Proof. intros HPQ H b d ct cf Hb Hn. apply HPQ. by apply (H b d ct cf). Qed.
  Lemma tested_zero p P : inv p -> tested p P (p_zero p).
  Proof. intros Hi. eapply tested_leaf. by apply (iv_zero A simp den p). Qed.
  Lemma tested_one p P : inv p -> tested p P (p_one p).
  Proof. intros Hi. eapply tested_leaf. by apply (iv_one A simp den p). Qed.

  (** The test of a new node mentions the variables of the given test only. *)
  Definition simple (f : fm) : Prop :=
    (exists c, f = BoolC c) \/ (exists x, f = Sym x TBool) \/ (exists a b, f = LeN a b \/ f = LtN a b).

  Lemma internal_over p f ct cf q i : inv p -> typeof f = Some TBool -> dlt (p_nodes p) ct -> dlt (p_nodes p) cf ->
    internal simp (mkdec f) ct cf p = (q, Ok i) -> simple f ->
    forall S : string * ty -> Prop, (forall x, x ∈ free_vars f -> S x) -> tested q (over S) ct -> tested q (over S) cf -> tested q (over S) i.
  Proof.
    intros Hi Tf Ht Hf Ei Hs S HSf T1 T2.
    pose proof (internal_inv A simp den HS p (mkdec f) ct cf Hi (or_intror (ex_intro _ f (conj eq_refl Tf))) Ht Hf) as Hin.
    rewrite Ei in Hin. destruct Hin as (Iq & Hx & _ & Hno & _). destruct (Hno i eq_refl) as (Di & _ & Hcase).
    destruct Hcase as [->|[->|(d1 & d2 & ct' & cf' & Hn & Hcan & Htst & Hsw)]]; [done|done|].
    unfold internal in Ei. destruct (bool_decide_reflect (ct = cf)) as [->|Hne].
    { injection Ei as <- <-. done. }
    unfold mbind at 1 in Ei. unfold mlift at 1 in Ei. destruct (valid_branches simp (mkdec f)) as [bs|] eqn:Ev; [|done].
    assert (forall b, bs = [b] -> tested q (over S) i) as H1.
    { intros b ->. injection Ei as <- <-. by destruct b. }
    destruct (decide (length bs = 1%nat)) as [Hlen|Hlen].
    { destruct bs as [|b [|? ?]]; try done. by apply (H1 b). }
    destruct Hs as [[c ->]|Hs].
    { exfalso. revert Ev. unfold valid_branches. cbn [d_test mkdec]. rewrite bool_decide_eq_true_2 by (rewrite !elem_of_cons; destruct c; auto).
      cbn [rbind]. destruct c; [rewrite bool_decide_eq_true_2 by done|rewrite bool_decide_eq_false_2, bool_decide_eq_true_2 by done];
        intros [= <-]; done. }
    assert (over S (d_test d1)) as Hov.
    { eapply over_mono; [exact HSf|]. eapply (made_test simp HC); [exact Ev| |exact Hs|exact Hcan]. intros b ->. done. }
    apply (tested_node q _ i d2 ct' cf' Hn). rewrite Htst. split; [done|]. by destruct Hsw as [[-> ->]|[-> ->]].
  Qed.

  (** ** The results of resolving *)

  Definition lin_over (S : string * ty -> Prop) (b : option fm) : Prop :=
    forall f, b = Some f -> linear_expr f /\ forall x, x ∈ free_vars f -> S x.
  Definition with_var (v : string) (S : string * ty -> Prop) : string * ty -> Prop := fun x => x = (v, TReal) \/ S x.

  Definition ores (q : pool E) (v : string) (ub lb : option fm) (id r : nat) : Prop :=
    dlt (p_nodes q) id /\ dlt (p_nodes q) r /\
    (rs_type X v = TReal -> rs_str X v = v -> forall S, lin_over S ub -> lin_over S lb ->
       tested q (over (with_var v S)) id -> tested q (over S) r).
  Definition vinv (p : pool E) : Prop :=
    forall v id ub lb r, dget (p_resolved p) (v, id, ub, lb) = Some r -> ores p v ub lb id r.

  Lemma ores_ext p q v ub lb id r : inv p -> ext p q -> ores p v ub lb id r -> ores q v ub lb id r.
  Proof.
    intros Hi Hx (D1 & D2 & H). split; [by eapply ext_dlt|]. split; [by eapply ext_dlt|].
    intros Ht Hs S Hu Hl Hid. eapply tested_up; [done..|]. apply H; [done..|]. by eapply tested_down.
  Qed.
  Lemma vinv_frame p q : inv p -> vinv p -> ext p q -> p_resolved q = p_resolved p -> vinv q.
  Proof. intros Hi Hr Hx Hf v id ub lb r. rewrite Hf. intros Hg. eapply ores_ext; [done|done|]. by apply Hr. Qed.

  Definition VI (p : pool E) : Prop := inv p /\ vinv p.
  Definition vok {B : Type} (p : pool E) (m : M E B) (Q : pool E -> B -> Prop) : Prop :=
    let '(q, res) := m p in VI q /\ ext p q /\ match res with Ok a => Q q a | Err _ => True end.

  Lemma vok_bind {B C : Type} p (m : M E B) (k : B -> M E C) Q R :
    vok p m Q -> (forall q a, VI q -> ext p q -> Q q a -> vok q (k a) R) -> vok p (mbind m k) R.
  Proof.
    unfold vok, mbind. intros Hm Hk. destruct (m p) as [q [a|x]]; [|exact Hm].
    destruct Hm as (Iq & Xq & Ha). specialize (Hk q a Iq Xq Ha). destruct (k a q) as [q' res].
    destruct Hk as (I' & X' & Hr). split; [done|]. split; [by eapply ext_trans|done].
  Qed.
  Lemma vok_ret {B : Type} p (a : B) (Q : pool E -> B -> Prop) : VI p -> Q p a -> vok p (mret a) Q.
  Proof. intros Hi Hq. split; [done|]. split; [apply ext_refl|]. done. Qed.
  Lemma vok_err {B : Type} p x (Q : pool E -> B -> Prop) : VI p -> vok p (merr x) Q.
  Proof. intros Hi. split; [done|]. split; [apply ext_refl|]. done. Qed.
  Lemma vok_mono {B : Type} p (m : M E B) (Q R : pool E -> B -> Prop) : vok p m Q -> (forall q a, VI q -> ext p q -> Q q a -> R q a) -> vok p m R.
  Proof. unfold vok. destruct (m p) as [q [a|x]]; [|done]. intros (? & ? & Hq) HR. auto. Qed.
  Lemma vok_get {B : Type} p (k : pool E -> M E B) Q : vok p (k p) Q -> vok p (mbind mget k) Q.
  Proof. done. Qed.
  Lemma vok_lift {B : Type} p (r : Res B) (Q : pool E -> B -> Prop) : VI p ->
    (forall a, r = Ok a -> Q p a) -> vok p (mlift r) Q.
  Proof. intros Hi Hq. split; [done|]. split; [apply ext_refl|]. destruct r; auto. Qed.
  Lemma VI_next p q : VI p -> inv q -> ext p q -> frame p q -> VI q.
  Proof. intros [Hi Hr] Iq Hx [_ Hf]. split; [done|]. exact (vinv_frame p q Hi Hr Hx Hf). Qed.

  Lemma vok_terminal p x : VI p -> vok p (terminal x) (fun q i => dget (p_nodes q) i = Some (TNode x)).
  Proof.
    intros HR. destruct (terminal_ok A simp den p x (proj1 HR)) as (q & i & Et & Iq & Hx & Hf & Hn). unfold vok. rewrite Et.
    split; [by eapply VI_next|]. done.
  Qed.
  Lemma vok_apply op p a b : VI p -> dlt (p_nodes p) a -> dlt (p_nodes p) b ->
    vok p (apply A flat simp op a b) (fun q r => dlt (p_nodes q) r /\ forall P, tested q P a -> tested q P b -> tested q P r).
  Proof.
    intros HR Ha Hb. pose proof (apply_ok A flat simp den HA HF HS op p a b (proj1 HR) Ha Hb) as Hap. unfold vok.
    destruct (apply A flat simp op a b p) as [q [r|x]]; destruct Hap as (Iq & Hx & Hf & Hr).
    - split; [by eapply VI_next|]. split; [done|]. destruct Hr as (_ & _ & Dr & _ & _ & Hsh). split; [done|apply Hsh].
    - split; [by eapply VI_next|]. done.
  Qed.
  Lemma vok_reduce m p id : VI p -> dlt (p_nodes p) id ->
    vok p (reduce_with simp solve m id) (fun q r => dlt (p_nodes q) r /\ forall P, tested q P id -> tested q P r).
  Proof.
    intros HR Hd. unfold reduce_with. destruct m; [|by apply vok_ret].
    destruct (reduce_ok A simp solve den HS HV true p id (proj1 HR) Hd) as (q & r & Er & Iq & Hx & Hf & Dr & Hv & Hsh).
    unfold vok. rewrite Er. split; [by eapply VI_next|]. split; [done|]. split; [done|apply Hsh].
  Qed.
  Lemma vok_internal p d ct cf : VI p -> good d -> dlt (p_nodes p) ct -> dlt (p_nodes p) cf ->
    vok p (internal simp d ct cf) (fun q i => dlt (p_nodes q) i /\
      forall P : fm -> Prop, P (d_test d) -> tested q P ct -> tested q P cf -> tested q P i).
  Proof.
    intros HR Hg Ht Hf. pose proof (internal_inv A simp den HS p d ct cf (proj1 HR) (or_introl Hg) Ht Hf) as Hin. unfold vok.
    destruct (internal simp d ct cf p) as [q [i|x]] eqn:Ei; destruct Hin as (Iq & Hx & Hfr & Hno & Hok).
    - split; [by eapply VI_next|]. split; [done|]. destruct (Hno i eq_refl) as (Di & _ & _). split; [done|]. intros P HP T1 T2.
      destruct (internal_good A simp den p d ct cf q i (proj1 HR) Hg Ht Hf Ei) as [[-> _]|[(b & _ & ->)|(_ & Hu & d2 & Hn & Hd)]];
        [done|by destruct b|]. apply (tested_node q _ i d2 ct cf Hn). by rewrite Hd.
    - by specialize (Hok Hg).
  Qed.
  Lemma vok_test p a b ct cf : VI p -> typeof a = Some TReal -> typeof b = Some TReal -> dlt (p_nodes p) ct -> dlt (p_nodes p) cf ->
    vok p (internal simp (mkdec (simp (LtN a b))) ct cf) (fun q i => dlt (p_nodes q) i /\
      (linear_expr a -> linear_expr b -> forall S : string * ty -> Prop,
        (forall x, x ∈ free_vars a -> S x) -> (forall x, x ∈ free_vars b -> S x) ->
        tested q (over S) ct -> tested q (over S) cf -> tested q (over S) i)).
  Proof.
    intros HR Ta Tb Ht Hf.
    assert (typeof (simp (LtN a b)) = Some TBool) as Tt by (apply HT; cbn; by rewrite Ta, Tb).
    assert (askable (mkdec (simp (LtN a b)))) as Had by (right; by eexists).
    pose proof (internal_inv A simp den HS p _ ct cf (proj1 HR) Had Ht Hf) as Hin. unfold vok.
    destruct (internal simp (mkdec (simp (LtN a b))) ct cf p) as [q [i|x]] eqn:Ei; destruct Hin as (Iq & Hx & Hfr & Hno & Hok).
    2:{ split; [by eapply VI_next|]. done. }
    split; [by eapply VI_next|]. split; [done|]. destruct (Hno i eq_refl) as (Di & _ & _). split; [done|].
    intros La Lb S Sa Sb T1 T2. eapply (internal_over p); [apply HR|exact Tt|exact Ht|exact Hf|exact Ei| | |exact T1|exact T2].
    - destruct (re_lt _ _ _ HE a b La Lb) as [[c Ec]|Ec]; rewrite Ec; [left; eauto|right; right; eauto].
    - intros x Hx'. apply HN in Hx'. cbn in Hx'. apply elem_of_app in Hx' as [|]; auto.
  Qed.

  Lemma zero_d p : inv p -> dlt (p_nodes p) (p_zero p).
  Proof. intros Hi. eexists. by eapply iv_zero. Qed.
  Lemma one_d p : inv p -> dlt (p_nodes p) (p_one p).
  Proof. intros Hi. eexists. by eapply iv_one. Qed.

  Lemma vok_consistency ck other (a b : fm -> fm) p : VI p ->
    (forall f, other = Some f -> typeof (a f) = Some TReal /\ typeof (b f) = Some TReal) ->
    vok p (consistency simp ck other (fun f => LtN (a f) (b f))) (fun q c => forall k, c = Some k -> dlt (p_nodes q) k /\
      forall S : string * ty -> Prop, (forall f, other = Some f -> linear_expr (a f) /\ linear_expr (b f) /\
         (forall x, x ∈ free_vars (a f) -> S x) /\ (forall x, x ∈ free_vars (b f) -> S x)) -> tested q (over S) k).
  Proof.
    intros HR Hty. unfold consistency. apply vok_get. assert (inv p) as Hi by apply HR.
    assert (forall k, Some (p_one p) = Some k -> dlt (p_nodes p) k /\
      forall S : string * ty -> Prop, (forall f, other = Some f -> linear_expr (a f) /\ linear_expr (b f) /\
         (forall x, x ∈ free_vars (a f) -> S x) /\ (forall x, x ∈ free_vars (b f) -> S x)) -> tested p (over S) k) as Hone.
    { intros k [= <-]. split; [by apply one_d|]. intros S _. by apply tested_one. }
    destruct other as [f|]; [|by apply vok_ret].
    destruct (Hty f eq_refl) as (Ta & Tb).
    destruct (bool_decide_reflect (simp (LtN (a f) (b f)) = BoolC false)) as [Es|_]; [by apply vok_ret|].
    destruct (ck && _); [by apply vok_ret|]. eapply vok_bind.
    { unfold bool_test. apply vok_get. eapply vok_test; [exact HR|exact Ta|exact Tb|by apply one_d|by apply zero_d]. }
    cbv beta. intros q k HRq Hxq [Dk Hk]. apply vok_ret; [done|]. intros k' [= <-]. split; [done|]. intros S Hs.
    destruct (Hs f eq_refl) as (La & Lb & Sa & Sb). apply Hk; [done..| |].
    - eapply tested_up; [exact Hi|done|by apply one_d|by apply tested_one].
    - eapply tested_up; [exact Hi|done|by apply zero_d|by apply tested_zero].
  Qed.

  Lemma vok_tighter m old (a b : fm -> fm) rold rnew (Rold Rnew : pool E -> nat -> Prop) p : VI p ->
    (forall f, old = Some f -> typeof (a f) = Some TReal /\ typeof (b f) = Some TReal) ->
    (forall q r, Rold q r -> dlt (p_nodes q) r) -> (forall q r, Rnew q r -> dlt (p_nodes q) r) ->
    (forall q q' r, inv q -> ext q q' -> Rold q r -> Rold q' r) ->
    (forall q q' r, inv q -> ext q q' -> Rnew q r -> Rnew q' r) ->
    (forall q, VI q -> ext p q -> vok q rold Rold) ->
    (forall q, VI q -> ext p q -> vok q rnew Rnew) ->
    vok p (tighter simp solve m old (fun f => LtN (a f) (b f)) rold rnew) (fun q r => dlt (p_nodes q) r /\
      forall S : string * ty -> Prop, (forall f, old = Some f -> linear_expr (a f) /\ linear_expr (b f) /\
         (forall x, x ∈ free_vars (a f) -> S x) /\ (forall x, x ∈ free_vars (b f) -> S x)) ->
        (forall r', Rold q r' -> tested q (over S) r') -> (forall r', Rnew q r' -> tested q (over S) r') -> tested q (over S) r).
  Proof.
    intros HR Hty Do Dn Xo Xn Ho Hn. unfold tighter. destruct old as [f|].
    2:{ eapply vok_mono; [apply Hn; [done|apply ext_refl]|]. intros q r HRq Hx Hr. split; [by eapply Dn|]. auto. }
    destruct (Hty f eq_refl) as (Ta & Tb). apply vok_get.
    set (t := simp (LtN (a f) (b f))).
    eapply (vok_bind p _ _ (fun q r => dlt (p_nodes q) r /\ (r = p_zero q \/ Rold q r))).
    { destruct (bool_decide_reflect (t = BoolC true)) as [Et|Et].
      - apply vok_ret; [done|]. split; [apply zero_d, HR|by left].
      - eapply vok_mono; [apply Ho; [done|apply ext_refl]|]. intros q r _ _ Hr. split; [by eapply Do|by right]. }
    intros q1 some HR1 X1 [D1 V1].
    eapply (vok_bind q1 _ _ (fun q r => dlt (p_nodes q) r /\ (r = p_zero q \/ Rnew q r))).
    { destruct (bool_decide_reflect (t = BoolC false)) as [Et|Et].
      - apply vok_ret; [done|]. rewrite <- (ex_zero _ _ X1). split; [apply zero_d, HR1|by left].
      - eapply vok_mono; [apply Hn; done|]. intros q r _ _ Hr. split; [by eapply Dn|by right]. }
    intros q2 best HR2 X2 [D2 V2].
    eapply vok_bind; [by apply vok_reduce|]. cbv beta. intros q3 best' HR3 X3 (D3 & V3).
    assert (dlt (p_nodes q3) some) as D1'.
    { eapply ext_dlt; [exact X3|]. by eapply ext_dlt. }
    eapply vok_bind; [by apply vok_reduce|]. cbv beta. intros q4 some' HR4 X4 (D4 & V4).
    assert (dlt (p_nodes q4) best') as D3' by by eapply ext_dlt.
    eapply vok_mono; [apply vok_test; done|]. cbv beta. intros q i HRq X5 [Di Vi].
    split; [done|]. intros S Hf Hold Hnew. destruct (Hf f eq_refl) as (La & Lb & Sa & Sb).
    assert (ext q3 q) as X35 by (eapply ext_trans; [exact X4|exact X5]).
    assert (ext q2 q) as X25 by (eapply ext_trans; [exact X3|exact X35]).
    assert (ext q1 q) as X15 by (eapply ext_trans; [exact X2|exact X25]).
    assert (inv q1) as I1 by apply HR1. assert (inv q2) as I2 by apply HR2.
    assert (inv q3) as I3 by apply HR3. assert (inv q4) as I4 by apply HR4. assert (inv q) as I5 by apply HRq.
    apply Vi; [done..| |].
    - eapply (tested_up q3); [done|done|done|]. apply V3. apply (tested_down q3 q); [done|done|by eapply ext_dlt|].
      destruct V2 as [->|V2].
      + rewrite <- (ex_zero _ _ X25). by apply tested_zero.
      + apply Hnew. by apply (Xn q2 q).
    - eapply (tested_up q4); [done|done|done|]. apply V4. apply (tested_down q4 q); [done|done|by eapply ext_dlt|].
      destruct V1 as [->|V1].
      + rewrite <- (ex_zero _ _ X15). by apply tested_zero.
      + apply Hold. by apply (Xo q1 q).
  Qed.

  Section Node.
    Context (v : string) (n : nat) (rec : option fm -> option fm -> nat -> M E nat).
    Context (Hrec : forall p ub lb id, VI p -> typed_bound ub -> typed_bound lb -> dlt (p_nodes p) id -> id < n ->
      vok p (rec ub lb id) (fun q r => ores q v ub lb id r)).

    Definition part_over (ub lb : option fm) (B : fm) (branch : nat) (q : pool E) (wk : nat * nat) : Prop :=
      dlt (p_nodes q) wk.1 /\ dlt (p_nodes q) wk.2 /\
      (rs_type X v = TReal -> rs_str X v = v -> forall S, lin_over S ub -> lin_over S lb -> lin_over S (Some B) ->
        tested q (over (with_var v S)) branch -> tested q (over S) wk.1 /\ tested q (over S) wk.2).

    Lemma upper_over m ub lb B branch p : VI p -> typed_bound ub -> typed_bound lb -> typeof B = Some TReal ->
      dlt (p_nodes p) branch -> branch < n -> vok p (upper_part simp solve m rec ub lb B branch) (part_over ub lb B branch).
    Proof.
      intros HR Tu Tl TB Db Hlt. unfold upper_part. eapply vok_bind.
      { eapply (vok_consistency true lb (fun l => l) (fun _ => B)); [done|]. intros f ->. split; [by apply Tl|done]. }
      cbv beta. intros q1 c HR1 X1 Hc. apply vok_get. assert (inv q1) as I1 by apply HR1. destruct c as [k|].
      2:{ apply vok_ret; [done|]. split; [by apply zero_d|]. split; [by apply zero_d|]. intros. cbn. split; by apply tested_zero. }
      eapply vok_bind.
      { eapply (vok_tighter m ub (fun _ => B) (fun u => u) _ _ (fun q r => ores q v ub lb branch r)
          (fun q r => ores q v (Some B) lb branch r)); [done| | | | | | |].
        - intros f ->. split; [done|]. by apply Tu.
        - intros q r Hr. apply Hr.
        - intros q r Hr. apply Hr.
        - intros q q' r. apply ores_ext.
        - intros q q' r. apply ores_ext.
        - intros q HRq Xq. apply Hrec; try done. eapply ext_dlt; [exact Xq|]. by eapply ext_dlt.
        - intros q HRq Xq. apply Hrec; try done; [by intros f [= <-]|]. eapply ext_dlt; [exact Xq|]. by eapply ext_dlt. }
      cbv beta. intros q r HRq Xq (Dr & Hr). apply vok_ret; [done|]. destruct (Hc k eq_refl) as [Dk Hk].
      split; [done|]. cbn [fst snd]. split; [by eapply ext_dlt|]. intros Ht Hs S Lu Ll LB Hb. destruct (LB B eq_refl) as [LB1 LB2]. split.
      - apply Hr.
        + intros f ->. destruct (Lu f eq_refl). done.
        + intros r' (_ & _ & Hr'). by apply Hr'.
        + intros r' (_ & _ & Hr'). by apply Hr'.
      - eapply (tested_up q1); [done|done|done|]. apply Hk. intros f ->. destruct (Ll f eq_refl). done.
    Qed.
    Lemma lower_over m ub lb B branch p : VI p -> typed_bound ub -> typed_bound lb -> typeof B = Some TReal ->
      dlt (p_nodes p) branch -> branch < n -> vok p (lower_part simp solve m rec ub lb B branch) (part_over ub lb B branch).
    Proof.
      intros HR Tu Tl TB Db Hlt. unfold lower_part. eapply vok_bind.
      { eapply (vok_consistency false ub (fun _ => B) (fun u => u)); [done|]. intros f ->. split; [done|by apply Tu]. }
      cbv beta. intros q1 c HR1 X1 Hc. apply vok_get. assert (inv q1) as I1 by apply HR1. destruct c as [k|].
      2:{ apply vok_ret; [done|]. split; [by apply zero_d|]. split; [by apply zero_d|]. intros. cbn. split; by apply tested_zero. }
      eapply vok_bind.
      { eapply (vok_tighter m lb (fun l => l) (fun _ => B) _ _ (fun q r => ores q v ub lb branch r)
          (fun q r => ores q v ub (Some B) branch r)); [done| | | | | | |].
        - intros f ->. split; [by apply Tl|done].
        - intros q r Hr. apply Hr.
        - intros q r Hr. apply Hr.
        - intros q q' r. apply ores_ext.
        - intros q q' r. apply ores_ext.
        - intros q HRq Xq. apply Hrec; try done. eapply ext_dlt; [exact Xq|]. by eapply ext_dlt.
        - intros q HRq Xq. apply Hrec; try done; [by intros f [= <-]|]. eapply ext_dlt; [exact Xq|]. by eapply ext_dlt. }
      cbv beta. intros q r HRq Xq (Dr & Hr). apply vok_ret; [done|]. destruct (Hc k eq_refl) as [Dk Hk].
      split; [done|]. cbn [fst snd]. split; [by eapply ext_dlt|]. intros Ht Hs S Lu Ll LB Hb. destruct (LB B eq_refl) as [LB1 LB2]. split.
      - apply Hr.
        + intros f ->. destruct (Ll f eq_refl). done.
        + intros r' (_ & _ & Hr'). by apply Hr'.
        + intros r' (_ & _ & Hr'). by apply Hr'.
      - eapply (tested_up q1); [done|done|done|]. apply Hk. intros f ->. destruct (Lu f eq_refl). done.
    Qed.
  End Node.

  Lemma combine_over m s lower upper p : VI p -> dlt (p_nodes p) lower.1 -> dlt (p_nodes p) lower.2 ->
    dlt (p_nodes p) upper.1 -> dlt (p_nodes p) upper.2 ->
    vok p (combine A flat simp solve m s lower upper) (fun q r => dlt (p_nodes q) r /\
      forall P, tested p P lower.1 -> tested p P lower.2 -> tested p P upper.1 -> tested p P upper.2 -> tested q P r).
  Proof.
    intros HR D1 D2 D3 D4. unfold combine.
    eapply vok_bind; [by apply vok_apply|]. cbv beta. intros q1 l HR1 X1 (Dl & Vl).
    eapply vok_bind; [apply vok_apply; [done|by eapply ext_dlt|by eapply ext_dlt]|].
    cbv beta. intros q2 u HR2 X2 (Du & Vu).
    assert (forall (b : bool) q i, VI q -> dlt (p_nodes q) i -> vok q (if b then reduce_with simp solve m i else mret i)
      (fun q' r => dlt (p_nodes q') r /\ forall P, tested q' P i -> tested q' P r)) as Hred.
    { intros b q i HRq Di. destruct b; [by apply vok_reduce|by apply vok_ret]. }
    eapply vok_bind; [apply Hred; [done|by eapply ext_dlt]|]. cbv beta. intros q3 l' HR3 X3 [Dl' Vl'].
    eapply vok_bind; [apply Hred; [done|by eapply ext_dlt]|]. cbv beta. intros q4 u' HR4 X4 [Du' Vu'].
    eapply vok_bind; [apply vok_apply; [done|by eapply ext_dlt|done]|]. cbv beta. intros q5 r HR5 X5 (Dr & Vr).
    eapply vok_mono; [by apply Hred|]. cbv beta. intros q6 r' HR6 X6 [Dr' Vr']. split; [done|].
    intros P H1 H2 H3 H4. assert (inv p) as I0 by apply HR. assert (inv q1) as I1 by apply HR1. assert (inv q2) as I2 by apply HR2.
    assert (inv q3) as I3 by apply HR3. assert (inv q4) as I4 by apply HR4. assert (inv q5) as I5 by apply HR5.
    apply Vr'. apply (tested_up q5 q6); [done|done|done|].
    assert (ext p q2) as X02 by (eapply ext_trans; [exact X1|exact X2]).
    apply Vr.
    - apply (tested_up q4 q5); [done|done|by eapply ext_dlt|]. apply (tested_up q3 q4); [done|done|done|]. apply Vl'.
      apply (tested_up q2 q3); [done|done|eapply ext_dlt; [exact X2|done]|]. apply (tested_up q1 q2); [done|done|done|].
      apply Vl; by apply (tested_up p q1).
    - apply (tested_up q4 q5); [done|done|done|]. apply Vu'.
      apply (tested_up q3 q4); [done|done|eapply ext_dlt; [exact X3|done]|]. apply (tested_up q2 q3); [done|done|done|].
      apply Vu; by apply (tested_up p q2).
  Qed.

  Lemma vok_cache p v ub lb id r : VI p -> ores p v ub lb id r ->
    vok p (add_to_cache (v, id, ub, lb) r) (fun q r' => ores q v ub lb id r').
  Proof.
    intros [Hi Hr] Hres. assert (ext p (set_resolved p (v, id, ub, lb) r)) as Hx by (split; done).
    unfold vok, add_to_cache. assert (inv (set_resolved p (v, id, ub, lb) r)) as Hi' by (destruct Hi; split; done).
    split; [|split; [done|by eapply ores_ext]]. split; [done|].
    intros v' id' ub' lb' r'. cbn [set_resolved p_resolved]. rewrite dget_dset. destruct (decide _) as [Heq|].
    - intros [= <-]. injection Heq as <- <- <- <-. by eapply ores_ext.
    - intros Hg. eapply ores_ext; [done|done|]. by apply Hr.
  Qed.

  Lemma ores_bool p v ub lb id r : rs_type X v = TBool -> dlt (p_nodes p) id -> dlt (p_nodes p) r -> ores p v ub lb id r.
  Proof. intros Ht D1 D2. split; [done|]. split; [done|]. congruence. Qed.
  Lemma ores_leaf p v ub lb id r x : dget (p_nodes p) r = Some (TNode x) -> dlt (p_nodes p) id -> ores p v ub lb id r.
  Proof. intros Hr D. split; [done|]. split; [by eexists|]. intros. by eapply tested_leaf. Qed.

  Lemma resolve_over s v n : forall p ub lb id, VI p -> typed_bound ub -> typed_bound lb -> dlt (p_nodes p) id -> id < n ->
    vok p (resolve_fuel A flat simp solve X n s v ub lb id) (fun q r => ores q v ub lb id r).
  Proof.
    induction n as [|n IH]; intros p ub lb id HR Tu Tl Hd Hlt; [lia|]. cbn [resolve_fuel]. cbv zeta.
    assert (inv p) as Hi by apply HR.
    destruct (dget (p_resolved p) (v, id, ub, lb)) as [r|] eqn:Er.
    { unfold vok. rewrite Er. split; [done|]. split; [apply ext_refl|]. by apply HR. }
    unfold vok. rewrite Er.
    match goal with |- let '(q, res) := ?m p in _ => change (vok p m (fun q r => ores q v ub lb id r)) end.
    destruct Hd as [nd Hn]. assert (dlt (p_nodes p) id) as Hd by by eexists.
    eapply (vok_bind p _ _ (fun q nd' => nd' = nd /\ q = p)).
    { unfold vok, get_node. rewrite Hn. split; [done|]. split; [apply ext_refl|done]. }
    intros q nd' _ _ [-> ->]. destruct nd as [x|d ct cf].
    - destruct (bool_decide_reflect (id = p_zero p)) as [Hz|Hz].
      { apply vok_ret; [done|]. subst. eapply ores_leaf; [by apply (iv_zero A simp den p)|done]. }
      destruct (bool_decide_reflect (rs_type X v = TBool)) as [Hb|Hb].
      { eapply vok_mono; [by apply vok_terminal|]. cbv beta. intros q r _ Hx Hr. eapply ores_leaf; [exact Hr|by eapply ext_dlt]. }
      assert (forall u l, vok p (add_to_cache (v, id, u, l) (p_zero p)) (fun q r => ores q v u l id r)) as Hzero.
      { intros u l. apply vok_cache; [done|]. eapply ores_leaf; [by apply (iv_zero A simp den p)|done]. }
      destruct ub as [u|]; [|apply Hzero]. destruct lb as [l|]; [|apply Hzero].
      eapply (vok_bind p _ _ (fun q _ => q = p)); [by apply vok_lift|]. intros q y _ _ ->.
      eapply vok_bind; [by apply vok_terminal|]. cbv beta. intros q r HRq Hx Hr. apply vok_cache; [done|].
      eapply ores_leaf; [exact Hr|by eapply ext_dlt].
    - destruct (iv_node _ _ _ p Hi _ _ _ _ Hn) as (L1 & L2 & D1 & D2 & _ & Hg & _).
      destruct (bool_decide_reflect ((v, rs_type X v) ∈ free_vars (d_test d))) as [Hin|Hin].
      + destruct (bool_decide_reflect (rs_type X v = TBool)) as [Hb|Hb].
        { eapply vok_mono; [by apply vok_apply|]. cbv beta. intros q r _ Hx [Dr _]. apply ores_bool; [done|by eapply ext_dlt|done]. }
        assert (rs_type X v = TReal) as Ht.
        { destruct Hg as [_ [[y Hy]|(c & _ & Hf & _ & Hc)]].
          - rewrite Hy in Hin. cbn in Hin. apply elem_of_list_singleton in Hin. congruence.
          - by apply (test_vars c _ Hc Hf) in Hin as [? _]. }
        rewrite Ht in Hin.
        destruct (split_at_ok simp X den HT v d ct cf Hg Hin) as (B & bl & ab & Es & TB & Hsw & HB).
        pose proof (split_vars simp X v d ct cf B bl ab HN (re_order _ _ _ HE) Hg Hin Es) as HBv.
        rewrite Es.
        eapply (vok_bind p _ _ (fun q y => q = p /\ y = (B, bl, ab))); [apply vok_lift; [done|]; by intros y [= <-]|].
        intros q y _ _ [-> ->].
        assert (dlt (p_nodes p) bl /\ dlt (p_nodes p) ab /\ bl < n /\ ab < n) as (Db & Da & Lb & La).
        { destruct Hsw as [[-> ->]|[-> ->]]; (split_and!; [done|done|lia|lia]). }
        eapply vok_bind; [by eapply (upper_over v n)|]. cbv beta. intros q1 upper HR1 X1 (U1 & U2 & U3).
        eapply vok_bind; [eapply (lower_over v n); [done|done|done|done|done|by eapply ext_dlt|done]|].
        cbv beta. intros q2 lower HR2 X2 (W1 & W2 & W3).
        eapply vok_bind; [apply combine_over; [done|done|done|eapply ext_dlt; [exact X2|done]|eapply ext_dlt; [exact X2|done]]|].
        cbv beta. intros q3 r HR3 X3 [Dr Vr]. assert (inv q1) as I1 by apply HR1. assert (inv q2) as I2 by apply HR2.
        assert (inv q3) as I3 by apply HR3.
        assert (ext p q2) as X02 by (eapply ext_trans; [exact X1|exact X2]).
        assert (ext p q3) as X03 by (eapply ext_trans; [exact X02|exact X3]).
        apply vok_cache; [done|]. split; [eapply ext_dlt; [exact X03|done]|]. split; [done|].
        intros _ Hstr S Lu Ll Hid. apply (tested_down p q3) in Hid; [|done..].
        apply (tested_node p _ id d ct cf Hn) in Hid as (Hov & T1 & T2).
        assert (tested p (over (with_var v S)) bl /\ tested p (over (with_var v S)) ab) as [Tbl Tab] by (by destruct Hsw as [[-> ->]|[-> ->]]).
        assert (lin_over S (Some B)) as LB.
        { intros f [= <-]. destruct (HB HE Hstr) as [[LB _] _]. split; [done|]. intros x Hx. destruct (HBv x Hx) as [H1 H2].
          by destruct (proj1 Hov x H1). }
        destruct (U3 Ht Hstr S Lu Ll LB) as [V1 V2]; [by apply (tested_up p q1)|].
        destruct (W3 Ht Hstr S Lu Ll LB) as [V3 V4]; [by apply (tested_up p q2)|].
        apply Vr; [done|done|by apply (tested_up q1 q2)|by apply (tested_up q1 q2)].
      + eapply vok_bind; [apply IH; [done|done|done|done|lia]|]. cbv beta. intros q1 t HR1 X1 (_ & Dt & Vt).
        eapply vok_bind; [apply IH; [done|done|done|by eapply ext_dlt|lia]|]. cbv beta. intros q2 f HR2 X2 (_ & Df & Vf).
        eapply vok_bind; [apply vok_internal; [done|done|eapply ext_dlt; [exact X2|done]|done]|]. cbv beta. intros q3 r HR3 X3 (Dr & Vr).
        assert (inv q1) as I1 by apply HR1. assert (inv q2) as I2 by apply HR2. assert (inv q3) as I3 by apply HR3.
        assert (ext p q2) as X02 by (eapply ext_trans; [exact X1|exact X2]).
        assert (ext p q3) as X03 by (eapply ext_trans; [exact X02|exact X3]).
        assert (ext q1 q3) as X13 by (eapply ext_trans; [exact X2|exact X3]).
        apply vok_cache; [done|]. split; [eapply ext_dlt; [exact X03|done]|]. split; [done|].
        intros Ht Hstr S Lu Ll Hid. apply (tested_down p q3) in Hid; [|done..].
        apply (tested_node p _ id d ct cf Hn) in Hid as (Hov & T1 & T2). rewrite Ht in Hin.
        apply Vr.
        * split; [|apply Hov]. intros x Hx. destruct (proj1 Hov x Hx) as [->|]; done.
        * apply (tested_up q1 q3); [done..|]. apply Vt; [done..|]. by apply (tested_up p q1).
        * apply (tested_up q2 q3); [done..|]. apply Vf; [done..|]. by apply (tested_up p q2).
  Qed.

  Lemma integrate_over s v p id : VI p -> dlt (p_nodes p) id ->
    vok p (integrate A flat simp solve X s v id) (fun q r => dlt (p_nodes q) r /\
      (rs_type X v = TReal -> rs_str X v = v -> forall S, tested q (over (with_var v S)) id -> tested q (over S) r)).
  Proof.
    intros HR Hd. unfold integrate.
    assert (forall (b : bool) q i, VI q -> dlt (p_nodes q) i -> vok q (if b then reduce_with simp solve (method_of s) i else mret i)
      (fun q' r => dlt (p_nodes q') r /\ forall P, tested q' P i -> tested q' P r)) as Hred.
    { intros b q i HRq Di. destruct b; [by apply vok_reduce|by apply vok_ret]. }
    eapply vok_bind; [by apply Hred|]. cbv beta. intros q1 i1 HR1 X1 [D1 V1].
    eapply vok_bind; [apply resolve_over; [done|done|done|done|lia]|]. cbv beta. intros q2 i2 HR2 X2 (_ & D2 & V2).
    eapply vok_mono; [by apply Hred|]. cbv beta. intros q3 i3 HR3 X3 [D3 V3]. split; [done|].
    intros Ht Hs S Hid. assert (inv p) as I0 by apply HR. assert (inv q1) as I1 by apply HR1. assert (inv q2) as I2 by apply HR2.
    apply V3. apply (tested_up q2 q3); [done..|]. apply V2; [done|done|done|done|]. apply (tested_up q1 q2); [done..|]. apply V1.
    apply (tested_down q1 q3); [done|eapply ext_trans; [exact X2|exact X3]|eapply ext_dlt; [exact X1|done]|done].
  Qed.
End Vars.
