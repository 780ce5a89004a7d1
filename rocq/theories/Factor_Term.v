(** The value of one term of the weight over a compiled support (C37). *)

From Verif Require Import Print_Proofs.
From Verif Require Import Base Dict Smt Smt_Facts Walk_Model Math_Model Math_Spec Poly_Proofs Linear_Proofs Arith_Proofs.
From Verif Require Import Engine_Spec Lit_Model Lit_Spec Lit_Proofs Lit_Tests Sdd_Model Sdd_Spec Sdd_Proofs.
From Verif Require Import Piecewise_Model Multimap_Model Resolve_Model Xsdd_Model Factor_Model Factor_Spec Factor_Integral Factor_Proofs Factor_Walk Factor_Value Factor_Piece.

Section term.
  Context (generic : (string -> Qc) -> Prop) (fine : rfn -> Prop) (ae : rfn -> rfn -> Prop) (J : string -> rfn -> rfn).
  Hypothesis HJ : integration generic fine ae J.
  Context {E : Type} (A : alg E) (den : E -> env -> option Qc) (parse_condition : fm -> Res E)
    (integrate : list string -> E -> Res E) (iter : list nat -> list nat).
  Hypothesis HA : sound_arith (a_real A) (a_symbol A) (a_eq A) (a_mul A) (a_add A) den.
  Hypothesis HP : parses den parse_condition.
  Hypothesis HInt : integrates den fine ae J integrate.
  Hypothesis Hiter : forall l, iter l ≡ₚ l.
  Context (s : fm) (Hl : logic_formula s) (h : fm) (i : linfo) (He : extract_literals s = Ok (h, i)).
  Notation N := (length (Lit_Model.literals i)).
  Context (mg : manager) (own : sdd -> Prop) (HM : sound_manager (upto N) mg own) (node : sdd) (Hc : compile_to_sdd mg h i = Ok node).
  Hypothesis Htrim : forall n, own n -> trimmed n.
  Hypothesis Hal : live_aligned i node.
  Context (bools reals : list string) (p : pdict) (ordered : bool).
  Hypothesis HB : forall x, (x, TBool) ∈ syms s -> x ∈ bools.
  Hypothesis HR : forall x, (x, TReal) ∈ syms s -> x ∈ reals.
  Hypothesis Hgen : forall r w, generic r -> off_tests (Env w r) s.
  Hypothesis Hnd : NoDup reals.
  Hypothesis Hp : forall v, v ∈ poly_variables p -> v ∈ reals.
  Hypothesis Hbd : forall v, v ∈ reals -> bounded_in s v.
  Notation nob := (fun _ : string => false).

  Lemma table : table_ok s i. Proof. exact (extract_table s h i Hl He). Qed.
  Notation T := table.

  Lemma node_facts : own node /\ (forall w, eval (name_env (numbered i) w) h = Some (VB (sat w node))) /\
    (forall e, off_tests e s -> eval e s = Some (VB (sat (number_world i e) node))).
  Proof.
    destruct (compile_worlds s h i mg own Hl He HM) as (n & E1 & H1 & H2 & H3). rewrite Hc in E1. by injection E1 as <-.
  Qed.
  Lemma node_vars v : v ∈ svars node -> v ∈ upto N.
  Proof. destruct (sm_own _ _ _ HM node) as [_ H]; [apply node_facts|]. apply H. Qed.
  Lemma node_sdd : is_sdd node.
  Proof. apply (sm_own _ _ _ HM node). apply node_facts. Qed.
  Lemma node_trim : trimmed node. Proof. apply Htrim, node_facts. Qed.

  (** ** A conjunct of the support is a literal that the diagram implies *)
  Lemma bound_literal l a b : atom l a b -> linear_expr a -> linear_expr b -> conjunct l s -> exists k c, k ∈ upto N /\
    number_to_val i (Z.of_nat k) = Ok (MTest c) /\ entails node (Z.of_nat k) /\
    (forall e, off e a b -> eval e c = eval e l) /\
    (forall e, lit_true (number_world i e) (Z.of_nat k) = true -> eval e c = Some (VB true)).
  Proof.
    intros Ha La Lb Hcj. destruct (extract_inv s h i He) as (st & Er & I & _ & Ei & Hnd').
    assert (sinv (LSt [] [])) as H0 by (split; cbn; try done; apply dwf_nil).
    destruct (conj_recurse l a b s Ha Hcj _ _ _ H0 Er) as (c & lit & Ec & Hd & Ht).
    pose proof T as HT. destruct (to_two _ _ HT) as [_ T2].
    assert (dget (abstractions i) c = Some lit) as Ha' by (by rewrite Ei).
    pose proof (proj1 (T2 c lit) Ha') as Hlit.
    destruct (numbers_facts i (to_nodup _ _ HT)) as (N1 & N2 & N3 & N4).
    destruct (proj2 (N1 lit) (ex_intro _ _ Hlit)) as [k Hk].
    assert (1 <= k <= N) as Hkr by (apply N3; by exists lit).
    assert (number_to_val i (Z.of_nat k) = Ok (MTest c)) as Hval.
    { unfold number_to_val. rewrite (proj1 (N2 lit k) Hk). cbn [rbind]. by rewrite Hlit. }
    exists k, c. split; [apply elem_of_list_In, in_seq; lia|]. split; [done|]. split; [|split].
    - intros w Hw. destruct node_facts as (_ & Hs & _). specialize (Hs w). rewrite Hw in Hs. apply Ht in Hs.
      cbn [name_env eb] in Hs. rewrite Hk in Hs. unfold lit_true. rewrite Zabs2Nat.id.
      destruct (Z.ltb_spec (Z.of_nat k) 0); [lia|done].
    - assert (compares l a b) as Hcm by (destruct Ha as [-> | ->]; constructor).
      destruct (canonical_same l a b Hcm La Lb) as (c' & Ec' & V). rewrite Ec in Ec'. by injection Ec' as <-.
    - intros e. unfold lit_true, number_world. rewrite Zabs2Nat.id. destruct (Z.ltb_spec (Z.of_nat k) 0); [lia|].
      rewrite Hval. cbn [meaning_true]. apply bool_decide_eq_true.
  Qed.

  (** A literal that bounds a variable mentions it. *)
  Lemma bound_mentions c l a b v q d : test_of s c -> li_from_smt c = Ok d -> (forall e, off e a b -> eval e c = eval e l) ->
    (forall e, er e v <> q -> off e a b) -> (forall e e', (er e v < q)%Qc -> (q < er e' v)%Qc -> eval e l <> eval e' l) -> v ∈ li_variables d.
  Proof.
    intros Ht Hd Hsame Hoff Hch. destruct (decide (v ∈ li_variables d)) as [|Hni]; [done|]. exfalso.
    set (e1 := Env nob (fun _ => (q - 1)%Qc)). set (e2 := Env nob (fun x => if decide (x = v) then (q + 1)%Qc else (q - 1)%Qc)).
    assert (er e1 v < q)%Qc as H1.
    { cbn. apply Qclt_minus_iff. replace (q + - (q - 1))%Qc with 1%Qc by ring. done. }
    assert (q < er e2 v)%Qc as H2.
    { cbn. rewrite decide_True by done. apply Qclt_minus_iff. replace (q + 1 + - q)%Qc with 1%Qc by ring. done. }
    assert (er e1 v <> q) as O1 by (intros H; rewrite H in H1; by apply Qclt_not_eq in H1).
    assert (er e2 v <> q) as O2 by (intros H; rewrite H in H2; by apply Qclt_not_eq in H2).
    apply (Hch e1 e2 H1 H2).
    rewrite <- (Hsame e1), <- (Hsame e2) by auto. apply (test_free s c d); [done|done|].
    intros x Hx. cbn. rewrite decide_False; [done|]. intros ->. done.
  Qed.

  (** ** The tables of the groups *)
  Context (groups : list (list string * pdict)) (HF : factorization reals p groups).
  Lemma HG : grouped fine groups.
  Proof. exact (factorization_grouped _ _ _ _ HJ _ _ _ HF). Qed.
  Lemma Hdis g1 g2 v : v ∈ (gr groups g1).1 -> v ∈ (gr groups g2).1 -> g1 = g2.
  Proof. apply HG. Qed.
  Lemma real_group v : v ∈ reals -> exists k, v ∈ (gr groups k).1 /\ k < length groups.
  Proof.
    intros Hv. destruct (fz_cover _ _ _ HF v Hv) as (g & Hg & Hin). apply elem_of_list_lookup in Hg as [k Hk].
    exists k. unfold gr. rewrite Hk. split; [done|]. by eapply lookup_lt_Some.
  Qed.
  Lemma group_real k v : v ∈ (gr groups k).1 -> v ∈ reals.
  Proof.
    intros Hv. pose proof (gr_bound groups k v Hv) as Hk. apply gr_lookup, elem_of_list_lookup_2 in Hk. by apply (fz_only _ _ _ HF _ _ Hk).
  Qed.

  Lemma table_tests c lit : (c, lit) ∈ abstractions i -> dget (abstractions i) c = Some lit /\
    exists n d, dget (numbered i) lit = Some n /\ li_from_smt c = Ok d /\ forall v, v ∈ li_variables d -> v ∈ reals.
  Proof.
    intros Hin. destruct (extract_inv s h i He) as (st & Er & I & _ & Ei & _).
    assert (dget (abstractions i) c = Some lit) as Ha.
    { apply In_dget; [|done]. rewrite Ei. cbn [abstractions]. by destruct I. }
    split; [done|]. pose proof T as HT. destruct (to_two _ _ HT) as [_ T2]. pose proof (proj1 (T2 c lit) Ha) as Hlit.
    destruct (numbers_facts i (to_nodup _ _ HT)) as (N1 & _). destruct (proj2 (N1 lit) (ex_intro _ _ Hlit)) as [k Hk].
    destruct (to_test _ _ HT _ _ Hlit) as (a & b & Hcm & La & Lb & _).
    destruct (li_from_smt_ok c a b Hcm La Lb) as [d Hd]. exists k, d. split; [done|]. split; [done|]. intros v.
    apply (li_variables_in (fun x => x ∈ reals)). apply (li_from_smt_nkeys _ c); [|done]. intros x t Hx.
    refine (recurse_over (fun x => x ∈ reals) s _ _ _ Hl HR _ Er c lit _ x t Hx); [done|]. by rewrite Ei in Ha.
  Qed.

  Lemma literal_tables : exists l2g, literal_groups groups i [] = Ok l2g /\
    (forall z c, Z.abs_nat z ∈ upto N -> number_to_val i z = Ok (MTest c) ->
      exists d, li_from_smt c = Ok d /\ forall g, g ∈ tg l2g (SLit z) <-> exists v, v ∈ li_variables d /\ v ∈ (gr groups g).1) /\
    (forall z x, Z.abs_nat z ∈ upto N -> number_to_val i z = Ok (MBool x) -> tg l2g (SLit z) = []).
  Proof.
    destruct (test_groups_ok groups Hdis i) as (l2g & E1 & H1 & H2).
    { intros c lit Hin. destruct (table_tests c lit Hin) as (_ & n & d & Hn & Hd & Hv). exists n, d. split; [done|]. split; [done|].
      intros v Hvd. destruct (real_group v (Hv v Hvd)) as (k & Hk & _). by exists k. }
    exists l2g. unfold literal_groups. rewrite E1. cbn [rbind fold_left]. split; [done|].
    pose proof T as HT. destruct (to_two _ _ HT) as [T1 T2].
    split.
    - intros z c Hz Hval. destruct (number_meaning s i HT _ Hz) as (lit & m & _ & _ & Hnum & Hlit & Hval' & _).
      rewrite <- number_val_abs in Hval'. rewrite Hval in Hval'. injection Hval' as <-.
      pose proof (proj2 (T2 c lit) Hlit) as Ha.
      destruct (H2 c lit z (dget_In _ _ _ Ha) Hnum) as [gs Hgs].
      destruct (H1 z gs Hgs) as (c' & lit' & d & Hin' & Hnum' & Hd & Hm).
      destruct (table_tests c' lit' Hin') as [Ha' _]. pose proof (proj1 (T2 c' lit') Ha') as Hlit'.
      assert (lit' = lit) as ->.
      { destruct (numbers_facts i (to_nodup _ _ HT)) as (_ & N2 & _). apply N2 in Hnum, Hnum'. congruence. }
      assert (c' = c) as -> by congruence. exists d. split; [done|]. cbn [tg]. rewrite Hgs. exact Hm.
    - intros z x Hz Hval. destruct (number_meaning s i HT _ Hz) as (lit & m & _ & _ & Hnum & Hlit & Hval' & _).
      rewrite <- number_val_abs in Hval'. rewrite Hval in Hval'. injection Hval' as <-. cbn [tg].
      destruct (dget l2g z) as [gs|] eqn:Hgs; [|done]. exfalso.
      destruct (H1 z gs Hgs) as (c' & lit' & d & Hin' & Hnum' & Hd & Hm).
      destruct (table_tests c' lit' Hin') as [Ha' _]. pose proof (proj1 (T2 c' lit') Ha') as Hlit'.
      assert (lit' = lit) as ->.
      { destruct (numbers_facts i (to_nodup _ _ HT)) as (_ & N2 & _). apply N2 in Hnum, Hnum'. congruence. }
      congruence.
  Qed.

  Context (l2g : list (Z * list nat)).
  Hypothesis Hl2g : forall z c, Z.abs_nat z ∈ upto N -> number_to_val i z = Ok (MTest c) ->
      exists d, li_from_smt c = Ok d /\ forall g, g ∈ tg l2g (SLit z) <-> exists v, v ∈ li_variables d /\ v ∈ (gr groups g).1.
  Hypothesis Hl2b : forall z x, Z.abs_nat z ∈ upto N -> number_to_val i z = Ok (MBool x) -> tg l2g (SLit z) = [].

  Lemma node_confined v g : v ∈ (gr groups g).1 -> confined i l2g node v g.
  Proof.
    intros Hg. pose proof (group_real g v Hg) as Hv. destruct (Hbd v Hv) as (l & u & Hlo & Hup & Cl & Cu).
    destruct (lower_shape v l Hlo) as (lo & Al & Pl & Xl), (upper_shape v u Hup) as (hi & Au & Pu & Xu).
    assert (linear_expr (Sym v TReal)) as Lv by constructor.
    assert (forall q, linear_expr (RealC q)) as Lq by (intros q; do 2 constructor).
    destruct (bound_literal l _ _ Al (Lq lo) Lv Cl) as (kl & cl & Kl & Vl & El & Sl & Ml).
    destruct (bound_literal u _ _ Au Lv (Lq hi) Cu) as (kh & ch & Kh & Vh & Eh & Sh & Mh).
    assert (forall e, er e v <> lo -> off e (RealC lo) (Sym v TReal)) as Ol by (intros e Hne; exists lo, (er e v); split_and!; [done|done|congruence]).
    assert (forall e, er e v <> hi -> off e (Sym v TReal) (RealC hi)) as Oh by (intros e Hne; exists (er e v), hi; split_and!; done).
    exists (Z.of_nat kl), (Z.of_nat kh), lo, hi. split; [done|]. split; [done|]. split; [|split; [|split]].
    - intros e Hlit. destruct (decide (er e v = lo)) as [->|Hne]; [apply qle_spec, Qcle_refl|].
      apply Pl. rewrite <- (Sl e (Ol e Hne)). by apply Ml.
    - intros e Hlit. destruct (decide (er e v = hi)) as [->|Hne]; [apply qle_spec, Qcle_refl|].
      apply Pu. rewrite <- (Sh e (Oh e Hne)). by apply Mh.
    - assert (Z.abs_nat (Z.of_nat kl) ∈ upto N) as Kl' by by rewrite Zabs2Nat.id.
      destruct (Hl2g _ _ Kl' Vl) as (d & Hd & Hm). apply Hm. exists v. split; [|done].
      destruct (number_meaning s i T _ Kl) as (lit & m & _ & _ & _ & _ & Vl' & Hm'). rewrite Vl in Vl'. injection Vl' as <-.
      by apply (bound_mentions cl l (RealC lo) (Sym v TReal) v lo d).
    - assert (Z.abs_nat (Z.of_nat kh) ∈ upto N) as Kh' by by rewrite Zabs2Nat.id.
      destruct (Hl2g _ _ Kh' Vh) as (d & Hd & Hm). apply Hm. exists v. split; [|done].
      destruct (number_meaning s i T _ Kh) as (lit & m & _ & _ & _ & _ & Vh' & Hm'). rewrite Vh in Vh'. injection Vh' as <-.
      by apply (bound_mentions ch u (Sym v TReal) (RealC hi) v hi d).
  Qed.

  Lemma node_tags : node <> SFalse -> forall g, g ∈ tg l2g node <-> exists v, v ∈ (gr groups g).1.
  Proof.
    intros Hn g. split.
    - intros Hg. exact (tg_var s i T groups l2g Hl2g Hl2b node g node_vars Hg).
    - intros [v Hv]. destruct (node_confined v g Hv) as (zl & _ & _ & _ & El & _ & _ & _ & Gl & _).
      refine (entails_tags l2g node zl node_sdd node_trim Hn _ El g Gl). intros x Hx Hx0. subst.
      apply node_vars, elem_of_list_In, in_seq in Hx. lia.
  Qed.

  Notation shows := (shows den fine ae).
  Notation M := (M i bools).
  Notation NT := (NT J groups).
  Notation tvars := (tvars groups).
  Notation tpol := (tpol groups).

  (** ** The expression of the recursion *)
  Lemma expression_value order : (forall o, order = Some o -> o ≡ₚ seq 0 (length groups)) ->
    exists n2g x vs L, node_groups l2g node = Ok n2g /\
      factorized_integral A parse_condition integrate iter i [] groups n2g order node = Ok (x, vs) /\
      NoDup vs /\ (forall y, y ∈ vs -> y ∈ bools) /\ NoDup L /\
      shows (fun r => qpow (qz 2) (length vs) * NT L (M node) r)%Qc x /\
      (node = SFalse /\ L = [] \/ (forall g, g ∈ L <-> exists v, v ∈ (gr groups g).1) /\ fit fine (tvars L) (M node)).
  Proof.
    intros Ho. destruct (node_groups_ok l2g node node_trim) as (n2g & En & Hn). exists n2g.
    destruct (Hn node (bl_self node)) as (L & EL & NL & HL). unfold factorized_integral. rewrite EL. cbn [rbind].
    destruct (decide (node = SFalse)) as [Hf|Hf].
    - assert (L = []) as ->.
      { destruct L as [|g L]; [done|]. assert (g ∈ tg l2g node) as Hg by (apply HL; by left). rewrite Hf in Hg. by apply elem_of_nil in Hg. }
      assert (exists c', recursive A parse_condition integrate iter i [] groups n2g order node [] [] = Ok (alg_zero A, [], c')) as [c' Erec]
        by (rewrite Hf; by eexists).
      rewrite Erec. cbn [rbind]. exists (alg_zero A), [], [].
      split; [done|]. split; [done|]. split; [constructor|]. split; [intros y Hy; by apply elem_of_nil in Hy|]. split; [constructor|].
      split; [|by left]. apply (shows_same _ _ _ _ HJ den (fun _ => 0%Qc)); [by apply (shows_real _ _ _ _ HJ A den HA)|].
      intros r. unfold Factor_Integral.NT. cbn. rewrite Hf. unfold Factor_Value.M. rewrite mu_false. ring.
    - assert (pre i groups l2g node node L) as Hpre.
      { split.
        - constructor.
        - exact node_sdd.
        - exact node_trim.
        - exact Hal.
        - exact node_vars.
        - exact Hf.
        - exact NL.
        - intros g Hg. by apply HL.
        - intros g v _ Hv. by apply node_confined. }
      destruct (rec_value generic fine ae J HJ A den parse_condition integrate iter HA HP HInt Hiter s i T bools HB Hgen groups HG l2g Hl2g Hl2b
        n2g node Hn order Ho node L [] Hpre) as (r & c' & Er & Cr & _); [done|].
      rewrite Er. cbn [rbind]. destruct r as [x vs], Cr as (V1 & V2 & V3). cbn [fst snd] in *.
      exists x, vs, L. split; [done|]. split; [done|]. split; [done|]. split.
      { intros y Hy. apply V2 in Hy. apply live_names_names in Hy. exact (names_bools s i T bools HB node y node_vars Hy). }
      split; [done|]. split; [done|]. right. split.
      + intros g. rewrite HL. by apply node_tags.
      + exact (pre_fit generic fine ae J HJ s i T bools HB groups l2g node node L Hpre).
  Qed.

  (** ** The product of the factors *)
  Lemma gr_seq : map (gr groups) (seq 0 (length groups)) = groups.
  Proof.
    clear. induction groups as [|g gs IH]; [done|]. cbn [length seq map]. f_equal. rewrite <- seq_shift, map_map. exact IH.
  Qed.
  Notation empties := (filter (fun g => (gr groups g).1 = []) (seq 0 (length groups))).
  Lemma constants_empties : List.filter (fun g : group => bool_decide (g.1 = [])) groups = map (gr groups) empties.
  Proof.
    rewrite <- gr_seq at 1. generalize (seq 0 (length groups)) as l. induction l as [|k l IH]; [done|].
    cbn [map List.filter]. rewrite filter_cons. case_bool_decide; [rewrite decide_True by done|rewrite decide_False by done]; cbn [map]; by rewrite IH.
  Qed.
  Lemma tpol_qprod l r : tpol l r = qprod (map (fun g => pval (gr groups g).2 r) l).
  Proof. induction l as [|g l IH]; [done|]. cbn [map]. rewrite qprod_cons, <- IH. done. Qed.

  Lemma factors_split L r : NoDup L -> (forall g, g ∈ L <-> exists v, v ∈ (gr groups g).1) ->
    (pval p r = tpol empties r * tpol L r)%Qc.
  Proof.
    intros NL HL. unfold pval. rewrite <- (fz_product _ _ _ HF). rewrite <- gr_seq at 1. rewrite map_map.
    change (qprod (map (fun g => pval (gr groups g).2 r) (seq 0 (length groups))) = tpol empties r * tpol L r)%Qc.
    rewrite <- tpol_qprod, <- (tpol_app groups). apply (tpol_perm groups).
    assert (forall g, g ∈ L -> (gr groups g).1 <> []) as Hne.
    { intros g Hg H0. apply HL in Hg as [v Hv]. rewrite H0 in Hv. by apply elem_of_nil in Hv. }
    apply NoDup_Permutation.
    - apply NoDup_ListNoDup, seq_NoDup.
    - apply NoDup_app. split; [apply NoDup_filter, NoDup_ListNoDup, seq_NoDup|]. split; [|done].
      intros g Hg HgL. apply elem_of_list_filter in Hg as [Hg _]. by apply (Hne g).
    - intros g. rewrite elem_of_app, elem_of_list_filter. split.
      + intros Hg. destruct (decide ((gr groups g).1 = [])) as [H0|H0]; [by left|right]. apply HL.
        destruct (gr groups g).1 as [|v vs]; [done|]. exists v. by left.
      + intros [[_ Hg]|Hg]; [done|]. apply HL in Hg as [v Hv]. apply elem_of_list_In, in_seq. pose proof (gr_bound groups g v Hv). lia.
  Qed.

  Lemma vars_reals L : NoDup L -> (forall g, g ∈ L <-> exists v, v ∈ (gr groups g).1) -> tvars L ≡ₚ reals.
  Proof.
    intros NL HL. apply NoDup_Permutation; [by apply (tvars_nodup fine groups HG)|done|]. intros v. rewrite tvars_in. split.
    - intros (g & _ & Hv). by apply (group_real g).
    - intros Hv. destruct (real_group v Hv) as (k & Hk & _). exists k. split; [|done]. apply HL. eauto.
  Qed.

  (** The constant factor. *)
  Lemma constant_value : exists y, match List.filter (fun g : group => bool_decide (g.1 = [])) groups with
      | [g] => Ok (to_expression A g.2)
      | [] => Ok (alg_one A)
      | _ => Err ValueError
      end = Ok y /\ shows (tpol empties) y.
  Proof.
    rewrite constants_empties.
    assert (forall a b, a ∈ empties -> b ∈ empties -> a = b) as Hone.
    { intros a b Ha Hb. apply elem_of_list_filter in Ha as [Ha Ka], Hb as [Hb Kb].
      apply elem_of_list_In, in_seq in Ka, Kb.
      apply (fz_constant _ _ _ HF a b (gr groups a) (gr groups b)); [apply gr_lookup; lia|apply gr_lookup; lia|done|done]. }
    assert (NoDup empties) as Hnde by (apply NoDup_filter, NoDup_ListNoDup, seq_NoDup).
    destruct empties as [|a [|b l]]; cbn [map].
    - eexists. split; [done|]. exact (shows_real _ _ _ _ HJ A den HA 1%Qc).
    - eexists. split; [done|]. apply (shows_same _ _ _ _ HJ den (pval (gr groups a).2)).
      + apply (shows_poly _ _ _ _ HJ A den HA). apply (fine_pval _ _ _ _ HJ).
      + intros r. unfold Factor_Integral.tpol. cbn. ring.
    - exfalso. rewrite (Hone a b) in Hnde; [|by left|by right; left]. inversion Hnde as [|? ? Hn _]; subst. apply Hn. by left.
  Qed.
  Lemma empties_free v : free_of v (tpol empties).
  Proof.
    apply (tpol_free fine groups HG). rewrite tvars_in. intros (g & Hg & Hv). apply elem_of_list_filter in Hg as [Hg _].
    rewrite Hg in Hv. by apply elem_of_nil in Hv.
  Qed.

  (** ** The piece *)
  Definition mass : rfn := fun r => (qsum (map (fun b => truth (Env b r) s) (worlds bools)) * pval p r)%Qc.

  Lemma mass_fit : fit fine reals mass.
  Proof.
    split.
    - apply (fi_times _ _ _ _ HJ (fun r => qsum (map (fun b => truth (Env b r) s) (worlds bools)))); [|apply (fine_pval _ _ _ _ HJ)].
      apply (fine_qsum _ _ _ _ HJ (worlds bools) (fun b r => truth (Env b r) s)). intros b _. by apply (fine_truth _ _ _ _ HJ).
    - intros v Hv. apply within_mul_l. induction (worlds bools) as [|b l IH]; [apply within_0|].
      apply (within_plus v (fun r => truth (Env b r) s)); [|exact IH]. by apply bounded_within, Hbd.
  Qed.

  Lemma mass_count r : generic r -> mass r = (qpow (qz 2) (length bools) * M node r * pval p r)%Qc.
  Proof.
    intros Hr. unfold mass. f_equal. change (M node r) with (mean (fun _ => half) bools (F i (Env nob r) node)).
    rewrite <- (world_count_mu i bools (Env nob r) node). unfold world_count. f_equal. apply map_ext. intros b. cbn [er].
    destruct node_facts as (_ & _ & Hs). unfold truth. rewrite (Hs (Env b r) (Hgen r b Hr)).
    destruct (sat _ node); [by rewrite bool_decide_eq_true_2|by rewrite bool_decide_eq_false_2].
  Qed.

  Lemma assembled L x vs y : NoDup L -> NoDup vs -> (forall z, z ∈ vs -> z ∈ bools) -> shows (tpol empties) y ->
    shows (fun r => qpow (qz 2) (length vs) * NT L (M node) r)%Qc x ->
    (node = SFalse /\ L = [] \/ (forall g, g ∈ L <-> exists v, v ∈ (gr groups g).1) /\ fit fine (tvars L) (M node)) ->
    exists k, alg_power A (a_real A (qz 2)) (qz (Z.of_nat (length bools) - Z.of_nat (length vs))) = Ok k /\
      shows (joint J reals mass) (alg_times A y (alg_times A x k)).
  Proof.
    intros NL Nv Hv Hy Hx HL.
    assert (length vs <= length bools) as Hlen by (by apply submseteq_length, NoDup_submseteq).
    destruct (shows_power _ _ _ _ HJ A den HA (length bools - length vs)) as (k & Ek & Sk).
    exists k. split.
    { rewrite <- Ek. f_equal. unfold qn. f_equal. lia. }
    pose proof (shows_times _ _ _ _ HJ A den HA _ _ _ _ Hy (shows_times _ _ _ _ HJ A den HA _ _ _ _ Hx Sk)) as HS.
    apply (shows_ae _ _ _ _ HJ den _ _ _ HS); [apply (joint_fine _ _ _ _ HJ); [done|exact mass_fit]|].
    apply (ae_trans _ _ _ _ HJ _ (fun r => tpol empties r * (qpow (qz 2) (length bools) * NT L (M node) r))%Qc).
    { apply (ae_point _ _ _ _ HJ). intros r. f_equal.
      replace (length bools) with (length vs + (length bools - length vs)) at 2 by lia. rewrite qpow_add. ring. }
    destruct HL as [[Hf ->]|[HL Hfit]].
    - apply (ae_trans _ _ _ _ HJ _ (joint J reals (fun _ => 0%Qc))).
      + apply (ae_point _ _ _ _ HJ). intros r. rewrite (joint_zero _ _ _ _ HJ) by done. unfold Factor_Integral.NT. cbn. rewrite Hf.
        unfold Factor_Value.M. rewrite mu_false. ring.
      + apply (joint_ae _ _ _ _ HJ); [done|apply (fit_0 _ _ _ _ HJ)|exact mass_fit|]. apply (ig_null _ _ _ _ HJ). intros r Hr.
        rewrite mass_count by done. rewrite Hf. unfold Factor_Value.M. rewrite mu_false. ring.
    - pose proof (vars_reals L NL HL) as HV.
      assert (NoDup (tvars L)) as NV by (by rewrite HV).
      assert (fit fine (tvars L) (fun r => M node r * tpol L r)%Qc) as F1.
      { apply (fit_mul_l _ _ _ _ HJ); [done|]. by apply (tpol_fine _ _ _ _ HJ groups HG). }
      assert (fit fine (tvars L) (fun r => qpow (qz 2) (length bools) * (M node r * tpol L r))%Qc) as F2.
      { apply (fit_mul_r _ _ _ _ HJ); [apply (fi_number _ _ _ _ HJ)|done]. }
      assert (fine (tpol empties)) as F0 by by apply (tpol_fine _ _ _ _ HJ groups HG).
      assert (fit fine (tvars L) mass) as F3.
      { apply (fit_sub fine reals); [|exact mass_fit]. intros v. by rewrite HV. }
      apply (ae_trans _ _ _ _ HJ _ (fun r => tpol empties r * joint J (tvars L) (fun r => qpow (qz 2) (length bools) * (M node r * tpol L r)) r)%Qc).
      { apply (ae_mul_l _ _ _ _ HJ). apply (ae_sym _ _ _ _ HJ). by apply (joint_scale _ _ _ _ HJ). }
      apply (ae_trans _ _ _ _ HJ _ (joint J (tvars L) (fun r => tpol empties r * (qpow (qz 2) (length bools) * (M node r * tpol L r)))%Qc)).
      { apply (ae_sym _ _ _ _ HJ). apply (joint_factor _ _ _ _ HJ); [done|done|done|]. intros v _. apply empties_free. }
      apply (ae_trans _ _ _ _ HJ _ (joint J (tvars L) mass)).
      + apply (joint_ae _ _ _ _ HJ); [done|by apply (fit_mul_r _ _ _ _ HJ)|done|]. apply (ig_null _ _ _ _ HJ). intros r Hr.
        rewrite mass_count by done. rewrite (factors_split L r NL HL). ring.
      + by apply (joint_perm _ _ _ _ HJ).
  Qed.
End term.

Section piece.
  Context (generic : (string -> Qc) -> Prop) (fine : rfn -> Prop) (ae : rfn -> rfn -> Prop) (J : string -> rfn -> rfn).
  Hypothesis HJ : integration generic fine ae J.
  Context {E : Type} (A : alg E) (den : E -> env -> option Qc) (parse_condition : fm -> Res E)
    (integrate : list string -> E -> Res E) (iter : list nat -> list nat).
  Hypothesis HA : sound_arith (a_real A) (a_symbol A) (a_eq A) (a_mul A) (a_add A) den.
  Hypothesis HP : parses den parse_condition.
  Hypothesis HInt : integrates den fine ae J integrate.
  Hypothesis Hiter : forall l, iter l ≡ₚ l.

  Lemma piece_value s h i mg own node bools reals p ordered :
    logic_formula s -> extract_literals s = Ok (h, i) ->
    sound_manager (upto (length (Lit_Model.literals i))) mg own -> (forall n, own n -> trimmed n) ->
    compile_to_sdd mg h i = Ok node -> live_aligned i node ->
    (forall x, (x, TBool) ∈ syms s -> x ∈ bools) -> (forall x, (x, TReal) ∈ syms s -> x ∈ reals) ->
    (forall r w, generic r -> off_tests (Env w r) s) -> NoDup reals ->
    (forall v, v ∈ poly_variables p -> v ∈ reals) -> (forall v, v ∈ reals -> bounded_in s v) ->
    exists x, piece_factorized A parse_condition integrate iter bools reals ordered p i [] node = Ok x /\
      shows den fine ae (joint J reals (fun r => qsum (map (fun b => truth (Env b r) s) (worlds bools)) * pval p r)%Qc) x.
  Proof.
    intros Hl He HM Htrim Hc Hal HB HR Hgen Hnd Hp Hbd.
    destruct (groups_factorization p reals Hnd Hp) as (groups & Eg & HF). unfold piece_factorized. rewrite Eg. cbn [rbind].
    assert (exists order, (if ordered then let! o := group_order groups reals in Ok (Some o) else Ok None) = Ok order /\
      forall o, order = Some o -> o ≡ₚ seq 0 (length groups)) as (order & Eo & Ho).
    { destruct ordered; [|by exists None]. destruct (group_order_ok groups reals (fz_only _ _ _ HF)) as (o & -> & Hperm).
      exists (Some o). split; [done|]. by intros o' [= <-]. }
    rewrite Eo. cbn [rbind].
    destruct (literal_tables generic fine ae J HJ s Hl h i He reals p HR groups HF) as (l2g & El & Hl2g & Hl2b). rewrite El. cbn [rbind].
    destruct (expression_value generic fine ae J HJ A den parse_condition integrate iter HA HP HInt Hiter s Hl h i He mg own HM node Hc Htrim Hal
      bools reals p HB Hgen Hbd groups HF l2g Hl2g Hl2b order Ho) as (n2g & x & vs & L & En & Ex & Nv & Hv & NL & Sx & HL).
    rewrite En. cbn [rbind]. rewrite Ex. cbn [rbind].
    destruct (constant_value generic fine ae J HJ A den HA reals p groups HF) as (y & Ey & Sy).
    destruct (assembled generic fine ae J HJ A den HA s Hl h i He mg own HM node Hc bools reals p Hgen Hnd Hbd groups HF L x vs y NL Nv Hv Sy Sx HL)
      as (k & Ek & Sk).
    rewrite Ek. cbn [rbind]. rewrite Ey. cbn [rbind]. eexists. split; [done|]. exact Sk.
  Qed.
End piece.
