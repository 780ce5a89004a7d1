(** Lemmas for C69. *)

From Verif Require Import Base Dict Smt Smt_Facts Math_Model Math_Spec Poly_Proofs Arith_Proofs Linear_Proofs
  Piecewise_Spec Domain_Model Integral_Spec Integral_Proofs Xadd_Model Resolve_Model Xadd_Spec Resolve_Spec
  Xadd_Proofs Xwalk_Proofs Xtest_Proofs Resolve_Proofs Xhist_Proofs Xreq_Proofs Resolve_Props
  Volume_Model Volume_Spec Volume_Proofs Xalg_Model Xalg_Spec.

Section Xalg.
  Context {E : Type} `{EqDecision E} (A : alg E) (flat : E -> E) (is_one is_zero : E -> Res bool) (simp : fm -> fm)
    (solve : list fm -> fm -> bool) (X : resolver E) (den : E -> env -> option Qc) (strat : bool * strategy).
  Context (HX : sound_externals A flat simp solve den) (H0 : simp (LeN (RealC 0) (RealC 0)) = BoolC true).
  Notation inv := (inv A simp den).
  Notation denotes := (denotes den).
  Notation serve := (serve A flat is_one is_zero simp solve X).
  Notation continues := (continues A flat is_one is_zero simp solve X).
  Notation reachable := (reachable A flat is_one is_zero simp solve X).
  Notation build := (build A flat simp solve strat).

  Definition RO (p : pool E) : Prop := reachable p /\ p_ordering p = false.
  Lemma RO_inv p : RO p -> inv p.
  Proof. intros [Hr _]. by apply (reachable_inv A flat is_one is_zero simp solve X den HX). Qed.

  (** A step that returns a node, by requests to the pool. *)
  Definition nok (p : pool E) (m : M E nat) (Q : pool E -> nat -> Prop) : Prop :=
    exists q r, m p = (q, Ok r) /\ RO q /\ ext p q /\ continues p q /\ dlt (p_nodes q) r /\ Q q r.

  Lemma continues_trans p q r : continues p q -> continues q r -> continues p r.
  Proof. intros Hp. induction 1 as [|r rq Hc IH Hty Hm]; [done|]. by apply co_later. Qed.

  Lemma n_step r p q i (Q : pool E -> nat -> Prop) : RO p -> well_typed r -> (forall a, a ∈ mentions r -> dlt (p_nodes p) a) ->
    serve r p = (q, Ok i) -> dlt (p_nodes q) i -> Q q i -> nok p (serve r) Q.
  Proof.
    intros [Hr Ho] Hty Hm Hs Hd HQ. assert (continues p q) as Hc.
    { replace q with (serve r p).1 by by rewrite Hs. apply co_later; [constructor|done|done]. }
    destruct (continues_ext A flat is_one is_zero simp solve X den HX p q Hr Hc) as [Hx Hq].
    exists q, i. split; [done|]. split; [|by split_and!]. split; [done|]. by rewrite (ex_ord p q Hx).
  Qed.
  Lemma n_ret p r (Q : pool E -> nat -> Prop) : RO p -> dlt (p_nodes p) r -> Q p r -> nok p (mret r) Q.
  Proof. intros Hp Hd HQ. exists p, r. split; [done|]. split; [done|]. split; [apply ext_refl|]. split; [constructor|]. done. Qed.
  Lemma n_bind p (m : M E nat) (k : nat -> M E nat) (Q R : pool E -> nat -> Prop) : nok p m Q ->
    (forall q i, RO q -> ext p q -> dlt (p_nodes q) i -> Q q i -> nok q (k i) R) -> nok p (mbind m k) R.
  Proof.
    intros (q & i & Hm & Hq & Hx & Hc & Hd & HQ) Hk. destruct (Hk q i Hq Hx Hd HQ) as (q' & j & Hj & Hq' & Hx' & Hc' & Hd' & HR).
    exists q', j. unfold mbind. rewrite Hm. split; [done|]. split; [done|]. split; [by eapply ext_trans|]. split; [by eapply continues_trans|]. done.
  Qed.
  Lemma n_weaken p (m : M E nat) (Q R : pool E -> nat -> Prop) : nok p m Q -> (forall q i, ext p q -> Q q i -> R q i) -> nok p m R.
  Proof. intros (q & i & ? & ? & Hx & ? & ? & HQ) HR. exists q, i. auto 10. Qed.

  (** The value of the diagram at a node is [f] wherever [G] holds. *)
  Definition is_val (G : env -> Prop) (f : env -> Qc) (q : pool E) (r : nat) : Prop := forall e, G e -> denotes (p_nodes q) e r (f e).
  Lemma is_val_ext G f p q r : ext p q -> is_val G f p r -> is_val G f q r.
  Proof. intros Hx H e He. eapply ext_denotes; [done|by apply H]. Qed.

  Lemma n_terminal p x G f : RO p -> (forall e, den x e = Some (f e)) -> nok p (terminal x) (is_val G f).
  Proof.
    intros Hp Hf. destruct (terminal_ok A simp den p x (RO_inv p Hp)) as (q & i & Hs & _ & _ & _ & Hn).
    apply (n_step (TerminalR x) p q i); [done|done|by intros a ?%elem_of_nil|done|by eexists|].
    intros e _. eapply dn_leaf; [done|]. apply Hf.
  Qed.
  Lemma n_apply p op a b G f g : RO p -> op = Multiplication \/ op = Summation -> dlt (p_nodes p) a -> dlt (p_nodes p) b ->
    is_val G f p a -> is_val G g p b ->
    nok p (apply A flat simp op a b) (is_val G (fun e => match op with Summation => f e + g e | _ => f e * g e end)%Qc).
  Proof.
    intros Hp Hop Da Db Fa Fb. pose proof (RO_inv p Hp) as Hi. pose proof HX as [HA HF HS HT HV].
    pose proof (apply_ok A flat simp den HA HF HS op p a b Hi Da Db) as Hap.
    destruct (apply A flat simp op a b p) as [q [r|x]] eqn:Hs.
    2:{ destruct Hap as (_ & _ & _ & _ & [Ho|Ho]); [destruct Hp; congruence|]. exfalso. apply Ho. by destruct Hop as [-> | ->]. }
    destruct Hap as (_ & Hx & _ & (_ & _ & Dr & Hv & _)).
    apply (n_step (ApplyR op a b) p q r); [done|done| |done|done|].
    { cbn. intros c. rewrite !elem_of_cons, elem_of_nil. by intros [->|[->|[]]]. }
    intros e He. destruct (Hv e (f e) (g e)) as (z & Hz & Ho); [by eapply ext_denotes, Fa|by eapply ext_denotes, Fb|].
    by destruct Hop as [-> | ->]; cbn in Ho; rewrite <- Ho.
  Qed.
  Lemma n_reduced p r G f : RO p -> dlt (p_nodes p) r -> is_val G f p r -> nok p (xa_reduced simp solve strat r) (is_val G f).
  Proof.
    intros Hp Dr Hf. unfold xa_reduced. destruct strat.1; [|by apply n_ret].
    pose proof (RO_inv p Hp) as Hi. pose proof HX as [HA HF HS HT HV].
    destruct (Xadd_Proofs.reduce_ok A simp solve den HS HV true p r Hi Dr) as (q & r' & Hs & _ & _ & _ & Dr' & Hv & _).
    apply (n_step (ReduceR true r) p q r'); [done|done| |done|done|].
    { cbn. intros c. rewrite elem_of_list_singleton. by intros ->. }
    intros e He. by apply Hv, Hf.
  Qed.
  Lemma n_times p a b G f g : RO p -> dlt (p_nodes p) a -> dlt (p_nodes p) b -> is_val G f p a -> is_val G g p b ->
    nok p (xa_times A flat simp solve strat a b) (is_val G (fun e => f e * g e)%Qc).
  Proof.
    intros Hp Da Db Fa Fb. eapply n_bind; [by apply (n_apply p Multiplication a b G f g); auto|].
    intros q r Hq Hx Hd Hv. by apply n_reduced.
  Qed.
  Lemma n_plus p a b G f g : RO p -> dlt (p_nodes p) a -> dlt (p_nodes p) b -> is_val G f p a -> is_val G g p b ->
    nok p (xa_plus A flat simp solve strat a b) (is_val G (fun e => f e + g e)%Qc).
  Proof.
    intros Hp Da Db Fa Fb. eapply n_bind; [by apply (n_apply p Summation a b G f g); auto|].
    intros q r Hq Hx Hd Hv. by apply n_reduced.
  Qed.
  Lemma n_negate p a G f : RO p -> dlt (p_nodes p) a -> is_val G f p a ->
    nok p (xa_negate A flat simp solve strat a) (is_val G (fun e => - f e)%Qc).
  Proof.
    intros Hp Da Fa. eapply n_bind; [apply (n_terminal p _ G (fun _ => qz (-1))); [done|]|].
    { intros e. apply (sa_real _ _ _ _ _ _ (se_arith _ _ _ _ _ HX)). }
    intros q r Hq Hx Hd Hv. eapply n_weaken; [apply (n_times q a r G f (fun _ => qz (-1))); [done|by eapply ext_dlt|done|by eapply is_val_ext|done]|].
    intros q' r' _ Hr e He. replace (- f e)%Qc with (f e * qz (-1))%Qc; [by apply Hr|].
    replace (qz (-1)) with (-(1))%Qc by (apply Qc_is_canon; reflexivity). ring.
  Qed.
  Lemma n_power n : forall p acc a G f g, RO p -> dlt (p_nodes p) acc -> dlt (p_nodes p) a -> is_val G g p acc -> is_val G f p a ->
    nok p (xa_power_loop A flat simp solve strat n acc a) (is_val G (fun e => g e * qpow (f e) n)%Qc).
  Proof.
    induction n as [|n IH]; intros p acc a G f g Hp Dc Da Fc Fa; cbn [xa_power_loop].
    - apply n_ret; [done|done|]. intros e He. cbn. replace (g e * 1)%Qc with (g e) by ring. by apply Fc.
    - eapply n_bind; [by apply (n_times p acc a G g f)|]. intros q r Hq Hx Hd Hv.
      eapply n_weaken; [apply (IH q r a G f (fun e => g e * f e)%Qc); [done|done|by eapply ext_dlt|done|by eapply is_val_ext]|].
      intros q' r' _ Hr e He. cbn [qpow]. replace (g e * (f e * qpow (f e) n))%Qc with (g e * f e * qpow (f e) n)%Qc by ring. by apply Hr.
  Qed.

  Lemma n_test p f (G : env -> Prop) (b : env -> bool) : RO p -> typeof f = Some TBool -> (exists q i, bool_test simp (mkdec f) p = (q, Ok i)) ->
    (forall e, G e -> takes simp (mkdec f) e (b e)) ->
    nok p (xa_parse_condition simp f) (is_val G (fun e => if b e then 1 else 0)%Qc).
  Proof.
    intros Hp Hty (q & i & Hs) Ht. pose proof HX as [HA HF HS HT HV].
    pose proof (bool_test_any A simp den HA HS p (mkdec f) (RO_inv p Hp) (or_intror (ex_intro _ f (conj eq_refl Hty)))) as Hb.
    rewrite Hs in Hb. destruct Hb as (_ & _ & _ & Hb & _). destruct (Hb i eq_refl) as (Di & Si & Vi).
    apply (n_step (BoolTestR f) p q i); [done|done|by intros a ?%elem_of_nil|done|done|].
    intros e He. by apply Vi, Ht.
  Qed.
  Lemma compares_type f a b : compares f a b -> linear_expr a -> linear_expr b -> typeof f = Some TBool.
  Proof.
    intros Hc La Lb. apply linear_expr_real in La, Lb. induction Hc; cbn; rewrite ?La, ?Lb, ?IHHc; done.
  Qed.
  Lemma n_condition p f : RO p -> condition f ->
    nok p (xa_parse_condition simp f) (is_val (fun e => forall a b, compares f a b -> off e a b)
      (fun e => if decide (eval e f = Some (VB true)) then 1 else 0)%Qc).
  Proof.
    intros Hp Hc. pose proof (RO_inv p Hp) as Hi. pose proof HX as [HA HF HS HT HV].
    assert (forall e, (forall c, eval e f = Some (VB c) -> takes simp (mkdec f) e c) -> (exists c, eval e f = Some (VB c)) ->
      takes simp (mkdec f) e (bool_decide (eval e f = Some (VB true)))) as Hd.
    { intros e Ht [c Ec]. apply Ht. rewrite Ec. f_equal. f_equal. destruct c; by case_bool_decide. }
    apply (n_weaken _ _ (is_val (fun e => forall a b, compares f a b -> off e a b)
      (fun e => if bool_decide (eval e f = Some (VB true)) then 1 else 0)%Qc)).
    2:{ intros q i _ Hv e He. specialize (Hv e He). cbn beta in *. destruct (decide _); by case_bool_decide. }
    destruct Hc as [[x ->]|(a & b & Hc & La & Lb)].
    - apply n_test; [done|done| |].
      + unfold bool_test, mbind, mget, internal. destruct (bool_decide _); [by eexists _, _|].
        unfold mbind, mlift, valid_branches. cbn [d_test mkdec].
        rewrite bool_decide_eq_false_2 by (rewrite !elem_of_cons, elem_of_nil; by intros [|[|[]]]).
        cbn [dec_is_bool rbind d_test mkdec]. rewrite bool_decide_eq_true_2 by done. cbn [rbind].
        assert (exists q i, cons_node simp (mkdec (Sym x TBool)) (p_one p) (p_zero p) p = (q, Ok i)) as Hc.
        { unfold cons_node, mbind, mlift, to_canonical. cbn [d_canonical d_test mkdec dec_is_bool].
          rewrite bool_decide_eq_true_2 by done. cbn [is_symbol].
          destruct (add_test_ok A simp den p (Sym x TBool) Hi) as (q & j & Hq & _). cbn [d_test]. rewrite Hq.
          destruct (dget _ _); by eexists _, _. }
        repeat case_bool_decide; try done; by eexists _, _.
      + intros e _. apply Hd; [|by eexists]. intros c Ec. apply takes_bool; [done|by exists x; left|done].
    - pose proof (linear_expr_real _ La) as Ta. pose proof (linear_expr_real _ Lb) as Tb.
      apply n_test; [done|by eapply compares_type| |].
      + unfold bool_test, mbind, mget. by apply (internal_linear A simp den f a b).
      + intros e Hoff. apply Hd; [intros c Ec; by apply (takes_compare simp HS f a b); auto|].
        destruct (Hoff a b Hc) as (x & y & Ea & Eb & _). clear -Hc Ea Eb.
        induction Hc as [| |g ? ? Hc IH]; cbn [eval]; rewrite ?Ea, ?Eb; cbn; [by eexists|by eexists|].
        destruct (IH Ea Eb) as [c ->]. by eexists.
  Qed.

  Lemma build_ok t : Forall condition (conditions t) -> forall p, RO p ->
    nok p (build t) (is_val (fun e => off_conditions e t) (fun e => value e t)).
  Proof.
    pose proof HX as [HA HF HS HT HV].
    assert (forall (G G' : env -> Prop) f q r, (forall e, G' e -> G e) -> is_val G f q r -> is_val G' f q r) as Hsub
      by (intros G G' f q r HG Hv e He; by apply Hv, HG).
    induction t as [q|x| | |f|a IHa b IHb|a IHa b IHb|a IHa|a IHa n]; intros Hc p Hp; cbn [Xalg_Spec.build value conditions] in *.
    - apply n_terminal; [done|]. intros e. apply (sa_real _ _ _ _ _ _ HA).
    - apply n_terminal; [done|]. intros e. apply (sa_symbol _ _ _ _ _ _ HA).
    - unfold xa_zero. exists p, (p_zero p). split; [done|]. split; [done|]. split; [apply ext_refl|]. split; [constructor|].
      pose proof (RO_inv p Hp) as Hi. split; [eexists; by eapply iv_zero|]. intros e _. by apply (denotes_zero A simp den HA).
    - unfold xa_one. exists p, (p_one p). split; [done|]. split; [done|]. split; [apply ext_refl|]. split; [constructor|].
      pose proof (RO_inv p Hp) as Hi. split; [eexists; by eapply iv_one|]. intros e _. by apply (denotes_one A simp den HA).
    - eapply n_weaken; [apply n_condition; [done|by apply Forall_inv in Hc]|]. intros q r _ Hv e He. apply Hv.
      intros a b Hab. eapply He; [by left|done].
    - apply Forall_app in Hc as [Ca Cb]. eapply n_bind; [by apply IHa|]. intros q i Hq Hx Di Vi.
      eapply n_bind; [by apply IHb|]. intros q' j Hq' Hx' Dj Vj.
      apply (n_times q' i j (fun e => off_conditions e (ETimes a b)) (fun e => value e a) (fun e => value e b)); [done|by eapply ext_dlt|done| |].
      + eapply is_val_ext; [done|]. eapply Hsub; [|exact Vi]. intros e He f c d Hf. apply (He f). apply elem_of_app. by left.
      + eapply Hsub; [|exact Vj]. intros e He f c d Hf. apply (He f). apply elem_of_app. by right.
    - apply Forall_app in Hc as [Ca Cb]. eapply n_bind; [by apply IHa|]. intros q i Hq Hx Di Vi.
      eapply n_bind; [by apply IHb|]. intros q' j Hq' Hx' Dj Vj.
      apply (n_plus q' i j (fun e => off_conditions e (EPlus a b)) (fun e => value e a) (fun e => value e b)); [done|by eapply ext_dlt|done| |].
      + eapply is_val_ext; [done|]. eapply Hsub; [|exact Vi]. intros e He f c d Hf. apply (He f). apply elem_of_app. by left.
      + eapply Hsub; [|exact Vj]. intros e He f c d Hf. apply (He f). apply elem_of_app. by right.
    - eapply n_bind; [by apply IHa|]. intros q i Hq Hx Di Vi.
      by apply (n_negate q i (fun e => off_conditions e (ENegate a)) (fun e => value e a)).
    - eapply n_bind; [by apply IHa|]. intros q i Hq Hx Di Vi. unfold xa_power.
      replace (Z.of_nat n <? 0)%Z with false by (symmetry; apply Z.ltb_ge; lia). rewrite Nat2Z.id.
      unfold xa_one, mbind, mget. cbn. pose proof (RO_inv q Hq) as Hi.
      eapply n_weaken; [apply (n_power n q (p_one q) i (fun e => off_conditions e (EPower a n)) (fun e => value e a) (fun _ => 1%Qc));
        [done|eexists; by eapply iv_one|done| |done]|].
      + intros e _. by apply (denotes_one A simp den HA).
      + intros q' r _ Hv e He. replace (qpow (value e a) n) with (1 * qpow (value e a) n)%Qc by ring. by apply Hv.
  Qed.

  (** ** Integration *)
  Lemma integrate_list_all d vs : Forall (fun v => is_Some (dget (d_types d) v)) vs -> forall id p,
    xa_integrate_list A flat simp solve X strat d vs id p = integrate_all A flat simp solve X strat.2 vs id p.
  Proof.
    induction 1 as [|v vs [t Ht] Hvs IH]; intros id p; [done|]. cbn [xa_integrate_list integrate_all]. unfold get_symbol, ditem.
    rewrite Ht. cbn. unfold mbind at 1. cbn. unfold mbind. destruct (integrate _ _ _ _ _ _ _ _ _) as [q [r|]]; [|done]. apply IH.
  Qed.
End Xalg.
