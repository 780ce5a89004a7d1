(** Lemmas for C48-C51: resolving a variable out of a diagram. *)

From Verif Require Import Base Dict Smt Smt_Facts Math_Model Math_Spec Poly_Proofs Arith_Proofs Linear_Proofs
  Piecewise_Spec Lit_Tests Integral_Spec Integral_Proofs Xadd_Model Resolve_Model Xadd_Spec Resolve_Spec Xadd_Proofs Resolve_Bounds
  Xwalk_Proofs Xtest_Proofs.

Lemma const_poly1 f : const_expr f -> poly_expr1 f.
Proof.
  revert f. fix IH 2. intros f H. destruct H as [q|l Hne Hl|a b Ha Hb|l Hne Hl].
  - constructor.
  - apply pe1_plus; [done|]. induction Hl as [|x l Hx Hl IHl]; [constructor|]. constructor; [by apply IH|].
    destruct l; [constructor|]. by apply IHl.
  - apply pe1_minus; by apply IH.
  - apply pe1_times; [done|]. induction Hl as [|x l Hx Hl IHl]; [constructor|]. constructor; [by apply IH|].
    destruct l; [constructor|]. by apply IHl.
Qed.
Lemma linear_poly1 f : linear_expr f -> poly_expr1 f.
Proof.
  revert f. fix IH 2. intros f H. destruct H as [f H|x|l Hne Hl|a b Ha Hb|l1 a l2 H1 Ha H2|a Ha].
  - by apply const_poly1.
  - constructor.
  - apply pe1_plus; [done|]. induction Hl as [|x l Hx Hl IHl]; [constructor|]. constructor; [by apply IH|].
    destruct l; [constructor|]. by apply IHl.
  - apply pe1_minus; by apply IH.
  - apply pe1_times; [by destruct l1|]. apply Forall_app. split.
    + eapply Forall_impl; [exact H1|]. apply const_poly1.
    + constructor; [by apply IH|]. eapply Forall_impl; [exact H2|]. apply const_poly1.
  - change 1%nat with (S O). apply pe1_pow; [done|]. by apply IH.
Qed.

Lemma poly_val_ext e e' P : (forall x, er e x = er e' x) -> poly_val e P = poly_val e' P.
Proof.
  intros He. induction P as [|[k q] P IH]; [by rewrite !pv_nil|]. rewrite !pv_cons, IH. do 2 f_equal. unfold mono_val.
  f_equal. apply map_ext. done.
Qed.

(** A polynomial along one variable. *)
Lemma pv_along (P : pdict) e v : exists cs, forall t, poly_val (upd_r e v t) P = pol cs t.
Proof.
  induction P as [|[k q] P [cs IH]].
  - exists []. intros t. by rewrite pv_nil.
  - assert (exists ks, forall t, mono_val (upd_r e v t) k = pol ks t) as [ks Hk].
    { induction k as [|o k [ks IHk]]; [exists [1%Qc]; intros t; unfold mono_val; cbn; ring|].
      destruct (decide (o = v)) as [->|Hne].
      - exists (0%Qc :: ks). intros t. unfold mono_val, qprod in *. cbn [map fold_right pol]. rewrite IHk. cbn [upd_r er].
        rewrite decide_True by done. ring.
      - exists (map (Qcmult (er e o)) ks). intros t. unfold mono_val, qprod in *. cbn [map fold_right]. rewrite IHk. cbn [upd_r er].
        rewrite decide_False by done. clear. induction ks as [|c ks IH]; cbn [map pol]; [ring|]. rewrite <- IH. ring. }
    exists (padd (map (Qcmult q) ks) cs). intros t. rewrite pv_cons, IH, Hk, pol_padd. f_equal.
    clear. induction ks as [|c ks IH]; cbn [map pol]; [ring|]. rewrite <- IH. ring.
Qed.

Section Resolve.
  Context {E : Type} `{EqDecision E} (A : alg E) (flat : E -> E) (simp : fm -> fm) (solve : list fm -> fm -> bool)
    (X : resolver E) (den : E -> env -> option Qc).
  Context (HA : sound_arith (a_real A) (a_symbol A) (a_eq A) (a_mul A) (a_add A) den)
    (HF : forall x e v, den x e = Some v -> den (flat x) e = Some v) (HS : sound_simplifier simp)
    (HT : forall f t, typeof f = Some t -> typeof (simp f) = Some t) (HV : sound_solver solve).
  Notation inv := (inv A simp den).
  Notation denotes := (denotes den).
  Notation along := (along den).
  Notation limits := (limits den).
  Notation RE := (resolve_externals simp X den).

  Definition typed_bound (b : option fm) : Prop := forall f, b = Some f -> typeof f = Some TReal.

  (** The shape of the result for a boolean: the order of the tests is kept, and the
      boolean is tested no more. *)
  Definition summed (q : pool E) (v : string) (id r : nat) : Prop :=
    shrunk q id r /\ (ordered q id -> tested q (fun t => t <> Sym v TBool) r).
  Lemma summed_ext p q v id r : inv p -> ext p q -> dlt (p_nodes p) id -> dlt (p_nodes p) r -> summed p v id r -> summed q v id r.
  Proof.
    intros Hi Hx D1 D2 [H1 H2]. split; [by apply (shrunk_ext A simp den p q)|].
    intros Ho. apply (tested_iff A simp den p q); [done..|]. apply H2. by apply (ordered_iff A simp den p q).
  Qed.
  Lemma summed_leaf (p : pool E) v id r x y : dget (p_nodes p) id = Some (TNode x) -> dget (p_nodes p) r = Some (TNode y) -> summed p v id r.
  Proof.
    intros H1 H2. split; [split|].
    - intros P _. by eapply tested_leaf.
    - intros _. split; [by eapply ordered_leaf|]. intros i _. by eapply root_ge_leaf.
    - intros _. by eapply tested_leaf.
  Qed.

  (** Below an ordered diagram that starts after the test [t], the test [t] does not occur. *)
  Lemma ordered_after p t j : inv p -> dget (p_tests p) t = Some j -> forall a, dlt (p_nodes p) a -> ordered p a -> root_ge p (S j) a ->
    tested p (fun t' => t' <> t) a.
  Proof.
    intros Hi Hj. induction a as [a IH] using lt_wf_ind. intros [nd Hn] Ho Hr. destruct nd as [x|d ct cf]; [by eapply tested_leaf|].
    destruct (iv_node _ _ _ p Hi _ _ _ _ Hn) as (L1 & L2 & D1 & D2 & _ & _ & j' & Hj' & _).
    apply (root_ge_node p (S j) a d ct cf j' Hn Hj') in Hr.
    destruct (proj1 (ordered_node p a d ct cf j' Hn Hj') Ho) as (R1 & R2 & O1 & O2).
    apply (tested_node p _ a d ct cf Hn). split; [intros Heq; rewrite Heq in Hj'; simplify_eq; lia|].
    split; apply IH; try done; (eapply root_ge_mono; [|done]; lia).
  Qed.
  Lemma in_order_ordered p id : inv p -> in_order p id <-> ordered p id.
  Proof.
    intros Hi. split.
    - intros H b d ct cf j Hb Hn Hj. split; intros d' ct' cf' Hn';
        destruct (iv_node _ _ _ p Hi _ _ _ _ Hn') as (_ & _ & _ & _ & _ & _ & j' & Hj' & _); exists j'; (split; [done|]);
        [exact (H b d ct cf ct d' ct' cf' j j' Hb Hn (or_introl eq_refl) Hn' Hj Hj')
        |exact (H b d ct cf cf d' ct' cf' j j' Hb Hn (or_intror eq_refl) Hn' Hj Hj')].
    - intros H a d ct cf c d' ct' cf' i j Ha Hn Hc Hn' Hi' Hj. destruct (H a d ct cf i Ha Hn Hi') as [H1 H2].
      assert (root_ge p (S i) c) as Hr by (by destruct Hc as [->| ->]).
      destruct (Hr d' ct' cf' Hn') as (k & Hk & Hle). rewrite Hj in Hk. simplify_eq. lia.
  Qed.
  Lemma ordered_read_once p v id : inv p -> dlt (p_nodes p) id -> ordered p id -> read_once (p_nodes p) v id.
  Proof.
    intros Hi Hd Ho a d ct cf b d' ct' cf' Ha Hn Ht Hb Hn'.
    destruct (iv_node _ _ _ p Hi _ _ _ _ Hn) as (_ & _ & Dt & Df & _ & _ & j & Hj & _).
    assert (ordered p a) as Oa.
    { intros c dc c1 c2 jc Hc. apply Ho. clear -Ha Hc. induction Ha; [done|]. eapply bl_step; eauto. }
    apply (ordered_node p a d ct cf j Hn Hj) in Oa as (R1 & R2 & O1 & O2). rewrite Ht in Hj.
    destruct Hb as [Hb|Hb].
    - exact (ordered_after p _ j Hi Hj ct Dt O1 R1 b d' ct' cf' Hb Hn').
    - exact (ordered_after p _ j Hi Hj cf Df O2 R2 b d' ct' cf' Hb Hn').
  Qed.

  (** [r] is a correct result for the variable [v], the bounds and the diagram at [id]. *)
  Definition resolved (q : pool E) (v : string) (ub lb : option fm) (id r : nat) : Prop :=
    dlt (p_nodes q) id /\ dlt (p_nodes q) r /\
    (rs_type X v = TReal -> rs_str X v = v -> RE -> bound_for v ub -> bound_for v lb ->
       forall e lo hi, limits (p_nodes q) e v id ub lb lo hi ->
         exists w, denotes (p_nodes q) e r w /\ integral (along (p_nodes q) e v id) lo hi w) /\
    (rs_type X v = TBool -> polynomials den -> read_once (p_nodes q) v id ->
       forall e x y, denotes (p_nodes q) (upd_b e v true) id x -> denotes (p_nodes q) (upd_b e v false) id y ->
         denotes (p_nodes q) e r (x + y)%Qc) /\
    (rs_type X v = TBool -> summed q v id r).

  Definition rinv (p : pool E) : Prop :=
    forall v id ub lb r, dget (p_resolved p) (v, id, ub, lb) = Some r -> resolved p v ub lb id r.

  Lemma resolved_ext p q v ub lb id r : inv p -> ext p q -> resolved p v ub lb id r -> resolved q v ub lb id r.
  Proof.
    intros Hi Hx (D1 & D2 & HR & HB & HSh). split; [by eapply ext_dlt|]. split; [by eapply ext_dlt|].
    split; [|split; [|intros Ht; by apply (summed_ext p q), HSh]].
    - intros Ht Hs He Hu Hl e lo hi (L1 & L2 & L3).
      destruct (HR Ht Hs He Hu Hl e lo hi) as (w & Hw & Hin).
      + split; [done|]. split.
        * destruct lb; [done|]. intros t y Hlt Hy. apply (L2 t); [done|]. by eapply ext_denotes.
        * destruct ub; [done|]. intros t y Hlt Hy. apply (L3 t); [done|]. by eapply ext_denotes.
      + exists w. split; [by eapply ext_denotes|]. eapply integral_mono; [exact Hin|]. intros t y _ _ Hy.
        by eapply ext_denotes.
    - intros Ht Hp Ho e x y Hx1 Hy1. eapply ext_denotes; [done|]. apply HB; [done|done| | |].
      + intros a d ct cf b d' ct' cf' H1 H2 H3 H4 H5. eapply (Ho a d ct cf b d' ct' cf'); [| |done| |].
        * eapply below_mono; [apply Hx|done].
        * by apply Hx.
        * destruct H4 as [H4|H4]; [left|right]; (eapply below_mono; [apply Hx|done]).
        * by apply Hx.
      + by eapply ext_back.
      + by eapply ext_back.
  Qed.

  Lemma rinv_frame p q : inv p -> rinv p -> ext p q -> p_resolved q = p_resolved p -> rinv q.
  Proof. intros Hi Hr Hx Hf v id ub lb r. rewrite Hf. intros Hg. eapply resolved_ext; [done|done|]. by apply Hr. Qed.

  Lemma read_once_ext p q v id : inv p -> ext p q -> dlt (p_nodes p) id -> read_once (p_nodes p) v id -> read_once (p_nodes q) v id.
  Proof.
    intros Hi Hx Hd Ho a d ct cf b d' ct' cf' H1 H2 H3 H4 H5.
    destruct (below_back _ _ _ _ (ex_nodes p q Hx) (inv_closed A simp den p Hi) Hd H1) as [B1 [n1 N1]].
    pose proof (ex_nodes _ _ Hx _ _ N1) as E1. rewrite H2 in E1. simplify_eq.
    destruct (inv_closed A simp den p Hi _ _ _ _ N1) as [Dt Df].
    assert (exists n, dget (p_nodes p) b = Some n /\ (below (p_nodes p) ct b \/ below (p_nodes p) cf b)) as (n2 & N2 & B2).
    { destruct H4 as [H4|H4].
      - destruct (below_back _ _ _ _ (ex_nodes p q Hx) (inv_closed A simp den p Hi) Dt H4) as [? [n ?]]. eauto.
      - destruct (below_back _ _ _ _ (ex_nodes p q Hx) (inv_closed A simp den p Hi) Df H4) as [? [n ?]]. eauto. }
    pose proof (ex_nodes _ _ Hx _ _ N2) as E2. rewrite H5 in E2. simplify_eq.
    by eapply (Ho a d ct cf b d' ct' cf').
  Qed.

  (** Every diagram has a value everywhere. *)
  Lemma poly_total p : inv p -> polynomials den -> forall id, dlt (p_nodes p) id -> forall e, exists w, denotes (p_nodes p) e id w.
  Proof.
    intros Hi HP. induction id as [id IH] using lt_wf_ind. intros [nd Hn] e. destruct nd as [x|d ct cf].
    - destruct (HP x) as [P HPx]. exists (poly_val e P). by eapply dn_leaf.
    - destruct (iv_node _ _ _ p Hi _ _ _ _ Hn) as (L1 & L2 & D1 & D2 & _ & Hg & _). destruct (good_total d e Hg) as [b Eb].
      assert (exists w, denotes (p_nodes p) e (if b then ct else cf) w) as [w Hw] by (destruct b; auto).
      exists w. by eapply denotes_child.
  Qed.

  (** ** Operations that keep the invariants *)

  Section Ok.
    Context (o : bool) (G : Prop).
    Definition RI (p : pool E) : Prop := inv p /\ rinv p /\ p_ordering p = o.
    Definition ok {B : Type} (p : pool E) (m : M E B) (Q : pool E -> B -> Prop) : Prop :=
      let '(q, res) := m p in RI q /\ ext p q /\ p_profiles q = p_profiles p /\
        match res with Ok a => Q q a | Err _ => ~ (o = false /\ G) end.

    Lemma ok_bind {B C : Type} p (m : M E B) (k : B -> M E C) Q R :
      ok p m Q -> (forall q a, RI q -> ext p q -> Q q a -> ok q (k a) R) -> ok p (mbind m k) R.
    Proof.
      unfold ok, mbind. intros Hm Hk. destruct (m p) as [q [a|x]]; [|exact Hm].
      destruct Hm as (Iq & Xq & Fq & Ha). specialize (Hk q a Iq Xq Ha). destruct (k a q) as [q' res].
      destruct Hk as (I' & X' & F' & Hr). split; [done|]. split; [by eapply ext_trans|]. split; [congruence|done].
    Qed.
    Lemma ok_ret {B : Type} p (a : B) (Q : pool E -> B -> Prop) : RI p -> Q p a -> ok p (mret a) Q.
    Proof. intros Hi Hq. split; [done|]. split; [apply ext_refl|]. done. Qed.
    Lemma ok_mono {B : Type} p (m : M E B) (Q R : pool E -> B -> Prop) : ok p m Q -> (forall q a, RI q -> ext p q -> Q q a -> R q a) -> ok p m R.
    Proof. unfold ok. destruct (m p) as [q [a|x]]; [|done]. intros (? & ? & ? & Hq) HR. auto. Qed.
    Lemma ok_get {B : Type} p (k : pool E -> M E B) Q : ok p (k p) Q -> ok p (mbind mget k) Q.
    Proof. done. Qed.
    Lemma ok_lift {B : Type} p (r : Res B) (Q : pool E -> B -> Prop) : RI p ->
      match r with Ok a => Q p a | Err _ => ~ (o = false /\ G) end -> ok p (mlift r) Q.
    Proof. intros Hi Hq. split; [done|]. split; [apply ext_refl|]. done. Qed.

    Lemma RI_next p q : RI p -> inv q -> ext p q -> frame p q -> RI q.
    Proof.
      intros (Hi & Hr & Ho) Iq Hx [_ Hf]. split; [done|]. split; [exact (rinv_frame p q Hi Hr Hx Hf)|]. by rewrite (ex_ord _ _ Hx).
    Qed.

    Lemma ok_terminal p x : RI p -> ok p (terminal x) (fun q i => dget (p_nodes q) i = Some (TNode x)).
    Proof.
      intros HR. destruct (terminal_ok A simp den p x (proj1 HR)) as (q & i & Et & Iq & Hx & Hf & Hn). unfold ok. rewrite Et.
      split; [by eapply RI_next|]. split; [done|]. split; [apply Hf|done].
    Qed.
    Lemma ok_apply op p a b : RI p -> dlt (p_nodes p) a -> dlt (p_nodes p) b -> op = Multiplication \/ op = Summation ->
      ok p (apply A flat simp op a b) (fun q r => applied simp den q op a b r).
    Proof.
      intros HR Ha Hb Hop. pose proof (apply_ok A flat simp den HA HF HS op p a b (proj1 HR) Ha Hb) as Hap. unfold ok.
      destruct (apply A flat simp op a b p) as [q [r|x]]; destruct Hap as (Iq & Hx & Hf & Hr).
      - split; [by eapply RI_next|]. split; [done|]. split; [apply Hf|done].
      - split; [by eapply RI_next|]. split; [done|]. split; [apply Hf|]. intros [Ho _].
        destruct HR as (_ & _ & Hpo). rewrite <- Hpo in Ho. destruct Hr as [_ [Hr|Hr]]; [congruence|].
        apply Hr. by destruct Hop as [->| ->].
    Qed.
    Lemma ok_reduce m p id : RI p -> dlt (p_nodes p) id ->
      ok p (reduce_with simp solve m id) (fun q r => dlt (p_nodes q) r /\ (forall e x, denotes (p_nodes p) e id x -> denotes (p_nodes q) e r x) /\
        shrunk q id r).
    Proof.
      intros HR Hd. unfold reduce_with. destruct m; [|apply ok_ret; [done|]; split; [done|]; split; [done|apply shrunk_refl]].
      destruct (reduce_ok A simp solve den HS HV true p id (proj1 HR) Hd) as (q & r & Er & Iq & Hx & Hf & Dr & Hv & Hsh).
      unfold ok. rewrite Er. split; [by eapply RI_next|]. split; [done|]. split; [apply Hf|done].
    Qed.
    Lemma ok_internal p d ct cf : RI p -> good d -> dlt (p_nodes p) ct -> dlt (p_nodes p) cf ->
      ok p (internal simp d ct cf) (fun q i => dlt (p_nodes q) i /\
        (forall e b v, eval e (d_test d) = Some (VB b) -> denotes (p_nodes p) e (if b : bool then ct else cf) v ->
          denotes (p_nodes q) e i v) /\
        (i = ct \/ i = cf \/ unpruned simp (d_test d) /\ exists d2, dget (p_nodes q) i = Some (INode d2 ct cf) /\ d_test d2 = d_test d)).
    Proof.
      intros HR Hg Ht Hf. pose proof (internal_inv A simp den HS p d ct cf (proj1 HR) (or_introl Hg) Ht Hf) as Hin. unfold ok.
      destruct (internal simp d ct cf p) as [q [i|x]] eqn:Ei; destruct Hin as (Iq & Hx & Hfr & Hno & Hok).
      - split; [by eapply RI_next|]. split; [done|]. split; [apply Hfr|].
        destruct (Hno i eq_refl) as (Di & Hv & _). split; [done|]. split; [intros e b v He; apply Hv; by apply takes_good|].
        destruct (internal_good A simp den p d ct cf q i (proj1 HR) Hg Ht Hf Ei) as [[-> _]|[(b & _ & ->)|(_ & Hu & Hn)]];
          [by left|destruct b; auto|by right; right].
      - by specialize (Hok Hg).
    Qed.

    (** A test of two bounds. *)
    Definition test_value (q : pool E) (p : pool E) (a b : fm) (ct cf i : nat) : Prop :=
      RE -> linear_expr a -> linear_expr b -> forall e x y, eval e a = Some (VN x) -> eval e b = Some (VN y) ->
        ((x < y)%Qc -> forall w, denotes (p_nodes p) e ct w -> denotes (p_nodes q) e i w) /\
        ((y < x)%Qc -> forall w, denotes (p_nodes p) e cf w -> denotes (p_nodes q) e i w) /\
        ((forall w, denotes (p_nodes p) e ct w -> denotes (p_nodes q) e i w) \/
         (forall w, denotes (p_nodes p) e cf w -> denotes (p_nodes q) e i w)) /\
        (simp (LtN a b) = BoolC false -> forall w, denotes (p_nodes p) e cf w -> denotes (p_nodes q) e i w).

    Lemma ok_test p a b ct cf : RI p -> typeof a = Some TReal -> typeof b = Some TReal ->
      dlt (p_nodes p) ct -> dlt (p_nodes p) cf -> (G -> RE /\ linear_expr a /\ linear_expr b) ->
      ok p (internal simp (mkdec (simp (LtN a b))) ct cf) (fun q i => dlt (p_nodes q) i /\ test_value q p a b ct cf i).
    Proof.
      intros HR Ta Tb Ht Hf HG.
      assert (typeof (simp (LtN a b)) = Some TBool) as Tt by (apply HT; cbn; by rewrite Ta, Tb).
      assert (askable (mkdec (simp (LtN a b)))) as Had by (right; by eexists).
      pose proof (internal_inv A simp den HS p _ ct cf (proj1 HR) Had Ht Hf) as Hin. unfold ok.
      destruct (internal simp (mkdec (simp (LtN a b))) ct cf p) as [q [i|x]] eqn:Ei; destruct Hin as (Iq & Hx & Hfr & Hno & Hok).
      - split; [by eapply RI_next|]. split; [done|]. split; [apply Hfr|].
        destruct (Hno i eq_refl) as (Di & Hv & Hcase). split; [done|].
        intros He La Lb e x y Hx' Hy'.
        assert (forall b0, (x <> y \/ simp (LtN a b) = BoolC b0) -> b0 = qlt x y -> takes simp (mkdec (simp (LtN a b))) e b0) as Htakes.
        { intros b0 Hne ->. destruct (re_lt _ _ _ He a b La Lb) as [[c Ec]|Ec]; rewrite Ec.
          - assert (c = qlt x y) as ->.
            { assert (eval e (LtN a b) = Some (VB (qlt x y))) as Hev by (cbn; by rewrite Hx', Hy').
              apply HS in Hev. rewrite Ec in Hev. cbn in Hev. congruence. }
            split.
            + intros b'. unfold valid_branches. cbn [d_test mkdec].
              rewrite bool_decide_eq_true_2 by (rewrite !elem_of_cons; destruct (qlt x y); auto).
              cbn [rbind]. destruct (qlt x y); [rewrite bool_decide_eq_true_2 by done; congruence|].
              rewrite bool_decide_eq_false_2 by done. rewrite bool_decide_eq_true_2 by done. congruence.
            + intros ct0 cf0 d' ct' cf'. unfold to_canonical. cbn. done.
          - destruct (re_term _ _ _ He a La) as [La' Va]. destruct (re_term _ _ _ He b Lb) as [Lb' Vb].
            apply (takes_compare simp HS _ (simp a) (simp b)); [apply cmp_lt|by apply linear_expr_real|by apply linear_expr_real| |].
            + exists x, y. rewrite Va, Vb. split; [done|]. split; [done|]. destruct Hne as [|Hne]; [done|]. by rewrite Ec in Hne.
            + cbn. rewrite Va, Vb, Hx', Hy'. done. }
        split; [|split; [|split]].
        4:{ intros Es w Hw. apply (Hv e false w); [|done]. apply Htakes; [by right|]. symmetry. apply qlt_false.
            assert (eval e (LtN a b) = Some (VB (qlt x y))) as Hev by (cbn; by rewrite Hx', Hy').
            apply HS in Hev. rewrite Es in Hev. cbn in Hev. apply qlt_false. congruence. }
        + intros Hlt w Hw. apply (Hv e true w); [|done]. apply Htakes; [left; intros ->; qclra|]. symmetry. by apply qlt_spec.
        + intros Hlt w Hw. apply (Hv e false w); [|done]. apply Htakes; [left; intros ->; qclra|]. symmetry. apply qlt_false. qclra.
        + destruct Hcase as [->|[->|(d1 & d2 & ct' & cf' & Hn & _ & _ & Hsw)]].
          * left. intros w. by apply ext_denotes.
          * right. intros w. by apply ext_denotes.
          * destruct (iv_node _ _ _ q Iq _ _ _ _ Hn) as (_ & _ & _ & _ & _ & Hg & _). destruct (good_total d2 e Hg) as [b0 Eb].
            assert (forall w, denotes (p_nodes q) e (if b0 then ct' else cf') w -> denotes (p_nodes q) e i w) as Hch.
            { intros w Hw. by eapply denotes_child. }
            destruct Hsw as [[-> ->]|[-> ->]], b0.
            -- left. intros w Hw. apply Hch. by eapply ext_denotes.
            -- right. intros w Hw. apply Hch. by eapply ext_denotes.
            -- right. intros w Hw. apply Hch. by eapply ext_denotes.
            -- left. intros w Hw. apply Hch. by eapply ext_denotes.
      - split; [by eapply RI_next|]. split; [done|]. split; [apply Hfr|]. intros [_ HG']. destruct (HG HG') as (He & La & Lb).
        destruct (re_lt _ _ _ He a b La Lb) as [[c Ec]|Ec]; rewrite Ec in Ei.
        + unfold internal in Ei. destruct (bool_decide (ct = cf)); [done|]. unfold mbind, mlift in Ei.
          assert (valid_branches simp (mkdec (BoolC c)) = Ok [c]) as Hvb.
          { unfold valid_branches. cbn [d_test mkdec]. rewrite bool_decide_eq_true_2 by (rewrite !elem_of_cons; destruct c; auto).
            cbn [rbind]. by destruct c. }
          rewrite Hvb in Ei. done.
        + destruct (re_term _ _ _ He a La) as [La' Va]. destruct (re_term _ _ _ He b Lb) as [Lb' Vb].
          destruct (internal_linear A simp den (LtN (simp a) (simp b)) (simp a) (simp b) ct cf p) as (q' & i' & Eq);
            [apply cmp_lt|done|done|by apply linear_expr_real|by apply linear_expr_real|apply He|apply HR|]. congruence.
    Qed.
  End Ok.

  (** ** The bound set by a test *)

  Lemma to_bound_ok c v : linear_dict c -> li_coefficient c [v] <> 0%Qc ->
    exists B, operator_to_bound simp X c v = Ok B /\ typeof B = Some TReal /\
      (RE -> bound_for v (Some B) /\
        forall e, eval e B = Some (VN (- poly_val (upd_r e v 0) c * / li_coefficient c [v])%Qc)).
  Proof.
    intros Hc Hk. unfold operator_to_bound.
    destruct (qeq (li_coefficient c [v]) 0) eqn:Eq; [by apply qeq_spec in Eq|].
    change (fun (r : fm) (o : string) => if bool_decide (o = v) then r else _) with (bound_step c v).
    destruct (bound_step_ok c v (rs_order X (li_variables c)) (RealC (li_b c))) as (L1 & T1 & V1); [by repeat constructor|done|].
    eexists. split; [reflexivity|].
    assert (linear_expr (TimesN [fold_left (bound_step c v) (rs_order X (li_variables c)) (RealC (li_b c)); RealC (1 / li_coefficient c [v])])) as L2.
    { apply (le_times []); [constructor|done|]. constructor; [constructor|constructor]. }
    split; [apply HT; by apply linear_expr_real|]. intros He.
    destruct (re_term _ _ _ He _ L2) as [L3 V3].
    assert (forall e, eval e (simp (TimesN [fold_left (bound_step c v) (rs_order X (li_variables c)) (RealC (li_b c));
        RealC (1 / li_coefficient c [v])])) = Some (VN (- poly_val (upd_r e v 0) c * / li_coefficient c [v])%Qc)) as V4.
    { intros e. rewrite V3. cbn. rewrite (V1 e (li_b c) eq_refl). cbn. do 2 f_equal.
      rewrite (lin_sum_perm _ _ _ _ (re_order _ _ _ He _)). rewrite (dict_value c _ Hc). unfold li_b, CONST_KEY, Qcdiv. ring. }
    split; [|exact V4]. split; [exact L3|]. intros e t. rewrite !V4. do 4 f_equal.
    rewrite (value_at c (upd_r e v t) v 0 Hc), (value_at c e v 0 Hc).
    replace (poly_val (upd_r (upd_r e v t) v 0) c) with (poly_val (upd_r e v 0) c); [done|].
    apply poly_val_ext. intros x. cbn. by destruct (decide (x = v)).
  Qed.

  Lemma split_at_ok v d ct cf : good d -> (v, TReal) ∈ free_vars (d_test d) ->
    exists B bl ab, split_at simp X v d ct cf = Ok (B, bl, ab) /\ typeof B = Some TReal /\
      ((bl = ct /\ ab = cf) \/ (bl = cf /\ ab = ct)) /\
      (RE -> rs_str X v = v -> bound_for v (Some B) /\
        forall e b t, eval e B = Some (VN b) -> t <> b ->
          exists c : bool, eval (upd_r e v t) (d_test d) = Some (VB c) /\ (if c then ct else cf) = (if qlt t b then bl else ab)).
  Proof.
    intros [_ [[x Hx]|(c & Hi & Ht & _ & Hc)]] Hv.
    { rewrite Hx in Hv. cbn in Hv. by apply elem_of_list_singleton in Hv. }
    destruct (test_coef c _ v Hc Ht Hv) as [Hk Hco].
    unfold split_at, dec_inequality. rewrite Hi. cbn [rbind].
    assert (forall e t, eval (upd_r e v t) (d_test d) =
      Some (VB (qlt (li_coefficient c [v] * t + poly_val (upd_r e v 0) c) 0))) as Hev.
    { intros e t. rewrite (test_eval c _ _ Hc Ht). unfold li_holds. by rewrite Hco, (value_at c e v t Hc). }
    destruct (qlt 0 (li_coefficient c [rs_str X v])) eqn:Es.
    - destruct (to_bound_ok c v Hc Hk) as (B & HB & TB & VB). rewrite HB. cbn [rbind]. exists B, ct, cf.
      split; [done|]. split; [done|]. split; [by left|]. intros He Hs. rewrite Hs in Es. apply qlt_spec in Es.
      destruct (VB He) as [BB EB]. split; [done|]. intros e b t Hb Hne. rewrite EB in Hb. injection Hb as Hb.
      eexists. split; [apply Hev|]. set (k := li_coefficient c [v]) in *. set (r := poly_val (upd_r e v 0) c) in *.
      assert (k * b = - r)%Qc as Hkb by (rewrite <- Hb; field; exact Hk).
      assert (qlt (k * t + r) 0 = qlt t b) as ->; [|by destruct (qlt t b)].
      apply eq_iff_eq_true. rewrite !qlt_spec. split; intros; [apply Qcnot_le_lt; intros ?|]; qcnra.
    - destruct (to_bound_ok (li_inverted c) v) as (B & HB & TB & VB); [by apply linear_dict_inverted| |].
      { rewrite coef_inverted by done. intros Hz. apply Hk. qclra. }
      rewrite HB. cbn [rbind]. exists B, cf, ct.
      split; [done|]. split; [done|]. split; [by right|]. intros He Hs. rewrite Hs in Es. apply qlt_false in Es.
      destruct (VB He) as [BB EB]. split; [done|]. intros e b t Hb Hne. rewrite EB in Hb. injection Hb as Hb.
      rewrite coef_inverted, value_inverted in Hb by done.
      eexists. split; [apply Hev|]. set (k := li_coefficient c [v]) in *. set (r := poly_val (upd_r e v 0) c) in *.
      assert (k < 0)%Qc as Hneg by (apply Qcle_lt_or_eq in Es as [|]; done).
      assert (k * b = - r)%Qc as Hkb.
      { rewrite <- Hb. field. first [exact Hk|intros Hz; apply Hk; qclra]. }
      assert (qlt (k * t + r) 0 = negb (qlt t b)) as ->; [|by destruct (qlt t b)].
      apply eq_iff_eq_true. rewrite negb_true_iff, qlt_spec, qlt_false. split; intros Hlt.
      + apply Qcnot_lt_le. intros ?. qcnra.
      + apply Qcle_lt_or_eq in Hlt as [Hlt|Hlt]; [qcnra|by subst].
  Qed.

  (** ** The parts of a node *)

  Definition real_case (v : string) (ub lb : option fm) : Prop :=
    rs_type X v = TReal /\ rs_str X v = v /\ RE /\ bound_for v ub /\ bound_for v lb.
  Definition case_for (v : string) (ub lb : option fm) : Prop := real_case v ub lb \/ rs_type X v = TBool.

  Lemma ok_weaken o (G G' : Prop) {B : Type} p (m : M E B) Q : (G' -> G) -> ok o G p m Q -> ok o G' p m Q.
  Proof.
    unfold ok. destruct (m p) as [q [a|x]]; [done|]. intros HG (? & ? & ? & Hn). split_and!; try done. intros [Ho Hg]. auto.
  Qed.

  Section Parts.
    Context (o : bool) (G : Prop).

    Lemma zero_dlt p : inv p -> dlt (p_nodes p) (p_zero p).
    Proof. intros Hi. eexists. by eapply iv_zero. Qed.
    Lemma one_dlt p : inv p -> dlt (p_nodes p) (p_one p).
    Proof. intros Hi. eexists. by eapply iv_one. Qed.

    Lemma simp_false a b e x y : simp (LtN a b) = BoolC false -> eval e a = Some (VN x) -> eval e b = Some (VN y) -> (y <= x)%Qc.
    Proof.
      intros Hs Hx Hy. assert (eval e (LtN a b) = Some (VB (qlt x y))) as Hev by (cbn; by rewrite Hx, Hy).
      apply HS in Hev. rewrite Hs in Hev. cbn in Hev. apply qlt_false. congruence.
    Qed.
    Lemma simp_true a b e x y : simp (LtN a b) = BoolC true -> eval e a = Some (VN x) -> eval e b = Some (VN y) -> (x < y)%Qc.
    Proof.
      intros Hs Hx Hy. assert (eval e (LtN a b) = Some (VB (qlt x y))) as Hev by (cbn; by rewrite Hx, Hy).
      apply HS in Hev. rewrite Hs in Hev. cbn in Hev. apply qlt_spec. congruence.
    Qed.

    Definition consistent (other : option fm) (a b : fm -> fm) (q : pool E) (c : option nat) : Prop :=
      match c with
      | None => exists f, other = Some f /\ forall e x y, eval e (a f) = Some (VN x) -> eval e (b f) = Some (VN y) -> (y <= x)%Qc
      | Some k => dlt (p_nodes q) k /\ (other = None -> forall e, denotes (p_nodes q) e k 1%Qc) /\
          (forall f, other = Some f -> RE -> linear_expr (a f) -> linear_expr (b f) ->
            forall e x y, eval e (a f) = Some (VN x) -> eval e (b f) = Some (VN y) ->
              ((x < y)%Qc -> denotes (p_nodes q) e k 1%Qc) /\ ((y < x)%Qc -> denotes (p_nodes q) e k 0%Qc) /\
              (denotes (p_nodes q) e k 1%Qc \/ denotes (p_nodes q) e k 0%Qc))
      end.

    Lemma ok_consistency ck other (a b : fm -> fm) p : RI o p ->
      (forall f, other = Some f -> typeof (a f) = Some TReal /\ typeof (b f) = Some TReal /\
         (G -> RE /\ linear_expr (a f) /\ linear_expr (b f))) ->
      ok o G p (consistency simp ck other (fun f => LtN (a f) (b f))) (consistent other a b).
    Proof.
      intros HR Hty. unfold consistency. apply ok_get. assert (inv p) as Hi by apply HR.
      destruct other as [f|].
      2:{ apply ok_ret; [done|]. split; [by apply one_dlt|]. split; [|done]. intros _ e. by apply (denotes_one A simp den HA). }
      destruct (Hty f eq_refl) as (Ta & Tb & HG).
      destruct (bool_decide_reflect (simp (LtN (a f) (b f)) = BoolC false)) as [Es|_].
      { apply ok_ret; [done|]. exists f. split; [done|]. intros e x y. by apply simp_false. }
      destruct (ck && bool_decide (simp (LtN (a f) (b f)) = BoolC true)) eqn:Ec.
      { apply andb_true_iff in Ec as [_ Ec]. apply bool_decide_eq_true in Ec. apply ok_ret; [done|].
        split; [by apply one_dlt|]. split; [done|]. intros f' [= <-] _ _ _ e x y Hx Hy.
        pose proof (simp_true _ _ _ _ _ Ec Hx Hy) as Hlt.
        assert (denotes (p_nodes p) e (p_one p) 1%Qc) as H1 by by apply (denotes_one A simp den HA).
        split; [done|]. split; [intros; exfalso; qclra|by left]. }
      clear Ec. eapply ok_bind.
      { unfold bool_test. apply ok_get. eapply ok_test; [exact HR|exact Ta|exact Tb|by apply one_dlt|by apply zero_dlt|done]. }
      cbv beta. intros q k HRq Hxq [Dk Hk]. apply ok_ret; [done|]. split; [done|]. split; [done|].
      intros f' [= <-] He La Lb e x y Hx Hy. destruct (Hk He La Lb e x y Hx Hy) as (H1 & H2 & H3 & _).
      assert (denotes (p_nodes p) e (p_one p) 1%Qc) as E1 by by apply (denotes_one A simp den HA).
      assert (denotes (p_nodes p) e (p_zero p) 0%Qc) as E0 by by apply (denotes_zero A simp den HA).
      split; [auto|]. split; [auto|]. destruct H3; auto.
    Qed.

    Definition tightest (old : option fm) (a b : fm -> fm) (Rold Rnew : pool E -> nat -> Prop) (q : pool E) (r : nat) : Prop :=
      dlt (p_nodes q) r /\ (old = None -> Rnew q r) /\
      forall f, old = Some f -> RE -> linear_expr (a f) -> linear_expr (b f) ->
        forall e x y, eval e (a f) = Some (VN x) -> eval e (b f) = Some (VN y) ->
          let new := exists r', Rnew q r' /\ forall w, denotes (p_nodes q) e r' w -> denotes (p_nodes q) e r w in
          let old := exists r', Rold q r' /\ forall w, denotes (p_nodes q) e r' w -> denotes (p_nodes q) e r w in
          ((x < y)%Qc -> new) /\ ((y < x)%Qc -> old) /\ (new \/ old).

    Lemma ok_tighter m old (a b : fm -> fm) rold rnew (Rold Rnew : pool E -> nat -> Prop) p : RI o p ->
      (forall f, old = Some f -> typeof (a f) = Some TReal /\ typeof (b f) = Some TReal /\
         (G -> RE /\ linear_expr (a f) /\ linear_expr (b f))) ->
      (forall q r, Rold q r -> dlt (p_nodes q) r) -> (forall q r, Rnew q r -> dlt (p_nodes q) r) ->
      (forall q q' r, inv q -> ext q q' -> Rold q r -> Rold q' r) ->
      (forall q q' r, inv q -> ext q q' -> Rnew q r -> Rnew q' r) ->
      (forall q, RI o q -> ext p q -> ok o G q rold Rold) ->
      (forall q, RI o q -> ext p q -> ok o G q rnew Rnew) ->
      ok o G p (tighter simp solve m old (fun f => LtN (a f) (b f)) rold rnew) (tightest old a b Rold Rnew).
    Proof.
      intros HR Hty Do Dn Xo Xn Ho Hn. unfold tighter. destruct old as [f|].
      2:{ eapply ok_mono; [apply Hn; [done|apply ext_refl]|]. intros q r HRq Hx Hr. split; [by eapply Dn|]. split; [done|].
          intros f [=]. }
      destruct (Hty f eq_refl) as (Ta & Tb & HG). apply ok_get.
      set (t := simp (LtN (a f) (b f))).
      eapply (ok_bind o G p _ _ (fun q r => dlt (p_nodes q) r /\ (t <> BoolC true -> Rold q r))).
      { destruct (bool_decide_reflect (t = BoolC true)) as [Et|Et].
        - apply ok_ret; [done|]. split; [apply zero_dlt, HR|done].
        - eapply ok_mono; [apply Ho; [done|apply ext_refl]|]. intros q r _ _ Hr. split; [by eapply Do|done]. }
      intros q1 some HR1 X1 [D1 V1].
      eapply (ok_bind o G q1 _ _ (fun q r => dlt (p_nodes q) r /\ (t <> BoolC false -> Rnew q r))).
      { destruct (bool_decide_reflect (t = BoolC false)) as [Et|Et].
        - apply ok_ret; [done|]. split; [|done]. rewrite <- (ex_zero _ _ X1). apply zero_dlt, HR1.
        - eapply ok_mono; [apply Hn; done|]. intros q r _ _ Hr. split; [by eapply Dn|done]. }
      intros q2 best HR2 X2 [D2 V2].
      eapply ok_bind; [by apply ok_reduce|]. cbv beta. intros q3 best' HR3 X3 (D3 & V3 & _).
      assert (dlt (p_nodes q3) some) as D1'.
      { eapply ext_dlt; [exact X3|]. by eapply ext_dlt. }
      eapply ok_bind; [by apply ok_reduce|]. cbv beta. intros q4 some' HR4 X4 (D4 & V4 & _).
      assert (dlt (p_nodes q4) best') as D3' by by eapply ext_dlt.
      eapply ok_mono; [apply ok_test; done|]. cbv beta. intros q i HRq X5 [Di Vi].
      split; [done|]. split; [done|]. intros f' [= <-] He La Lb e x y Hx Hy. cbv zeta.
      destruct (Vi He La Lb e x y Hx Hy) as (H1 & H2 & H3 & H4).
      assert (ext q3 q) as X35 by (eapply ext_trans; [exact X4|exact X5]).
      assert (ext q2 q) as X25 by (eapply ext_trans; [exact X3|exact X35]).
      assert (ext q1 q) as X15 by (eapply ext_trans; [exact X2|exact X25]).
      assert (inv q1) as I1 by apply HR1. assert (inv q2) as I2 by apply HR2.
      assert (inv q3) as I3 by apply HR3. assert (inv q4) as I4 by apply HR4. assert (inv q) as I5 by apply HRq.
      assert (t <> BoolC false -> (forall w, denotes (p_nodes q4) e best' w -> denotes (p_nodes q) e i w) ->
        exists r', Rnew q r' /\ forall w, denotes (p_nodes q) e r' w -> denotes (p_nodes q) e i w) as Hnew.
      { intros Et Hi. exists best. split; [apply (Xn q2 q best I2 X25); by apply V2|]. intros w Hw. apply Hi.
        eapply ext_denotes; [exact X4|]. apply V3. by eapply ext_back. }
      assert (t <> BoolC true -> (forall w, denotes (p_nodes q4) e some' w -> denotes (p_nodes q) e i w) ->
        exists r', Rold q r' /\ forall w, denotes (p_nodes q) e r' w -> denotes (p_nodes q) e i w) as Hold.
      { intros Et Hi. exists some. split; [apply (Xo q1 q some I1 X15); by apply V1|]. intros w Hw. apply Hi.
        apply V4. eapply ext_denotes; [exact X3|]. eapply ext_denotes; [exact X2|]. by eapply (ext_back A simp den q1 q). }
      assert ((x < y)%Qc -> t <> BoolC false) as Nf.
      { intros Hlt Et. pose proof (simp_false _ _ _ _ _ Et Hx Hy). qclra. }
      assert ((y < x)%Qc -> t <> BoolC true) as Nt.
      { intros Hlt Et. pose proof (simp_true _ _ _ _ _ Et Hx Hy). qclra. }
      split; [intros Hlt; apply Hnew; [by apply Nf|by apply H1]|].
      split; [intros Hlt; apply Hold; [by apply Nt|by apply H2]|].
      assert (t = BoolC true -> (x < y)%Qc) as Tt by (intros Et; by apply (simp_true _ _ _ _ _ Et Hx Hy)).
      destruct (decide (t = BoolC true)) as [Et|Et].
      { left. apply Hnew; [apply Nf, Tt, Et|]. by apply H1, Tt. }
      destruct H3 as [H3|H3]; [|right; by apply Hold].
      destruct (decide (t = BoolC false)) as [Ef|Ef]; [|left; by apply Hnew].
      right. apply Hold; [done|]. by apply H4.
    Qed.
  End Parts.

  Section Node.
    Context (o : bool) (v : string) (n : nat) (rec : option fm -> option fm -> nat -> M E nat).
    Context (Hrec : forall p ub lb id, RI o p -> typed_bound ub -> typed_bound lb -> dlt (p_nodes p) id -> id < n ->
      ok o (case_for v ub lb) p (rec ub lb id) (fun q r => resolved q v ub lb id r)).

    Lemma rec_real p ub lb id (G : Prop) : RI o p -> typed_bound ub -> typed_bound lb -> dlt (p_nodes p) id -> id < n ->
      (G -> real_case v ub lb) -> ok o G p (rec ub lb id) (fun q r => resolved q v ub lb id r).
    Proof. intros. eapply ok_weaken; [|by apply Hrec]. left. auto. Qed.

    Lemma resolved_value q ub lb id r e lo hi : real_case v ub lb -> resolved q v ub lb id r ->
      limits (p_nodes q) e v id ub lb lo hi ->
      exists w, denotes (p_nodes q) e r w /\ integral (along (p_nodes q) e v id) lo hi w.
    Proof. intros (Ht & Hs & He & Hu & Hl) (_ & _ & HR & _). by apply HR. Qed.

    (** The part of the branch below the bound [B]. *)
    Definition upper_value (ub lb : option fm) (B : fm) (branch : nat) (q : pool E) (wk : nat * nat) : Prop :=
      dlt (p_nodes q) wk.1 /\ dlt (p_nodes q) wk.2 /\
      (real_case v ub lb -> bound_for v (Some B) -> forall e lo hi b, eval e B = Some (VN b) -> (lo <= hi)%Qc ->
         match lb with
         | Some f => eval e f = Some (VN lo)
         | None => (lo <= b)%Qc /\ forall t y, (t < lo)%Qc -> denotes (p_nodes q) (upd_r e v t) branch y -> y = 0%Qc
         end ->
         match ub with Some f => eval e f = Some (VN hi) | None => (b <= hi)%Qc end ->
         exists x y, denotes (p_nodes q) e wk.1 x /\ denotes (p_nodes q) e wk.2 y /\
           ((b < lo)%Qc -> (x * y = 0)%Qc) /\
           ((lo <= b)%Qc -> (b <= hi)%Qc -> integral (along (p_nodes q) e v branch) lo b (x * y)%Qc) /\
           ((lo <= b)%Qc -> (hi <= b)%Qc -> integral (along (p_nodes q) e v branch) lo hi (x * y)%Qc)).

    Lemma upper_ok m ub lb B branch p : RI o p -> typed_bound ub -> typed_bound lb -> typeof B = Some TReal ->
      dlt (p_nodes p) branch -> branch < n -> (real_case v ub lb -> bound_for v (Some B)) ->
      ok o (real_case v ub lb) p (upper_part simp solve m rec ub lb B branch) (upper_value ub lb B branch).
    Proof.
      intros HR Tu Tl TB Db Hlt HB. unfold upper_part. eapply ok_bind.
      { eapply (ok_consistency o _ true lb (fun l => l) (fun _ => B)); [done|]. intros f ->. split; [by apply Tl|]. split; [done|].
        intros Hc. pose proof (HB Hc) as [LB _]. destruct Hc as (_ & _ & He & _ & [Lf _]). done. }
      intros q1 c HR1 X1 Hc. apply ok_get. assert (inv q1) as I1 by apply HR1. destruct c as [k|].
      2:{ apply ok_ret; [done|]. split; [by apply zero_dlt|]. split; [by apply zero_dlt|].
          destruct Hc as (f & -> & Hc). intros _ _ e lo hi b Eb Hlh El Eu. pose proof (Hc e lo b El Eb) as Hle.
          exists 0%Qc, 0%Qc. split; [by apply (denotes_zero A simp den HA)|]. split; [by apply (denotes_zero A simp den HA)|].
          assert (forall F a b, a = b -> integral F a b (0 * 0)%Qc) as Hem.
          { intros F a0 b0 ->. replace (0 * 0)%Qc with 0%Qc by ring. apply integral_empty. }
          split; [intros; ring|]. split; intros H1 H2; apply Hem; qclra. }
      eapply ok_bind.
      { eapply (ok_tighter o _ m ub (fun _ => B) (fun u => u) _ _ (fun q r => resolved q v ub lb branch r)
          (fun q r => resolved q v (Some B) lb branch r)); [done| | | | | | |].
        - intros f ->. split; [done|]. split; [by apply Tu|]. intros Hc'. pose proof (HB Hc') as [LB _].
          destruct Hc' as (_ & _ & He & [Lf _] & _). done.
        - intros q r Hr. apply Hr.
        - intros q r Hr. apply Hr.
        - intros q q' r. apply resolved_ext.
        - intros q q' r. apply resolved_ext.
        - intros q HRq Xq. apply rec_real; try done. eapply ext_dlt; [exact Xq|]. by eapply ext_dlt.
        - intros q HRq Xq. apply rec_real; try done; [by intros f [= <-]| |].
          + eapply ext_dlt; [exact Xq|]. by eapply ext_dlt.
          + intros Hc'. pose proof (HB Hc') as HB'. destruct Hc' as (? & ? & ? & ? & ?). by split_and!. }
      intros q r HRq Xq (Dr & Hnone & Hsome). apply ok_ret; [done|].
      destruct Hc as (Dk & Knone & Ksome). assert (inv q) as Iq by apply HRq.
      split; [done|]. cbn [fst snd]. split; [by eapply ext_dlt|].
      intros Hcase HBv e lo hi b Eb Hlh El Eu.
      pose proof Hcase as (Ht & Hs & He & Hu & Hl).
      assert (real_case v (Some B) lb) as Hcase' by by split_and!.
      assert (LBl : linear_expr B) by apply HBv.
      (* the value of the result *)
      assert ((lo <= b)%Qc -> forall r', resolved q v (Some B) lb branch r' ->
        exists x, denotes (p_nodes q) e r' x /\ integral (along (p_nodes q) e v branch) lo b x) as Vnew.
      { intros Hlb r' Hr'. apply (resolved_value q (Some B) lb branch r' e lo b Hcase' Hr'). split; [done|]. split; [|done].
        destruct lb; [done|]. apply El. }
      assert (exists x, denotes (p_nodes q) e r x /\ ((lo <= b)%Qc ->
        ((b <= hi)%Qc -> integral (along (p_nodes q) e v branch) lo b x) /\
        ((hi <= b)%Qc -> integral (along (p_nodes q) e v branch) lo hi x))) as (x & Hx & Vx).
      { destruct (decide (lo <= b)%Qc) as [Hlb|Hlb].
        2:{ destruct (poly_total q Iq (re_poly _ _ _ He) r Dr e) as [w Hw]. by exists w. }
        destruct ub as [u|].
        - destruct (Hsome u eq_refl He LBl (proj1 Hu) e b hi Eb Eu) as (H1 & H2 & H3).
          assert ((exists r', resolved q v (Some u) lb branch r' /\ (forall w, denotes (p_nodes q) e r' w -> denotes (p_nodes q) e r w)) ->
            exists x, denotes (p_nodes q) e r x /\ integral (along (p_nodes q) e v branch) lo hi x) as Vold'.
          { intros (r' & Hr' & Hw). destruct (resolved_value q (Some u) lb branch r' e lo hi Hcase Hr') as (x & Hx & Hin); [|eauto].
            split; [done|]. split; [|done]. destruct lb; [done|]. apply El. }
          assert ((exists r', resolved q v (Some B) lb branch r' /\ (forall w, denotes (p_nodes q) e r' w -> denotes (p_nodes q) e r w)) ->
            exists x, denotes (p_nodes q) e r x /\ integral (along (p_nodes q) e v branch) lo b x) as Vnew'.
          { intros (r' & Hr' & Hw). destruct (Vnew Hlb r' Hr') as (x & Hx & Hin). eauto. }
          destruct (Qc_dec b hi) as [[Hbh|Hbh]|Hbh].
          + destruct (Vnew' (H1 Hbh)) as (x & Hx & Hin). exists x. split; [done|]. intros _. split; [done|]. intros. exfalso. qclra.
          + destruct (Vold' (H2 Hbh)) as (x & Hx & Hin). exists x. split; [done|]. intros _. split; [|done]. intros. exfalso. qclra.
          + subst hi. destruct H3 as [H3|H3]; [destruct (Vnew' H3) as (x & Hx & Hin)|destruct (Vold' H3) as (x & Hx & Hin)]; by exists x.
        - destruct (Vnew Hlb r (Hnone eq_refl)) as (x & Hx & Hin). exists x. split; [done|]. intros _. split; [done|].
          intros Hhb. assert (hi = b) as -> by (apply Qcle_antisym; done). done. }
      assert (exists y, denotes (p_nodes q) e k y /\ ((b < lo)%Qc -> y = 0%Qc) /\ (y = 1%Qc \/ (y = 0%Qc /\ (b <= lo)%Qc))) as (y & Hy & Vy0 & Vy).
      { destruct lb as [l|].
        - destruct (Ksome l eq_refl He (proj1 Hl) LBl e lo b El Eb) as (H1 & H2 & H3).
          destruct (Qc_dec lo b) as [[Hlb|Hlb]|Hlb].
          + exists 1%Qc. split; [eapply ext_denotes; [exact Xq|]; auto|]. split; [intros; exfalso; qclra|by left].
          + exists 0%Qc. split; [eapply ext_denotes; [exact Xq|]; auto|]. split; [done|]. right. split; [done|qclra].
          + subst b. destruct H3 as [H3|H3].
            * exists 1%Qc. split; [by eapply ext_denotes|]. split; [intros; exfalso; qclra|by left].
            * exists 0%Qc. split; [by eapply ext_denotes|]. split; [done|]. right. split; [done|qclra].
        - exists 1%Qc. split; [eapply ext_denotes; [exact Xq|]; by apply Knone|]. split; [|by left].
          destruct El as [El _]. intros. exfalso. qclra. }
      exists x, y. split; [done|]. split; [done|].
      split; [intros Hbl; rewrite (Vy0 Hbl); ring|].
      destruct Vy as [->|[-> Hbl]].
      - replace (x * 1)%Qc with x by ring. split; intros H1; by apply Vx.
      - replace (x * 0)%Qc with 0%Qc by ring. split; intros H1 H2.
        + assert (lo = b) as -> by (apply Qcle_antisym; done). apply integral_empty.
        + assert (lo = b) as -> by (apply Qcle_antisym; done). assert (hi = b) as -> by (apply Qcle_antisym; done). apply integral_empty.
    Qed.

    (** The part of the branch above the bound [B]. *)
    Definition lower_value (ub lb : option fm) (B : fm) (branch : nat) (q : pool E) (wk : nat * nat) : Prop :=
      dlt (p_nodes q) wk.1 /\ dlt (p_nodes q) wk.2 /\
      (real_case v ub lb -> bound_for v (Some B) -> forall e lo hi b, eval e B = Some (VN b) -> (lo <= hi)%Qc ->
         match lb with Some f => eval e f = Some (VN lo) | None => (lo <= b)%Qc end ->
         match ub with
         | Some f => eval e f = Some (VN hi)
         | None => (b <= hi)%Qc /\ forall t y, (hi < t)%Qc -> denotes (p_nodes q) (upd_r e v t) branch y -> y = 0%Qc
         end ->
         exists x y, denotes (p_nodes q) e wk.1 x /\ denotes (p_nodes q) e wk.2 y /\
           ((hi < b)%Qc -> (x * y = 0)%Qc) /\
           ((b <= hi)%Qc -> (lo <= b)%Qc -> integral (along (p_nodes q) e v branch) b hi (x * y)%Qc) /\
           ((b <= hi)%Qc -> (b <= lo)%Qc -> integral (along (p_nodes q) e v branch) lo hi (x * y)%Qc)).

    Lemma lower_ok m ub lb B branch p : RI o p -> typed_bound ub -> typed_bound lb -> typeof B = Some TReal ->
      dlt (p_nodes p) branch -> branch < n -> (real_case v ub lb -> bound_for v (Some B)) ->
      ok o (real_case v ub lb) p (lower_part simp solve m rec ub lb B branch) (lower_value ub lb B branch).
    Proof.
      intros HR Tu Tl TB Db Hlt HB. unfold lower_part. eapply ok_bind.
      { eapply (ok_consistency o _ false ub (fun _ => B) (fun u => u)); [done|]. intros f ->. split; [done|]. split; [by apply Tu|].
        intros Hc. pose proof (HB Hc) as [LB _]. destruct Hc as (_ & _ & He & [Lf _] & _). done. }
      intros q1 c HR1 X1 Hc. apply ok_get. assert (inv q1) as I1 by apply HR1. destruct c as [k|].
      2:{ apply ok_ret; [done|]. split; [by apply zero_dlt|]. split; [by apply zero_dlt|].
          destruct Hc as (f & -> & Hc). intros _ _ e lo hi b Eb Hlh El Eu. pose proof (Hc e b hi Eb Eu) as Hle.
          exists 0%Qc, 0%Qc. split; [by apply (denotes_zero A simp den HA)|]. split; [by apply (denotes_zero A simp den HA)|].
          assert (forall F a b, a = b -> integral F a b (0 * 0)%Qc) as Hem.
          { intros F a0 b0 ->. replace (0 * 0)%Qc with 0%Qc by ring. apply integral_empty. }
          split; [intros; ring|]. split; intros H1 H2; apply Hem; qclra. }
      eapply ok_bind.
      { eapply (ok_tighter o _ m lb (fun l => l) (fun _ => B) _ _ (fun q r => resolved q v ub lb branch r)
          (fun q r => resolved q v ub (Some B) branch r)); [done| | | | | | |].
        - intros f ->. split; [by apply Tl|]. split; [done|]. intros Hc'. pose proof (HB Hc') as [LB _].
          destruct Hc' as (_ & _ & He & _ & [Lf _]). done.
        - intros q r Hr. apply Hr.
        - intros q r Hr. apply Hr.
        - intros q q' r. apply resolved_ext.
        - intros q q' r. apply resolved_ext.
        - intros q HRq Xq. apply rec_real; try done. eapply ext_dlt; [exact Xq|]. by eapply ext_dlt.
        - intros q HRq Xq. apply rec_real; try done; [by intros f [= <-]| |].
          + eapply ext_dlt; [exact Xq|]. by eapply ext_dlt.
          + intros Hc'. pose proof (HB Hc') as HB'. destruct Hc' as (? & ? & ? & ? & ?). by split_and!. }
      intros q r HRq Xq (Dr & Hnone & Hsome). apply ok_ret; [done|].
      destruct Hc as (Dk & Knone & Ksome). assert (inv q) as Iq by apply HRq.
      split; [done|]. cbn [fst snd]. split; [by eapply ext_dlt|].
      intros Hcase HBv e lo hi b Eb Hlh El Eu.
      pose proof Hcase as (Ht & Hs & He & Hu & Hl).
      assert (real_case v ub (Some B)) as Hcase' by by split_and!.
      assert (LBl : linear_expr B) by apply HBv.
      assert ((b <= hi)%Qc -> forall r', resolved q v ub (Some B) branch r' ->
        exists x, denotes (p_nodes q) e r' x /\ integral (along (p_nodes q) e v branch) b hi x) as Vnew.
      { intros Hlb r' Hr'. apply (resolved_value q ub (Some B) branch r' e b hi Hcase' Hr'). split; [done|]. split; [done|].
        destruct ub; [done|]. apply Eu. }
      assert (exists x, denotes (p_nodes q) e r x /\ ((b <= hi)%Qc ->
        ((lo <= b)%Qc -> integral (along (p_nodes q) e v branch) b hi x) /\
        ((b <= lo)%Qc -> integral (along (p_nodes q) e v branch) lo hi x))) as (x & Hx & Vx).
      { destruct (decide (b <= hi)%Qc) as [Hlb|Hlb].
        2:{ destruct (poly_total q Iq (re_poly _ _ _ He) r Dr e) as [w Hw]. by exists w. }
        destruct lb as [l|].
        - destruct (Hsome l eq_refl He (proj1 Hl) LBl e lo b El Eb) as (H1 & H2 & H3).
          assert ((exists r', resolved q v ub (Some l) branch r' /\ (forall w, denotes (p_nodes q) e r' w -> denotes (p_nodes q) e r w)) ->
            exists x, denotes (p_nodes q) e r x /\ integral (along (p_nodes q) e v branch) lo hi x) as Vold'.
          { intros (r' & Hr' & Hw). destruct (resolved_value q ub (Some l) branch r' e lo hi Hcase Hr') as (x & Hx & Hin); [|eauto].
            split; [done|]. split; [done|]. destruct ub; [done|]. apply Eu. }
          assert ((exists r', resolved q v ub (Some B) branch r' /\ (forall w, denotes (p_nodes q) e r' w -> denotes (p_nodes q) e r w)) ->
            exists x, denotes (p_nodes q) e r x /\ integral (along (p_nodes q) e v branch) b hi x) as Vnew'.
          { intros (r' & Hr' & Hw). destruct (Vnew Hlb r' Hr') as (x & Hx & Hin). eauto. }
          destruct (Qc_dec lo b) as [[Hbh|Hbh]|Hbh].
          + destruct (Vnew' (H1 Hbh)) as (x & Hx & Hin). exists x. split; [done|]. intros _. split; [done|]. intros. exfalso. qclra.
          + destruct (Vold' (H2 Hbh)) as (x & Hx & Hin). exists x. split; [done|]. intros _. split; [|done]. intros. exfalso. qclra.
          + subst lo. destruct H3 as [H3|H3]; [destruct (Vnew' H3) as (x & Hx & Hin)|destruct (Vold' H3) as (x & Hx & Hin)]; by exists x.
        - destruct (Vnew Hlb r (Hnone eq_refl)) as (x & Hx & Hin). exists x. split; [done|]. intros _. split; [done|].
          intros Hhb. assert (lo = b) as -> by (apply Qcle_antisym; done). done. }
      assert (exists y, denotes (p_nodes q) e k y /\ ((hi < b)%Qc -> y = 0%Qc) /\ (y = 1%Qc \/ (y = 0%Qc /\ (hi <= b)%Qc))) as (y & Hy & Vy0 & Vy).
      { destruct ub as [u|].
        - destruct (Ksome u eq_refl He LBl (proj1 Hu) e b hi Eb Eu) as (H1 & H2 & H3).
          destruct (Qc_dec b hi) as [[Hlb|Hlb]|Hlb].
          + exists 1%Qc. split; [eapply ext_denotes; [exact Xq|]; auto|]. split; [intros; exfalso; qclra|by left].
          + exists 0%Qc. split; [eapply ext_denotes; [exact Xq|]; auto|]. split; [done|]. right. split; [done|qclra].
          + subst b. destruct H3 as [H3|H3].
            * exists 1%Qc. split; [by eapply ext_denotes|]. split; [intros; exfalso; qclra|by left].
            * exists 0%Qc. split; [by eapply ext_denotes|]. split; [done|]. right. split; [done|qclra].
        - exists 1%Qc. split; [eapply ext_denotes; [exact Xq|]; by apply Knone|]. split; [|by left].
          destruct Eu as [Eu _]. intros. exfalso. qclra. }
      exists x, y. split; [done|]. split; [done|].
      split; [intros Hbl; rewrite (Vy0 Hbl); ring|].
      destruct Vy as [->|[-> Hbl]].
      - replace (x * 1)%Qc with x by ring. split; intros H1; by apply Vx.
      - replace (x * 0)%Qc with 0%Qc by ring. split; intros H1 H2.
        + assert (hi = b) as -> by (apply Qcle_antisym; done). apply integral_empty.
        + assert (hi = b) as -> by (apply Qcle_antisym; done). assert (lo = b) as -> by (apply Qcle_antisym; done). apply integral_empty.
    Qed.
  End Node.

  Lemma combine_ok o (G : Prop) m s lower upper p : RI o p -> dlt (p_nodes p) lower.1 -> dlt (p_nodes p) lower.2 ->
    dlt (p_nodes p) upper.1 -> dlt (p_nodes p) upper.2 ->
    ok o G p (combine A flat simp solve m s lower upper) (fun q r => dlt (p_nodes q) r /\
      forall e x1 x2 y1 y2, denotes (p_nodes p) e lower.1 x1 -> denotes (p_nodes p) e lower.2 x2 ->
        denotes (p_nodes p) e upper.1 y1 -> denotes (p_nodes p) e upper.2 y2 ->
        denotes (p_nodes q) e r (x1 * x2 + y1 * y2)%Qc).
  Proof.
    intros HR D1 D2 D3 D4. unfold combine.
    eapply ok_bind; [by apply ok_apply; auto|]. cbv beta. intros q1 l HR1 X1 (_ & _ & Dl & Vl & _).
    eapply ok_bind; [apply ok_apply; [done|by eapply ext_dlt|by eapply ext_dlt|by left]|].
    cbv beta. intros q2 u HR2 X2 (_ & _ & Du & Vu & _).
    assert (forall (b : bool) q i, RI o q -> dlt (p_nodes q) i -> ok o G q (if b then reduce_with simp solve m i else mret i)
      (fun q' r => dlt (p_nodes q') r /\ forall e x, denotes (p_nodes q) e i x -> denotes (p_nodes q') e r x)) as Hred.
    { intros b q i HRq Di. destruct b; [|by apply ok_ret]. eapply ok_mono; [by apply ok_reduce|]. by intros q' r _ _ (H1 & H2 & _). }
    eapply ok_bind; [apply Hred; [done|by eapply ext_dlt]|]. cbv beta. intros q3 l' HR3 X3 [Dl' Vl'].
    eapply ok_bind; [apply Hred; [done|by eapply ext_dlt]|]. cbv beta. intros q4 u' HR4 X4 [Du' Vu'].
    eapply ok_bind; [apply ok_apply; [done|by eapply ext_dlt|done|by right]|]. cbv beta. intros q5 r HR5 X5 (_ & _ & Dr & Vr & _).
    eapply ok_mono; [by apply Hred|]. cbv beta. intros q6 r' HR6 X6 [Dr' Vr']. split; [done|].
    intros e x1 x2 y1 y2 H1 H2 H3 H4. apply Vr'.
    destruct (Vl e x1 x2) as (xl & Hxl & Oxl); [by eapply ext_denotes|by eapply ext_denotes|]. cbn in Oxl. subst xl.
    assert (ext p q2) as X02 by (eapply ext_trans; [exact X1|exact X2]).
    destruct (Vu e y1 y2) as (xu & Hxu & Oxu); [by eapply ext_denotes|by eapply ext_denotes|]. cbn in Oxu. subst xu.
    assert (denotes (p_nodes q5) e l' (x1 * x2)%Qc) as Hl.
    { eapply ext_denotes; [exact X5|]. eapply ext_denotes; [exact X4|]. apply Vl'. eapply ext_denotes; [exact X2|]. exact Hxl. }
    assert (denotes (p_nodes q5) e u' (y1 * y2)%Qc) as Hu.
    { eapply ext_denotes; [exact X5|]. apply Vu'. eapply ext_denotes; [exact X3|]. exact Hxu. }
    destruct (Vr e _ _ Hl Hu) as (z & Hz & Oz). cbn in Oz. by subst z.
  Qed.

  Lemma set_resolved_ok o p v ub lb id r : RI o p -> resolved p v ub lb id r ->
    RI o (set_resolved p (v, id, ub, lb) r) /\ ext p (set_resolved p (v, id, ub, lb) r).
  Proof.
    intros (Hi & Hr & Ho) Hres. assert (ext p (set_resolved p (v, id, ub, lb) r)) as Hx by (split; done). split; [|done].
    split; [destruct Hi; split; done|]. split; [|done].
    intros v' id' ub' lb' r'. cbn [set_resolved p_resolved]. rewrite dget_dset. destruct (decide _) as [Heq|].
    - intros [= <-]. injection Heq as <- <- <- <-. by eapply resolved_ext.
    - intros Hg. eapply resolved_ext; [done|done|]. by apply Hr.
  Qed.
  Lemma ok_cache o (G : Prop) p v ub lb id r : RI o p -> resolved p v ub lb id r ->
    ok o G p (add_to_cache (v, id, ub, lb) r) (fun q r' => resolved q v ub lb id r').
  Proof.
    intros HR Hres. unfold ok, add_to_cache. destruct (set_resolved_ok o p v ub lb id r HR Hres) as [HR' Hx].
    split; [done|]. split; [done|]. split; [done|]. eapply resolved_ext; [apply HR|done|done].
  Qed.

  (** The booleans do not matter for a linear test. *)
  Lemma test_indep_b c f e v b : linear_dict c -> li_to_smt c = Ok f -> eval (upd_b e v b) f = eval e f.
  Proof.
    intros Hc Hf. by rewrite !(test_eval c f _ Hc Hf).
  Qed.
  Lemma good_indep_b d e v b : good d -> d_test d <> Sym v TBool -> eval (upd_b e v b) (d_test d) = eval e (d_test d).
  Proof.
    intros [_ [[x Hx]|(c & _ & Hf & _ & Hc)]] Hne; [|by eapply test_indep_b].
    rewrite Hx in *. cbn. destruct (decide (x = v)) as [->|]; [done|]. done.
  Qed.
  Lemma good_indep_r d e v t : good d -> (v, TReal) ∉ free_vars (d_test d) -> eval (upd_r e v t) (d_test d) = eval e (d_test d).
  Proof.
    intros [_ [[x Hx]|(c & _ & Hf & _ & Hc)]] Hne; [by rewrite Hx|]. by eapply test_indep.
  Qed.
  Lemma good_bool_var d v : good d -> (v, TBool) ∈ free_vars (d_test d) <-> d_test d = Sym v TBool.
  Proof.
    intros [_ [[x Hx]|(c & _ & Hf & _ & Hc)]].
    - rewrite Hx. cbn. rewrite elem_of_list_singleton. split; congruence.
    - split; [|intros ->; cbn; by apply elem_of_list_singleton]. intros Hin. by apply (test_vars c _ Hc Hf) in Hin as [? _].
  Qed.

  Lemma denotes_indep_b p v b e : inv p -> polynomials den -> forall id x,
    (forall a d ct cf, below (p_nodes p) id a -> dget (p_nodes p) a = Some (INode d ct cf) -> d_test d <> Sym v TBool) ->
    denotes (p_nodes p) (upd_b e v b) id x -> denotes (p_nodes p) e id x.
  Proof.
    intros Hi HP id x Hno Hd. induction Hd as [id y x Hn Hy|id d ct cf x Hn He Hd IH|id d ct cf x Hn He Hd IH].
    - eapply dn_leaf; [done|]. destruct (HP y) as [P HPy]. rewrite HPy in *. by rewrite (poly_val_ext e (upd_b e v b)).
    - destruct (iv_node _ _ _ p Hi _ _ _ _ Hn) as (_ & _ & _ & _ & _ & Hg & _). eapply dn_true; [done| |].
      + rewrite <- (good_indep_b d e v b Hg); [done|]. eapply Hno; [constructor|done].
      + apply IH. intros a d' ct' cf' Hb. apply Hno. eapply bl_step; [done|by left|done].
    - destruct (iv_node _ _ _ p Hi _ _ _ _ Hn) as (_ & _ & _ & _ & _ & Hg & _). eapply dn_false; [done| |].
      + rewrite <- (good_indep_b d e v b Hg); [done|]. eapply Hno; [constructor|done].
      + apply IH. intros a d' ct' cf' Hb. apply Hno. eapply bl_step; [done|by right|done].
  Qed.

  Lemma qmin_ex (x y : Qc) : exists z, (z <= x)%Qc /\ (z <= y)%Qc /\ (z = x \/ z = y).
  Proof. destruct (decide (x <= y)%Qc); [exists x|exists y]; (split; [|split]); auto; try qclra. Qed.
  Lemma qmax_ex (x y : Qc) : exists z, (x <= z)%Qc /\ (y <= z)%Qc /\ (z = x \/ z = y).
  Proof. destruct (decide (x <= y)%Qc); [exists y|exists x]; (split; [|split]); auto; try qclra. Qed.

  (** The two parts together give the integral. *)
  Lemma node_value q v ub lb B bl ab id d ct cf w1 k1 w2 k2 r :
    dget (p_nodes q) id = Some (INode d ct cf) -> real_case v ub lb -> bound_for v (Some B) ->
    (forall e b t, eval e B = Some (VN b) -> t <> b ->
       exists c : bool, eval (upd_r e v t) (d_test d) = Some (VB c) /\ (if c then ct else cf) = (if qlt t b then bl else ab)) ->
    upper_value v ub lb B bl q (w1, k1) -> lower_value v ub lb B ab q (w2, k2) ->
    (forall e x1 x2 y1 y2, denotes (p_nodes q) e w2 x1 -> denotes (p_nodes q) e k2 x2 ->
        denotes (p_nodes q) e w1 y1 -> denotes (p_nodes q) e k1 y2 -> denotes (p_nodes q) e r (x1 * x2 + y1 * y2)%Qc) ->
    forall e lo hi, limits (p_nodes q) e v id ub lb lo hi ->
      exists w, denotes (p_nodes q) e r w /\ integral (along (p_nodes q) e v id) lo hi w.
  Proof.
    intros Hn Hcase HB Hsplit (_ & _ & HU) (_ & _ & HL) Hr e lo hi (Hlh & Llo & Lhi). cbn [fst snd] in *.
    destruct (linear_value B e (proj1 HB)) as [b Eb].
    assert (forall t y, (t < b)%Qc -> denotes (p_nodes q) (upd_r e v t) bl y -> denotes (p_nodes q) (upd_r e v t) id y) as Hbl.
    { intros t y Ht Hy. destruct (Hsplit e b t Eb) as (c & Ec & Hc); [intros ->; qclra|].
      eapply denotes_child; [done|done|]. rewrite Hc. apply qlt_spec in Ht. by rewrite Ht. }
    assert (forall t y, (b < t)%Qc -> denotes (p_nodes q) (upd_r e v t) ab y -> denotes (p_nodes q) (upd_r e v t) id y) as Hab.
    { intros t y Ht Hy. destruct (Hsplit e b t Eb) as (c & Ec & Hc); [intros ->; qclra|].
      eapply denotes_child; [done|done|]. rewrite Hc. assert (qlt t b = false) as -> by (apply qlt_false; qclra). done. }
    assert (exists lo', (lo' <= lo)%Qc /\ match lb with Some f => eval e f = Some (VN lo') /\ lo' = lo
      | None => (lo' <= b)%Qc end) as (lo' & Hlo' & Clo).
    { destruct lb; [exists lo; split; [qclra|done]|]. destruct (qmin_ex lo b) as (z & ? & ? & _). exists z. done. }
    assert (exists hi', (hi <= hi')%Qc /\ match ub with Some f => eval e f = Some (VN hi') /\ hi' = hi
      | None => (b <= hi')%Qc end) as (hi' & Hhi' & Chi).
    { destruct ub; [exists hi; split; [qclra|done]|]. destruct (qmax_ex hi b) as (z & ? & ? & _). exists z. done. }
    assert (lo' <= hi')%Qc as Hlh' by qclra.
    destruct (HU Hcase HB e lo' hi' b Eb Hlh') as (y1 & y2 & Hy1 & Hy2 & U1 & U2 & U3).
    { destruct lb as [f|]; [apply Clo|]. split; [done|]. intros t y Ht Hy. apply (Llo t); [qclra|]. apply Hbl; [qclra|done]. }
    { destruct ub as [f|]; [apply Chi|done]. }
    destruct (HL Hcase HB e lo' hi' b Eb Hlh') as (x1 & x2 & Hx1 & Hx2 & V1 & V2 & V3).
    { destruct lb as [f|]; [apply Clo|done]. }
    { destruct ub as [f|]; [apply Chi|]. split; [done|]. intros t y Ht Hy. apply (Lhi t); [qclra|]. apply Hab; [qclra|done]. }
    eexists. split; [apply Hr; [exact Hx1|exact Hx2|exact Hy1|exact Hy2]|].
    assert (integral (along (p_nodes q) e v id) lo' hi' (x1 * x2 + y1 * y2)%Qc) as Hint.
    { destruct (decide (b < lo')%Qc) as [H1|H1].
      - rewrite (U1 H1). replace (x1 * x2 + 0)%Qc with (x1 * x2)%Qc by ring.
        eapply integral_mono; [apply V3; qclra|]. intros t y Ht _ Hy. apply Hab; [qclra|exact Hy].
      - apply Qcnot_lt_le in H1. destruct (decide (hi' < b)%Qc) as [H2|H2].
        + rewrite (V1 H2). replace (0 + y1 * y2)%Qc with (y1 * y2)%Qc by ring.
          eapply integral_mono; [apply U3; qclra|]. intros t y _ Ht Hy. apply Hbl; [qclra|exact Hy].
        + apply Qcnot_lt_le in H2. replace (x1 * x2 + y1 * y2)%Qc with (y1 * y2 + x1 * x2)%Qc by ring.
          eapply in_join.
          * eapply integral_mono; [by apply U2|]. intros t y _ Ht Hy. apply Hbl; [qclra|exact Hy].
          * eapply integral_mono; [by apply V2|]. intros t y Ht _ Hy. apply Hab; [qclra|exact Hy]. }
    eapply integral_shrink; [exact Hint|done|done|done| |].
    - destruct lb as [f|]; [right; apply Clo|left]. intros t y Ht Hy. by apply (Llo t).
    - destruct ub as [f|]; [right; apply Chi|left]. intros t y Ht Hy. by apply (Lhi t).
  Qed.

  Lemma upper_value_ext p q v ub lb B br wk : inv p -> ext p q -> dlt (p_nodes p) br -> upper_value v ub lb B br p wk -> upper_value v ub lb B br q wk.
  Proof.
    intros Hi Hx Db (D1 & D2 & HU). split; [by eapply ext_dlt|]. split; [by eapply ext_dlt|].
    intros Hc HB e lo hi b Eb Hlh Hl Hu. destruct (HU Hc HB e lo hi b Eb Hlh) as (x & y & Hx1 & Hy & U1 & U2 & U3); [|done|].
    - destruct lb; [done|]. destruct Hl as [? Hl]. split; [done|]. intros t y Ht Hy. apply (Hl t); [done|]. by eapply ext_denotes.
    - exists x, y. split; [by eapply ext_denotes|]. split; [by eapply ext_denotes|]. split; [done|].
      split; intros H1 H2; (eapply integral_mono; [by auto|]); intros t z _ _ Hz; by eapply ext_denotes.
  Qed.

  Lemma resolve_fuel_ok o s v n : forall p ub lb id, RI o p -> typed_bound ub -> typed_bound lb -> dlt (p_nodes p) id -> id < n ->
    ok o (case_for v ub lb) p (resolve_fuel A flat simp solve X n s v ub lb id) (fun q r => resolved q v ub lb id r).
  Proof.
    induction n as [|n IH]; intros p ub lb id HR Tu Tl Hd Hlt; [lia|]. cbn [resolve_fuel].
    pose proof HR as (Hi & Hri & Hord). unfold ok. cbv beta.
    destruct (dget (p_resolved p) (v, id, ub, lb)) as [r|] eqn:Er.
    { split; [done|]. split; [apply ext_refl|]. split; [done|]. by apply Hri. }
    pose proof Hd as [nd Hn]. unfold mbind at 1. unfold get_node at 1. rewrite Hn.
    match goal with |- (let '(q, res) := ?m p in _) => change (ok o (case_for v ub lb) p m (fun q r => resolved q v ub lb id r)) end.
    destruct nd as [x|d ct cf].
    - (* a leaf *)
      destruct (bool_decide_reflect (id = p_zero p)) as [->|Hnz].
      { apply ok_ret; [done|]. split; [done|]. split; [done|]. split; [|split; [|intros _; by eapply summed_leaf]].
        - intros _ _ _ _ _ e lo hi (Hlh & _). exists 0%Qc. split; [by apply (denotes_zero A simp den HA)|].
          apply integral_of_zero; [done|]. intros t _ _. by apply (denotes_zero A simp den HA).
        - intros _ _ _ e y z Hy Hz. apply (denotes_zero A simp den HA) in Hy; [|done]. apply (denotes_zero A simp den HA) in Hz; [|done].
          subst. apply (denotes_zero A simp den HA); [done|]. ring. }
      destruct (bool_decide_reflect (rs_type X v = TBool)) as [Hb|Hb].
      { eapply ok_mono; [by apply ok_terminal|]. cbv beta. intros q r HRq Hx Hr. split; [by eapply ext_dlt|].
        pose proof (ex_nodes _ _ Hx _ _ Hn) as Hn'.
        split; [by eexists|]. split; [congruence|]. split; [|intros _; by eapply summed_leaf]. intros _ HP _ e y z Hy Hz.
        eapply denotes_leaf in Hy; [|done]. eapply denotes_leaf in Hz; [|done]. destruct (HP x) as [P HPx].
        rewrite HPx in Hy, Hz. rewrite (poly_val_ext _ e) in Hy by done. rewrite (poly_val_ext _ e) in Hz by done.
        simplify_eq. eapply dn_leaf; [done|].
        rewrite (alg_times_value A den HA e _ _ (qz 2) (poly_val e P)); [f_equal; assert (qz 2 = 1 + 1)%Qc as -> by (by apply Qc_is_canon); ring|apply (sa_real _ _ _ _ _ _ HA)|apply HPx]. }
      destruct ub as [u|]; [destruct lb as [l|]|].
      + (* both bounds *)
        eapply (ok_bind o _ p _ _ (fun q y => q = p /\ concrete_integrate A X x v l u = Ok y)).
        { apply ok_lift; [done|]. destruct (concrete_integrate A X x v l u) as [y|ex] eqn:Ei; [done|].
          intros [_ [(Ht & Hs & He & [Lu Iu] & [Ll Il])|?]]; [|done].
          destruct (from_smt_value l (linear_poly1 l Ll)) as (pl & Epl & Vpl).
          destruct (from_smt_value u (linear_poly1 u Lu)) as (pu & Epu & Vpu).
          unfold concrete_integrate in Ei. rewrite Epl, Epu in Ei. cbn [rbind] in Ei.
          destruct (re_integ _ _ _ He x v (to_expression A pl) (to_expression A pu)) as (y & Ey & _).
          - intros e t. rewrite !(to_expression_value A den HA). f_equal. pose proof (Il e t) as Hi'. rewrite !Vpl in Hi'. congruence.
          - intros e t. rewrite !(to_expression_value A den HA). f_equal. pose proof (Iu e t) as Hi'. rewrite !Vpu in Hi'. congruence.
          - congruence. }
        intros q0 y HR0 X0 [-> Ey]. eapply ok_bind; [by apply ok_terminal|]. cbv beta. intros q r HRq Hx Hr.
        apply ok_cache; [done|]. split; [by eapply ext_dlt|]. split; [by eexists|]. split; [|by split].
        intros Ht Hs He [Lu Iu] [Ll Il] e lo hi (Hlh & Elo & Ehi).
        destruct (from_smt_value l (linear_poly1 l Ll)) as (pl & Epl & Vpl).
        destruct (from_smt_value u (linear_poly1 u Lu)) as (pu & Epu & Vpu).
        unfold concrete_integrate in Ey. rewrite Epl, Epu in Ey. cbn [rbind] in Ey.
        destruct (re_integ _ _ _ He x v (to_expression A pl) (to_expression A pu)) as (y' & Ey' & Vy).
        * intros e' t. rewrite !(to_expression_value A den HA). f_equal. pose proof (Il e' t) as Hi'. rewrite !Vpl in Hi'. congruence.
        * intros e' t. rewrite !(to_expression_value A den HA). f_equal. pose proof (Iu e' t) as Hi'. rewrite !Vpu in Hi'. congruence.
        * rewrite Ey in Ey'. injection Ey' as <-. destruct (Vy e lo hi) as (w & Hw & Hin).
          -- rewrite (to_expression_value A den HA). f_equal. rewrite Vpl in Elo. congruence.
          -- rewrite (to_expression_value A den HA). f_equal. rewrite Vpu in Ehi. congruence.
          -- done.
          -- exists w. split; [by eapply dn_leaf|]. eapply integral_mono; [exact Hin|]. intros t z _ _ Hz.
             eapply dn_leaf; [|exact Hz]. by apply Hx.
      + apply ok_cache; [done|]. split; [done|]. split; [by apply zero_dlt|]. split; [|by split].
        intros Ht Hs He _ _ e lo hi (Hlh & Elo & Ehi). exists 0%Qc. split; [by apply (denotes_zero A simp den HA)|].
        destruct (re_poly _ _ _ He x) as [P HP]. destruct (pv_along P e v) as [cs Hcs].
        assert (Forall (fun c => c = 0%Qc) cs) as Hz.
        { apply (pol_vanish (length cs) cs (lo - 1) lo); [done|qclra|]. intros t _ H2. rewrite <- Hcs.
          apply (Elo t); [done|]. eapply dn_leaf; [done|]. apply HP. }
        apply integral_of_zero; [done|]. intros t _ _. eapply dn_leaf; [done|]. rewrite HP, Hcs. f_equal. by apply pol_zero.
      + apply ok_cache; [done|]. split; [done|]. split; [by apply zero_dlt|]. split; [|by split].
        intros Ht Hs He _ _ e lo hi (Hlh & Elo & Ehi). exists 0%Qc. split; [by apply (denotes_zero A simp den HA)|].
        destruct (re_poly _ _ _ He x) as [P HP]. destruct (pv_along P e v) as [cs Hcs].
        assert (Forall (fun c => c = 0%Qc) cs) as Hz.
        { apply (pol_vanish (length cs) cs hi (hi + 1)); [done|qclra|]. intros t H2 _. rewrite <- Hcs.
          apply (Ehi t); [done|]. eapply dn_leaf; [done|]. apply HP. }
        apply integral_of_zero; [done|]. intros t _ _. eapply dn_leaf; [done|]. rewrite HP, Hcs. f_equal. by apply pol_zero.
    - destruct (iv_node _ _ _ p Hi _ _ _ _ Hn) as (Lt & Lf & Dt & Df & _ & Hg & _).
      destruct (bool_decide_reflect ((v, rs_type X v) ∈ free_vars (d_test d))) as [Hin|Hin].
      + destruct (bool_decide_reflect (rs_type X v = TBool)) as [Hb|Hb].
        * (* a test on the boolean *)
          rewrite Hb in Hin. apply (good_bool_var d v Hg) in Hin.
          eapply ok_mono; [apply ok_apply; auto|]. cbv beta. intros q r HRq Hx (_ & _ & Dr & Vr & _ & Hsh).
          pose proof (ex_nodes _ _ Hx _ _ Hn) as Hn'.
          split; [by eapply ext_dlt|]. split; [done|]. split; [congruence|]. split.
          2:{ intros _. destruct (iv_node _ _ _ q (proj1 HRq) _ _ _ _ Hn') as (_ & _ & Dt' & Df' & _ & _ & j & Hj & _).
              destruct Hsh as (ST & _ & _ & SO). split; [split|].
              - intros P HP. apply (tested_node q P id d ct cf Hn') in HP as (_ & P1 & P2). by apply ST.
              - intros Ho. apply (ordered_node q id d ct cf j Hn' Hj) in Ho as (R1 & R2 & O1 & O2).
                destruct (SO O1 O2) as (Or & Rr & _). split; [done|]. intros i Hr.
                apply (root_ge_node q i id d ct cf j Hn' Hj) in Hr. apply Rr; (eapply root_ge_mono; [|done]; lia).
              - intros Ho. apply (ordered_node q id d ct cf j Hn' Hj) in Ho as (R1 & R2 & O1 & O2). rewrite Hin in Hj.
                apply ST; by apply (ordered_after q _ j (proj1 HRq) Hj). }
          intros _ HP Hro e y z Hy Hz.
          apply (denotes_node _ _ _ _ _ _ _ _ Hn') in Hy as (c1 & Ec1 & Hy). apply (denotes_node _ _ _ _ _ _ _ _ Hn') in Hz as (c2 & Ec2 & Hz).
          rewrite Hin in Ec1, Ec2. cbn in Ec1, Ec2. rewrite decide_True in Ec1, Ec2 by done. simplify_eq.
          assert (denotes (p_nodes q) e ct y) as Hy'.
          { eapply denotes_indep_b; [apply HRq|done| |exact Hy]. intros a d' ct' cf' Ha Hna.
            apply (Hro id d ct cf a d' ct' cf'); auto. constructor. }
          assert (denotes (p_nodes q) e cf z) as Hz'.
          { eapply denotes_indep_b; [apply HRq|done| |exact Hz]. intros a d' ct' cf' Ha Hna.
            apply (Hro id d ct cf a d' ct' cf'); auto. constructor. }
          destruct (Vr e y z Hy' Hz') as (w & Hw & Ow). cbn in Ow. by subst w.
        * (* a test on the real variable *)
          assert (rs_type X v = TReal) as Hreal.
          { destruct (rs_type X v) eqn:Ety; try done. exfalso. destruct Hg as [_ [[y Hy]|(c & _ & Hf & _ & Hc)]].
            - rewrite Hy in Hin. cbn in Hin. by apply elem_of_list_singleton in Hin.
            - by apply (test_vars c _ Hc Hf) in Hin as [? _]. }
          rewrite Hreal in Hin. destruct (split_at_ok v d ct cf Hg Hin) as (B & bl & ab & Es & TB & Hch & HB).
          assert (dlt (p_nodes p) bl /\ dlt (p_nodes p) ab /\ bl < n /\ ab < n) as (Dbl & Dab & Lbl & Lab).
          { destruct Hch as [[-> ->]|[-> ->]]; (split_and!; [done|done|lia|lia]). }
          eapply (ok_weaken o (real_case v ub lb)); [intros [?|?]; [done|congruence]|].
          assert (real_case v ub lb -> bound_for v (Some B)) as HB'.
          { intros (_ & Hs & He & _). by apply HB. }
          eapply (ok_bind o _ p _ _ (fun q a => q = p /\ a = (B, bl, ab))).
          { apply ok_lift; [done|]. by rewrite Es. }
          intros q0 [[? ?] ?] HR0 X0 [-> [= -> -> ->]].
          eapply ok_bind; [eapply (upper_ok o v n); [apply IH|done|done|done|done|done|done|done]|].
          intros q1 [w1 k1] HR1 X1 HU. cbv beta.
          eapply ok_bind; [eapply (lower_ok o v n); [apply IH|done|done|done|done|by eapply ext_dlt|done|done]|].
          intros q2 [w2 k2] HR2 X2 HL. cbv beta.
          assert (upper_value v ub lb B bl q2 (w1, k1)) as HU2.
          { eapply upper_value_ext; [apply HR1|done|by eapply ext_dlt|done]. }
          pose proof HU2 as (DU1 & DU2 & _). pose proof HL as (DL1 & DL2 & _).
          eapply ok_bind; [by apply combine_ok|]. cbv beta. intros q3 r HR3 X3 [Dr Vr].
          assert (ext p q3) as X03 by (eapply ext_trans; [exact X1|]; eapply ext_trans; [exact X2|exact X3]).
          assert (ext p q2) as X02 by (eapply ext_trans; [exact X1|exact X2]).
          apply ok_cache; [done|]. split; [exact (ext_dlt p q3 id X03 Hd)|]. split; [done|]. split; [|split; congruence].
          intros Ht Hs He Hub Hlb e lo hi Hlim. destruct (HB He Hs) as [HBv Hsplit].
          assert (real_case v ub lb) as Hcase by by split_and!.
          assert (upper_value v ub lb B bl q3 (w1, k1)) as HU3.
          { eapply upper_value_ext; [apply HR2|done|by eapply ext_dlt|done]. }
          assert (lower_value v ub lb B ab q3 (w2, k2)) as HL3.
          { split; [exact (ext_dlt q2 q3 _ X3 DL1)|]. split; [exact (ext_dlt q2 q3 _ X3 DL2)|]. destruct HL as (_ & _ & HL).
            intros Hc' HB2 e' lo' hi' b Eb Hlh Hl Hu.
            destruct (HL Hc' HB2 e' lo' hi' b Eb Hlh Hl) as (x1 & y1 & Hx1 & Hy1 & U1 & U2 & U3).
            - destruct ub; [done|]. destruct Hu as [? Hu]. split; [done|]. intros t y Ht' Hy. apply (Hu t); [done|]. by eapply (ext_denotes den q2 q3).
            - exists x1, y1. split; [by eapply (ext_denotes den q2 q3)|]. split; [by eapply (ext_denotes den q2 q3)|]. split; [done|].
              split; intros H1 H2; (eapply integral_mono; [by auto|]); intros t z _ _ Hz; by eapply (ext_denotes den q2 q3). }
          eapply (node_value q3 v ub lb B bl ab id d ct cf w1 k1 w2 k2 r); try done.
          -- by apply X03.
          -- intros e' x1 x2 y1 y2 H1 H2 H3 H4. apply Vr; (eapply (ext_back A simp den q2 q3); [apply HR2|exact X3|done|done]).
      + (* another test *)
        eapply ok_bind; [apply IH; [done|done|done|done|lia]|]. cbv beta. intros q1 t HR1 X1 Rt.
        eapply ok_bind; [apply IH; [done|done|done|by eapply ext_dlt|lia]|]. cbv beta. intros q2 f HR2 X2 Rf.
        pose proof (resolved_ext q1 q2 v ub lb ct t (proj1 HR1) X2 Rt) as Rt2.
        eapply ok_bind; [apply ok_internal; [done|done|apply Rt2|apply Rf]|]. cbv beta. intros q3 r HR3 X3 (Dr & Vr & Sr).
        assert (ext p q3) as X03 by (eapply ext_trans; [exact X1|]; eapply ext_trans; [exact X2|exact X3]).
        assert (ext p q2) as X02 by (eapply ext_trans; [exact X1|exact X2]).
        pose proof (ex_nodes _ _ X02 _ _ Hn) as Hn2. pose proof (ex_nodes _ _ X03 _ _ Hn) as Hn3.
        apply ok_cache; [done|]. split; [exact (ext_dlt p q3 id X03 Hd)|]. split; [done|]. split; [|split].
        3:{ intros Hb. rewrite Hb in Hin.
            assert (d_test d <> Sym v TBool) as Hne by (intros Heq; apply Hin; by apply good_bool_var).
            destruct (iv_node _ _ _ q3 (proj1 HR3) _ _ _ _ Hn3) as (_ & _ & _ & _ & _ & _ & j & Hj & _).
            assert (summed q3 v ct t /\ summed q3 v cf f) as [[S1 N1] [S2 N2]].
            { split.
              - destruct Rt2 as (D1 & D2 & _ & _ & Hsu). apply (summed_ext q2 q3); [apply HR2|done|done|done|by apply Hsu].
              - destruct Rf as (D1 & D2 & _ & _ & Hsu). apply (summed_ext q2 q3); [apply HR2|done|done|done|by apply Hsu]. }
            assert (shrunk q3 id r) as Hshr.
            { destruct Sr as [->|[->|(Hu & d2 & Hn' & Hd2)]].
              - by eapply (shrunk_child q3 id d ct cf j ct); auto.
              - by eapply (shrunk_child q3 id d ct cf j cf); auto.
              - destruct (iv_node _ _ _ q3 (proj1 HR3) _ _ _ _ Hn') as (_ & _ & _ & _ & Hne' & _).
                eapply (shrunk_node simp q3 id d ct cf j t f r); eauto 10. }
            split; [done|]. intros Ho. apply (ordered_node q3 id d ct cf j Hn3 Hj) in Ho as (_ & _ & O1 & O2).
            destruct Sr as [->|[->|(_ & d2 & Hn' & Hd2)]]; [by apply N1|by apply N2|].
            apply (tested_node q3 _ r d2 t f Hn'). rewrite Hd2. auto. }
        * intros Ht Hs He Hub Hlb e lo hi (Hlh & Llo & Lhi). rewrite Ht in Hin.
          destruct (good_total d e Hg) as [c Ec].
          assert (forall t0, eval (upd_r e v t0) (d_test d) = Some (VB c)) as Ec'.
          { intros t0. by rewrite (good_indep_r d e v t0 Hg Hin). }
          assert (exists ch rs, ch = (if c then ct else cf) /\ rs = (if c then t else f) /\ resolved q2 v ub lb ch rs) as (ch & rs & Hch & Hrs & Rch).
          { destruct c; eexists _, _; split_and!; done. }
          assert (forall t0 y, denotes (p_nodes q2) (upd_r e v t0) ch y -> denotes (p_nodes q3) (upd_r e v t0) id y) as Hup.
          { intros t0 y Hy. eapply denotes_child; [exact Hn3|apply Ec'|]. rewrite <- Hch. by eapply (ext_denotes den q2 q3). }
          destruct Rch as (_ & _ & Rch & _). destruct (Rch Ht Hs He Hub Hlb e lo hi) as (w & Hw & Hint).
          { split; [done|]. split.
            - destruct lb; [done|]. intros t0 y Hlt' Hy. apply (Llo t0); [done|]. by apply Hup.
            - destruct ub; [done|]. intros t0 y Hlt' Hy. apply (Lhi t0); [done|]. by apply Hup. }
          exists w. split; [apply (Vr e c); [done|]; by rewrite <- Hrs|].
          eapply integral_mono; [exact Hint|]. intros t0 y _ _ Hy. by apply Hup.
        * intros Hb HP Hro e y z Hy Hz. rewrite Hb in Hin.
          assert (d_test d <> Sym v TBool) as Hne by (intros Heq; apply Hin; by apply good_bool_var).
          apply (denotes_node _ _ _ _ _ _ _ _ Hn3) in Hy as (c1 & Ec1 & Hy). apply (denotes_node _ _ _ _ _ _ _ _ Hn3) in Hz as (c2 & Ec2 & Hz).
          rewrite (good_indep_b d e v true Hg Hne) in Ec1. rewrite (good_indep_b d e v false Hg Hne) in Ec2. rewrite Ec1 in Ec2. simplify_eq.
          apply (Vr e c2); [done|].
          assert (dlt (p_nodes q2) (if c2 then ct else cf)) as Dch by (destruct c2; by eapply ext_dlt).
          assert (resolved q2 v ub lb (if c2 then ct else cf) (if c2 then t else f)) as Rch by by destruct c2.
          destruct Rch as (_ & _ & _ & Rch & _). apply Rch; [done|done| | |].
          -- intros a d0 ct0 cf0 b d' ct' cf' H1 H2 H3 H4 H5. apply (Hro a d0 ct0 cf0 b d' ct' cf'); [|exact (ex_nodes _ _ X3 _ _ H2)|done| |exact (ex_nodes _ _ X3 _ _ H5)].
             ++ eapply (bl_step _ _ _ _ _ (if c2 then ct else cf)); [exact Hn3|destruct c2; [by left|by right]|]. eapply below_mono; [apply X3|done].
             ++ destruct H4 as [H4|H4]; [left|right]; (eapply below_mono; [apply X3|done]).
          -- eapply (ext_back A simp den q2 q3); [apply HR2|exact X3|done|done].
          -- eapply (ext_back A simp den q2 q3); [apply HR2|exact X3|done|done].
  Qed.

  (** ** resolve and integrate *)

  Lemma resolve_ok o s v p ub lb id : RI o p -> typed_bound ub -> typed_bound lb -> dlt (p_nodes p) id ->
    ok o (case_for v ub lb) p (resolve A flat simp solve X s v ub lb id) (fun q r => resolved q v ub lb id r).
  Proof. intros. unfold resolve. apply resolve_fuel_ok; try done. lia. Qed.

  (** [r] is a correct result of integrating [v] out of the diagram at [id] of [p]. *)
  Definition integrated (s : strategy) (p q : pool E) (v : string) (id r : nat) : Prop :=
    dlt (p_nodes q) r /\
    (rs_type X v = TReal -> rs_str X v = v -> RE -> forall e lo hi, limits (p_nodes p) e v id None None lo hi ->
       exists w, denotes (p_nodes q) e r w /\ integral (along (p_nodes p) e v id) lo hi w) /\
    (rs_type X v = TBool -> polynomials den -> s.1.1 = false /\ read_once (p_nodes p) v id \/ ordered p id ->
       forall e x y, denotes (p_nodes p) (upd_b e v true) id x -> denotes (p_nodes p) (upd_b e v false) id y ->
         denotes (p_nodes q) e r (x + y)%Qc) /\
    (rs_type X v = TBool -> summed q v id r).

  Lemma integrate_ok o s v p id : RI o p -> dlt (p_nodes p) id ->
    ok o (case_for v None None) p (integrate A flat simp solve X s v id) (fun q r => integrated s p q v id r).
  Proof.
    intros HR Hd. unfold integrate.
    eapply (ok_bind _ _ _ _ _ (fun q id' => dlt (p_nodes q) id' /\ (s.1.1 = false -> id' = id) /\
      (forall e x, denotes (p_nodes p) e id x -> denotes (p_nodes q) e id' x) /\ shrunk q id id')).
    { destruct (s.1.1) eqn:Es.
      - eapply ok_mono; [by apply ok_reduce|]. intros q i _ _ (Di & Hi & Hsh). split_and!; done.
      - apply ok_ret; [done|]. split_and!; try done; apply shrunk_refl. }
    intros q1 id1 HR1 X1 (D1 & S1 & V1 & Sh1).
    eapply ok_bind; [by apply resolve_ok|]. intros q2 r HR2 X2 (D2 & Dr & Hreal & Hbool & Hsum).
    assert (shrunk q2 id id1) as Sh2.
    { apply (shrunk_ext A simp den q1 q2); [apply HR1|done|by eapply ext_dlt|done|done]. }
    assert (integrated s p q2 v id r) as Hin.
    { split; [done|]. split; [|split].
      3:{ intros Ht. destruct (Hsum Ht) as [[T1 O1] N1]. destruct Sh2 as [T2 O2]. split; [split|].
          - intros P HP. by apply T1, T2.
          - intros Ho. destruct (O2 Ho) as [O3 R3]. destruct (O1 O3) as [O4 R4]. auto.
          - intros Ho. apply N1. by apply O2. }
      - intros Ht Hs He e lo hi (L1 & L2 & L3).
        assert (forall e' y, denotes (p_nodes q2) e' id1 y -> denotes (p_nodes p) e' id y) as Hback.
        { intros e' y Hy. destruct (poly_total p (proj1 HR) (re_poly _ _ _ He) id Hd e') as [w Hw].
          assert (y = w) as ->; [|done]. eapply denotes_fun; [exact Hy|]. apply (ext_denotes den q1 q2); [done|]. by apply V1. }
        destruct (Hreal Ht Hs He I I e lo hi) as (w & Hw & Hint).
        + split; [done|]. split; intros t y Hlt Hy; [apply (L2 t)|apply (L3 t)]; auto.
        + exists w. split; [done|]. eapply integral_mono; [exact Hint|]. intros t y _ _ Hy. by apply Hback.
      - intros Ht Hp Ho e x y Hx Hy. apply Hbool; [done|done| | |].
        + destruct Ho as [[Hs0 Ho]|Ho].
          * specialize (S1 Hs0) as ->. apply (read_once_ext p q2); [apply HR|by eapply ext_trans|done|done].
          * apply ordered_read_once; [apply HR2|done|]. apply Sh2.
            apply (ordered_iff A simp den p q2); [apply HR|by eapply ext_trans|done|done].
        + apply (ext_denotes den q1 q2); [done|]. by apply V1.
        + apply (ext_denotes den q1 q2); [done|]. by apply V1. }
    destruct (s.1.1 && s.1.2 && s.2); [|by apply ok_ret].
    eapply ok_mono; [by apply ok_reduce|]. intros q3 r' HR3 X3 (Dr' & Vr' & Sr'). destruct Hin as (_ & Hr & Hb & Hsu).
    split; [done|]. split; [|split].
    3:{ intros Ht. assert (summed q3 v id r) as [[T1 O1] N1].
        { apply (summed_ext q2 q3); [apply HR2|done|apply (ext_dlt p q2); [by eapply ext_trans|done]|done|by apply Hsu]. }
        destruct Sr' as [T2 O2]. split; [split|].
        - intros P HP. by apply T2, T1.
        - intros Ho. destruct (O1 Ho) as [O3 R3]. destruct (O2 O3) as [O4 R4]. auto.
        - intros Ho. by apply T2, N1. }
    - intros Ht Hs He e lo hi Hl. destruct (Hr Ht Hs He e lo hi Hl) as (w & Hw & Hint). exists w. auto.
    - intros Ht Hp Ho e x y Hx Hy. apply Vr'. by apply Hb.
  Qed.
End Resolve.
