(** Lemmas for C50: the translation of formulas and weights to diagrams. *)

From Verif Require Import Base Dict Smt Smt_Facts Math_Model Math_Spec Poly_Proofs Arith_Proofs Linear_Proofs Walk_Model
  Walk_Proofs Primal_Proofs Piecewise_Spec Xadd_Model Resolve_Model Xadd_Spec Xadd_Proofs Xwalk_Proofs Xtest_Proofs
  Xhist_Proofs Xreq_Proofs Toxadd_Model Toxadd_Spec.

Definition b2q (b : bool) : Qc := if b then 1%Qc else 0%Qc.
Lemma b2q_01 b : (b2q b = 0 \/ b2q b = 1)%Qc.
Proof. destruct b; auto. Qed.
Lemma b2q_eq z b : (z = 0 \/ z = 1)%Qc -> (z = 1%Qc <-> b = true) -> z = b2q b.
Proof.
  intros [->| ->] H; destruct b; cbn; try done.
  - by destruct H as [_ H]; rewrite H.
  - destruct H as [H _]. by specialize (H eq_refl).
Qed.

(** ** Sizes and comparisons *)
Lemma txsize_pos f : 1 <= txsize f.
Proof. destruct f; cbn; lia. Qed.
Lemma txsize_in x l : x ∈ l -> txsize x <= list_sum (map txsize l).
Proof.
  induction 1 as [x l|x y l Hx IH]; cbn [map]; simpl; lia.
Qed.
Lemma sizes_le l n : S (list_sum (map txsize l)) <= S n -> Forall (fun f => txsize f <= n) l.
Proof. intros H. apply Forall_forall. intros f Hf. apply txsize_in in Hf. lia. Qed.
Lemma txsize_mkNot a : txsize (mkNot a) <= S (txsize a).
Proof. destruct a; cbn; lia. Qed.
Lemma comparisons_mkNot a : comparisons (mkNot a) = comparisons a.
Proof. by destruct a. Qed.

Lemma off_list e l g : (forall a b, (a, b) ∈ concat (map comparisons l) -> off e a b) -> g ∈ l -> off_tests e g.
Proof.
  intros H Hg a b Hab. apply H. apply elem_of_list_In, in_concat. exists (comparisons g).
  split; [apply in_map|]; by apply elem_of_list_In.
Qed.
Lemma off_app e l k : (forall a b, (a, b) ∈ l ++ k -> off e a b) ->
  (forall a b, (a, b) ∈ l -> off e a b) /\ (forall a b, (a, b) ∈ k -> off e a b).
Proof. intros H. split; intros a b Hab; apply H, elem_of_app; auto. Qed.
Lemma off_app_intro e l k : (forall a b, (a, b) ∈ l -> off e a b) -> (forall a b, (a, b) ∈ k -> off e a b) ->
  (forall a b, (a, b) ∈ l ++ k -> off e a b).
Proof. intros H1 H2 a b [Hab|Hab]%elem_of_app; auto. Qed.

Lemma bool_formula_mkNot a : bool_formula a -> bool_formula (mkNot a).
Proof. intros H. destruct a; try (by constructor). by inversion H. Qed.
Lemma typeof_and2 a b : typeof a = Some TBool -> typeof b = Some TBool -> typeof (AndN [a; b]) = Some TBool.
Proof. intros Ha Hb. cbn. by rewrite Ha, Hb. Qed.

Lemma bool_formula_bool f : bool_formula f -> typeof f = Some TBool.
Proof.
  induction f as [x t|b|q|z|l IH|l IH|f IH|f g IHf IHg|f g IHf IHg|c f g IHc IHf IHg|l IH
                   |f g IHf IHg|l IH|f g IHf IHg|f g IHf IHg|f g IHf IHg|f g IHf IHg|f IH|f IH]
      using fm_ind'; intros Hf; inversion Hf; subst; cbn; try done.
  - replace (all_ty TBool (map typeof l)) with true; [done|]. symmetry. apply all_ty_Forall.
    rewrite Forall_forall in *. auto.
  - replace (all_ty TBool (map typeof l)) with true; [done|]. symmetry. apply all_ty_Forall.
    rewrite Forall_forall in *. auto.
  - by rewrite IH.
  - by rewrite IHf, IHg.
  - by rewrite IHf, IHg.
  - by rewrite IHc, IHf, IHg.
  - by rewrite !linear_expr_real.
  - by rewrite !linear_expr_real.
Qed.
Lemma weight_formula_real f : weight_formula f -> typeof f = Some TReal.
Proof.
  induction f as [x t|b|q|z|l IH|l IH|f IH|f g IHf IHg|f g IHf IHg|c f g IHc IHf IHg|l IH
                   |f g IHf IHg|l IH|f g IHf IHg|f g IHf IHg|f g IHf IHg|f g IHf IHg|f IH|f IH]
      using fm_ind'; intros Hf; inversion Hf; subst; cbn; try done.
  - rewrite (bool_formula_bool c), IHf, IHg by done. done.
  - apply nary_num_intro; [done|done|]. rewrite Forall_forall in *. auto.
  - by rewrite IHf, IHg.
  - apply nary_num_intro; [done|done|]. rewrite Forall_forall in *. auto.
  - by rewrite IHf.
Qed.

Inductive kind := KBool | KTerm | KWeight.
Definition kmode (k : kind) : bool := match k with KWeight => false | _ => true end.
Definition covers (k : kind) (f : fm) : Prop :=
  match k with
  | KBool => bool_formula f /\ typeof f = Some TBool
  | KTerm => linear_expr f /\ typeof f = Some TReal
  | KWeight => weight_formula f /\ typeof f = Some TReal
  end.
Lemma covers_kind k k' f : kmode k = kmode k' -> covers k f -> covers k' f -> k = k'.
Proof. destruct k, k'; cbn; intros; try done; destruct_and!; congruence. Qed.

Lemma covers_list k t l : typeof <$> l = replicate (length l) (Some t) ->
  (k = KBool /\ t = TBool /\ Forall bool_formula l) \/ (k = KTerm /\ t = TReal /\ Forall linear_expr l) \/
  (k = KWeight /\ t = TReal /\ Forall weight_formula l) -> Forall (covers k) l.
Proof.
  intros Ht Hk. apply Forall_forall. intros g Hg.
  assert (typeof g = Some t) as Htg.
  { apply (elem_of_list_fmap_1 typeof) in Hg. rewrite Ht in Hg. by apply elem_of_replicate in Hg as []. }
  destruct Hk as [(-> & -> & Hf)|[(-> & -> & Hf)|(-> & -> & Hf)]]; rewrite Forall_forall in Hf; by split; auto.
Qed.
Lemma covers_all k t l : Forall (fun f => typeof f = Some t) l ->
  (k = KBool /\ t = TBool /\ Forall bool_formula l) \/ (k = KTerm /\ t = TReal /\ Forall linear_expr l) \/
  (k = KWeight /\ t = TReal /\ Forall weight_formula l) -> Forall (covers k) l.
Proof.
  intros Ht Hk. apply Forall_forall. intros g Hg. rewrite Forall_forall in Ht.
  destruct Hk as [(-> & -> & Hf)|[(-> & -> & Hf)|(-> & -> & Hf)]]; rewrite Forall_forall in Hf; by split; auto.
Qed.

Section Tox.
  Context {E : Type} `{EqDecision E} (A : alg E) (flat : E -> E) (is_one is_zero : E -> Res bool) (simp : fm -> fm)
    (solve : list fm -> fm -> bool) (X : resolver E) (den : E -> env -> option Qc).
  Context (HX : sound_externals A flat simp solve den) (HK : knows_zero_one A is_one is_zero)
    (H0 : simp (LeN (RealC 0) (RealC 0)) = BoolC true).
  Notation inv := (inv A simp den).
  Notation denotes := (denotes den).
  Notation serve := (serve A flat is_one is_zero simp solve X).
  Notation history := (history A flat is_one is_zero simp solve X).
  Notation W := (@W E).

  Definition HI (p : pool E) : Prop := history [] p /\ p_ordering p = false.
  Lemma HI_inv p : HI p -> inv p.
  Proof. intros [Hh _]. apply (history_hinv A flat is_one is_zero simp solve X den HX [] p Hh). Qed.

  Lemma step_ok r p q i : HI p -> well_typed r -> (forall a, a ∈ mentions r -> dlt (p_nodes p) a) ->
    serve r p = (q, Ok i) -> HI q /\ ext p q.
  Proof.
    intros [Hh Ho] Hty Hm Hs. pose proof (serve_next A flat is_one is_zero simp solve X den HX [] p r Hh Hty Hm) as Hx.
    pose proof (hi_step A flat is_one is_zero simp solve X [] p r Hh Hty Hm) as Hn. rewrite Hs in Hx, Hn. cbn [fst snd] in *.
    split; [|done]. split; [|by rewrite (ex_ord p q Hx)]. by destruct r.
  Qed.

  (** ** Steps that return *)
  Definition mok {B} (p : pool E) (m : M E B) (Q : pool E -> B -> Prop) : Prop :=
    exists q b, m p = (q, Ok b) /\ HI q /\ ext p q /\ Q q b.

  Lemma m_ret {B} p (b : B) (Q : pool E -> B -> Prop) : HI p -> Q p b -> mok p (mret b) Q.
  Proof. intros Hp HQ. exists p, b. split; [done|]. split; [done|]. split; [apply ext_refl|done]. Qed.
  Lemma m_bind {B C} p (m : M E B) (k : B -> M E C) (Q : pool E -> B -> Prop) (R : pool E -> C -> Prop) : mok p m Q ->
    (forall q b, HI q -> ext p q -> Q q b -> mok q (k b) R) -> mok p (mbind m k) R.
  Proof.
    intros (q & b & Hm & Hq & Hx & HQ) Hk. destruct (Hk q b Hq Hx HQ) as (q' & c & Hc & Hq' & Hx' & HR).
    exists q', c. unfold mbind. rewrite Hm. split; [done|]. split; [done|]. split; [by eapply ext_trans|done].
  Qed.
  Lemma m_get {C} p (k : pool E -> M E C) (R : pool E -> C -> Prop) : mok p (k p) R -> mok p (mbind mget k) R.
  Proof. done. Qed.
  Lemma m_weaken {B} p (m : M E B) (Q R : pool E -> B -> Prop) : mok p m Q ->
    (forall q b, HI q -> ext p q -> Q q b -> R q b) -> mok p m R.
  Proof. intros (q & b & ? & ? & ? & HQ) HR. exists q, b. auto. Qed.

  (** Boolean diagrams with the tests in order. *)
  Definition bnode (q : pool E) (i : nat) : Prop :=
    dlt (p_nodes q) i /\ boolean_diagram q i /\ ordered q i.
  Definition wnode (q : pool E) (i : nat) : Prop := dlt (p_nodes q) i /\ ordered q i.
  Lemma bnode_ext p q i : HI p -> ext p q -> bnode p i -> bnode q i.
  Proof.
    intros Hp Hx (Hd & Hb & Ho). pose proof (HI_inv p Hp) as Hi. split; [by eapply ext_dlt|].
    split; [by apply (boolean_ext A simp den p q)|by apply (ordered_iff A simp den p q)].
  Qed.
  Lemma wnode_ext p q i : HI p -> ext p q -> wnode p i -> wnode q i.
  Proof.
    intros Hp Hx (Hd & Ho). pose proof (HI_inv p Hp) as Hi. split; [by eapply ext_dlt|].
    by apply (ordered_iff A simp den p q).
  Qed.
  Lemma bnode_zero p : HI p -> bnode p (p_zero p).
  Proof.
    intros Hp. pose proof (HI_inv p Hp) as Hi. split; [eexists; by eapply iv_zero|].
    split; [by apply (boolean_zero A simp den)|]. eapply ordered_leaf. by eapply iv_zero.
  Qed.
  Lemma bnode_one p : HI p -> bnode p (p_one p).
  Proof.
    intros Hp. pose proof (HI_inv p Hp) as Hi. split; [eexists; by eapply iv_one|].
    split; [by apply (boolean_one A simp den)|]. eapply ordered_leaf. by eapply iv_one.
  Qed.
  Lemma bnode_wnode p i : bnode p i -> wnode p i.
  Proof. by intros (? & _ & ?). Qed.

  Lemma bnode_test p t : HI p -> dlt (p_nodes p) t -> test_shape p t -> bnode p t.
  Proof.
    intros Hp Hd Hs. pose proof (HI_inv p Hp) as Hi.
    destruct Hs as [->|[->|(d & ct & cf & Hn & Hc)]]; [by apply bnode_one|by apply bnode_zero|].
    assert (bnode p ct /\ bnode p cf /\ exists x y, dget (p_nodes p) ct = Some (TNode x) /\ dget (p_nodes p) cf = Some (TNode y))
      as ((_ & Bt & Ot) & (_ & Bf & Of) & x & y & Hx & Hy).
    { destruct Hc as [[-> ->]|[-> ->]]; (split; [by apply bnode_one || by apply bnode_zero|]);
        (split; [by apply bnode_one || by apply bnode_zero|]); eexists _, _; split;
        (by eapply iv_one) || (by eapply iv_zero). }
    destruct (iv_node _ _ _ p Hi _ _ _ _ Hn) as (_ & _ & _ & _ & _ & _ & j & Hj & _).
    split; [done|]. split; [by apply (boolean_node p t d ct cf Hn)|]. apply (ordered_node p t d ct cf j Hn Hj).
    split; [by eapply root_ge_leaf|]. split; [by eapply root_ge_leaf|done].
  Qed.

  Lemma m_terminal p x : HI p -> mok p (terminal x) (fun q i => dget (p_nodes q) i = Some (TNode x)).
  Proof.
    intros Hp. destruct (terminal_ok A simp den p x (HI_inv p Hp)) as (q & i & Hs & _ & _ & _ & Hn).
    destruct (step_ok (TerminalR x) p q i Hp) as [Hq Hx]; [done|by intros a ?%elem_of_nil|done|]. by exists q, i.
  Qed.

  Lemma m_test p f : HI p -> typeof f = Some TBool -> (exists q i, bool_test simp (mkdec f) p = (q, Ok i)) ->
    mok p (bool_test simp (mkdec f)) (fun q i => bnode q i /\
      forall e b, takes simp (mkdec f) e b -> denotes (p_nodes q) e i (b2q b)).
  Proof.
    intros Hp Hty (q & i & Hs).
    destruct (step_ok (BoolTestR f) p q i Hp) as [Hq Hx]; [done|by intros a ?%elem_of_nil|done|].
    exists q, i. split; [done|]. split; [done|]. split; [done|]. destruct HX as [HA HF HS HT HV].
    pose proof (bool_test_any A simp den HA HS p (mkdec f) (HI_inv p Hp) (or_intror (ex_intro _ f (conj eq_refl Hty)))) as Hb.
    rewrite Hs in Hb. destruct Hb as (_ & _ & _ & Hb & _). destruct (Hb i eq_refl) as (Di & Si & Vi).
    split; [by apply bnode_test|]. intros e b Ht. by apply Vi.
  Qed.

  Lemma m_bool_const p b : HI p ->
    mok p (bool_test simp (mkdec (BoolC b))) (fun q i => bnode q i /\ forall e, denotes (p_nodes q) e i (b2q b)).
  Proof.
    intros Hp. pose proof (HI_inv p Hp) as Hi. destruct HX as [HA HF HS HT HV].
    exists p, (if b then p_one p else p_zero p). split; [|split; [done|split; [apply ext_refl|]]].
    - unfold bool_test, mbind, mget, internal. rewrite bool_decide_eq_false_2.
      2:{ intros H. symmetry in H. by apply (zero_ne_one A simp den HA p Hi) in H. }
      unfold mbind, mlift, valid_branches. cbn [d_test mkdec].
      rewrite bool_decide_eq_true_2 by (destruct b; rewrite !elem_of_cons; auto). cbn [rbind].
      destruct b; repeat case_bool_decide; done.
    - destruct b; (split; [by apply bnode_one || by apply bnode_zero|]); intros e;
        [by apply (denotes_one A simp den HA)|by apply (denotes_zero A simp den HA)].
  Qed.
  Lemma m_bool_sym p x : HI p ->
    mok p (bool_test simp (mkdec (Sym x TBool))) (fun q i => bnode q i /\ forall e, denotes (p_nodes q) e i (b2q (eb e x))).
  Proof.
    intros Hp. pose proof (HI_inv p Hp) as Hi. destruct HX as [HA HF HS HT HV].
    eapply m_weaken; [apply m_test; [done|done|]|].
    - unfold bool_test, mbind, mget, internal. destruct (bool_decide _); [by eexists _, _|].
      unfold mbind, mlift, valid_branches. cbn [d_test mkdec].
      rewrite bool_decide_eq_false_2 by (rewrite !elem_of_cons, elem_of_nil; by intros [|[|[]]]).
      cbn [dec_is_bool rbind d_test mkdec]. rewrite bool_decide_eq_true_2 by done. cbn [rbind].
      assert (exists q i, cons_node simp (mkdec (Sym x TBool)) (p_one p) (p_zero p) p = (q, Ok i)) as Hc.
      { unfold cons_node, mbind, mlift, to_canonical. cbn [d_canonical d_test mkdec dec_is_bool].
        rewrite bool_decide_eq_true_2 by done. cbn [is_symbol].
        destruct (add_test_ok A simp den p (Sym x TBool) Hi) as (q & j & Hq & _). cbn [d_test]. rewrite Hq.
        destruct (dget _ _); by eexists _, _. }
      repeat case_bool_decide; try done; by eexists _, _.
    - cbn beta. intros q i Hq Hx [Hb Hv]. split; [done|]. intros e. apply Hv. apply takes_bool; [done|by exists x; left|done].
  Qed.
  Lemma m_le p a b : HI p -> linear_expr a -> linear_expr b -> typeof a = Some TReal -> typeof b = Some TReal ->
    mok p (bool_test simp (mkdec (LeN a b))) (fun q i => bnode q i /\
      forall e c, off e a b -> eval e (LeN a b) = Some (VB c) -> denotes (p_nodes q) e i (b2q c)).
  Proof.
    intros Hp La Lb Ta Tb. pose proof (HI_inv p Hp) as Hi. destruct HX as [HA HF HS HT HV].
    assert (compares (LeN a b) a b) as Hc by constructor.
    eapply m_weaken; [apply m_test; [done| |]|].
    - cbn. by rewrite Ta, Tb.
    - unfold bool_test, mbind, mget. by apply (internal_linear A simp den (LeN a b) a b).
    - cbn beta. intros q i Hq Hx [Hb Hv]. split; [done|]. intros e c Ho He. apply Hv. by apply (takes_compare simp HS (LeN a b) a b).
  Qed.

  Lemma m_apply p op a b : HI p -> dlt (p_nodes p) a -> dlt (p_nodes p) b -> total_on p op a b ->
    mok p (apply A flat simp op a b) (fun q r => applied simp den q op a b r).
  Proof.
    intros Hp Da Db Ht. pose proof (HI_inv p Hp) as Hi. destruct HX as [HA HF HS HT HV].
    pose proof (apply_ok A flat simp den HA HF HS op p a b Hi Da Db) as Hap.
    destruct (apply A flat simp op a b p) as [q [r|x]] eqn:Hs.
    2:{ destruct Hap as (_ & _ & _ & _ & [Ho|?]); [|done]. destruct Hp as [_ Ho']. congruence. }
    destruct (step_ok (ApplyR op a b) p q r Hp) as [Hq Hx]; [done| |done|].
    { cbn. intros c. rewrite !elem_of_cons, elem_of_nil. by intros [->|[->|[]]]. }
    exists q, r. split; [done|]. split; [done|]. split; [done|]. apply Hap.
  Qed.

  (** The logical and the arithmetic operations on results. *)
  Definition bop (op : xop) : bool -> bool -> bool := match op with LogicalOr => orb | _ => andb end.
  Definition qop (op : xop) : Qc -> Qc -> Qc := match op with Summation => Qcplus | _ => Qcmult end.

  Lemma m_logical p op a b : op = LogicalAnd \/ op = LogicalOr -> HI p -> bnode p a -> bnode p b ->
    mok p (apply A flat simp op a b) (fun q r => bnode q r /\ forall e x y,
      denotes (p_nodes q) e a (b2q x) -> denotes (p_nodes q) e b (b2q y) -> denotes (p_nodes q) e r (b2q (bop op x y))).
  Proof.
    intros Hop Hp Ha Hb. pose proof Ha as (Da & Ba & Oa). pose proof Hb as (Db & Bb & Ob).
    eapply m_weaken; [apply m_apply; [done|done|done|by destruct Hop as [->| ->]]|].
    cbn beta. intros q r Hq Hx (_ & _ & Dr & Vr & Br & Sr).
    apply (bnode_ext p q) in Ha as (_ & Ba' & Oa'); [|done..]. apply (bnode_ext p q) in Hb as (_ & Bb' & Ob'); [|done..].
    split.
    - split; [done|]. split; [by apply Br; [by destruct Hop as [->| ->]|..]|]. destruct Sr as (_ & _ & _ & Sr). by apply Sr.
    - intros e x y H1 H2. destruct (Vr e _ _ H1 H2) as (z & Hz & Hv).
      rewrite <- (b2q_eq z (bop op x y)); [done| |].
      + destruct Hop as [->| ->]; cbn in Hv; by destruct (Hv (b2q_01 x) (b2q_01 y)).
      + destruct Hop as [->| ->]; cbn in Hv; destruct (Hv (b2q_01 x) (b2q_01 y)) as [_ ->]; cbn; destruct x, y; cbn; naive_solver.
  Qed.
  Lemma m_arith p op a b : op = Summation \/ op = Multiplication -> HI p -> wnode p a -> wnode p b ->
    mok p (apply A flat simp op a b) (fun q r => wnode q r /\ forall e x y,
      denotes (p_nodes q) e a x -> denotes (p_nodes q) e b y -> denotes (p_nodes q) e r (qop op x y)).
  Proof.
    intros Hop Hp Ha Hb. pose proof Ha as (Da & Oa). pose proof Hb as (Db & Ob).
    eapply m_weaken; [apply m_apply; [done|done|done|by destruct Hop as [->| ->]]|].
    cbn beta. intros q r Hq Hx (_ & _ & Dr & Vr & Br & Sr).
    apply (wnode_ext p q) in Ha as (_ & Oa'); [|done..]. apply (wnode_ext p q) in Hb as (_ & Ob'); [|done..].
    split.
    - split; [done|]. destruct Sr as (_ & _ & _ & Sr). by apply Sr.
    - intros e x y H1 H2. destruct (Vr e _ _ H1 H2) as (z & Hz & Hv). by destruct Hop as [->| ->]; cbn in Hv |- *; subst z.
  Qed.

  Lemma m_invert p a : HI p -> bnode p a ->
    mok p (invert A flat is_one is_zero simp a) (fun q r => bnode q r /\
      forall e b, denotes (p_nodes p) e a (b2q b) -> denotes (p_nodes q) e r (b2q (negb b))).
  Proof.
    intros Hp Ha. pose proof Ha as (Da & Ba & Oa). pose proof (HI_inv p Hp) as Hi.
    assert (profile_ready p a) as Hr.
    { destruct Hp as [Hh _]. apply (history_hinv A flat is_one is_zero simp solve X den HX [] p Hh). by intros ?%elem_of_nil. }
    destruct HX as [HA HF HS HT HV].
    pose proof (invert_walk A flat is_one is_zero simp den HA HF HS p a Hi Da Hr) as Hw.
    pose proof (invert_any A flat is_one is_zero simp den HA HF HS p a Hi Da) as Hy.
    destruct (invert A flat is_one is_zero simp a p) as [q [r|x]] eqn:Hs.
    2:{ exfalso. apply (Hw HK). split; [done|]. apply Hp. }
    destruct (step_ok (InvertR a) p q r Hp) as [Hq Hx]; [done| |done|].
    { cbn. intros c. rewrite elem_of_cons, elem_of_nil. by intros [->|[]]. }
    exists q, r. split; [done|]. split; [done|]. split; [done|].
    destruct Hw as (_ & [[_ Hsh] Hbo] & Hv). destruct Hy as (_ & _ & _ & Hd).
    apply (bnode_ext p q) in Ha as (_ & Ba' & Oa'); [|done..]. split.
    - split; [by apply Hd|]. split; [by apply Hbo|by apply Hsh].
    - intros e b Hb. specialize (Hv HK Ba e _ Hb). by destruct b.
  Qed.

  (** ** Results of the walk *)
  Definition holds (q : pool E) (k : kind) (f : fm) (r : wres) : Prop :=
    match k, r with
    | KBool, WNode i => bnode q i /\
        forall e b, off_tests e f -> eval e f = Some (VB b) -> denotes (p_nodes q) e i (b2q b)
    | KTerm, WTerm g => linear_expr g /\ typeof g = Some TReal /\ forall e, eval e g = eval e f
    | KWeight, WNode i => wnode q i /\
        forall e v, off_tests e f -> eval e f = Some (VN v) -> denotes (p_nodes q) e i v
    | _, _ => False
    end.
  Lemma holds_ext p q k f r : HI p -> ext p q -> holds p k f r -> holds q k f r.
  Proof.
    intros Hp Hx. destruct k, r; cbn; try done.
    - intros [Hb Hv]. split; [by apply (bnode_ext p q)|]. intros e b Ho He. eapply ext_denotes; [done|auto].
    - intros [Hb Hv]. split; [by apply (wnode_ext p q)|]. intros e b Ho He. eapply ext_denotes; [done|auto].
  Qed.
  (** A formula walked in the place of another. *)
  Lemma holds_via q k f g r : (forall e, eval e g = eval e f) ->
    (forall e, off_tests e f -> off_tests e g) -> holds q k g r -> holds q k f r.
  Proof.
    intros He Ho. destruct k, r; cbn; try done.
    - intros [Hb Hv]. split; [done|]. intros e b H1 H2. apply Hv; [auto|by rewrite He].
    - intros (? & ? & Hv). split; [done|]. split; [done|]. intros e. by rewrite Hv.
    - intros [Hb Hv]. split; [done|]. intros e b H1 H2. apply Hv; [auto|by rewrite He].
  Qed.

  Definition cache_ok (q : pool E) (c : list ((fm * bool) * wres)) : Prop :=
    forall f mode r, dget c (f, mode) = Some r -> exists k, mode = kmode k /\ covers k f /\ holds q k f r.
  Lemma cache_ext p q c : HI p -> ext p q -> cache_ok p c -> cache_ok q c.
  Proof.
    intros Hp Hx Hc f mode r Hr. destruct (Hc f mode r Hr) as (k & ? & ? & ?). exists k.
    split; [done|]. split; [done|]. by apply (holds_ext p q).
  Qed.

  Definition wok {B} (p : pool E) (c : list ((fm * bool) * wres)) (m : W B) (Q : pool E -> B -> Prop) : Prop :=
    exists q c' b, m c p = (q, Ok (c', b)) /\ HI q /\ ext p q /\ cache_ok q c' /\ Q q b.
  Lemma w_ret {B} p c (b : B) (Q : pool E -> B -> Prop) : HI p -> cache_ok p c -> Q p b -> wok p c (wret b) Q.
  Proof. intros Hp Hc HQ. exists p, c, b. split; [done|]. split; [done|]. split; [apply ext_refl|done]. Qed.
  Lemma w_bind {B C} p c (m : W B) (k : B -> W C) (Q : pool E -> B -> Prop) (R : pool E -> C -> Prop) : wok p c m Q ->
    (forall q c' b, HI q -> ext p q -> cache_ok q c' -> Q q b -> wok q c' (k b) R) -> wok p c (wbind m k) R.
  Proof.
    intros (q & c' & b & Hm & Hq & Hx & Hc & HQ) Hk. destruct (Hk q c' b Hq Hx Hc HQ) as (q' & c'' & d & Hd & Hq' & Hx' & Hc' & HR).
    exists q', c'', d. unfold wbind, mbind. rewrite Hm. split; [done|]. split; [done|]. split; [by eapply ext_trans|done].
  Qed.
  Lemma w_lift {B} p c (m : M E B) (Q : pool E -> B -> Prop) : cache_ok p c -> HI p -> mok p m Q -> wok p c (wlift m) Q.
  Proof.
    intros Hc Hp (q & b & Hm & Hq & Hx & HQ). exists q, c, b. unfold wlift, mbind. rewrite Hm.
    split; [done|]. split; [done|]. split; [done|]. split; [by apply (cache_ext p q)|done].
  Qed.
  Lemma w_res {B C} p c (r : Res B) b (k : B -> W C) (R : pool E -> C -> Prop) : r = Ok b -> wok p c (k b) R -> wok p c (wbind (wres_of r) k) R.
  Proof. intros -> (q & c' & d & Hd & Hrest). exists q, c', d. done. Qed.
  Lemma w_weaken {B} p c (m : W B) (Q R : pool E -> B -> Prop) : wok p c m Q ->
    (forall q b, HI q -> ext p q -> Q q b -> R q b) -> wok p c m R.
  Proof. intros (q & c' & b & ? & ? & ? & ? & HQ) HR. exists q, c', b. split_and!; auto. Qed.

  Definition rec_ok (rec : fm -> W wres) (k : kind) (n : nat) : Prop :=
    forall p c f, HI p -> cache_ok p c -> covers k f -> txsize f <= n -> wok p c (rec f) (fun q r => holds q k f r).

  Lemma w_multiple rec k n l : rec_ok rec k n -> Forall (covers k) l -> Forall (fun f => txsize f <= n) l ->
    forall p c, HI p -> cache_ok p c -> wok p c (walk_multiple rec l) (fun q rs => Forall2 (holds q k) l rs).
  Proof.
    intros Hrec Hl. induction Hl as [|f l Hf Hl IH]; intros Hn p c Hp Hc; cbn [walk_multiple map list_sum] in *.
    { by apply w_ret. }
    inversion Hn as [|? ? Hn1 Hn2]; subst.
    eapply w_bind; [apply Hrec; [done|done|done|]|].
    { done. }
    cbn beta. intros q c' r Hq Hx Hc' Hr.
    eapply w_bind; [apply IH; [|done|done]|].
    { done. }
    cbn beta. intros q2 c2 rs Hq2 Hx2 Hc2 Hrs. apply w_ret; [done|done|].
    constructor; [by apply (holds_ext q q2)|done].
  Qed.

  (** The loops over the results. *)
  Lemma m_logical_all op l rs : op = LogicalAnd \/ op = LogicalOr -> forall p acc, HI p -> bnode p acc ->
    Forall2 (holds p KBool) l rs ->
    mok p (apply_all A flat simp op acc rs) (fun q i => bnode q i /\ forall e x bs, denotes (p_nodes p) e acc (b2q x) ->
      Forall (off_tests e) l -> Forall2 (fun g b => eval e g = Some (VB b)) l bs ->
      denotes (p_nodes q) e i (b2q (fold_left (bop op) bs x))).
  Proof.
    intros Hop p acc Hp Hacc Hl. revert p acc Hp Hacc Hl.
    induction l as [|f l IH] in rs |- *; intros p acc Hp Hacc Hl; inversion Hl as [|? r ? rs' Hr Hrs]; subst; cbn [apply_all].
    { apply m_ret; [done|]. split; [done|]. intros e x bs Hx _ Hbs. by inversion Hbs; subst. }
    destruct r as [i|]; [|done]. destruct Hr as [Hi Hv].
    eapply m_bind; [apply (m_ret p i (fun q j => q = p /\ j = i)); done|]. cbn beta. intros ? ? _ _ [-> ->].
    eapply m_bind; [by apply m_logical|]. cbn beta. intros q acc' Hq Hx [Hacc' Hva].
    eapply m_weaken; [apply (IH rs' q acc'); [done|done|]|].
    { eapply Forall2_impl; [exact Hrs|]. intros g r Hg. by apply (holds_ext p q). }
    cbn beta. intros q2 j Hq2 Hx2 [Hj Hvj]. split; [done|]. intros e x bs Hdx Hoff Hbs.
    inversion Hbs as [|? b ? bs' Hb Hbs']; subst. inversion Hoff as [|? ? Hof Hofl]; subst. cbn [fold_left].
    apply Hvj; [|done|done]. apply Hva.
    - by eapply ext_denotes.
    - eapply ext_denotes; [done|]. by apply Hv.
  Qed.

  Lemma m_arith_all op l rs : op = Summation \/ op = Multiplication -> forall p acc, HI p -> wnode p acc ->
    Forall2 (holds p KWeight) l rs ->
    mok p (apply_all A flat simp op acc rs) (fun q i => wnode q i /\ forall e x qs, denotes (p_nodes p) e acc x ->
      Forall (off_tests e) l -> Forall2 (fun g v => eval e g = Some (VN v)) l qs ->
      denotes (p_nodes q) e i (fold_left (qop op) qs x)).
  Proof.
    intros Hop p acc Hp Hacc Hl. revert p acc Hp Hacc Hl.
    induction l as [|f l IH] in rs |- *; intros p acc Hp Hacc Hl; inversion Hl as [|? r ? rs' Hr Hrs]; subst; cbn [apply_all].
    { apply m_ret; [done|]. split; [done|]. intros e x bs Hx _ Hbs. by inversion Hbs; subst. }
    destruct r as [i|]; [|done]. destruct Hr as [Hi Hv].
    eapply m_bind; [apply (m_ret p i (fun q j => q = p /\ j = i)); done|]. cbn beta. intros ? ? _ _ [-> ->].
    eapply m_bind; [by apply m_arith|]. cbn beta. intros q acc' Hq Hx [Hacc' Hva].
    eapply m_weaken; [apply (IH rs' q acc'); [done|done|]|].
    { eapply Forall2_impl; [exact Hrs|]. intros g r Hg. by apply (holds_ext p q). }
    cbn beta. intros q2 j Hq2 Hx2 [Hj Hvj]. split; [done|]. intros e x bs Hdx Hoff Hbs.
    inversion Hbs as [|? b ? bs' Hb Hbs']; subst. inversion Hoff as [|? ? Hof Hofl]; subst. cbn [fold_left].
    apply Hvj; [|done|done]. apply Hva.
    - by eapply ext_denotes.
    - eapply ext_denotes; [done|]. by apply Hv.
  Qed.

  Lemma m_power n : forall p acc i, HI p -> wnode p acc -> wnode p i ->
    mok p (times_base A flat simp n acc i) (fun q r => wnode q r /\ forall e x v, denotes (p_nodes p) e acc x ->
      denotes (p_nodes p) e i v -> denotes (p_nodes q) e r (x * qpow v n)%Qc).
  Proof.
    induction n as [|n IH]; intros p acc i Hp Ha Hi; cbn [times_base].
    { apply m_ret; [done|]. split; [done|]. intros e x v Hx _. cbn. by rewrite Qcmult_1_r. }
    eapply m_bind; [apply m_arith; [by right|done..]|]. cbn beta. intros q acc' Hq Hx [Hacc' Hva].
    eapply m_weaken; [apply IH; [done|done|by apply (wnode_ext p q)]|].
    cbn beta. intros q2 j Hq2 Hx2 [Hj Hvj]. split; [done|]. intros e x v Hdx Hdv. cbn [qpow].
    rewrite Qcmult_assoc. apply Hvj; [|by eapply ext_denotes]. apply Hva; by eapply ext_denotes.
  Qed.

  Lemma fold_and bs : forall x, fold_left andb bs x = x && forallb id bs.
  Proof. induction bs as [|b bs IH]; intros x; cbn; [by rewrite andb_true_r|]. rewrite IH. unfold id at 2. by rewrite andb_assoc. Qed.
  Lemma fold_or bs : forall x, fold_left orb bs x = x || existsb id bs.
  Proof. induction bs as [|b bs IH]; intros x; cbn; [by rewrite orb_false_r|]. rewrite IH. unfold id at 2. by rewrite orb_assoc. Qed.
  Lemma fold_plus qs : forall x, fold_left Qcplus qs x = (x + qsum qs)%Qc.
  Proof. induction qs as [|b qs IH]; intros x; cbn; [ring|]. rewrite IH. unfold qsum. ring. Qed.
  Lemma fold_times qs : forall x, fold_left Qcmult qs x = (x * qprod qs)%Qc.
  Proof. induction qs as [|b qs IH]; intros x; cbn; [ring|]. rewrite IH. unfold qprod. ring. Qed.

  (** ** The methods *)
  Section Methods.
    Context (n : nat) (recb recw : fm -> W wres) (HB : rec_ok recb KBool n) (HTm : rec_ok recb KTerm n)
      (HW : rec_ok recw KWeight n).
    Notation tw := (tx_walker A flat is_one is_zero simp).

    Lemma w_nary (op : xop) l : (op = LogicalAnd \/ op = LogicalOr) -> Forall (covers KBool) l -> Forall (fun f => txsize f <= n) l ->
      forall p c, HI p -> cache_ok p c ->
      wok p c (wbind (walk_multiple recb l) (fun rs =>
        wlift (do! p := mget in do! i := apply_all A flat simp op (if decide (op = LogicalAnd) then p_one p else p_zero p) rs in
               mret (WNode i))))
        (fun q r => holds q KBool (match op with LogicalAnd => AndN l | _ => OrN l end) r).
    Proof.
      intros Hop Hl Hn p c Hp Hc. eapply w_bind; [exact (w_multiple recb KBool n l HB Hl Hn p c Hp Hc)|]. cbn beta. intros q c' rs Hq Hx Hc' Hrs.
      apply w_lift; [done|done|]. apply m_get.
      eapply m_bind; [apply (m_logical_all op l rs Hop q); [done| |done]|].
      { destruct (decide _); [by apply bnode_one|by apply bnode_zero]. }
      cbn beta. intros q2 i Hq2 Hx2 [Hi Hv]. apply m_ret; [done|].
      assert (forall e x, x = (if decide (op = LogicalAnd) then true else false) ->
        denotes (p_nodes q) e (if decide (op = LogicalAnd) then p_one q else p_zero q) (b2q x)) as Hst.
      { destruct HX as [HA HF HS HT HV]. intros e x ->. destruct (decide _).
        - apply (denotes_one A simp den HA); [by apply HI_inv|done].
        - apply (denotes_zero A simp den HA); [by apply HI_inv|done]. }
      destruct Hop as [->| ->]; cbn [holds]; (split; [done|]); intros e b Ho He;
        (assert (Forall (off_tests e) l) as Hol by (apply Forall_forall; intros g Hg; exact (off_list e l g Ho Hg)));
        cbn [eval] in He; destruct (mapM _ l) as [bs|] eqn:Em; cbn in He; simplify_eq; apply mapM_Forall2_vbool in Em;
        specialize (Hv e _ bs (Hst e _ eq_refl) Hol Em); cbn in Hv.
      - by rewrite fold_and in Hv.
      - by rewrite fold_or in Hv.
    Qed.

    Lemma w_sum (op : xop) l : (op = Summation \/ op = Multiplication) -> Forall (covers KWeight) l -> Forall (fun f => txsize f <= n) l ->
      forall p c, HI p -> cache_ok p c ->
      wok p c (wbind (walk_multiple recw l) (fun rs =>
        wlift (do! p := mget in do! i := apply_all A flat simp op (if decide (op = Multiplication) then p_one p else p_zero p) rs in
               mret (WNode i))))
        (fun q r => holds q KWeight (match op with Summation => PlusN l | _ => TimesN l end) r).
    Proof.
      intros Hop Hl Hn p c Hp Hc. eapply w_bind; [exact (w_multiple recw KWeight n l HW Hl Hn p c Hp Hc)|]. cbn beta. intros q c' rs Hq Hx Hc' Hrs.
      apply w_lift; [done|done|]. apply m_get.
      eapply m_bind; [apply (m_arith_all op l rs Hop q); [done| |done]|].
      { destruct (decide _); apply bnode_wnode; [by apply bnode_one|by apply bnode_zero]. }
      cbn beta. intros q2 i Hq2 Hx2 [Hi Hv]. apply m_ret; [done|].
      assert (forall e x, x = (if decide (op = Multiplication) then 1%Qc else 0%Qc) ->
        denotes (p_nodes q) e (if decide (op = Multiplication) then p_one q else p_zero q) x) as Hst.
      { destruct HX as [HA HF HS HT HV]. intros e x ->. destruct (decide _).
        - apply (denotes_one A simp den HA); [by apply HI_inv|done].
        - apply (denotes_zero A simp den HA); [by apply HI_inv|done]. }
      destruct Hop as [->| ->]; cbn [holds]; (split; [done|]); intros e b Ho He;
        (assert (Forall (off_tests e) l) as Hol by (apply Forall_forall; intros g Hg; exact (off_list e l g Ho Hg)));
        cbn [eval] in He; destruct (mapM _ l) as [bs|] eqn:Em; cbn in He; simplify_eq; apply mapM_Forall2_vnum in Em;
        specialize (Hv e _ bs (Hst e _ eq_refl) Hol Em); cbn in Hv.
      - by rewrite fold_plus, Qcplus_0_l in Hv.
      - by rewrite fold_times, Qcmult_1_l in Hv.
    Qed.

    Lemma m_node p i (Q : pool E -> nat -> Prop) : HI p -> Q p i -> mok p (as_node (WNode i)) Q.
    Proof. apply m_ret. Qed.

    (** Walking another formula. *)
    Lemma w_via (rec : fm -> W wres) k f g : rec_ok rec k n -> covers k g -> txsize g <= n ->
      (forall e, eval e g = eval e f) -> (forall e, off_tests e f -> off_tests e g) ->
      forall p c, HI p -> cache_ok p c -> wok p c (rec g) (fun q r => holds q k f r).
    Proof.
      intros Hr Hc Hn He Ho p c Hp Hcc. eapply w_weaken; [by apply Hr|]. cbn beta. intros q r _ _. by apply holds_via.
    Qed.

    Lemma dispatch_bool f p c : HI p -> cache_ok p c -> covers KBool f -> txsize f <= S n ->
      wok p c (dispatch (tw true recb) recb f) (fun q r => holds q KBool f r).
    Proof.
      intros Hp Hc [Hf Ht] Hn. destruct Hf as [b|x|l Hl|l Hl|a Ha|a b Ha Hb|a b Ha Hb|cc a b Hcc Ha Hb|a b La Lb|a b La Lb];
        cbn [dispatch tx_walker w_and w_or w_not w_ite w_lte w_lt w_symbol w_const].
      - apply w_lift; [done|done|]. eapply m_bind; [by apply m_bool_const|]. cbn beta. intros q i Hq Hx [Hi Hv].
        apply m_ret; [done|]. split; [done|]. intros e b' _ [= <-]. apply Hv.
      - apply w_lift; [done|done|]. eapply m_bind; [by apply m_bool_sym|]. cbn beta. intros q i Hq Hx [Hi Hv].
        apply m_ret; [done|]. split; [done|]. intros e b' _ [= <-]. apply Hv.
      - apply (w_nary LogicalAnd l); [by left| |by apply sizes_le|done|done].
        eapply covers_all; [apply typed_and; eapply typed_some; exact Ht|]. by left.
      - apply (w_nary LogicalOr l); [by right| |by apply sizes_le|done|done].
        eapply covers_all; [apply typed_and; eapply typed_some; exact Ht|]. by left.
      - cbn in Hn. pose proof (typed_not a (typed_some _ _ Ht)) as Ta.
        eapply w_bind; [apply (HB p c a); [done|done|by split|lia]|]. cbn beta. intros q c' r Hq Hx Hc' Hr.
        destruct r as [i|]; [|done]. destruct Hr as [Hi Hv]. apply w_lift; [done|done|].
        eapply m_bind; [apply (m_node q i (fun q' j => q' = q /\ j = i)); done|]. cbn beta. intros ? ? _ _ [-> ->].
        eapply m_bind; [by apply m_invert|]. cbn beta. intros q2 j Hq2 Hx2 [Hj Hvj].
        apply m_ret; [done|]. split; [done|]. intros e b Ho He. cbn [eval] in He.
        destruct (eval e a) as [[x|]|] eqn:Ea; cbn in He; simplify_eq. apply Hvj. by apply Hv.
      - pose proof (typed_imp a b (typed_some _ _ Ht)) as [Ta Tb]. cbn in Hn.
        apply (w_via recb KBool (ImpN a b) (imp_expand a b)); try done.
        + split; [|by apply typeof_imp_expand; eapply typed_some]. apply bf_or. constructor; [by apply bool_formula_mkNot|by repeat constructor].
        + pose proof (txsize_mkNot a). cbn. lia.
        + intros e. apply eval_imp_expand. by eapply typed_some.
        + intros e Ho. unfold off_tests. cbn. by rewrite comparisons_mkNot, app_nil_r.
      - assert (typeof a = Some TBool /\ typeof b = Some TBool) as [Ta Tb] by (apply typed_imp; eapply typed_some; exact Ht). cbn in Hn.
        eapply w_weaken; [apply (w_nary LogicalAnd [ImpN a b; ImpN b a]); [by left| | |done|done]|].
        + repeat constructor; cbn; try done; by rewrite Ta, Tb.
        + repeat constructor; cbn; lia.
        + cbn beta. intros q r _ _. apply holds_via; [intros e; apply eval_iff_expand|].
          intros e Ho. unfold off_tests. cbn. rewrite app_nil_r. unfold off_tests in Ho. cbn in Ho.
          apply off_app in Ho as [Ho1 Ho2]. apply off_app_intro; by apply off_app_intro.
      - assert (typeof cc = Some TBool /\ typeof a = Some TBool /\ typeof b = Some TBool) as (Tc & Ta & Tb).
        { pose proof (typed_ite cc a b (typed_some _ _ Ht)) as (Tc & Tab & _). cbn in Ht. rewrite Tc, <- Tab in Ht.
          rewrite !bool_decide_eq_true_2 in Ht by done. cbn in Ht. by rewrite <- Tab, Ht. }
        pose proof (typeof_mkNot cc Tc) as Tnc. cbn in Hn.
        assert (ite_expand cc a b = Ok (OrN [AndN [cc; a]; AndN [mkNot cc; b]])) as Hex.
        { unfold ite_expand. cbn [mkAnd mkOr]. rewrite (chk_some _ TBool (typeof_and2 _ _ Tc Ta)). cbn [rbind].
          rewrite (chk_some (NotN cc) TBool) by (cbn; by rewrite Tc). cbn [rbind].
          rewrite (chk_some _ TBool (typeof_and2 _ _ Tnc Tb)). cbn [rbind].
          apply (chk_some _ TBool). apply typeof_or2; by apply typeof_and2. }
        eapply w_res; [exact Hex|]. apply (w_via recb KBool (IteN cc a b) (OrN [AndN [cc; a]; AndN [mkNot cc; b]])); try done.
        + split; [|apply typeof_or2; by apply typeof_and2]. pose proof (bool_formula_mkNot cc Hcc). repeat constructor; done.
        + pose proof (txsize_mkNot cc). cbn. lia.
        + intros e. rewrite eval_or2, !eval_and2, eval_mkNot by done. cbn [eval].
          destruct (eval_bool_typed e cc Tc) as [->|[x ->]]; [done|]. cbn.
          destruct (eval_bool_typed e a Ta) as [->|[y ->]]; [done|]. cbn.
          destruct (eval_bool_typed e b Tb) as [->|[z ->]]; [done|]. cbn. by destruct x, y, z.
        + intros e Ho. unfold off_tests in *. cbn in *. rewrite comparisons_mkNot, !app_nil_r.
          apply off_app in Ho as [Ho1 Ho2]. apply off_app in Ho2 as [Ho2 Ho3]. apply off_app_intro; by apply off_app_intro.
      - pose proof (linear_expr_real a La) as Ta. pose proof (linear_expr_real b Lb) as Tb. cbn in Hn.
        eapply w_bind; [apply (HTm p c a); [done|done|by split|lia]|]. cbn beta. intros q c' ra Hq Hx Hc' Hra.
        eapply w_bind; [apply (HTm q c' b); [done|done|by split|lia]|]. cbn beta. intros q2 c2 rb Hq2 Hx2 Hc2 Hrb.
        destruct ra as [|a']; [done|]. destruct Hra as (La' & Ta' & Va). destruct rb as [|b']; [done|]. destruct Hrb as (Lb' & Tb' & Vb).
        eapply w_res; [apply (chk_some _ TBool); cbn; by rewrite Ta', Tb'|].
        apply w_lift; [done|done|]. eapply m_bind; [by apply m_le|]. cbn beta. intros q3 i Hq3 Hx3 [Hi Hv].
        apply m_ret; [done|]. split; [done|]. intros e x Ho He. apply Hv.
        + destruct (Ho a b) as (u & v & ? & ? & ?); [by apply elem_of_list_singleton|]. exists u, v. by rewrite Va, Vb.
        + cbn [eval] in He |- *. by rewrite Va, Vb.
      - pose proof (linear_expr_real a La) as Ta. pose proof (linear_expr_real b Lb) as Tb. cbn in Hn.
        eapply w_res; [apply (chk_some _ TBool); cbn; by rewrite Ta, Tb|].
        eapply w_weaken; [apply (HB p c (LeN a b)); [done|done| |cbn; lia]|].
        + split; [by constructor|]. cbn. by rewrite Ta, Tb.
        + cbn beta. intros q r _ _. destruct r as [i|]; cbn; [|done]. intros [Hi Hv]. split; [done|].
          intros e x Ho He. apply Hv; [done|]. destruct (Ho a b) as (u & v & Eu & Ev & Hne); [by apply elem_of_list_singleton|].
          cbn [eval] in He |- *. rewrite Eu, Ev in *. cbn in He |- *. simplify_eq. f_equal. f_equal.
          destruct (qlt u v) eqn:El.
          * apply qle_spec. apply qlt_spec in El. by apply Qclt_le_weak.
          * apply qlt_false in El. apply qle_false. apply Qcle_lt_or_eq in El as [|]; [done|congruence].
    Qed.

    Lemma dispatch_term f p c : HI p -> cache_ok p c -> covers KTerm f -> txsize f <= S n ->
      wok p c (dispatch (tw true recb) recb f) (fun q r => holds q KTerm f r).
    Proof.
      intros Hp Hc [Hf Ht] Hn.
      assert (forall l, l <> [] -> f = PlusN l -> Forall linear_expr l -> wok p c (dispatch (tw true recb) recb (PlusN l)) (fun q r => holds q KTerm (PlusN l) r)) as Hplus.
      { intros l Hne -> Hl. cbn [dispatch tx_walker w_plus]. destruct l as [|a [|b l]]; [done| |].
        - eapply w_res; [done|]. apply w_ret; [done|done|]. inversion Hl; subst. split; [done|]. split; [by apply linear_expr_real|].
          intros e. cbn. destruct (eval_num_typed e a TReal) as [->|[x ->]]; [by apply linear_expr_real|done|done|]. cbn. by rewrite Qcplus_0_r.
        - eapply w_res; [done|]. apply w_ret; [done|done|]. split; [by apply le_plus|]. done. }
      assert (forall l, l <> [] -> f = TimesN l -> linear_expr (TimesN l) -> (forall a, l = [a] -> linear_expr a) ->
        wok p c (dispatch (tw true recb) recb (TimesN l)) (fun q r => holds q KTerm (TimesN l) r)) as Htimes.
      { intros l Hne -> Hl H1. cbn [dispatch tx_walker w_times]. rewrite bool_decide_eq_false_2 by done. destruct l as [|a [|b l]]; [done| |].
        - eapply w_res; [done|]. apply w_ret; [done|done|]. specialize (H1 a eq_refl). split; [done|]. split; [by apply linear_expr_real|].
          intros e. cbn. destruct (eval_num_typed e a TReal) as [->|[x ->]]; [by apply linear_expr_real|done|done|]. cbn. by rewrite Qcmult_1_r.
        - eapply w_res; [done|]. apply w_ret; [done|done|]. split; [done|]. done. }
      assert (forall a b, f = MinusN a b -> linear_expr a -> linear_expr b ->
        wok p c (dispatch (tw true recb) recb (MinusN a b)) (fun q r => holds q KTerm (MinusN a b) r)) as Hminus.
      { intros a b -> La Lb. cbn [dispatch tx_walker w_minus]. pose proof (linear_expr_real a La) as Ta. pose proof (linear_expr_real b Lb) as Tb.
        assert (typeof (TimesN [b; RealC (qz (-1))]) = Some TReal) as Tm by (cbn; by rewrite Tb).
        assert (typeof (PlusN [a; TimesN [b; RealC (qz (-1))]]) = Some TReal) as Tp.
        { change (nary_num [typeof a; typeof (TimesN [b; RealC (qz (-1))])] = Some TReal). by rewrite Ta, Tm. }
        eapply w_res; [unfold minus_expand; rewrite Tb, (chk_some _ _ Tm); cbn [rbind]; exact (chk_some _ _ Tp)|].
        apply (w_via recb KTerm (MinusN a b) (PlusN [a; TimesN [b; RealC (qz (-1))]])); try done.
        - split; [|done]. apply le_plus; [done|]. constructor; [done|]. constructor; [|constructor].
          apply (le_times [] b [RealC (qz (-1))]); [constructor|done|repeat constructor].
        - cbn in Hn |- *. lia.
        - intros e. cbn. destruct (eval_num_typed e a TReal Ta eq_refl) as [->|[x ->]]; [done|]. cbn.
          destruct (eval_num_typed e b TReal Tb eq_refl) as [->|[y ->]]; [done|]. cbn. do 2 f_equal.
          replace (qz (-1)) with (- (1))%Qc by (apply Qc_is_canon; reflexivity). ring.
        - intros e Ho. unfold off_tests in *. cbn in *. by rewrite !app_nil_r. }
      inversion Hf as [g Hg|x|l Hne Hl|a b La Lb|l1 a l2 H1 Ha H2|a La]; subst.
      - inversion Hg as [q|l Hne Hl|a b La Lb|l Hne Hl]; subst.
        + apply w_ret; [done|done|]. split; [done|]. done.
        + apply Hplus; [done|done|]. eapply Forall_impl; [exact Hl|]. intros. by apply le_const.
        + apply Hminus; [done|by apply le_const|by apply le_const].
        + apply Htimes; [done|done|done|]. intros a ->. inversion Hl; subst. by apply le_const.
      - apply w_ret; [done|done|]. split; [done|]. done.
      - by apply Hplus.
      - by apply Hminus.
      - apply Htimes; [by destruct l1|done|done|]. intros b Hb. destruct l1 as [|? [|]]; try done; by simplify_eq/=.
      - cbn [dispatch tx_walker w_pow]. cbn in Hn.
        eapply w_bind; [apply (HTm p c a); [done|done|split; [done|by apply linear_expr_real]|lia]|]. cbn beta. intros q c' r Hq Hx Hc' Hr.
        destruct r as [|g]; [done|]. destruct Hr as (Lg & Tg & Vg).
        cbn [const_val]. apply w_ret; [done|done|]. split; [done|]. split; [done|].
        intros e. rewrite Vg. cbn. destruct (eval_num_typed e a TReal) as [->|[x ->]]; [by apply linear_expr_real|done|done|].
        replace (nat_of_qc (qn 1)) with (Some 1) by reflexivity. cbn. by rewrite Qcmult_1_r.
    Qed.

    Lemma qn_num m : Qnum (this (qn m)) = Z.of_nat m /\ Qden (this (qn m)) = 1%positive.
    Proof.
      unfold qn, qz, Q2Qc, inject_Z. cbn [this]. rewrite Qred_identity; [done|]. cbn. by rewrite Z.gcd_1_r.
    Qed.

    Lemma dispatch_weight f p c : HI p -> cache_ok p c -> covers KWeight f -> txsize f <= S n ->
      wok p c (dispatch (tw false recb) recw f) (fun q r => holds q KWeight f r).
    Proof.
      intros Hp Hc [Hf Ht] Hn. pose proof HX as [HA HF HS HT HV].
      destruct Hf as [v|x|l Hne Hl|l Hne Hl|a b Wa Wb|a m Wa|cc a b Hcc Wa Wb];
        cbn [dispatch tx_walker w_plus w_times w_minus w_pow w_ite w_symbol w_const].
      - apply w_lift; [done|done|]. eapply m_bind; [by apply m_terminal|]. cbn beta. intros q i Hq Hx Hn'.
        apply m_ret; [done|]. split; [split; [by eexists|by eapply ordered_leaf]|].
        intros e w _ [= <-]. eapply dn_leaf; [done|]. apply (sa_real _ _ _ _ _ _ HA).
      - apply w_lift; [done|done|]. eapply m_bind; [by apply m_terminal|]. cbn beta. intros q i Hq Hx Hn'.
        apply m_ret; [done|]. split; [split; [by eexists|by eapply ordered_leaf]|].
        intros e w _ [= <-]. eapply dn_leaf; [done|]. apply (sa_symbol _ _ _ _ _ _ HA).
      - apply (w_sum Summation l); [by left| |by apply sizes_le|done|done].
        eapply covers_all; [|right; right; by split_and!]. by apply (nary_num_Forall l TReal).
      - rewrite bool_decide_eq_false_2 by done. apply (w_sum Multiplication l); [by right| |by apply sizes_le|done|done].
        eapply covers_all; [|right; right; by split_and!]. by apply (nary_num_Forall l TReal).
      - assert (typeof a = Some TReal /\ typeof b = Some TReal) as [Ta Tb].
        { pose proof (typed_minus a b (typed_some _ _ Ht)) as (t & Hnt & Ta & Tb). cbn in Ht. rewrite Ta, Tb in Ht. by destruct t. }
        assert (typeof (TimesN [b; RealC (qz (-1))]) = Some TReal) as Tm by (cbn; by rewrite Tb).
        assert (typeof (PlusN [a; TimesN [b; RealC (qz (-1))]]) = Some TReal) as Tp.
        { change (nary_num [typeof a; typeof (TimesN [b; RealC (qz (-1))])] = Some TReal). by rewrite Ta, Tm. }
        eapply w_res; [unfold minus_expand; rewrite Tb, (chk_some _ _ Tm); cbn [rbind]; exact (chk_some _ _ Tp)|].
        apply (w_via recw KWeight (MinusN a b) (PlusN [a; TimesN [b; RealC (qz (-1))]])); try done.
        + split; [|done]. apply wf_plus; [done|]. repeat constructor; done.
        + cbn in Hn |- *. lia.
        + intros e. cbn. destruct (eval_num_typed e a TReal Ta eq_refl) as [->|[x ->]]; [done|]. cbn.
          destruct (eval_num_typed e b TReal Tb eq_refl) as [->|[y ->]]; [done|]. cbn. do 2 f_equal.
          replace (qz (-1)) with (- (1))%Qc by (apply Qc_is_canon; reflexivity). ring.
        + intros e Ho. unfold off_tests in *. cbn in *. by rewrite !app_nil_r.
      - assert (typeof a = Some TReal) as Ta.
        { change (nary_num (map typeof [a; RealC (qn m)]) = Some TReal) in Ht. apply nary_num_Forall in Ht as (_ & _ & Hall). by inversion Hall. }
        cbn in Hn. eapply w_bind; [apply (HW p c a); [done|done|by split|lia]|]. cbn beta. intros q c' r Hq Hx Hc' Hr.
        destruct r as [i|]; [|done]. destruct Hr as [Hi Hv].
        assert (forall e v, off_tests e (PowN a (RealC (qn m))) -> eval e (PowN a (RealC (qn m))) = Some (VN v) ->
          exists x, denotes (p_nodes q) e i x /\ v = qpow x m) as Hval.
        { intros e v Ho He. cbn [eval] in He. destruct (eval_num_typed e a TReal Ta eq_refl) as [E1|[x E1]]; rewrite E1 in He; cbn in He; [done|].
          exists x. split.
          - apply Hv; [|done]. unfold off_tests in *. cbn in Ho. by rewrite app_nil_r in Ho.
          - unfold nat_of_qc in He. destruct (qn_num m) as [-> ->] in He. cbn in He.
            destruct (0 <=? Z.of_nat m)%Z eqn:Em; cbn in He; [|done]. rewrite Nat2Z.id in He. by injection He. }
        cbn [const_val]. destruct (qn_num m) as [-> ->]. cbn [Pos.eqb negb].
        destruct (Z.of_nat m =? 0)%Z eqn:Ez.
        + apply Z.eqb_eq in Ez. assert (m = 0) as -> by lia. apply w_lift; [done|done|]. apply m_get. apply m_ret; [done|].
          split; [by apply bnode_wnode, bnode_one|]. intros e v Ho He. destruct (Hval e v Ho He) as (x & _ & ->). cbn.
          apply (denotes_one A simp den HA); [by apply HI_inv|done].
        + apply Z.eqb_neq in Ez. destruct (Z.to_nat (Z.of_nat m - 1)) as [|m'] eqn:Em.
          * assert (m = 1) as -> by lia. apply w_ret; [done|done|]. split; [done|]. intros e v Ho He.
            destruct (Hval e v Ho He) as (x & Hdx & ->). cbn. by rewrite Qcmult_1_r.
          * assert (m = S (S m')) as -> by lia. apply w_lift; [done|done|].
            eapply m_bind; [apply (m_node q i (fun q' j => q' = q /\ j = i)); done|]. cbn beta. intros ? ? _ _ [-> ->].
            eapply m_bind; [by apply m_power|]. cbn beta. intros q2 j Hq2 Hx2 [Hj Hvj]. apply m_ret; [done|].
            split; [done|]. intros e v Ho He. destruct (Hval e v Ho He) as (x & Hdx & ->). by apply (Hvj e x x).
      - assert (typeof cc = Some TBool /\ typeof a = Some TReal /\ typeof b = Some TReal) as (Tc & Ta & Tb).
        { pose proof (typed_ite cc a b (typed_some _ _ Ht)) as (Tc & Tab & _). cbn in Ht. rewrite Tc, <- Tab in Ht.
          rewrite !bool_decide_eq_true_2 in Ht by done. cbn in Ht. by rewrite <- Tab, Ht. }
        cbn in Hn.
        eapply w_bind; [apply (HB p c cc); [done|done|by split|lia]|]. cbn beta. intros q1 c1 rc Hq1 Hx1 Hc1 Hrc.
        eapply w_bind; [apply (HW q1 c1 a); [done|done|by split|lia]|]. cbn beta. intros q2 c2 ra Hq2 Hx2 Hc2 Hra.
        eapply w_bind; [apply (HW q2 c2 b); [done|done|by split|lia]|]. cbn beta. intros q3 c3 rb Hq3 Hx3 Hc3 Hrb.
        apply (holds_ext q1 q3) in Hrc; [|done|by eapply ext_trans]. apply (holds_ext q2 q3) in Hra; [|done|done].
        destruct rc as [ic|]; [|done]. destruct ra as [ia|]; [|done]. destruct rb as [ib|]; [|done].
        destruct Hrc as [Hic Vc]. destruct Hra as [Hia Va]. destruct Hrb as [Hib Vb].
        apply w_lift; [done|done|].
        eapply m_bind; [apply (m_node q3 ic (fun q' j => q' = q3 /\ j = ic)); done|]. cbn beta. intros ? ? _ _ [-> ->].
        eapply m_bind; [apply (m_node q3 ia (fun q' j => q' = q3 /\ j = ia)); done|]. cbn beta. intros ? ? _ _ [-> ->].
        eapply m_bind; [apply m_arith; [by right|done|by apply bnode_wnode|done]|]. cbn beta. intros q4 t Hq4 Hx4 [Ht4 Vt].
        pose proof (bnode_ext q3 q4 ic Hq3 Hx4 Hic) as Hic4.
        eapply m_bind; [by apply m_invert|]. cbn beta. intros q5 nc Hq5 Hx5 [Hnc Vnc].
        eapply m_bind; [apply (m_node q5 ib (fun q' j => q' = q5 /\ j = ib)); done|]. cbn beta. intros ? ? _ _ [-> ->].
        pose proof (wnode_ext q3 q5 ib Hq3 (ext_trans _ _ _ Hx4 Hx5) Hib) as Hib5.
        eapply m_bind; [apply m_arith; [by right|done|by apply bnode_wnode|done]|]. cbn beta. intros q6 g Hq6 Hx6 [Hg6 Vg].
        pose proof (wnode_ext q4 q6 t Hq4 (ext_trans _ _ _ Hx5 Hx6) Ht4) as Ht6.
        eapply m_bind; [apply m_arith; [by left|done|done|done]|]. cbn beta. intros q7 r Hq7 Hx7 [Hr7 Vr].
        apply m_ret; [done|]. split; [done|]. intros e v Ho He.
        unfold off_tests in Ho. cbn in Ho. apply off_app in Ho as [Ho1 Ho2]. apply off_app in Ho2 as [Ho2 Ho3].
        cbn [eval] in He. destruct (eval_bool_typed e cc Tc) as [E1|[x E1]]; rewrite E1 in He; cbn in He; [done|].
        destruct (eval_num_typed e a TReal Ta eq_refl) as [E2|[y E2]]; rewrite E2 in He; cbn in He; [done|].
        destruct (eval_num_typed e b TReal Tb eq_refl) as [E3|[z E3]]; rewrite E3 in He; cbn in He; [done|]. injection He as <-.
        specialize (Vc e x Ho1 E1). specialize (Va e y Ho2 E2). specialize (Vb e z Ho3 E3).
        assert (denotes (p_nodes q4) e t (b2q x * y)%Qc) as D1 by (apply Vt; by eapply ext_denotes).
        assert (denotes (p_nodes q5) e nc (b2q (negb x))) as D2 by (apply Vnc; by eapply ext_denotes).
        assert (denotes (p_nodes q6) e g (b2q (negb x) * z)%Qc) as D3.
        { apply Vg; [by eapply ext_denotes|]. apply (ext_denotes den q3 q6); [|done]. eapply ext_trans; [exact Hx4|]. by eapply ext_trans. }
        replace (if x then y else z) with (b2q x * y + b2q (negb x) * z)%Qc by (destruct x; cbn; ring).
        apply Vr; [|by eapply ext_denotes]. apply (ext_denotes den q4 q7); [|done]. eapply ext_trans; [exact Hx5|]. by eapply ext_trans.
    Qed.
  End Methods.

  Lemma tx_ok n : forall k, rec_ok (tx A flat is_one is_zero simp n (kmode k)) k n.
  Proof.
    induction n as [|n IH]; intros k p c f Hp Hc Hf Hn; [pose proof (txsize_pos f); lia|].
    destruct (dget c (f, kmode k)) as [r|] eqn:Er.
    - exists p, c, r. cbn [tx]. rewrite Er. split; [done|]. split; [done|]. split; [apply ext_refl|]. split; [done|].
      destruct (Hc _ _ _ Er) as (k' & Hk & Hf' & Hr). by rewrite (covers_kind k k' f).
    - assert (wok p c (dispatch (tx_walker A flat is_one is_zero simp (kmode k) (tx A flat is_one is_zero simp n true))
        (tx A flat is_one is_zero simp n (kmode k)) f) (fun q r => holds q k f r)) as (q & c' & r & Hr & Hq & Hx & Hc' & Hh).
      { destruct k; cbn [kmode].
        - apply (dispatch_bool n _ (IH KBool) (IH KTerm)); try done.
        - apply (dispatch_term n _ (IH KTerm)); try done.
        - apply (dispatch_weight n _ (tx A flat is_one is_zero simp n false) (IH KBool) (IH KWeight)); try done. }
      exists q, (dset c' (f, kmode k) r), r. cbn [tx]. rewrite Er. unfold mbind. rewrite Hr. split; [done|]. split; [done|].
      split; [done|]. split; [|done]. intros g mode r'. rewrite dget_dset. destruct (decide _) as [Heq|]; [|apply Hc'].
      intros [= <-]. injection Heq as <- <-. exists k. done.
  Qed.

  Lemma translate_ok k f p : HI p -> covers k f ->
    mok p (translate A flat is_one is_zero simp (kmode k) f) (fun q r => holds q k f r).
  Proof.
    intros Hp Hf. destruct (tx_ok (txsize f) k p [] f Hp) as (q & c & r & Hr & Hq & Hx & _ & Hh); [done|done|lia|].
    exists q, r. unfold translate, mbind. by rewrite Hr.
  Qed.

End Tox.
