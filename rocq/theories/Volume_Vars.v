(** Lemmas for C51: the diagram that is left when every variable is integrated out is a leaf. *)

From Verif Require Import Base Dict Smt Smt_Facts Math_Model Math_Spec Poly_Proofs Arith_Proofs Linear_Proofs
  Walk_Model Piecewise_Spec Domain_Model Domain_Spec Domain_Proofs Integral_Spec Integral_Proofs Xadd_Model Resolve_Model Xadd_Spec
  Resolve_Spec Xadd_Proofs Xwalk_Proofs Resolve_Bounds Resolve_Proofs Xhist_Proofs Xreq_Proofs Toxadd_Model Toxadd_Spec
  Toxadd_Proofs Volume_Model Volume_Spec Volume_Proofs Xvars_Proofs.

Lemma free_vars_syms f : free_vars f = syms f.
Proof. reflexivity. Qed.
Lemma chk_ok f g : chk f = Ok g -> g = f /\ exists t, typeof f = Some t.
Proof. unfold chk. destruct (typeof f) as [t|] eqn:E; [|done]. intros [= <-]. eauto. Qed.

Section Tox.
  Context {E : Type} `{EqDecision E} (A : alg E) (flat : E -> E) (is_one is_zero : E -> Res bool) (simp : fm -> fm)
    (solve : list fm -> fm -> bool) (X : resolver E) (den : E -> env -> option Qc).
  Context (HX : sound_externals A flat simp solve den) (HE : resolve_externals simp X den)
    (HC : folds simp) (HN : adds_none simp).
  Notation inv := (inv A simp den).
  Notation vinv := (vinv X).
  Notation serve := (serve A flat is_one is_zero simp solve X).
  Notation history := (history A flat is_one is_zero simp solve X).
  Notation HI := (HI A flat is_one is_zero simp solve X).
  Notation W := (@W E).

  (** ** Histories *)
  Lemma others_vinv root p q : inv p -> vinv p -> ext p q -> others root p q -> vinv q.
  Proof. intros Hi Hv Hx [Ho _]. by apply (vinv_frame A simp X den p). Qed.

  Lemma history_vinv bad p : history bad p -> vinv p.
  Proof.
    induction 1 as [ordering|bad p r Hh IH Hty Hm].
    { destruct HX as [HA HF HS HT HV]. destruct (new_pool_ok A simp den HA ordering) as (_ & _ & _ & Hn). intros v id ub lb r. by rewrite Hn. }
    pose proof (hv_inv _ _ _ _ _ _ (history_hinv A flat is_one is_zero simp solve X den HX bad p Hh)) as Hi.
    destruct HX as [HA HF HS HT HV].
    assert (forall a, mentions r = [a] -> dlt (p_nodes p) a) as Hm1 by (intros a Ha; apply Hm; rewrite Ha; by apply elem_of_list_singleton).
    assert (forall a b, mentions r = [a; b] -> dlt (p_nodes p) a /\ dlt (p_nodes p) b) as Hm2.
    { intros a b Ha. split; apply Hm; rewrite Ha; apply elem_of_cons; [by left|right; by apply elem_of_list_singleton]. }
    destruct r as [x|f ct cf|f|op a b|a|fast a|vt vi a|s v ub lb a|s v a]; cbn [Xadd_Spec.serve mentions well_typed] in *.
    - destruct (terminal_ok A simp den p x Hi) as (q & i & -> & Iq & Hx & [_ Hf] & Hn). by apply (vinv_frame A simp X den p).
    - destruct (Hm2 _ _ eq_refl) as [Dt Df].
      assert (askable (mkdec f)) as Had by (right; by exists f).
      pose proof (internal_inv A simp den HS p (mkdec f) ct cf Hi Had Dt Df) as Hin.
      destruct (internal simp (mkdec f) ct cf p) as [q res]. destruct Hin as (Iq & Hx & [_ Hf] & _). by apply (vinv_frame A simp X den p).
    - assert (askable (mkdec f)) as Had by (right; by exists f).
      pose proof (bool_test_any A simp den HA HS p (mkdec f) Hi Had) as Hin.
      destruct (bool_test simp (mkdec f) p) as [q res]. destruct Hin as (Iq & Hx & [_ Hf] & _). by apply (vinv_frame A simp X den p).
    - destruct (Hm2 _ _ eq_refl) as [Da Db]. pose proof (apply_ok A flat simp den HA HF HS op p a b Hi Da Db) as Hin.
      destruct (apply A flat simp op a b p) as [q res]. destruct Hin as (Iq & Hx & [_ Hf] & _). by apply (vinv_frame A simp X den p).
    - pose proof (invert_any A flat is_one is_zero simp den HA HF HS p a Hi (Hm1 _ eq_refl)) as Hin.
      destruct (Xadd_Model.invert A flat is_one is_zero simp a p) as [q res]. destruct Hin as (Iq & Hx & Ho & _). by apply (others_vinv a p).
    - destruct (reduce_ok A simp solve den HS HV fast p a Hi (Hm1 _ eq_refl)) as (q & i & -> & Iq & Hx & [_ Hf] & _).
      by apply (vinv_frame A simp X den p).
    - pose proof (pure_walk_any A simp den vt vi p a Hi) as Hin.
      destruct (pure_walk vt vi a p) as [q res]. cbn in Hin. destruct Hin as (Iq & Hx & _ & Ho). by apply (others_vinv a p).
    - pose proof (resolve_over A flat simp solve X den HA HF HS HT HV HE HC HN s v (S a) p ub lb a (conj Hi IH)) as Hr.
      unfold vok in Hr. unfold resolve. destruct (resolve_fuel A flat simp solve X (S a) s v ub lb a p) as [q res].
      destruct Hr as ([_ Rq] & _); [intros f ->; apply Hty; by left|intros f ->; apply Hty; by right|by apply Hm1|lia|done].
    - pose proof (integrate_over A flat simp solve X den HA HF HS HT HV HE HC HN s v p a (conj Hi IH) (Hm1 _ eq_refl)) as Hr.
      unfold vok in Hr. destruct (integrate A flat simp solve X s v a p) as [q res]. by destruct Hr as ([_ Rq] & _).
  Qed.

  (** ** The translation *)

  (** The tests are over the variables of [f]. *)
  Definition of_vars (q : pool E) (f : fm) (i : nat) : Prop :=
    dlt (p_nodes q) i /\ tested q (over (fun x => x ∈ free_vars f)) i.
  Definition of_res (q : pool E) (f : fm) (r : wres) : Prop :=
    match r with WNode i => of_vars q f i | WTerm g => forall x, x ∈ free_vars g -> x ∈ free_vars f end.

  Notation HIi := (HI_inv A flat is_one is_zero simp solve X den HX).
  Lemma of_vars_ext p q f i : HI p -> ext p q -> of_vars p f i -> of_vars q f i.
  Proof. intros Hp Hx [D T]. split; [by eapply ext_dlt|]. eapply (tested_up A simp den p q); [by apply HIi|done..]. Qed.
  Lemma of_res_ext p q f r : HI p -> ext p q -> of_res p f r -> of_res q f r.
  Proof. intros Hp Hx. destruct r; [by apply of_vars_ext|done]. Qed.
  Lemma of_vars_mono q f g i : (forall x, x ∈ free_vars f -> x ∈ free_vars g) -> of_vars q f i -> of_vars q g i.
  Proof. intros Hfg [D T]. split; [done|]. eapply tested_mono; [|exact T]. intros t. by apply over_mono. Qed.
  Lemma of_res_mono q f g r : (forall x, x ∈ free_vars f -> x ∈ free_vars g) -> of_res q f r -> of_res q g r.
  Proof. intros Hfg. destruct r; [by apply of_vars_mono|]. cbn. auto. Qed.
  Lemma of_leaf q f i x : dget (p_nodes q) i = Some (TNode x) -> of_vars q f i.
  Proof. intros Hn. split; [by eexists|by eapply tested_leaf]. Qed.
  Lemma of_zero q f : HI q -> of_vars q f (p_zero q).
  Proof. intros Hq. eapply of_leaf. eapply iv_zero. by apply HIi. Qed.
  Lemma of_one q f : HI q -> of_vars q f (p_one q).
  Proof. intros Hq. eapply of_leaf. eapply iv_one. by apply HIi. Qed.

  (** Steps that succeed. *)
  Definition mpok {B} (p : pool E) (m : M E B) (Q : pool E -> B -> Prop) : Prop :=
    forall q b, m p = (q, Ok b) -> HI q /\ ext p q /\ Q q b.
  Lemma mp_ret {B} p (b : B) (Q : pool E -> B -> Prop) : HI p -> Q p b -> mpok p (mret b) Q.
  Proof. intros Hp HQ q b' [= <- <-]. split; [done|]. split; [apply ext_refl|done]. Qed.
  Lemma mp_bind {B C} p (m : M E B) (k : B -> M E C) (Q : pool E -> B -> Prop) (R : pool E -> C -> Prop) : mpok p m Q ->
    (forall q b, HI q -> ext p q -> Q q b -> mpok q (k b) R) -> mpok p (mbind m k) R.
  Proof.
    intros Hm Hk q c. unfold mbind. destruct (m p) as [q1 [b|x]] eqn:Em; [|done]. intros Hkq.
    destruct (Hm q1 b Em) as (H1 & X1 & HQ). destruct (Hk q1 b H1 X1 HQ q c Hkq) as (H2 & X2 & HR).
    split; [done|]. split; [by eapply ext_trans|done].
  Qed.
  Lemma mp_mono {B} p (m : M E B) (Q R : pool E -> B -> Prop) : mpok p m Q ->
    (forall q b, HI q -> ext p q -> Q q b -> R q b) -> mpok p m R.
  Proof. intros Hm HR q b Hb. destruct (Hm q b Hb) as (? & ? & ?). auto. Qed.
  Lemma mp_get {C} p (k : pool E -> M E C) (R : pool E -> C -> Prop) : mpok p (k p) R -> mpok p (mbind mget k) R.
  Proof. done. Qed.
  Lemma mp_err {B} p x (Q : pool E -> B -> Prop) : mpok p (merr x) Q.
  Proof. by intros q b. Qed.
  Lemma mp_serve p r (Q : pool E -> nat -> Prop) : HI p -> well_typed r -> (forall a, a ∈ mentions r -> dlt (p_nodes p) a) ->
    (forall q i, serve r p = (q, Ok i) -> HI q -> ext p q -> Q q i) -> mpok p (serve r) Q.
  Proof.
    intros Hp Hty Hm HQ q i Hs. destruct (step_ok A flat is_one is_zero simp solve X den HX r p q i Hp Hty Hm Hs) as [Hq Hx].
    split; [done|]. split; [done|]. by apply HQ.
  Qed.

  Lemma mp_terminal p x f : HI p -> mpok p (terminal x) (fun q i => of_vars q f i).
  Proof.
    intros Hp. apply (mp_serve p (TerminalR x)); [done|done|by intros a ?%elem_of_nil|]. cbn [Xadd_Spec.serve]. intros q i Hs Hq Hx.
    destruct (terminal_ok A simp den p x (HIi p Hp)) as (q' & i' & Hs' & _ & _ & _ & Hn). rewrite Hs' in Hs. injection Hs as <- <-.
    by eapply of_leaf.
  Qed.
  Lemma mp_test p f : HI p -> typeof f = Some TBool -> simple f -> mpok p (bool_test simp (mkdec f)) (fun q i => of_vars q f i).
  Proof.
    intros Hp Hty Hf. pose proof (HIi p Hp) as Hi.
    apply (mp_serve p (BoolTestR f)); [done|done|by intros a ?%elem_of_nil|]. cbn [Xadd_Spec.serve]. intros q i Hs Hq Hx.
    destruct HX as [HA HF HS HT HV].
    pose proof (bool_test_any A simp den HA HS p (mkdec f) Hi (or_intror (ex_intro _ f (conj eq_refl Hty)))) as Hb.
    rewrite Hs in Hb. destruct Hb as (_ & _ & _ & Hb & _). destruct (Hb i eq_refl) as (Di & _ & _). split; [done|].
    unfold bool_test, mbind, mget in Hs.
    eapply (internal_over A simp den HS HC p f (p_one p) (p_zero p)); [done|done|eexists; by eapply iv_one|eexists; by eapply iv_zero|exact Hs|done|done|..].
    - rewrite <- (ex_one _ _ Hx). apply (of_one q f Hq).
    - rewrite <- (ex_zero _ _ Hx). apply (of_zero q f Hq).
  Qed.
  Lemma mp_apply p op a b f : HI p -> of_vars p f a -> of_vars p f b -> mpok p (apply A flat simp op a b) (fun q i => of_vars q f i).
  Proof.
    intros Hp Ha Hb. pose proof (HIi p Hp) as Hi. apply (mp_serve p (ApplyR op a b)); [done|done| |].
    { cbn. intros c. rewrite !elem_of_cons, elem_of_nil. intros [->|[->|[]]]; [apply Ha|apply Hb]. }
    cbn [Xadd_Spec.serve]. intros q i Hs Hq Hx. pose proof HX as [HA HF HS HT HV].
    pose proof (apply_ok A flat simp den HA HF HS op p a b Hi (proj1 Ha) (proj1 Hb)) as Hap. rewrite Hs in Hap.
    destruct Hap as (_ & _ & _ & _ & _ & Dr & _ & _ & Hsh & _). split; [done|].
    apply Hsh; [apply (of_vars_ext p q f a)|apply (of_vars_ext p q f b)]; done.
  Qed.
  Lemma mp_invert p a f : HI p -> of_vars p f a -> mpok p (invert A flat is_one is_zero simp a) (fun q i => of_vars q f i).
  Proof.
    intros Hp Ha. pose proof (HIi p Hp) as Hi. apply (mp_serve p (InvertR a)); [done|done| |].
    { cbn. intros c. rewrite elem_of_cons, elem_of_nil. intros [->|[]]. apply Ha. }
    cbn [Xadd_Spec.serve]. intros q i Hs Hq Hx.
    assert (profile_ready p a) as Hr.
    { destruct Hp as [Hh _]. apply (history_hinv A flat is_one is_zero simp solve X den HX [] p Hh). by intros ?%elem_of_nil. }
    pose proof HX as [HA HF HS HT HV].
    pose proof (invert_walk A flat is_one is_zero simp den HA HF HS p a Hi (proj1 Ha) Hr) as Hw.
    pose proof (invert_any A flat is_one is_zero simp den HA HF HS p a Hi (proj1 Ha)) as Hy.
    rewrite Hs in Hw, Hy. destruct Hw as (_ & [[Hsh _] _] & _). destruct Hy as (_ & _ & _ & Hd).
    split; [by apply Hd|]. apply Hsh. by apply (of_vars_ext p q f a).
  Qed.
  Lemma mp_as_node p r f : HI p -> of_res p f r -> mpok p (as_node r) (fun q i => of_vars q f i).
  Proof. intros Hp Hr. destruct r; [by apply mp_ret|apply mp_err]. Qed.
  Lemma mp_apply_all op f l : forall p a, HI p -> of_vars p f a -> Forall (of_res p f) l ->
    mpok p (apply_all A flat simp op a l) (fun q i => of_vars q f i).
  Proof.
    induction l as [|r l IH]; intros p a Hp Ha Hl; cbn [apply_all]; [by apply mp_ret|].
    inversion Hl as [|? ? Hr Hl']; subst. eapply mp_bind; [by apply mp_as_node|]. cbv beta. intros q1 i Hq1 X1 Hi.
    eapply mp_bind; [apply mp_apply; [done|by apply (of_vars_ext p q1)|exact Hi]|]. cbv beta. intros q2 c Hq2 X2 Hc.
    apply IH; [done|done|]. eapply Forall_impl; [exact Hl'|]. intros r' Hr'. eapply (of_res_ext p q2); [done|by eapply ext_trans|done].
  Qed.
  Lemma mp_times_base f n : forall p a b, HI p -> of_vars p f a -> of_vars p f b ->
    mpok p (times_base A flat simp n a b) (fun q i => of_vars q f i).
  Proof.
    induction n as [|n IH]; intros p a b Hp Ha Hb; cbn [times_base]; [by apply mp_ret|].
    eapply mp_bind; [by apply mp_apply|]. cbv beta. intros q c Hq Hx Hc. apply IH; [done|done|by apply (of_vars_ext p q)].
  Qed.

  Definition cache_vars (q : pool E) (c : list ((fm * bool) * wres)) : Prop :=
    forall f mode r, dget c (f, mode) = Some r -> of_res q f r.
  Lemma cache_vars_ext p q c : HI p -> ext p q -> cache_vars p c -> cache_vars q c.
  Proof. intros Hp Hx Hc f mode r Hr. apply (of_res_ext p q); [done|done|]. by eapply Hc. Qed.
  Definition wpok {B} (p : pool E) (c : list ((fm * bool) * wres)) (m : W B) (Q : pool E -> B -> Prop) : Prop :=
    forall q c' b, m c p = (q, Ok (c', b)) -> HI q /\ ext p q /\ cache_vars q c' /\ Q q b.
  Lemma wp_ret {B} p c (b : B) (Q : pool E -> B -> Prop) : HI p -> cache_vars p c -> Q p b -> wpok p c (wret b) Q.
  Proof. intros Hp Hc HQ q c' b' [= <- <- <-]. split; [done|]. split; [apply ext_refl|done]. Qed.
  Lemma wp_err {B} p c x (Q : pool E -> B -> Prop) : wpok p c (werr x) Q.
  Proof. by intros q c' b. Qed.
  Lemma wp_bind {B C} p c (m : W B) (k : B -> W C) (Q : pool E -> B -> Prop) (R : pool E -> C -> Prop) : wpok p c m Q ->
    (forall q c' b, HI q -> ext p q -> cache_vars q c' -> Q q b -> wpok q c' (k b) R) -> wpok p c (wbind m k) R.
  Proof.
    intros Hm Hk q c2 d. unfold wbind, mbind. destruct (m c p) as [q1 [[c1 b]|x]] eqn:Em; [|done]. intros Hkq.
    destruct (Hm q1 c1 b Em) as (H1 & X1 & C1 & HQ). destruct (Hk q1 c1 b H1 X1 C1 HQ q c2 d Hkq) as (H2 & X2 & C2 & HR).
    split; [done|]. split; [by eapply ext_trans|done].
  Qed.
  Lemma wp_lift {B} p c (m : M E B) (Q : pool E -> B -> Prop) : HI p -> cache_vars p c -> mpok p m Q -> wpok p c (wlift m) Q.
  Proof.
    intros Hp Hc Hm q c' b. unfold wlift, mbind. destruct (m p) as [q1 [b1|x]] eqn:Em; [|done]. intros [= <- <- <-].
    destruct (Hm q1 b1 Em) as (H1 & X1 & HQ). split; [done|]. split; [done|]. split; [by apply (cache_vars_ext p q1)|done].
  Qed.
  Lemma wp_res {B} p c (r : Res B) : HI p -> cache_vars p c -> wpok p c (wres_of r) (fun _ b => r = Ok b).
  Proof.
    intros Hp Hc. unfold wres_of. apply wp_lift; [done|done|]. intros q b. unfold mlift. intros [= <- Hb].
    split; [done|]. split; [apply ext_refl|done].
  Qed.
  Lemma wp_mono {B} p c (m : W B) (Q R : pool E -> B -> Prop) : wpok p c m Q -> (forall q b, HI q -> ext p q -> Q q b -> R q b) -> wpok p c m R.
  Proof. intros Hm HR q c' b Hb. destruct (Hm q c' b Hb) as (? & ? & ? & ?). auto. Qed.

  Section Cases.
    Context (rec : fm -> W wres).
    Context (Hrec : forall f p c, HI p -> cache_vars p c -> wpok p c (rec f) (fun q r => of_res q f r)).

    Lemma wp_rec f g p c : HI p -> cache_vars p c -> (forall x, x ∈ free_vars g -> x ∈ free_vars f) ->
      wpok p c (rec g) (fun q r => of_res q f r).
    Proof. intros Hp Hc Hfg. eapply wp_mono; [by apply Hrec|]. cbv beta. intros q r _ _. by apply of_res_mono. Qed.
    Lemma wp_multiple f l : forall p c, HI p -> cache_vars p c -> (forall g, g ∈ l -> forall x, x ∈ free_vars g -> x ∈ free_vars f) ->
      wpok p c (walk_multiple rec l) (fun q rs => Forall (of_res q f) rs).
    Proof.
      induction l as [|g l IH]; intros p c Hp Hc Hl; cbn [walk_multiple]; [by apply wp_ret|].
      eapply wp_bind; [apply (wp_rec f g); [done|done|apply Hl; by left]|]. cbv beta. intros q1 c1 r Hq1 X1 C1 Hr.
      eapply wp_bind; [apply IH; [done|done|intros g' Hg'; apply Hl; by right]|]. cbv beta. intros q2 c2 rs Hq2 X2 C2 Hrs.
      apply wp_ret; [done|done|]. constructor; [by apply (of_res_ext q1 q2)|done].
    Qed.
    Lemma wp_nary f l op (init : pool E -> nat) p c : HI p -> cache_vars p c ->
      (forall q, HI q -> of_vars q f (init q)) -> (forall g, g ∈ l -> forall x, x ∈ free_vars g -> x ∈ free_vars f) ->
      wpok p c (wbind (walk_multiple rec l) (fun rs =>
        wlift (do! p := mget in do! i := apply_all A flat simp op (init p) rs in mret (WNode i)))) (fun q r => of_res q f r).
    Proof.
      intros Hp Hc Hin Hl. eapply wp_bind; [by apply (wp_multiple f l)|]. cbv beta. intros q1 c1 rs Hq1 X1 C1 Hrs.
      apply wp_lift; [done|done|]. apply mp_get. eapply mp_bind; [apply (mp_apply_all op f); [done|by apply Hin|exact Hrs]|]. cbv beta.
      intros q2 i Hq2 X2 Hi. by apply mp_ret.
    Qed.

    Lemma fv_list (l : list fm) (g : fm) x : g ∈ l -> x ∈ free_vars g -> x ∈ concat (map free_vars l).
    Proof. intros Hg Hx. apply elem_of_concat. exists (free_vars g). split; [done|]. apply elem_of_list_fmap. by exists g. Qed.
    Lemma fv_mk (l : list fm) (g : fm) x : (g = AndN l \/ g = OrN l \/ g = PlusN l \/ g = TimesN l \/ l = [g]) -> x ∈ free_vars g -> x ∈ concat (map free_vars l).
    Proof. intros [->|[->|[->|[->|E1]]]]; try done. subst l. cbn. by rewrite app_nil_r. Qed.
    Lemma fv_mkAnd l x : x ∈ free_vars (mkAnd l) -> x ∈ concat (map free_vars l).
    Proof. destruct l as [|a [|b l]]; [done|apply fv_mk; tauto|done]. Qed.
    Lemma fv_mkOr l x : x ∈ free_vars (mkOr l) -> x ∈ concat (map free_vars l).
    Proof. destruct l as [|a [|b l]]; [done|apply fv_mk; tauto|done]. Qed.
    Lemma fv_mkPlus l g x : mkPlus l = Ok g -> x ∈ free_vars g -> x ∈ concat (map free_vars l).
    Proof. destruct l as [|a [|b l]]; [done| |]; cbn [mkPlus]; intros [= <-]; apply fv_mk; tauto. Qed.
    Lemma fv_mkTimes l g x : mkTimes l = Ok g -> x ∈ free_vars g -> x ∈ concat (map free_vars l).
    Proof. destruct l as [|a [|b l]]; [done| |]; cbn [mkTimes]; intros [= <-]; apply fv_mk; tauto. Qed.

    Context (recb : fm -> W wres).
    Context (Hrecb : forall f p c, HI p -> cache_vars p c -> wpok p c (recb f) (fun q r => of_res q f r)).

    Lemma wp_test f g p c : HI p -> cache_vars p c -> typeof g = Some TBool -> simple g ->
      (forall x, x ∈ free_vars g -> x ∈ free_vars f) ->
      wpok p c (wlift (do! i := bool_test simp (mkdec g) in mret (WNode i))) (fun q r => of_res q f r).
    Proof.
      intros Hp Hc Hty Hg Hfg. apply wp_lift; [done|done|]. eapply mp_bind; [by apply mp_test|]. cbv beta.
      intros q i Hq _ Hi. apply mp_ret; [done|]. cbn. by eapply of_vars_mono.
    Qed.
    Lemma wp_terminal f y p c : HI p -> cache_vars p c ->
      wpok p c (wlift (do! i := terminal y in mret (WNode i))) (fun q r => of_res q f r).
    Proof.
      intros Hp Hc. apply wp_lift; [done|done|]. eapply mp_bind; [by apply (mp_terminal p y f)|]. cbv beta.
      intros q i Hq _ Hi. by apply mp_ret.
    Qed.

    Lemma wp_dispatch mode f p c : HI p -> cache_vars p c ->
      wpok p c (dispatch (tx_walker A flat is_one is_zero simp mode recb) rec f) (fun q r => of_res q f r).
    Proof.
      intros Hp Hc.
      destruct f as [x t|b|y|z|l|l|a|a b|a b|cnd a b|l|a b|l|a b|a b|a b|a b|a|a];
        cbn [dispatch tx_walker w_and w_or w_plus w_minus w_times w_not w_ite w_pow w_lte w_lt w_equals w_symbol w_const w_cannot].
      all: try apply wp_err.
      - destruct mode; [|by apply wp_terminal]. destruct (bool_decide_reflect (t = TBool)) as [->|Ht].
        + apply wp_test; [done|done|done|right; left; by exists x|done].
        + apply wp_ret; [done|done|]. by cbn.
      - destruct mode; [|apply wp_err]. apply wp_test; [done|done|done|left; by exists b|done].
      - destruct mode; [apply wp_ret; [done|done|by cbn]|by apply wp_terminal].
      - destruct mode; [apply wp_err|by apply wp_terminal].
      - destruct mode; [|apply wp_err]. apply (wp_nary (AndN l) l LogicalAnd (@p_one E)); [done|done|intros; by apply of_one|].
        intros g Hg x. by apply fv_list.
      - destruct mode; [|apply wp_err]. apply (wp_nary (OrN l) l LogicalOr (@p_zero E)); [done|done|intros; by apply of_zero|].
        intros g Hg x. by apply fv_list.
      - destruct mode; [|apply wp_err]. eapply wp_bind; [by apply (wp_rec (NotN a) a)|]. cbv beta. intros q1 c1 r Hq1 X1 C1 Hr.
        apply wp_lift; [done|done|]. eapply mp_bind; [apply (mp_as_node q1 r (NotN a)); [done|exact Hr]|]. cbv beta. intros q2 i Hq2 X2 Hi2.
        eapply mp_bind; [by apply (mp_invert q2 i (NotN a))|]. cbv beta. intros q3 j Hq3 X3 Hj. by apply mp_ret.
      - apply (wp_rec (ImpN a b)); [done|done|]. intros x Hx. unfold imp_expand in Hx. apply fv_mkOr in Hx. cbn in Hx. rewrite app_nil_r, free_vars_mkNot in Hx. by cbn.
      - destruct mode; [|apply wp_err]. apply (wp_nary (IffN a b) [ImpN a b; ImpN b a] LogicalAnd (@p_one E)); [done|done|intros; by apply of_one|].
        intros g Hg x. rewrite !elem_of_cons, elem_of_nil in Hg. cbn. destruct Hg as [->|[->|[]]]; cbn; rewrite !elem_of_app; tauto.
      - destruct mode.
        + eapply wp_bind; [by apply wp_res|]. cbv beta. intros q1 c1 g Hq1 X1 C1 Hg. apply (wp_rec (IteN cnd a b)); [done|done|].
          unfold ite_expand in Hg. destruct (chk (mkAnd [cnd; a])) as [ca|] eqn:E1; [|done]. cbn [rbind] in Hg.
          destruct (chk (NotN cnd)) as [nc|] eqn:E2; [|done]. cbn [rbind] in Hg.
          destruct (chk (mkAnd [mkNot cnd; b])) as [cb|] eqn:E3; [|done]. cbn [rbind] in Hg.
          apply chk_ok in E1 as [-> _]. apply chk_ok in E3 as [-> _]. apply chk_ok in Hg as [-> _].
          intros x Hx. cbn in Hx |- *. rewrite !app_nil_r, free_vars_mkNot in Hx. rewrite !elem_of_app in *. tauto.
        + eapply wp_bind; [by apply Hrecb|]. cbv beta. intros q1 c1 rc Hq1 X1 C1 Hrc.
          eapply wp_bind; [apply (wp_rec (IteN cnd a b) a); [done|done|intros x Hx; cbn; rewrite !elem_of_app; tauto]|].
          cbv beta. intros q2 c2 ra Hq2 X2 C2 Hra.
          eapply wp_bind; [apply (wp_rec (IteN cnd a b) b); [done|done|intros x Hx; cbn; rewrite !elem_of_app; tauto]|].
          cbv beta. intros q3 c3 rb Hq3 X3 C3 Hrb.
          assert (of_res q3 (IteN cnd a b) rc) as Hrc3.
          { eapply of_res_mono; [|eapply (of_res_ext q1 q3); [done|by eapply ext_trans|exact Hrc]]. intros x Hx. cbn. rewrite !elem_of_app. tauto. }
          apply (of_res_ext q2 q3) in Hra; [|done..]. clear Hrc.
          set (f := IteN cnd a b) in *. clearbody f.
          apply wp_lift; [done|done|].
          eapply mp_bind; [apply (mp_as_node q3 rc f); [done|exact Hrc3]|]. cbv beta. intros q4 ic Hq4 X4 Hic.
          eapply mp_bind; [apply (mp_as_node q4 ra f); [done|by apply (of_res_ext q3 q4)]|]. cbv beta. intros q5 ia Hq5 X5 Hia.
          eapply mp_bind; [apply (mp_apply q5 Multiplication ic ia f); [done|by apply (of_vars_ext q4 q5)|done]|]. cbv beta. intros q6 t Hq6 X6 Ht.
          assert (ext q4 q6) as X46 by (by eapply ext_trans). assert (ext q3 q6) as X36 by (by eapply ext_trans).
          eapply mp_bind; [apply (mp_invert q6 ic f); [done|by apply (of_vars_ext q4 q6)]|]. cbv beta. intros q7 nc Hq7 X7 Hnc.
          assert (ext q3 q7) as X37 by (by eapply ext_trans).
          eapply mp_bind; [apply (mp_as_node q7 rb f); [done|by apply (of_res_ext q3 q7)]|]. cbv beta. intros q8 ib Hq8 X8 Hib.
          eapply mp_bind; [apply (mp_apply q8 Multiplication nc ib f); [done|by apply (of_vars_ext q7 q8)|done]|]. cbv beta. intros q9 ff Hq9 X9 Hff.
          assert (ext q6 q9) as X69 by (do 2 (eapply ext_trans; [eassumption|]); done).
          eapply mp_bind; [apply (mp_apply q9 Summation t ff f); [done|by apply (of_vars_ext q6 q9)|done]|]. cbv beta. intros q10 r Hq10 X10 Hr.
          by apply mp_ret.
      - destruct mode.
        + eapply wp_bind; [by apply wp_res|]. cbv beta. intros q1 c1 g Hq1 X1 C1 Hg. apply wp_ret; [done|done|]. intros x. by apply fv_mkPlus.
        + apply (wp_nary (PlusN l) l Summation (@p_zero E)); [done|done|intros; by apply of_zero|]. intros g Hg x. by apply fv_list.
      - eapply wp_bind; [by apply wp_res|]. cbv beta. intros q1 c1 g Hq1 X1 C1 Hg. apply (wp_rec (MinusN a b)); [done|done|].
        unfold minus_expand in Hg. destruct (chk (TimesN _)) as [m|] eqn:E1; [|done]. cbn [rbind] in Hg.
        apply chk_ok in E1 as [-> _]. apply chk_ok in Hg as [-> _]. intros x. destruct (typeof b) as [[]|]; cbn; by rewrite !app_nil_r.
      - destruct (bool_decide (l = [])); [apply wp_err|]. destruct mode.
        + eapply wp_bind; [by apply wp_res|]. cbv beta. intros q1 c1 g Hq1 X1 C1 Hg. apply wp_ret; [done|done|]. intros x. by apply fv_mkTimes.
        + apply (wp_nary (TimesN l) l Multiplication (@p_one E)); [done|done|intros; by apply of_one|]. intros g Hg x. by apply fv_list.
      - eapply wp_bind; [apply (wp_rec (PowN a b) a); [done|done|intros x Hx; cbn; rewrite !elem_of_app; tauto]|].
        cbv beta. intros q1 c1 ra Hq1 X1 C1 Hra. destruct (const_val b) as [y|]; [|apply wp_err].
        destruct (negb _); [apply wp_err|]. destruct (_ =? 0)%Z.
        + apply wp_lift; [done|done|]. apply mp_get. apply mp_ret; [done|]. by apply of_one.
        + destruct (Z.to_nat _) as [|n]; [by apply wp_ret|]. apply wp_lift; [done|done|].
          eapply mp_bind; [apply (mp_as_node q1 ra (PowN a b)); [done|exact Hra]|]. cbv beta. intros q2 i Hq2 X2 Hi2.
          eapply mp_bind; [by apply (mp_times_base (PowN a b))|]. cbv beta. intros q3 j Hq3 X3 Hj. by apply mp_ret.
      - destruct mode; [|apply wp_err].
        eapply wp_bind; [apply (wp_rec (LeN a b) a); [done|done|intros x Hx; cbn; rewrite !elem_of_app; tauto]|].
        cbv beta. intros q1 c1 ra Hq1 X1 C1 Hra.
        eapply wp_bind; [apply (wp_rec (LeN a b) b); [done|done|intros x Hx; cbn; rewrite !elem_of_app; tauto]|].
        cbv beta. intros q2 c2 rb Hq2 X2 C2 Hrb.
        eapply wp_bind; [by apply wp_res|]. cbv beta. intros q3 c3 g Hq3 X3 C3 Hg.
        assert (exists u w, g = LeN u w /\ chk (LeN u w) = Ok g /\ (forall x, x ∈ free_vars u -> x ∈ free_vars (LeN a b)) /\
          forall x, x ∈ free_vars w -> x ∈ free_vars (LeN a b)) as (u & w & -> & Hu & U1 & U2).
        { destruct ra as [i|ga], rb as [j|gb]; cbn [le_results] in Hg; [done|..]; pose proof (chk_ok _ _ Hg) as [-> _];
            eexists _, _; (split; [reflexivity|]); (split; [done|]); cbn [of_res] in Hra, Hrb; split; try done; by intros x ?%elem_of_nil. }
        apply wp_test; [done|done| |right; right; exists u, w; by left|intros x; cbn [free_vars]; rewrite elem_of_app; intros [?|?]; [by apply U1|by apply U2]].
        apply chk_ok in Hu as [_ [t Ht]]. cbn in Ht |- *. repeat case_match; congruence.
      - eapply wp_bind; [by apply wp_res|]. cbv beta. intros q1 c1 g Hq1 X1 C1 Hg. apply chk_ok in Hg as [-> _]. by apply (wp_rec (LtN a b)).
    Qed.
  End Cases.

  Lemma wp_tx n : forall mode f p c, HI p -> cache_vars p c ->
    wpok p c (tx A flat is_one is_zero simp n mode f) (fun q r => of_res q f r).
  Proof.
    induction n as [|n IH]; intros mode f p c Hp Hc; cbn [tx]; [apply wp_err|].
    intros q c' r. destruct (dget c (f, mode)) as [r0|] eqn:Er.
    { intros [= <- <- <-]. split; [done|]. split; [apply ext_refl|]. split; [done|]. by eapply Hc. }
    unfold mbind. destruct (dispatch (tx_walker A flat is_one is_zero simp mode (tx A flat is_one is_zero simp n true)) (tx A flat is_one is_zero simp n mode) f c p) as [q1 [[c1 r1]|x]] eqn:Ed; [|done]. intros [= <- <- <-].
    destruct (wp_dispatch (tx A flat is_one is_zero simp n mode) (IH mode) (tx A flat is_one is_zero simp n true) (IH true) mode f p c Hp Hc _ _ _ Ed)
      as (Hq1 & X1 & C1 & Hr). split; [done|]. split; [done|]. split; [|done].
    intros g m r. rewrite dget_dset. destruct (decide _) as [[= <- <-]|_]; [by intros [= <-]|apply C1].
  Qed.
  Lemma mp_translate mode f p : HI p -> mpok p (translate A flat is_one is_zero simp mode f) (fun q r => of_res q f r).
  Proof.
    intros Hp q r. unfold translate, mbind. destruct (tx A flat is_one is_zero simp (txsize f) mode f [] p) as [q1 [[c1 r1]|x]] eqn:Et; [|done]. intros [= <- <-].
    destruct (wp_tx (txsize f) mode f p [] Hp (fun g m r H => ltac:(done)) _ _ _ Et) as (? & ? & ? & ?). done.
  Qed.
  Lemma mp_product support weight p q c : HI p -> product A flat is_one is_zero simp support weight p = (q, Ok c) ->
    HI q /\ tested q (over (fun x => x ∈ free_vars support ++ free_vars weight)) c.
  Proof.
    intros Hp Hpr. set (f := MinusN support weight).
    assert (mpok p (product A flat is_one is_zero simp support weight) (fun q c => of_vars q f c)) as Hm.
    { unfold product. eapply mp_bind; [by apply mp_translate|]. cbv beta. intros q1 rt Hq1 X1 Ht.
      eapply mp_bind; [by apply mp_translate|]. cbv beta. intros q2 rw Hq2 X2 Hw.
      apply (of_res_mono q1 support f) in Ht; [|intros x Hx; cbn; rewrite elem_of_app; tauto].
      apply (of_res_mono q2 weight f) in Hw; [|intros x Hx; cbn; rewrite elem_of_app; tauto].
      eapply mp_bind; [apply (mp_as_node q2 rt f); [done|by apply (of_res_ext q1 q2)]|]. cbv beta. intros q3 t Hq3 X3 Ht3.
      eapply mp_bind; [apply (mp_as_node q3 rw f); [done|by apply (of_res_ext q2 q3)]|]. cbv beta. intros q4 w Hq4 X4 Hw4.
      apply mp_apply; [done|by apply (of_vars_ext q3 q4)|done]. }
    destruct (Hm q c Hpr) as (Hq & _ & _ & Hc). split; [done|exact Hc].
  Qed.

  (** ** The integrations *)
  Notation VI := (VI A simp X den).
  Notation RI := (RI A simp X den false).
  Notation integrate := (integrate A flat simp solve X).
  Notation integrate_all := (integrate_all A flat simp solve X).

  Lemma VI_step s v id p q r : VI p -> dlt (p_nodes p) id -> integrate s v id p = (q, Ok r) ->
    VI q /\ ext p q /\ dlt (p_nodes q) r /\
    (rs_type X v = TReal -> rs_str X v = v -> forall S, tested p (over (with_var v S)) id -> tested q (over S) r).
  Proof.
    intros Hv Hd Hi. pose proof HX as [HA HF HS HT HV].
    pose proof (integrate_over A flat simp solve X den HA HF HS HT HV HE HC HN s v p id Hv Hd) as Hok.
    unfold vok in Hok. rewrite Hi in Hok. destruct Hok as (Vq & Hx & Dr & Hr). split_and!; [done..|].
    intros Ht Hs S Hts. apply Hr; [done|done|]. apply (tested_up A simp den p q); [apply Hv|done..].
  Qed.

  Lemma reals_vars s S xs : forall p id q r, VI p -> dlt (p_nodes p) id ->
    (forall x, x ∈ xs -> rs_type X x = TReal /\ rs_str X x = x) ->
    tested p (over (fun x => (x.2 = TReal /\ x.1 ∈ xs) \/ S x)) id -> integrate_all s xs id p = (q, Ok r) ->
    VI q /\ dlt (p_nodes q) r /\ tested q (over S) r.
  Proof.
    induction xs as [|v xs IH]; intros p id q r Hv Hd Hxs Ht; cbn [Volume_Model.integrate_all].
    { intros [= <- <-]. split_and!; [done..|]. eapply tested_mono; [|exact Ht]. intros t. apply over_mono.
      intros x [[_ Hx]|Hx]; [by apply elem_of_nil in Hx|done]. }
    unfold mbind. destruct (integrate s v id p) as [q1 [r1|]] eqn:Hi; [|done].
    destruct (VI_step s v id p q1 r1 Hv Hd Hi) as (V1 & X1 & D1 & T1). destruct (Hxs v) as [Hty Hstr]; [by left|].
    apply IH; [done|done|intros x Hx; apply Hxs; by right|]. apply T1; [done|done|].
    eapply tested_mono; [|exact Ht]. intros t. apply over_mono. intros [x ty] Hx. unfold with_var. cbn in Hx |- *.
    destruct Hx as [[-> Hx]|Hx]; [|by right; right]. apply elem_of_cons in Hx as [->|Hx]; [by left|right; by left].
  Qed.

  Lemma bools_vars s S bs : forall p id q r, VI p -> RI p -> dlt (p_nodes p) id -> ordered p id ->
    (forall b, b ∈ bs -> rs_type X b = TBool) ->
    tested p (over (fun x => (x.2 = TBool /\ x.1 ∈ bs) \/ S x)) id -> integrate_all s bs id p = (q, Ok r) ->
    VI q /\ dlt (p_nodes q) r /\ tested q (over S) r.
  Proof.
    induction bs as [|v bs IH]; intros p id q r Hv HR Hd Ho Hbs Ht; cbn [Volume_Model.integrate_all].
    { intros [= <- <-]. split_and!; [done..|]. eapply tested_mono; [|exact Ht]. intros t. apply over_mono.
      intros x [[_ Hx]|Hx]; [by apply elem_of_nil in Hx|done]. }
    unfold mbind. destruct (integrate s v id p) as [q1 [r1|]] eqn:Hi; [|done].
    destruct (VI_step s v id p q1 r1 Hv Hd Hi) as (V1 & X1 & D1 & _). pose proof HX as [HA HFl HS HT' HV].
    pose proof (integrate_ok A flat simp solve X den HA HFl HS HT' HV false s v p id HR Hd) as Hok.
    unfold ok in Hok. rewrite Hi in Hok. destruct Hok as (HR1 & _ & _ & _ & _ & _ & Hsu).
    destruct (Hsu (Hbs v (elem_of_list_here _ _))) as [[Hsh Hor] Hno].
    assert (ordered q1 id) as Ho' by (apply (ordered_iff A simp den p q1); [apply HR|done|done|done]).
    apply IH; [done|done|done|by apply Hor|intros x Hx; apply Hbs; by right|].
    pose proof (Hsh _ (proj2 (tested_iff A simp den p q1 _ id (proj1 HR) X1 Hd) Ht)) as T1. specialize (Hno Ho').
    intros b d ct cf Hb Hn. destruct (T1 b d ct cf Hb Hn) as [H1 H2]. split; [|done]. intros [x ty] Hx. specialize (H1 _ Hx). cbn in H1 |- *.
    destruct H1 as [[-> H1]|H1]; [|by right]. apply elem_of_cons in H1 as [->|H1]; [|by left].
    exfalso. apply (Hno b d ct cf Hb Hn). apply good_bool_var; [|done]. by destruct (iv_node _ _ _ q1 (proj1 HR1) _ _ _ _ Hn) as (_ & _ & _ & _ & _ & Hg & _).
  Qed.

  Lemma ground_leaf (q : pool E) r : dlt (p_nodes q) r -> tested q (over (fun _ => False)) r -> exists x, dget (p_nodes q) r = Some (TNode x).
  Proof.
    intros [[x|d ct cf] Hn] Ht; [by exists x|]. exfalso. destruct (Ht r d ct cf) as [H1 H2]; [constructor|done|].
    apply H2. destruct (free_vars (d_test d)) as [|x l]; [done|]. exfalso. apply (H1 x). by left.
  Qed.

  (** All steps leave a leaf. *)
  Lemma steps_leaf s bs xs p support weight q r : HI p -> bool_formula support -> weight_formula weight -> knows_zero_one A is_one is_zero ->
    (forall b, b ∈ bs -> rs_type X b = TBool) -> (forall x, x ∈ xs -> rs_type X x = TReal /\ rs_str X x = x) ->
    (forall x t, (x, t) ∈ free_vars support ++ free_vars weight -> (t = TBool /\ x ∈ bs) \/ (t = TReal /\ x ∈ xs)) ->
    mbind (product A flat is_one is_zero simp support weight) (integrate_all s (bs ++ xs)) p = (q, Ok r) ->
    exists x, dget (p_nodes q) r = Some (TNode x).
  Proof.
    intros Hp Hs Hw HK Hbs Hxs Hfv.
    destruct (product_ok A flat is_one is_zero simp solve X den HX HE HK p support weight Hp Hs Hw) as (q1 & c & Hc & Hq1 & X1 & Dc & Oc & _).
    destruct (mp_product support weight p q1 c Hp Hc) as [_ T1].
    pose proof (HI_RI A flat is_one is_zero simp solve X den HX q1 Hq1) as HR1.
    assert (VI q1) as V1 by (split; [apply HR1|by eapply (history_vinv []), (proj1 Hq1)]).
    unfold mbind at 1. rewrite Hc, integrate_all_app. unfold mbind. destruct (integrate_all s bs c q1) as [q2 [r2|]] eqn:H2; [|done].
    destruct (bools_vars s (fun x => x.2 = TReal /\ x.1 ∈ xs) bs q1 c q2 r2) as (V2 & D2 & T2); [done|done|done|done|done| |done|].
    { eapply tested_mono; [|exact T1]. intros t. apply over_mono. intros [x ty]. apply Hfv. }
    intros H3. destruct (reals_vars s (fun _ => False) xs q2 r2 q r) as (V3 & D3 & T3); [done|done|done| |done|].
    { eapply tested_mono; [|exact T2]. intros t. apply over_mono. intros x Hx. by left. }
    by apply ground_leaf.
  Qed.
End Tox.

(** ** The value does not depend on the assignment *)

Lemma iterated_indep (F : env -> Qc -> Prop) (bs ns : list string) xs :
  (forall e e' y, (forall b, b ∈ bs -> eb e b = eb e' b) -> (forall x, x ∈ ns -> er e x = er e' x) -> F e y -> F e' y) ->
  forall e e' v, (forall b, b ∈ bs -> eb e b = eb e' b) -> (forall x, x ∈ ns -> x ∉ names_of xs -> er e x = er e' x) ->
  iterated F xs e v -> iterated F xs e' v.
Proof.
  intros HF. induction xs as [|[[x lo] hi] xs IH]; intros e e' v Hb Hx; cbn [iterated].
  { apply HF; [done|]. intros x Hin. apply Hx; [done|]. by intros ?%elem_of_nil. }
  intros Hi. eapply integral_mono; [exact Hi|]. intros t y _ _. apply IH; [done|].
  intros z Hz Hn. cbn. destruct (decide (z = x)) as [->|Hne]; [done|]. apply Hx; [done|]. cbn. rewrite elem_of_cons. naive_solver.
Qed.
Lemma worlds_agree bs : forall e e', Forall2 (fun e1 e2 => forall b, b ∈ bs -> eb e1 b = eb e2 b) (worlds bs e) (worlds bs e').
Proof.
  induction bs as [|b bs IH]; intros e e'; cbn [worlds].
  { repeat constructor. by intros b ?%elem_of_nil. }
  specialize (IH e e'). induction IH as [|e1 e2 l1 l2 H12 IH IH']; cbn [flat_map]; [constructor|]. cbn [app].
  repeat constructor; [..|exact IH']; intros b' Hb'; cbn; destruct (decide (b' = b)) as [->|Hne]; try done; apply H12;
    apply elem_of_cons in Hb' as [?|?]; done.
Qed.
Lemma wmi_indep (F : env -> Qc -> Prop) (bs ns : list string) xs :
  (forall e e' y, (forall b, b ∈ bs -> eb e b = eb e' b) -> (forall x, x ∈ ns -> er e x = er e' x) -> F e y -> F e' y) ->
  (forall x, x ∈ ns -> x ∈ names_of xs) -> forall e e' v, wmi F bs xs e v -> wmi F bs xs e' v.
Proof.
  intros HF Hns e e' v (vs & Hvs & ->). exists vs. split; [|done]. pose proof (worlds_agree bs e e') as Hw.
  revert vs Hvs. induction Hw as [|e1 e2 l1 l2 H12 Hw IH]; intros vs Hvs; inversion Hvs as [|? v0 ? vs' Hv0 Hvs']; subst; constructor; [|auto].
  apply (iterated_indep F bs ns xs HF e1 e2 v0); [done| |done]. intros x Hx Hn. exfalso. auto.
Qed.
Lemma restricted_indep d support weight : wf_domain d ->
  (forall x t, (x, t) ∈ free_vars support ++ free_vars weight -> (t = TBool /\ x ∈ names d TBool) \/ (t = TReal /\ x ∈ names d TReal)) ->
  forall e e' y, (forall b, b ∈ names d TBool -> eb e b = eb e' b) -> (forall x, x ∈ names d TReal -> er e x = er e' x) ->
    restricted (region d support) weight e y -> restricted (region d support) weight e' y.
Proof.
  intros W Hfv e e' y Hb Hx.
  assert (forall f, (f = support \/ f = weight) -> eval e f = eval e' f) as Hev.
  { intros f Hf. apply eval_agree. intros x t Hin. rewrite <- free_vars_syms in Hin.
    destruct (Hfv x t) as [[-> ?]|[-> ?]]; [|by apply Hb|by apply Hx]. apply elem_of_app. destruct Hf as [->| ->]; auto. }
  assert (forall x b, (x, b) ∈ d_doms d -> er e x = er e' x) as Hd.
  { intros x b Hin. apply Hx. assert ((x, TReal) ∈ d_types d) as Ht by (apply (wd_doms_real d W), elem_of_list_fmap; by exists (x, b)).
    apply elem_of_list_filter. split; [done|]. apply (wd_types_vars d W), elem_of_list_fmap. by exists (x, TReal). }
  assert (region d support e <-> region d support e') as HR.
  { unfold region. rewrite (Hev support) by auto. split; intros [H1 H2]; (split; [done|]); intros x b Hin; specialize (H2 x b Hin);
      [rewrite <- (Hd x b Hin)|rewrite (Hd x b Hin)]; done. }
  intros [[H1 H2]|[H1 H2]]; [left|right]; rewrite <- HR; (split; [done|]); [by rewrite <- (Hev weight) by auto|done].
Qed.

(** The bounds that compute_volume adds. *)
Lemma bounds_vars d : wf_domain d ->
  let g := mkAnd (concat (map (fun '(x, (lb, ub)) =>
        match lb with Some q => [LeN (RealC q) (Sym x TReal)] | None => [] end ++
        match ub with Some q => [LeN (Sym x TReal) (RealC q)] | None => [] end) (d_doms d))) in
  bool_formula g /\ forall x t, (x, t) ∈ free_vars g -> (x, t) ∈ d_types d.
Proof.
  intros W. cbv zeta. match goal with |- bool_formula (mkAnd ?l) /\ _ => set (l0 := l) end.
  assert (Forall (fun h => bool_formula h /\ forall x t, (x, t) ∈ free_vars h -> (x, t) ∈ d_types d) l0) as Hl.
  { apply Forall_forall. intros h (l & Hh & Hl)%elem_of_concat. apply elem_of_list_fmap in Hl as ([x [lb ub]] & -> & Hin).
    assert ((x, TReal) ∈ d_types d) as Ht by (apply (wd_doms_real d W), elem_of_list_fmap; by exists (x, (lb, ub))).
    apply elem_of_app in Hh as [Hh|Hh].
    - destruct lb as [q|]; [|by apply elem_of_nil in Hh]. apply elem_of_list_singleton in Hh as ->.
      split; [apply bf_le; [apply le_const; constructor|apply le_sym]|]. cbn. intros y t Hy. by apply elem_of_list_singleton in Hy as [= -> ->].
    - destruct ub as [q|]; [|by apply elem_of_nil in Hh]. apply elem_of_list_singleton in Hh as ->.
      split; [apply bf_le; [apply le_sym|apply le_const; constructor]|]. cbn. intros y t Hy. by apply elem_of_list_singleton in Hy as [= -> ->]. }
  clearbody l0. split.
  - destruct l0 as [|h [|h' l]]; cbn; [constructor|by inversion Hl as [|? ? [? _]]|]. apply bf_and. eapply Forall_impl; [exact Hl|]. by intros f [? _].
  - intros x t Hx%fv_mkAnd. apply elem_of_concat in Hx as (k & Hx & Hk). apply elem_of_list_fmap in Hk as (h & -> & Hh).
    rewrite Forall_forall in Hl. by apply (Hl h).
Qed.
