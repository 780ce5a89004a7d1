(** C48, C49: resolving a variable out of a diagram of the pool.  All statements are
    about pools reached by any history of requests (Xadd_Spec). *)

From Verif Require Import Base Dict Smt Smt_Facts Math_Model Math_Spec Poly_Proofs Arith_Proofs Linear_Proofs
  Piecewise_Spec Piecewise_Proofs Integral_Spec Integral_Proofs Xadd_Model Resolve_Model Xadd_Spec Resolve_Spec Xadd_Proofs Xwalk_Proofs
  Resolve_Proofs Xhist_Proofs Xreq_Proofs.

Section Props.
  Context {E : Type} `{EqDecision E} (A : alg E) (flat : E -> E) (is_one is_zero : E -> Res bool) (simp : fm -> fm)
    (solve : list fm -> fm -> bool) (X : resolver E) (den : E -> env -> option Qc).
  Notation reachable := (reachable A flat is_one is_zero simp solve X).

  Lemma reachable_RI p : sound_externals A flat simp solve den -> reachable p -> RI A simp X den (p_ordering p) p.
  Proof. intros HX [bad Hh]. eapply hinv_RI. by apply (history_hinv A flat is_one is_zero simp solve X den HX bad p). Qed.

  Lemma bound_typed v b : bound_for v b -> typed_bound b.
  Proof. intros Hb f ->. destruct Hb as [Hl _]. by apply linear_expr_real. Qed.

  (** ** C48 *)

  (** In a pool without a user-given ordering and for a variable whose name pysmt does
      not quote, resolving returns, and at every assignment the result is the integral
      of the diagram between the bounds. *)
  Theorem resolve_integrates_partial s p v ub lb id : sound_externals A flat simp solve den ->
    resolve_externals simp X den -> reachable p -> p_ordering p = false -> is_Some (dget (p_nodes p) id) ->
    rs_type X v = TReal -> rs_str X v = v -> bound_for v ub -> bound_for v lb ->
    exists q r, resolve A flat simp solve X s v ub lb id p = (q, Ok r) /\
      forall e lo hi, limits den (p_nodes p) e v id ub lb lo hi ->
        exists w, denotes den (p_nodes q) e r w /\ integral (along den (p_nodes p) e v id) lo hi w.
  Proof.
    intros HX HE Hr Ho Hd Ht Hs Hu Hl. pose proof (reachable_RI p HX Hr) as HR.
    destruct HX as [HA HF HS HT HV].
    pose proof (resolve_ok A flat simp solve X den HA HF HS HT HV (p_ordering p) s v p ub lb id HR
      (bound_typed _ _ Hu) (bound_typed _ _ Hl) Hd) as Hok.
    unfold ok in Hok. destruct (resolve A flat simp solve X s v ub lb id p) as [q [r|x]]; destruct Hok as (_ & Hx & _ & Hres).
    - exists q, r. split; [done|]. intros e lo hi (L1 & L2 & L3). destruct Hres as (_ & _ & Hres & _).
      destruct (Hres Ht Hs HE Hu Hl e lo hi) as (w & Hw & Hin).
      + split; [done|]. split.
        * destruct lb; [done|]. intros t y Hlt Hy. apply (L2 t); [done|]. eapply (ext_back A simp den p q); [apply HR|done|done|done].
        * destruct ub; [done|]. intros t y Hlt Hy. apply (L3 t); [done|]. eapply (ext_back A simp den p q); [apply HR|done|done|done].
      + exists w. split; [done|]. eapply integral_mono; [exact Hin|]. intros t y _ _ Hy.
        eapply (ext_back A simp den p q); [apply HR|done|done|done].
    - exfalso. apply Hres. split; [done|]. left. done.
  Qed.

  (** The same for integrate: the diagram is zero outside an interval. *)
  Theorem integrate_integrates_partial s p v id : sound_externals A flat simp solve den ->
    resolve_externals simp X den -> reachable p -> p_ordering p = false -> is_Some (dget (p_nodes p) id) ->
    rs_type X v = TReal -> rs_str X v = v ->
    exists q r, integrate A flat simp solve X s v id p = (q, Ok r) /\
      forall e lo hi, (lo <= hi)%Qc ->
        (forall t y, (t < lo \/ hi < t)%Qc -> denotes den (p_nodes p) (upd_r e v t) id y -> y = 0%Qc) ->
        exists w, denotes den (p_nodes q) e r w /\ integral (along den (p_nodes p) e v id) lo hi w.
  Proof.
    intros HX HE Hr Ho Hd Ht Hs. pose proof (reachable_RI p HX Hr) as HR. destruct HX as [HA HF HS HT HV].
    pose proof (integrate_ok A flat simp solve X den HA HF HS HT HV (p_ordering p) s v p id HR Hd) as Hok.
    unfold ok in Hok. destruct (integrate A flat simp solve X s v id p) as [q [r|x]]; destruct Hok as (_ & Hx & _ & Hres).
    - exists q, r. split; [done|]. intros e lo hi Hle Hz. destruct Hres as (_ & Hres & _). apply (Hres Ht Hs HE).
      split; [done|]. split; intros t y Hlt; apply Hz; auto.
    - exfalso. apply Hres. split; [done|]. left. done.
  Qed.

  (** Whatever the pool (with an ordering or not): an answer is never wrong. *)
  Theorem resolve_never_wrong s p v ub lb id q r : sound_externals A flat simp solve den ->
    resolve_externals simp X den -> reachable p -> is_Some (dget (p_nodes p) id) ->
    rs_type X v = TReal -> rs_str X v = v -> bound_for v ub -> bound_for v lb ->
    resolve A flat simp solve X s v ub lb id p = (q, Ok r) ->
    forall e lo hi, limits den (p_nodes q) e v id ub lb lo hi ->
      exists w, denotes den (p_nodes q) e r w /\ integral (along den (p_nodes q) e v id) lo hi w.
  Proof.
    intros HX HE Hr Hd Ht Hs Hu Hl Hq. pose proof (reachable_RI p HX Hr) as HR. destruct HX as [HA HF HS HT HV].
    pose proof (resolve_ok A flat simp solve X den HA HF HS HT HV (p_ordering p) s v p ub lb id HR
      (bound_typed _ _ Hu) (bound_typed _ _ Hl) Hd) as Hok.
    unfold ok in Hok. rewrite Hq in Hok. destruct Hok as (_ & _ & _ & (_ & _ & Hres & _)). by apply Hres.
  Qed.

  (** The integral of a diagram is unique. *)
  Theorem diagram_integral_unique (p : pool E) e v id lo hi w w' :
    integral (along den (p_nodes p) e v id) lo hi w -> integral (along den (p_nodes p) e v id) lo hi w' -> w = w'.
  Proof. apply integral_unique. intros t y z. by apply denotes_fun. Qed.

  (** ** C49 *)


  (** In a pool without a user-given ordering, for a diagram in which no path tests the
      boolean twice: at every assignment the result is the sum of the two values. *)
  Theorem resolve_boolean_sums_partial s p v id : sound_externals A flat simp solve den -> polynomials den ->
    reachable p -> p_ordering p = false -> is_Some (dget (p_nodes p) id) -> rs_type X v = TBool ->
    read_once (p_nodes p) v id ->
    exists q r, resolve A flat simp solve X s v None None id p = (q, Ok r) /\
      forall e x y, denotes den (p_nodes p) (upd_b e v true) id x -> denotes den (p_nodes p) (upd_b e v false) id y ->
        denotes den (p_nodes q) e r (x + y)%Qc.
  Proof.
    intros HX HP Hr Ho Hd Ht Hro. pose proof (reachable_RI p HX Hr) as HR. destruct HX as [HA HF HS HT HV].
    pose proof (resolve_ok A flat simp solve X den HA HF HS HT HV (p_ordering p) s v p None None id HR) as Hok.
    unfold ok in Hok. destruct (resolve A flat simp solve X s v None None id p) as [q [r|x]];
      (destruct Hok as (_ & Hx & _ & Hres); [done|done|done|]).
    - exists q, r. split; [done|]. intros e x y H1 H2. destruct Hres as (_ & _ & _ & Hres & _).
      apply (Hres Ht HP); [|by eapply ext_denotes|by eapply ext_denotes].
      by apply (read_once_ext A simp den p q); [apply HR| | |].
    - exfalso. apply Hres. split; [done|]. by right.
  Qed.

  (** The same for integrate with a strategy that does not reduce first. *)
  Theorem integrate_boolean_sums_partial s p v id : sound_externals A flat simp solve den -> polynomials den ->
    reachable p -> p_ordering p = false -> is_Some (dget (p_nodes p) id) -> rs_type X v = TBool ->
    read_once (p_nodes p) v id -> s.1.1 = false ->
    exists q r, integrate A flat simp solve X s v id p = (q, Ok r) /\
      forall e x y, denotes den (p_nodes p) (upd_b e v true) id x -> denotes den (p_nodes p) (upd_b e v false) id y ->
        denotes den (p_nodes q) e r (x + y)%Qc.
  Proof.
    intros HX HP Hr Ho Hd Ht Hro Hs. pose proof (reachable_RI p HX Hr) as HR. destruct HX as [HA HF HS HT HV].
    pose proof (integrate_ok A flat simp solve X den HA HF HS HT HV (p_ordering p) s v p id HR Hd) as Hok.
    unfold ok in Hok. destruct (integrate A flat simp solve X s v id p) as [q [r|x]]; destruct Hok as (_ & Hx & _ & Hres).
    - exists q, r. split; [done|]. destruct Hres as (_ & _ & Hres & _). apply Hres; [done|done|]. by left.
    - exfalso. apply Hres. split; [done|]. by right.
  Qed.

  (** And for every strategy, on a diagram whose tests come in the order in which the
      pool registered them; the result is such a diagram again, so that one boolean
      after the other can be summed out. *)
  Theorem integrate_boolean_in_order_partial s p v id : sound_externals A flat simp solve den -> polynomials den ->
    reachable p -> p_ordering p = false -> is_Some (dget (p_nodes p) id) -> rs_type X v = TBool -> in_order p id ->
    exists q r, integrate A flat simp solve X s v id p = (q, Ok r) /\ in_order q r /\
      (forall a d ct cf, below (p_nodes q) r a -> dget (p_nodes q) a = Some (INode d ct cf) -> d_test d <> Sym v TBool) /\
      forall e x y, denotes den (p_nodes p) (upd_b e v true) id x -> denotes den (p_nodes p) (upd_b e v false) id y ->
        denotes den (p_nodes q) e r (x + y)%Qc.
  Proof.
    intros HX HP Hr Ho Hd Ht Hio. pose proof (reachable_RI p HX Hr) as HR. destruct HX as [HA HF HS HT HV].
    apply (in_order_ordered A simp den) in Hio; [|apply HR].
    pose proof (integrate_ok A flat simp solve X den HA HF HS HT HV (p_ordering p) s v p id HR Hd) as Hok.
    unfold ok in Hok. destruct (integrate A flat simp solve X s v id p) as [q [r|x]]; destruct Hok as (HRq & Hx & _ & Hres).
    - exists q, r. split; [done|]. destruct Hres as (_ & _ & Hres & Hsu). destruct (Hsu Ht) as [[_ Hsh] Hte].
      apply (ordered_iff A simp den p q) in Hio as Hio'; [|apply HR|done|done].
      split; [|split; [by apply Hte|by apply Hres; [| |right]]].
      apply (in_order_ordered A simp den); [apply HRq|]. by apply Hsh.
    - exfalso. apply Hres. split; [done|]. by right.
  Qed.
End Props.
Print Assumptions integrate_boolean_in_order_partial.
Print Assumptions resolve_integrates_partial.
Print Assumptions integrate_integrates_partial.
Print Assumptions resolve_never_wrong.
Print Assumptions diagram_integral_unique.
Print Assumptions resolve_boolean_sums_partial.
Print Assumptions integrate_boolean_sums_partial.

(** ** A concrete algebra with an integrator *)

Definition pd_alg : alg pdict := {|
  a_real := poly_const; a_symbol x := [([x], 1%Qc)]; a_eq p q := bool_decide (p = q);
  a_mul := a_mul poly_alg; a_add := a_add poly_alg; a_le _ _ := []; a_lt _ _ := [] |}.
Definition pd_den (p : pdict) (e : env) : option Qc := Some (poly_val e p).

(** [c x1 .. xk v^n] becomes [c / (n+1) x1 .. xk (u^(n+1) - l^(n+1))]. *)
Fixpoint pd_pow (p : pdict) (n : nat) : pdict :=
  match n with 0 => poly_const 1 | S n => a_mul poly_alg p (pd_pow p n) end.
Fixpoint pd_integ (p : pdict) (v : string) (l u : pdict) : pdict :=
  match p with
  | [] => []
  | (k, c) :: p =>
      let n := S (cnt v k) in
      a_add poly_alg (a_mul poly_alg [(rest v k, (c / qn n)%Qc)] (a_add poly_alg (pd_pow u n) (dict_neg (pd_pow l n))))
        (pd_integ p v l u)
  end.
Definition real_names (v : string) : ty := if bool_decide (v = "a"%string) then TBool else TReal.
Definition pd_resolver : resolver pdict :=
  Resolver (fun p v l u => Ok (pd_integ p v l u)) (fun v => v) (fun l => l) real_names.

(** A simplifier that decides the comparisons of constants. *)
Definition simp1 (f : fm) : fm :=
  match f with
  | LeN (RealC a) (RealC b) => BoolC (qle a b)
  | LtN (RealC a) (RealC b) => BoolC (qlt a b)
  | f => f
  end.
Definition pd_one (p : pdict) : Res bool := Ok (bool_decide (p = poly_const 1)).
Definition pd_zero (p : pdict) : Res bool := Ok (bool_decide (p = poly_const 0)).
Definition sat_any (_ : list fm) (_ : fm) : bool := true.

Lemma pd_const c e : poly_val e (poly_const c) = c.
Proof. unfold poly_const. rewrite pv_cons, pv_nil. unfold mono_val, CONST_KEY. cbn. ring. Qed.
Lemma pd_leaf c e : pd_den (poly_const c) e = Some c.
Proof. unfold pd_den. by rewrite pd_const. Qed.
Lemma pd_add p q e : poly_val e (a_add poly_alg p q) = (poly_val e p + poly_val e q)%Qc.
Proof. cbn [a_add poly_alg]. unfold poly_add. rewrite ?pv_filter. apply pv_plus. Qed.
Lemma pd_pow_val p n e : poly_val e (pd_pow p n) = qpow (poly_val e p) n.
Proof. induction n as [|n IH]; cbn [pd_pow qpow]; [apply pd_const|]. by rewrite key_mul_den, IH. Qed.

Lemma simp1_cases f : simp1 f = f \/ (exists a b, f = LeN (RealC a) (RealC b) /\ simp1 f = BoolC (qle a b)) \/
  (exists a b, f = LtN (RealC a) (RealC b) /\ simp1 f = BoolC (qlt a b)).
Proof.
  destruct f; try (by left); (destruct f1; try (by left)); (destruct f2; try (by left)); right; [left|right]; eauto.
Qed.

Lemma pd_externals : sound_externals pd_alg (fun p => p) simp1 sat_any pd_den.
Proof.
  split.
  - split; unfold pd_den; cbn [pd_alg a_real a_symbol a_eq a_mul a_add].
    + intros q e. by rewrite pd_const.
    + intros x e. rewrite pv_cons, pv_nil. unfold mono_val. cbn. f_equal. ring.
    + intros a b e Hab. apply bool_decide_eq_true in Hab. by subst.
    + intros a b e x y [= <-] [= <-]. by rewrite key_mul_den.
    + intros a b e x y [= <-] [= <-]. by rewrite pd_add.
  - done.
  - intros e f b He. destruct (simp1_cases f) as [->|[(x & y & -> & ->)|(x & y & -> & ->)]]; done.
  - intros f t Ht. destruct (simp1_cases f) as [->|[(x & y & -> & ->)|(x & y & -> & ->)]]; done.
  - done.
Qed.

Lemma pol_power n c t : pol (replicate n 0%Qc ++ [c]) t = (c * qpow t n)%Qc.
Proof. induction n as [|n IH]; cbn [replicate app pol qpow]; [ring|]. rewrite IH. ring. Qed.
Lemma divided_power n c : forall k, divided k (replicate n 0%Qc ++ [c]) = replicate n 0%Qc ++ [(c / qn (n + k))%Qc].
Proof.
  induction n as [|n IH]; intros k; cbn [replicate app divided]; [done|]. rewrite IH. f_equal.
  - unfold Qcdiv. ring.
  - by rewrite Nat.add_succ_r.
Qed.

Lemma pd_integrates x v e : exists cs, (forall t, poly_val (upd_r e v t) x = pol cs t) /\
  forall l u, poly_val e (pd_integ x v l u) = (pol (primitive cs) (poly_val e u) - pol (primitive cs) (poly_val e l))%Qc.
Proof.
  induction x as [|[k c] x [cs [IH1 IH2]]].
  - exists []. split; [intros t; by rewrite pv_nil|]. intros l u. cbn. ring.
  - exists (padd (replicate (cnt v k) 0%Qc ++ [(c * mono_val e (rest v k))%Qc]) cs). split.
    + intros t. rewrite pv_cons, pol_padd, <- IH1, pol_power, (mono_split _ v k). cbn [er upd_r].
      assert (mono_val (upd_r e v t) (rest v k) = mono_val e (rest v k)) as ->.
      { unfold mono_val. f_equal. apply map_ext_in. intros y Hy%elem_of_list_In. unfold rest in Hy. apply elem_of_list_filter in Hy as [Hy _].
        cbn. by rewrite decide_False. }
      rewrite decide_True by done. ring.
    + intros l u. cbn [pd_integ]. rewrite pd_add, key_mul_den, pd_add, pv_neg, !pd_pow_val, IH2, pv_cons, pv_nil.
      unfold primitive. cbn [pol]. rewrite !divided_padd, !divided_power, !pol_power. cbn [qpow].
      rewrite Nat.add_1_r. unfold Qcdiv. ring.
Qed.

Lemma simp1_linear f : linear_expr f -> simp1 f = f.
Proof. by intros [? []| | | | |]. Qed.

Lemma pd_resolves : resolve_externals simp1 pd_resolver pd_den.
Proof.
  split.
  - intros x. by exists x.
  - intros x v l u Hl Hu. cbn [rs_integ pd_resolver]. eexists. split; [done|]. intros e a b [= <-] [= <-] Hab.
    eexists. split; [done|]. destruct (pd_integrates x v e) as (cs & H1 & ->). apply in_piece; [done|].
    intros t _ _. unfold pd_den. by rewrite H1.
  - intros f Hf. by rewrite simp1_linear.
  - intros f g Hf Hg. destruct (simp1_cases (LtN f g)) as [->|[(a & b & ? & ->)|(a & b & ? & ->)]]; [|by left; eexists|by left; eexists].
    right. by rewrite !simp1_linear.
  - done.
  - intros l. done.
Qed.

Notation pdsv := (serve pd_alg (fun p => p) pd_one pd_zero simp1 sat_any pd_resolver).
Definition pd_after (rs : list (request pdict)) : pool pdict := fold_left (fun p r => (pdsv r p).1) rs (new_pool pd_alg false).

(** node 3: 2x; node 4: 2x where 0 <= x; node 5: where moreover x <= y *)
Definition RX := Sym "x" TReal.
Definition RY := Sym "y" TReal.
Definition pd_requests : list (request pdict) :=
  [TerminalR [(["x"%string], qz 2)]; InternalR (LeN (RealC 0) RX) 3 1; InternalR (LeN RX RY) 4 1].
Definition pd_pool : pool pdict := pd_after pd_requests.

Ltac pd_mentioned := let a := fresh in let H := fresh in
  intros a H; cbn in H; repeat (apply elem_of_cons in H as [->|H]; [vm_compute; by eexists|]); by apply elem_of_nil in H.
Lemma steps_reachable (X : resolver pdict) rs p :
  reachable pd_alg (fun p => p) pd_one pd_zero simp1 sat_any X p ->
  (forall pre r post, rs = pre ++ r :: post -> well_typed r /\ forall a, a ∈ mentions r ->
     is_Some (dget (p_nodes (fold_left (fun p r => (serve pd_alg (fun p => p) pd_one pd_zero simp1 sat_any X r p).1) pre p)) a)) ->
  reachable pd_alg (fun p => p) pd_one pd_zero simp1 sat_any X
    (fold_left (fun p r => (serve pd_alg (fun p => p) pd_one pd_zero simp1 sat_any X r p).1) rs p).
Proof.
  revert p. induction rs as [|r rs IH]; intros p Hp Hs; [done|]. cbn [fold_left]. apply IH.
  - destruct Hp as [bad Hb]. eexists. apply hi_step; [exact Hb| |].
    + by apply (Hs [] r rs).
    + by apply (Hs [] r rs).
  - intros pre r' post ->. by apply (Hs (r :: pre) r' post).
Qed.
Ltac steps := apply steps_reachable; [by exists []; constructor|];
  let pre := fresh in let r := fresh in let post := fresh in let H := fresh in
  intros pre r post H; repeat (destruct pre as [|? pre]; [injection H as <- <-; split; [done|pd_mentioned]|injection H as <- H]); try done;
  by destruct pre.

Lemma pd_pool_reachable : reachable pd_alg (fun p => p) pd_one pd_zero simp1 sat_any pd_resolver pd_pool.
Proof. unfold pd_pool, pd_after, pd_requests. steps. Qed.

(** The integral over x of 2x where 0 <= x <= y is, for y = 3, 9. *)
Definition e3 : env := Env (fun _ => true) (fun _ => qz 3).
Lemma pd_node5 : dget (p_nodes pd_pool) 5 =
  Some (INode (Dec (LtN (PlusN [RX; TimesN [RY; RealC (- (1))%Qc]]) (RealC 0)) true
    (Some [(["x"%string], 1%Qc); (["y"%string], (- (1))%Qc)])) 4 1).
Proof. vm_compute. reflexivity. Qed.
Lemma pd_node4 : dget (p_nodes pd_pool) 4 = Some (INode (Dec (LtN RX (RealC 0)) true (Some [(["x"%string], 1%Qc)])) 1 3).
Proof. vm_compute. reflexivity. Qed.
Lemma pd_zero_leaf e y : denotes pd_den (p_nodes pd_pool) e 1 y -> y = 0%Qc.
Proof.
  assert (denotes pd_den (p_nodes pd_pool) e 1 0%Qc) as Hz by (eapply dn_leaf; [reflexivity|]; exact (pd_leaf _ _)).
  intros Hy. by eapply denotes_fun.
Qed.
Example C48_example :
  p_ordering pd_pool = false /\ rs_type pd_resolver "x" = TReal /\ rs_str pd_resolver "x" = "x"%string /\
  is_Some (dget (p_nodes pd_pool) 5) /\
  (forall t y, (t < 0 \/ qz 3 < t)%Qc -> denotes pd_den (p_nodes pd_pool) (upd_r e3 "x" t) 5 y -> y = 0%Qc) /\
  denotes pd_den (p_nodes pd_pool) (upd_r e3 "x" 1) 5 (qz 2) /\
  (integrate pd_alg (fun p => p) simp1 sat_any pd_resolver FULL_REDUCE "x" 5 pd_pool).2 = Ok 8 /\
  denotes pd_den (p_nodes (integrate pd_alg (fun p => p) simp1 sat_any pd_resolver FULL_REDUCE "x" 5 pd_pool).1) e3 8 (qz 9).
Proof.
  split; [done|]. split; [done|]. split; [done|]. split; [vm_compute; by eexists|]. split; [|split; [|split]].
  - intros t y Ht Hy. apply (denotes_node _ _ _ _ _ _ _ _ pd_node5) in Hy as (b & Eb & Hy).
    assert (eval (upd_r e3 "x" t) (LtN (PlusN [RX; TimesN [RY; RealC (- (1))%Qc]]) (RealC 0)) = Some (VB (qlt (t - qz 3) 0))) as E5.
    { cbn. by do 2 f_equal. }
    cbn [d_test] in Eb. rewrite E5 in Eb. injection Eb as <-.
    destruct (qlt (t - qz 3) 0) eqn:El.
    + apply (denotes_node _ _ _ _ _ _ _ _ pd_node4) in Hy as (b & Eb & Hy). cbn in Eb. injection Eb as <-.
      destruct (qlt t 0) eqn:E4; [by apply pd_zero_leaf in Hy|]. apply qlt_spec in El. apply qlt_false in E4.
      exfalso. destruct Ht; qclra.
    + by apply pd_zero_leaf in Hy.
  - eapply dn_true; [exact pd_node5|reflexivity|]. eapply dn_false; [exact pd_node4|reflexivity|].
    eapply dn_leaf; [vm_compute; reflexivity|]. unfold pd_den. apply (f_equal Some). apply Qc_is_canon. reflexivity.
  - by vm_compute.
  - eapply dn_false; [vm_compute; reflexivity|reflexivity|]. eapply dn_leaf; [vm_compute; reflexivity|].
    unfold pd_den. apply (f_equal Some). apply Qc_is_canon. reflexivity.
Qed.

(** The bounds of the general statement: between y and 3 *)
Example C48_bounds : bound_for "x" (Some (RealC (qz 3))) /\ bound_for "x" (Some RY) /\
  limits pd_den (p_nodes pd_pool) (Env (fun _ => true) (fun _ => 1%Qc)) "x" 5 (Some (RealC (qz 3))) (Some RY) 1 (qz 3).
Proof.
  split; [split; [do 2 constructor|done]|]. split; [split; [apply le_sym|done]|]. split; [by vm_compute|]. done.
Qed.

(** ** Where the properties fail *)

(** C48: pysmt prints the name [x y] in quotes; the coefficient of the variable is
    looked up under the quoted name and found to be zero.  The diagram is 1 where
    0 <= x y <= 1, its integral is 1, the answer is 0. *)
Definition quoting : resolver pdict :=
  Resolver (fun p v l u => Ok (pd_integ p v l u)) (fun v => if bool_decide (v = "x y"%string) then "'x y'"%string else v)
    (fun l => l) real_names.
Definition RQ := Sym "x y" TReal.
Definition q_pool : pool pdict :=
  fold_left (fun p r => (serve pd_alg (fun p => p) pd_one pd_zero simp1 sat_any quoting r p).1)
    [InternalR (LeN (RealC 0) RQ) 2 1; InternalR (LeN RQ (RealC 1)) 3 1] (new_pool pd_alg false).
Theorem integrate_quoted_name_refuted :
  let e := Env (fun _ => true) (fun _ => 0%Qc) in
  reachable pd_alg (fun p => p) pd_one pd_zero simp1 sat_any quoting q_pool /\ p_ordering q_pool = false /\
  integral (along pd_den (p_nodes q_pool) e "x y" 4) 0 1 1 /\
  exists q, integrate pd_alg (fun p => p) simp1 sat_any quoting FULL_REDUCE "x y" 4 q_pool = (q, Ok 1) /\
    denotes pd_den (p_nodes q) e 1 0%Qc.
Proof.
  cbv zeta. split; [|split; [done|split]].
  - unfold q_pool. steps.
  - replace 1%Qc with (pol (primitive [1%Qc]) 1 - pol (primitive [1%Qc]) 0)%Qc at 2 by (apply Qc_is_canon; reflexivity).
    apply in_piece; [done|]. intros t H0 H1. replace (pol [1%Qc] t) with 1%Qc by (cbn; ring).
    assert (dget (p_nodes q_pool) 4 = Some (INode (Dec (LtN (TimesN [RQ; RealC (- (1))%Qc]) (RealC (- (1))%Qc)) true
      (Some [(["x y"%string], (- (1))%Qc); ([], 1%Qc)])) 1 3)) as N4 by (vm_compute; reflexivity).
    assert (dget (p_nodes q_pool) 3 = Some (INode (Dec (LtN RQ (RealC 0)) true (Some [(["x y"%string], 1%Qc)])) 1 2)) as N3
      by (vm_compute; reflexivity).
    eapply dn_false; [exact N4| |].
    { assert (qlt (t * (- (1) * 1)) (- (1)) = false)%Qc as Hq by (apply qlt_false; qclra). cbn. do 2 f_equal. exact Hq. }
    eapply dn_false; [exact N3| |eapply dn_leaf; [vm_compute; reflexivity|exact (pd_leaf _ _)]].
    assert (qlt t 0 = false)%Qc as Hq by (apply qlt_false; qclra). cbn. do 2 f_equal. exact Hq.
  - eexists. split; [vm_compute; reflexivity|]. eapply dn_leaf; [reflexivity|]. exact (pd_leaf _ _).
Qed.
Print Assumptions integrate_quoted_name_refuted.

(** C48: nothing bounds the variable; the answer is 0 whatever the diagram. *)
Theorem integrate_unbounded_refuted :
  let p := new_pool pd_alg false in
  forall e, denotes pd_den (p_nodes p) e 2 1%Qc /\
    exists q, integrate pd_alg (fun p => p) simp1 sat_any pd_resolver FULL_REDUCE "x" 2 p = (q, Ok 1) /\
      denotes pd_den (p_nodes q) e 1 0%Qc.
Proof.
  intros p e. split; [eapply dn_leaf; [reflexivity|]; exact (pd_leaf _ _)|].
  eexists. split; [vm_compute; reflexivity|]. eapply dn_leaf; [reflexivity|]. exact (pd_leaf _ _).
Qed.
Print Assumptions integrate_unbounded_refuted.

(** C49: a diagram that tests the boolean twice; its values are 1 and 3, the result
    depends on the boolean that was summed out. *)
Definition BA := Sym "a" TBool.
Definition a_pool := pd_after [TerminalR [([], qz 3)]; InternalR BA 2 1; InternalR BA 4 3].
Theorem boolean_tested_twice_refuted s :
  let e := Env (fun _ => false) (fun _ => 0%Qc) in
  reachable pd_alg (fun p => p) pd_one pd_zero simp1 sat_any pd_resolver a_pool /\ p_ordering a_pool = false /\
  denotes pd_den (p_nodes a_pool) (upd_b e "a" true) 5 1%Qc /\ denotes pd_den (p_nodes a_pool) (upd_b e "a" false) 5 (qz 3) /\
  exists q r, resolve pd_alg (fun p => p) simp1 sat_any pd_resolver s "a" None None 5 a_pool = (q, Ok r) /\
    denotes pd_den (p_nodes q) e r (qz 3).
Proof.
  cbv zeta. split; [unfold a_pool, pd_after; steps|]. split; [done|]. split; [|split].
  - eapply dn_true; [reflexivity|reflexivity|]. eapply dn_true; [reflexivity|reflexivity|]. eapply dn_leaf; [reflexivity|].
    exact (pd_leaf _ _).
  - eapply dn_false; [reflexivity|reflexivity|]. eapply dn_leaf; [reflexivity|]. exact (pd_leaf _ _).
  - eexists _, _. split; [vm_compute; reflexivity|]. eapply dn_false; [reflexivity|reflexivity|]. eapply dn_leaf; [reflexivity|].
    exact (pd_leaf _ _).
Qed.
Print Assumptions boolean_tested_twice_refuted.

(** A diagram in order: a, then 0 <= x; node 3 is the constant 3. *)
Definition o_pool := pd_after [TerminalR [([], qz 3)]; InternalR BA 2 1; InternalR (LeN (RealC 0) RX) 2 1; InternalR BA 5 3].
Lemma o_pool_reachable : reachable pd_alg (fun p => p) pd_one pd_zero simp1 sat_any pd_resolver o_pool.
Proof. unfold o_pool, pd_after. steps. Qed.
Lemma o_pool_in_order : in_order o_pool 6.
Proof.
  destruct (reachable_RI pd_alg (fun p => p) pd_one pd_zero simp1 sat_any pd_resolver pd_den o_pool pd_externals o_pool_reachable) as [Hi _].
  apply (in_order_ordered pd_alg simp1 pd_den o_pool 6 Hi).
  assert (exists d, dget (p_nodes o_pool) 6 = Some (INode d 5 3) /\ dget (p_tests o_pool) (d_test d) = Some 0) as (d6 & N6 & T6).
  { eexists. split; vm_compute; reflexivity. }
  assert (exists d, dget (p_nodes o_pool) 5 = Some (INode d 1 2) /\ dget (p_tests o_pool) (d_test d) = Some 1) as (d5 & N5 & T5).
  { eexists. split; vm_compute; reflexivity. }
  assert (forall i, i = 1 \/ i = 2 \/ i = 3 -> exists x, dget (p_nodes o_pool) i = Some (TNode x)) as HL.
  { intros i [->|[->| ->]]; eexists; vm_compute; reflexivity. }
  destruct (HL 1) as [x1 L1]; [auto|]. destruct (HL 2) as [x2 L2]; [auto|]. destruct (HL 3) as [x3 L3]; [auto|].
  apply (ordered_node _ _ _ _ _ _ N6 T6). split; [by apply (root_ge_node _ _ _ _ _ _ _ N5 T5)|].
  split; [by eapply root_ge_leaf|]. split; [|by eapply ordered_leaf].
  apply (ordered_node _ _ _ _ _ _ N5 T5). split_and!; by eapply root_ge_leaf || by eapply ordered_leaf.
Qed.
Example in_order_example s e : exists q r,
  integrate pd_alg (fun p => p) simp1 sat_any pd_resolver s "a" 6 o_pool = (q, Ok r) /\
  denotes pd_den (p_nodes q) (upd_r e "x" (qz 7)) r (1 + qz 3)%Qc.
Proof.
  destruct (integrate_boolean_in_order_partial pd_alg (fun p => p) pd_one pd_zero simp1 sat_any pd_resolver pd_den s o_pool "a" 6
    pd_externals (re_poly _ _ _ pd_resolves) o_pool_reachable) as (q & r & Hr & _ & _ & Hv);
    [by vm_compute|vm_compute; by eexists|done|exact o_pool_in_order|].
  exists q, r. split; [done|]. apply Hv.
  - eapply dn_true; [vm_compute; reflexivity|reflexivity|]. eapply dn_false; [vm_compute; reflexivity|reflexivity|].
    eapply dn_leaf; [reflexivity|]. exact (pd_leaf _ _).
  - eapply dn_false; [vm_compute; reflexivity|reflexivity|]. eapply dn_leaf; [reflexivity|]. exact (pd_leaf _ _).
Qed.
