(** C36 and C38: the volume computed by XsddEngine, and conflict search. *)

From Verif Require Import Base Dict Smt Smt_Facts Walk_Model Math_Model Math_Spec Poly_Proofs Linear_Proofs Arith_Proofs
  Domain_Model Engine_Spec Engine_Model Lit_Model Lit_Spec Lit_Proofs Lit_Tests Sdd_Model Sdd_Spec Sdd_Proofs Sdd_Example Sdd_Props
  Piecewise_Model Piecewise_Spec Piecewise_Proofs Piecewise_Props Xsdd_Model Xsdd_Spec Xsdd_Proofs.

(** * C36: the volume is the sum over the worlds of the integrals

    [I f a] says that the integral of [f] over the real variables is [a].  Whenever
    splitting the weight meets none of the problems of C34 and yields polynomials, and
    no node of a compiled diagram adds parts with equally many but different booleans
    (the problem of C32), the engine returns the sum, over the worlds, of the
    integrals of the weight over the support. *)
Theorem C36_volume_partial {E : Type} (A : alg E) den mgr own simplify unsat integrate to_float I bools find s w base p :
  logic_formula s -> weight_function w -> NoDup bools ->
  (forall x, (x, TBool) ∈ syms s -> x ∈ bools) ->
  (forall c x, c ∈ conditions w -> (x, TBool) ∈ syms c -> x ∈ bools) ->
  integral_on (generic s w) I -> polynomials_integrable I s ->
  sound_arith (a_real A) (a_symbol A) (a_eq A) (a_mul A) (a_add A) den -> sound_indicator (a_le A) (a_lt A) den ->
  sound_managers mgr own -> sound_simplifier simplify -> keeps_tests simplify -> sound_solver unsat ->
  sound_integrator den (generic s w) I integrate -> sound_number den to_float ->
  aligned_compilation mgr bools ->
  split_weight simplify true w = Ok p -> Forall (fun kc : pkey * fm => is_poly kc.1) p ->
  base_support unsat find s w = Ok base ->
  exists As, Forall2 (fun b a => I (fun r => integrand s w (Env b r)) a) (worlds bools) As /\
    compute_volume A mgr simplify unsat integrate to_float bools find false s w = Ok (qsum As).
Proof. intros. by apply (volume_nonconvex s w I bools simplify) with (den := den) (own := own) (base := base) (p := p). Qed.
Print Assumptions C36_volume_partial.

(** With at most one boolean the compiled diagrams need not be restricted. *)
Theorem C36_single_partial {E : Type} (A : alg E) den mgr own simplify unsat integrate to_float I bools find s w base p :
  logic_formula s -> weight_function w -> length bools <= 1 ->
  (forall x, (x, TBool) ∈ syms s -> x ∈ bools) ->
  (forall c x, c ∈ conditions w -> (x, TBool) ∈ syms c -> x ∈ bools) ->
  integral_on (generic s w) I -> polynomials_integrable I s ->
  sound_arith (a_real A) (a_symbol A) (a_eq A) (a_mul A) (a_add A) den -> sound_indicator (a_le A) (a_lt A) den ->
  sound_managers mgr own -> sound_simplifier simplify -> keeps_tests simplify -> sound_solver unsat ->
  sound_integrator den (generic s w) I integrate -> sound_number den to_float ->
  split_weight simplify true w = Ok p -> Forall (fun kc : pkey * fm => is_poly kc.1) p ->
  base_support unsat find s w = Ok base ->
  exists As, Forall2 (fun b a => I (fun r => integrand s w (Env b r)) a) (worlds bools) As /\
    compute_volume A mgr simplify unsat integrate to_float bools find false s w = Ok (qsum As).
Proof.
  intros Hs Hw Hlen HBs HBw HI HP HA HInd HM HS HK HU HInt HT Hp HF Hbase.
  apply (volume_nonconvex s w I bools simplify) with (den := den) (own := own) (base := base) (p := p); try done.
  intros f g i node Hl HB Ex Ec.
  destruct (compile_extract f g i (mgr i) (own i) Hl Ex (HM i)) as (node' & Ec' & Ho & _). assert (node' = node) as -> by congruence.
  destruct (sm_own _ _ _ (HM i) node Ho) as [_ Hv]. pose proof (extract_table f g i Hl Ex) as T.
  destruct bools as [|v [|v' bools]]; [| |cbn in Hlen; lia].
  - apply (single_aligned i node ""%string). intros x Hx. apply (names_bools f i T [] HB node x Hv) in Hx. by apply elem_of_nil in Hx.
  - apply (single_aligned i node v). intros x Hx. apply (names_bools f i T [v] HB node x Hv) in Hx. by apply elem_of_list_singleton in Hx.
Qed.
Print Assumptions C36_single_partial.

(** With a convex integrator the diagrams need no restriction at all. *)
Theorem C36_convex_partial {E : Type} (A : alg E) den mgr own simplify unsat to_float backend I bools find s w base p :
  logic_formula s -> weight_function w -> NoDup bools ->
  (forall x, (x, TBool) ∈ syms s -> x ∈ bools) ->
  (forall c x, c ∈ conditions w -> (x, TBool) ∈ syms c -> x ∈ bools) ->
  integral_on (generic s w) I -> polynomials_integrable I s ->
  sound_arith (a_real A) (a_symbol A) (a_eq A) (a_mul A) (a_add A) den ->
  sound_managers mgr own -> sound_simplifier simplify -> keeps_tests simplify -> sound_solver unsat ->
  sound_backend (generic s w) I s backend -> sound_number den to_float ->
  split_weight simplify true w = Ok p -> Forall (fun kc : pkey * fm => is_poly kc.1) p ->
  base_support unsat find s w = Ok base ->
  exists As, Forall2 (fun b a => I (fun r => integrand s w (Env b r)) a) (worlds bools) As /\
    compute_volume_convex A mgr simplify unsat to_float bools backend find false s w = Ok (qsum As).
Proof. intros. by apply (volume_convex_ok s w I bools simplify) with (den := den) (own := own) (base := base) (p := p). Qed.
Print Assumptions C36_convex_partial.

(** The public call: the bounds of the domain are added to the support first. *)
Theorem C36_bounds_partial {E : Type} (A : alg E) den mgr own simplify unsat integrate to_float I bools find fl dom s w bounds base p :
  get_bounds fl dom = Ok bounds -> let t := with_constraint s bounds in
  logic_formula t -> weight_function w -> NoDup bools ->
  (forall x, (x, TBool) ∈ syms t -> x ∈ bools) ->
  (forall c x, c ∈ conditions w -> (x, TBool) ∈ syms c -> x ∈ bools) ->
  integral_on (generic t w) I -> polynomials_integrable I t ->
  sound_arith (a_real A) (a_symbol A) (a_eq A) (a_mul A) (a_add A) den -> sound_indicator (a_le A) (a_lt A) den ->
  sound_managers mgr own -> sound_simplifier simplify -> keeps_tests simplify -> sound_solver unsat ->
  sound_integrator den (generic t w) I integrate -> sound_number den to_float ->
  aligned_compilation mgr bools ->
  split_weight simplify true w = Ok p -> Forall (fun kc : pkey * fm => is_poly kc.1) p ->
  base_support unsat find t w = Ok base ->
  exists As, Forall2 (fun b a => I (fun r => integrand t w (Env b r)) a) (worlds bools) As /\
    compute_volume_bounds A mgr simplify unsat integrate to_float bools find false fl dom s w = Ok (qsum As).
Proof.
  intros Hb t. intros. unfold compute_volume_bounds. rewrite Hb. cbn [rbind]. fold t.
  by apply (C36_volume_partial A den mgr own simplify unsat integrate to_float I bools find t w base p).
Qed.
Print Assumptions C36_bounds_partial.

(** ** The hypotheses can be met: diagrams that mention every variable on every path,
    the values of expressions as algebra, a finite sum as integral. *)
Definition expansion (vs : list nat) (a : sdd) : Prop :=
  a = STrue \/ a = SFalse \/ (exists v, v ∈ vs /\ a = SLit (Z.of_nat v)) \/ exists g, a = expand vs g.
Definition mgr36 (i : linfo) : manager := expand_manager (upto (length (Lit_Model.literals i))).
Definition own36 (i : linfo) (a : sdd) : Prop :=
  over (upto (length (Lit_Model.literals i))) a /\ expansion (upto (length (Lit_Model.literals i))) a.

Lemma mgr36_sound : sound_managers mgr36 own36.
Proof.
  intros i. destruct (upto_ok (length (Lit_Model.literals i))) as [H1 H2]. pose proof (expand_sound _ H1 H2) as [S1 S2 S3 S4 S5 S6 S7].
  unfold mgr36, own36. split.
  - destruct S1 as [? ?]. split; [split; [done|by left]|done].
  - destruct S2 as [? ?]. split; [split; [done|by right; left]|done].
  - intros v Hv. destruct (S3 v Hv) as [? ?]. split; [split; [done|right; right; left; by exists v]|done].
  - intros a b [Ha _] [Hb _]. destruct (S4 a b Ha Hb) as [? ?]. split; [split; [done|right; right; right; by eexists]|done].
  - intros a b [Ha _] [Hb _]. destruct (S5 a b Ha Hb) as [? ?]. split; [split; [done|right; right; right; by eexists]|done].
  - intros a [Ha _]. destruct (S6 a Ha) as [? ?]. split; [split; [done|right; right; right; by eexists]|done].
  - intros a [Ha _]. by apply S7.
Qed.

Lemma expand_names vs g h : svars (expand vs g) = svars (expand vs h).
Proof.
  revert g h. induction vs as [|v vs IH]; intros g h; cbn [expand].
  - by destruct (g _), (h _).
  - cbn [svars map concat fst snd]. by rewrite (IH _ (fun w => h (upd w v true))), (IH (fun w => g (upd w v false)) (fun w => h (upd w v false))).
Qed.
Lemma expand_uniform i vs g : uniform i (expand vs g).
Proof.
  revert g. induction vs as [|v vs IH]; intros g; cbn [expand]; [destruct (g _); constructor|]. constructor.
  - constructor; [split; [constructor|apply IH]|]. constructor; [split; [constructor|apply IH]|constructor].
  - assert (forall ps, ps ∈ [(SLit (Z.of_nat v), expand vs (fun w => g (upd w v true))); (SLit (- Z.of_nat v), expand vs (fun w => g (upd w v false)))] ->
      svars (SDec [ps]) = v :: svars (expand vs (fun _ => true))) as HH.
    { intros ps Hps. cbn [svars map concat]. rewrite app_nil_r. apply elem_of_cons in Hps as [->|Hps]; [|apply elem_of_list_singleton in Hps as ->]; cbn [fst snd svars app].
      - by rewrite Zabs2Nat.id, (expand_names vs _ (fun _ => true)).
      - replace (Z.abs_nat (- Z.of_nat v)) with v by lia. by rewrite (expand_names vs _ (fun _ => true)). }
    intros ps qt Hps Hqt x. unfold names. by rewrite !HH.
Qed.
Lemma mgr36_aligned bools : aligned_compilation mgr36 bools.
Proof.
  intros f g i node Hl _ Ex Ec. destruct (compile_extract f g i (mgr36 i) (own36 i) Hl Ex (mgr36_sound i)) as (node' & Ec' & [_ Ho] & _).
  assert (node' = node) as -> by congruence.
  destruct Ho as [->|[->|[(v & _ & ->)|(h & ->)]]]; try constructor. apply uniform_aligned, expand_uniform.
Qed.

Definition alg36 : alg (env -> Qc) := {| a_real q := fun _ => q; a_symbol x := fun e => er e x; a_eq _ _ := false;
  a_mul a b := fun e => (a e * b e)%Qc; a_add a b := fun e => (a e + b e)%Qc;
  a_le a b := fun e => (if qle (a e) (b e) then 1 else 0)%Qc;
  a_lt a b := fun e => (if qlt (a e) (b e) then 1 else 0)%Qc |}.
Definition den36 (x : env -> Qc) (e : env) : option Qc := Some (x e).
Lemma alg36_sound : sound_arith (a_real alg36) (a_symbol alg36) (a_eq alg36) (a_mul alg36) (a_add alg36) den36 /\
  sound_indicator (a_le alg36) (a_lt alg36) den36.
Proof. split; split; cbn; try done; by intros a b e x y [= <-] [= <-]. Qed.

(** The sum over finitely many points of the reals. *)
Definition sum36 (pts : list (string -> Qc)) (f : (string -> Qc) -> Qc) : Qc := qsum (map f pts).
Definition I36 pts (f : (string -> Qc) -> Qc) (a : Qc) : Prop := a = sum36 pts f.
Definition origin : env := Env (fun _ => false) (fun _ => 0%Qc).
Definition integrate36 pts (x : env -> Qc) : Res (env -> Qc) := Ok (fun _ => sum36 pts (fun r => x (Env (fun _ => false) r))).
Definition float36 (x : env -> Qc) : Res Qc := Ok (x origin).
Definition backend36 pts (ds : list (list (list string * Qc))) (p : list (list string * Qc)) : Res Qc :=
  Ok (sum36 pts (fun r => if forallb (fun d => qle (poly_val (Env (fun _ => false) r) d) 0) ds then poly_val (Env (fun _ => false) r) p else 0%Qc)).

Lemma sum36_ext pts f g : (forall r, r ∈ pts -> f r = g r) -> sum36 pts f = sum36 pts g.
Proof.
  intros H. unfold sum36. induction pts as [|r pts IH]; [done|]. cbn [map]. rewrite !qsum_cons, H by by left.
  f_equal. apply IH. intros r' Hr'. apply H. by right.
Qed.
Lemma sum36_ok gen pts : Forall gen pts -> integral_on gen (I36 pts) /\
  sound_integrator den36 gen (I36 pts) (integrate36 pts) /\ sound_number den36 float36 /\
  (forall s, polynomials_integrable (I36 pts) s) /\ forall s, sound_backend gen (I36 pts) s (backend36 pts).
Proof.
  intros Hg. rewrite Forall_forall in Hg. split; [split|split; [|split; [|split]]].
  - intros f a b -> ->. done.
  - unfold I36, sum36. by rewrite qsum_zero.
  - intros f g a b -> ->. unfold I36, sum36. clear Hg. induction pts as [|r pts IH]; cbn [map]; [by rewrite Qcplus_0_l|]. rewrite !qsum_cons, <- IH. ring.
  - intros f a c ->. unfold I36, sum36. clear Hg. induction pts as [|r pts IH]; cbn [map]; [by change (qsum []) with 0%Qc; rewrite Qcmult_0_r|]. rewrite !qsum_cons, <- IH. ring.
  - intros f g a H ->. apply sum36_ext. auto.
  - intros x f a H ->. eexists. split; [done|]. intros e. unfold den36. f_equal. apply sum36_ext. intros r Hr.
    specialize (H (Env (fun _ => false) r) (Hg r Hr)). unfold den36 in H. by injection H.
  - intros y a H. unfold float36. specialize (H origin). unfold den36 in H. injection H as ->. done.
  - intros s p g b _ _. by eexists.
  - intros s ds p holds _. eexists. split; [done|]. by left.
Qed.

(** (A or x < 1) and 0 <= x, with weight ite(A, x, 3), conflict search enabled only
    where it can succeed. *)
Definition s36 : fm := AndN [OrN [Sym "A" TBool; lt1]; LeN (RealC 0) symx].
Definition w36 : fm := IteN symA symx (RealC (qz 3)).
Definition pts36 : list (string -> Qc) := [(fun _ => Q2Qc (1 # 2)); (fun _ => qz 2); (fun _ => qz (-1))].
Lemma generic36 : Forall (generic s36 w36) pts36.
Proof.
  assert (forall r, r "x"%string <> 0%Qc -> r "x"%string <> 1%Qc -> generic s36 w36 r) as H.
  { intros r H0 H1 b. split.
    - cbn. unfold off. cbn. split; [split; [done|split; [|done]]|split; [|done]].
      + eexists _, _. split; [done|]. split; [done|]. done.
      + eexists _, _. split; [done|]. split; [done|]. congruence.
    - constructor; [done|constructor]. }
  constructor; [apply H; intros [=]|]. constructor; [apply H; intros [=]|]. constructor; [apply H; intros [=]|constructor].
Qed.
Lemma s36_logic : logic_formula s36.
Proof.
  assert (logic_formula lt1) by (apply lf_lt; [apply le_sym|apply le_const; constructor]).
  apply lf_and. constructor; [apply lf_or; constructor; [constructor|by constructor]|].
  constructor; [apply lf_le; [apply le_const; constructor|apply le_sym]|constructor].
Qed.
Example C36_example : logic_formula s36 /\ weight_function w36 /\
  (exists p, split_weight (fun f => f) true w36 = Ok p /\ length p = 2 /\ Forall (fun kc : pkey * fm => is_poly kc.1) p) /\
  sound_managers mgr36 own36 /\ aligned_compilation mgr36 ["A"%string] /\ keeps_tests (fun f => f) /\
  compute_volume alg36 mgr36 (fun f => f) (fun _ => false) (integrate36 pts36) float36 ["A"%string] false false s36 w36 =
    Ok (Q2Qc (11 # 2)) /\
  compute_volume_convex alg36 mgr36 (fun f => f) (fun _ => false) float36 ["A"%string] (backend36 pts36) false false s36 w36 =
    Ok (Q2Qc (11 # 2)) /\
  is_ok (base_support (fun _ => false) true s36 symx) = true.
Proof.
  split; [exact s36_logic|]. split.
  { split; [constructor; constructor|]. constructor; [constructor|constructor]. }
  split.
  { eexists. split; [vm_compute; reflexivity|]. split; [done|]. constructor; [done|]. constructor; [done|constructor]. }
  split; [exact mgr36_sound|]. split; [apply mgr36_aligned|]. split; [by split|].
  split; [vm_compute; f_equal; apply Qc_is_canon; reflexivity|].
  split; [vm_compute; f_equal; apply Qc_is_canon; reflexivity|]. vm_compute. reflexivity.
Qed.

(** ** Where it fails

    A manager like [mgr36], except that it has the diagram of C32 for the functions
    that this diagram represents. *)
Definition worlds3 : list (nat -> bool) :=
  flat_map (fun a => flat_map (fun b => map (fun c v => match v with 1 => a | 2 => b | _ => c end) [true; false]) [true; false]) [true; false].
Definition norm32 (n : nat) (a : sdd) : sdd :=
  if Nat.eqb n 3 && forallb (fun w => Bool.eqb (sat w a) (sat w node32)) worlds3 then node32 else a.
Definition mgr_bad (i : linfo) : manager :=
  let n := length (Lit_Model.literals i) in let M := expand_manager (upto n) in {|
  m_true := m_true M; m_false := m_false M; m_l := m_l M;
  m_conjoin a b := norm32 n (m_conjoin M a b);
  m_disjoin a b := norm32 n (m_disjoin M a b);
  m_negate a := norm32 n (m_negate M a) |}.
Definition own_bad (i : linfo) : sdd -> Prop := over (upto (length (Lit_Model.literals i))).

Lemma norm32_ok n a : over (upto n) a -> over (upto n) (norm32 n a) /\ forall w, sat w (norm32 n a) = sat w a.
Proof.
  intros Ha. unfold norm32. destruct (Nat.eqb_spec n 3) as [->|]; [|done]. cbn [andb].
  destruct (forallb _ worlds3) eqn:Ef; [|done]. rewrite forallb_forall in Ef.
  assert (forall v, v ∈ svars node32 -> v ∈ upto 3) as Hv.
  { intros v Hv. cbn in Hv. unfold upto. cbn. repeat (apply elem_of_cons in Hv as [->|Hv]; [repeat (first [by left|right])|]). by apply elem_of_nil in Hv. }
  split; [split; [by apply (ex31_sdd 3 1 2)|done]|]. intros w.
  set (w' := fun v : nat => match v with 1 => w 1 | 2 => w 2 | _ => w 3 end).
  assert (forall v, v ∈ upto 3 -> w v = w' v) as Hw.
  { intros v Hv'. unfold upto in Hv'. cbn in Hv'. repeat (apply elem_of_cons in Hv' as [->|Hv']; [done|]). by apply elem_of_nil in Hv'. }
  rewrite (sat_agree node32 w w'), (sat_agree a w w') by (intros v Hv'; apply Hw; first [by apply Ha|by apply Hv]).
  assert (In w' worlds3) as Hin.
  { unfold worlds3, w'. destruct (w 1), (w 2), (w 3); cbn; tauto. }
  specialize (Ef _ Hin). symmetry. by apply eqb_prop.
Qed.
Lemma mgr_bad_sound : sound_managers mgr_bad own_bad.
Proof.
  intros i. destruct (upto_ok (length (Lit_Model.literals i))) as [H1 H2]. pose proof (expand_sound _ H1 H2) as [S1 S2 S3 S4 S5 S6 S7].
  unfold mgr_bad, own_bad. split; [done|done|done| | | |done].
  - intros a b Ha Hb. destruct (S4 a b Ha Hb) as [X1 X2]. destruct (norm32_ok _ _ X1) as [X3 X4]. split; [done|]. intros w.
    cbn [m_conjoin]. by rewrite <- X2, <- X4.
  - intros a b Ha Hb. destruct (S5 a b Ha Hb) as [X1 X2]. destruct (norm32_ok _ _ X1) as [X3 X4]. split; [done|]. intros w.
    cbn [m_disjoin]. by rewrite <- X2, <- X4.
  - intros a Ha. destruct (S6 a Ha) as [X1 X2]. destruct (norm32_ok _ _ X1) as [X3 X4]. split; [done|]. intros w.
    cbn [m_negate]. by rewrite <- X2, <- X4.
Qed.

(** Support ite(x < 1, A, B) and weight 1.  With this (sound) manager and any sound
    algebra, integrator and simplifier the engine returns half of the volume. *)
Theorem C36_refuted {E : Type} (A : alg E) den simplify unsat integrate to_float I v :
  sound_arith (a_real A) (a_symbol A) (a_eq A) (a_mul A) (a_add A) den -> sound_indicator (a_le A) (a_lt A) den ->
  integral_on (generic f32 (RealC 1)) I -> I (fun _ => 1%Qc) v ->
  sound_integrator den (generic f32 (RealC 1)) I integrate -> sound_number den to_float ->
  sound_managers mgr_bad own_bad /\
  compute_volume A mgr_bad simplify unsat integrate to_float bools32 false false f32 (RealC 1) = Ok v /\
  forall As, Forall2 (fun b a => I (fun r => integrand f32 (RealC 1) (Env b r)) a) (worlds bools32) As ->
    qsum As = (qz 2 * v)%Qc.
Proof.
  intros HA HInd HI Hv HInt HT. split; [exact mgr_bad_sound|].
  destruct C32_refuted as (Hl & [g Ex] & _ & _ & Hsat & HC). destruct (HC E A den HA HInd) as (r & Er & Lr & Vr).
  split.
  - unfold compute_volume, base_support. cbn [rbind].
    assert (split_weight simplify false (RealC 1) = Ok [(KPoly (poly_const 1), BoolC true)]) as -> by reflexivity.
    cbn [rbind]. unfold volume_from_pieces. cbn [fold_left rbind]. unfold piece_volume. cbn [fst snd].
    destruct (extract_literals (AndN [BoolC true; f32])) as [[g' i']|] eqn:Ex'; [|vm_compute in Ex'; discriminate].
    assert (i' = i32) as -> by (vm_compute in Ex'; injection Ex' as <- <-; vm_compute; reflexivity).
    cbn [rbind].
    assert (compile_to_sdd (mgr_bad i32) g' i32 = Ok node32) as ->.
    { vm_compute in Ex'. injection Ex' as <-. vm_compute. reflexivity. }
    cbn [rbind]. rewrite Er. cbn [rbind]. destruct r as [x vars]. cbn [fst snd] in *. cbn [key_to_expression rbind].
    destruct (HInt (alg_times A x (to_expression A (poly_const 1))) (fun _ => 1%Qc) v) as (y & Ey & Dy); [|done|].
    { intros e He. destruct e as [eb' er']. destruct (Vr (Env eb' er')) as (v' & D & _ & ->).
      { cbn [er] in He. by destruct (He eb'). }
      rewrite (alg_times_value A den HA _ _ _ 1%Qc 1%Qc D); [f_equal; ring|]. rewrite (to_expression_value A den HA). by f_equal. }
    rewrite Ey. cbn [rbind].
    replace (Z.of_nat (length bools32) - Z.of_nat (length vars))%Z with (Z.of_nat 0) by (rewrite Lr; done).
    assert (forall e, exists z, alg_power A (a_real A (qz 2)) (qn 0) = Ok z /\ den z e = Some (qpow (qz 2) 0)) as HP.
    { intros e. apply (alg_power_value A den HA). apply (sa_real _ _ _ _ _ _ HA). }
    destruct (HP origin) as (z & Ez & _). unfold qn in Ez. rewrite Ez. cbn [rbind]. apply HT. intros e.
    destruct (HP e) as (z' & Ez' & Dz). unfold qn in Ez'. assert (z' = z) as -> by congruence.
    rewrite (alg_plus_value A den HA e _ _ 0%Qc v); [f_equal; ring|apply (sa_real _ _ _ _ _ _ HA)|].
    rewrite (alg_times_value A den HA e _ _ _ _ (Dy e) Dz). f_equal. cbn. ring.
  - intros As HAs.
    assert (I (fun r => qsum (map (fun b => integrand f32 (RealC 1) (Env b r)) (worlds bools32))) (qsum As)) as H1.
    { revert HAs. generalize (worlds bools32). clear -HI. intros ws HAs. induction HAs as [|b a ws As Ha _ IH]; [exact (io_zero _ _ HI)|].
      rewrite qsum_cons. eapply (io_null _ _ HI); [|apply (io_add _ _ HI); [exact Ha|exact IH]]. done. }
    apply (io_unique _ _ HI _ _ _ H1). eapply (io_null _ _ HI); [|apply (io_scale _ _ HI), Hv]. intros r' Hr. cbn beta.
    destruct (Hr (fun _ => false)) as [Ho _]. destruct (Vr (Env (fun _ => false) r') Ho) as (v' & _ & Hwc & ->).
    rewrite <- Hwc. unfold world_count. f_equal. apply map_ext. intros b. unfold integrand.
    destruct (Hr b) as [Ho' _]. rewrite (Hsat _ Ho'). cbn [er eval]. by destruct (sat _ _).
Qed.
Print Assumptions C36_refuted.
(** The hypotheses are met with a volume that is not zero. *)
Example C36_refuted_example : let pts := [fun _ : string => qz 2] in Forall (generic f32 (RealC 1)) pts /\
  I36 pts (fun _ => 1%Qc) 1%Qc /\
  compute_volume alg36 mgr_bad (fun f => f) (fun _ => false) (integrate36 pts) float36 bools32 false false f32 (RealC 1) = Ok 1%Qc /\
  compute_volume alg36 mgr36 (fun f => f) (fun _ => false) (integrate36 pts) float36 bools32 false false f32 (RealC 1) = Ok (qz 2).
Proof.
  split.
  { constructor; [|constructor]. intros b. split; [|constructor]. cbn. unfold off. split; [|done].
    eexists _, _. split; [done|]. split; [done|]. intros [=]. }
  split; [apply Qc_is_canon; reflexivity|].
  split; vm_compute; f_equal; apply Qc_is_canon; reflexivity.
Qed.

(** A weight that is split into a bare number, like 1 + 1, makes the engine fail
    (numbers have no to_expression). *)
Theorem C36_number_refuted {E : Type} (A : alg E) mgr own simplify unsat integrate to_float bools s :
  sound_simplifier simplify -> folds_constants simplify -> logic_formula s -> sound_managers mgr own ->
  aligned_compilation mgr bools -> (forall x, (x, TBool) ∈ syms s -> x ∈ bools) ->
  forall den, sound_arith (a_real A) (a_symbol A) (a_eq A) (a_mul A) (a_add A) den -> sound_indicator (a_le A) (a_lt A) den ->
  compute_volume A mgr simplify unsat integrate to_float bools false false s (PlusN [RealC 1; RealC 1]) = Err AttributeError.
Proof.
  intros HS HF Hl HM HAl HB den HA HInd. destruct (C34_number_refuted simplify HS HF) as [Hp HE].
  unfold compute_volume, base_support. cbn [rbind]. rewrite Hp. cbn [rbind]. unfold volume_from_pieces. cbn [fold_left rbind].
  unfold piece_volume. cbn [fst snd]. set (f := AndN [BoolC true; s]).
  assert (logic_formula f) as Hf by (constructor; constructor; [constructor|]; by constructor).
  assert (forall x, (x, TBool) ∈ syms f -> x ∈ bools) as HB'.
  { intros x Hx. cbn [f syms map concat] in Hx. rewrite app_nil_r in Hx. by apply HB. }
  destruct (extract_sem f Hf) as (g & i & Ex & _). rewrite Ex. cbn [rbind].
  destruct (compile_extract f g i (mgr i) (own i) Hf Ex (HM i)) as (node & Ec & Ho & Hsat). rewrite Ec. cbn [rbind].
  destruct (sm_own _ _ _ (HM i) node Ho) as [Hs Hv]. pose proof (extract_table f g i Hf Ex) as T.
  destruct (nonconvex_counts A den HA HInd f i T bools HB' node Hs Hv (HAl f g i node Hf HB' Ex Ec)) as (r & Er & _).
  rewrite Er. cbn [rbind]. destruct r as [x vars]. by rewrite HE.
Qed.
Print Assumptions C36_number_refuted.
Example C36_number_example : logic_formula s36 /\ (forall x, (x, TBool) ∈ syms s36 -> x ∈ ["A"%string]) /\
  aligned_compilation mgr36 ["A"%string] /\ sound_managers mgr36 own36.
Proof.
  split; [exact s36_logic|]. split; [|split; [apply mgr36_aligned|exact mgr36_sound]].
  intros x Hx. cbn in Hx. rewrite !elem_of_cons in Hx.
  destruct Hx as [[= ->]|[?|[?|Hx]]]; [by left|done|done|by apply elem_of_nil in Hx].
Qed.

(** * C38: conflict search *)

(** Every implication that conflict search adds is true at every point. *)
Theorem C38_valid unsat s w cs c e : sound_solver unsat -> logic_formula s -> weight_expr w ->
  collect_conflicts unsat s w = Ok cs -> c ∈ cs -> eval e c = Some (VB true).
Proof. intros HU Hs Hw Hc Hin. apply (added_valid unsat s); [done|]. by apply (collect_added unsat s w cs). Qed.
Print Assumptions C38_valid.

(** So the support that is compiled has the same value as the given one, everywhere. *)
Theorem C38_support unsat find s w base e : sound_solver unsat -> logic_formula s -> weight_expr w ->
  base_support unsat find s w = Ok base -> eval e base = eval e s.
Proof. intros HU Hs Hw Hb. destruct (base_same unsat find s w base HU Hs Hw Hb) as (_ & H & _). apply H. Qed.
Print Assumptions C38_support.

(** Conflict search succeeds exactly on formulas and weights without conditionals and
    powers (and without empty conjunctions and equations). *)
Theorem C38_accepted unsat s w : (exists cs, collect_conflicts unsat s w = Ok cs) <-> scannable s /\ scannable w.
Proof.
  unfold collect_conflicts, bounds_of. split.
  - intros [cs H]. destruct (walk (bounds_walker true) (msize s) s) as [a|] eqn:Ea; cbn [rbind] in H; [|done].
    destruct (walk (bounds_walker true) (msize w) w) as [b|] eqn:Eb; cbn [rbind] in H; [|done].
    split; by eapply scan_only.
  - intros [H1 H2]. destruct (scan_succeeds (msize s) s H1 (le_n _)) as [a ->], (scan_succeeds (msize w) w H2 (le_n _)) as [b ->].
    cbn [rbind]. by eexists.
Qed.
Print Assumptions C38_accepted.

(** In particular it fails for every piecewise weight: enabling it makes the engine
    raise instead of leaving the volume unchanged. *)
Theorem C38_piecewise_refuted {E : Type} (A : alg E) mgr simplify unsat integrate to_float bools s c a b :
  is_ok (compute_volume A mgr simplify unsat integrate to_float bools true false s (IteN c a b)) = false.
Proof.
  unfold compute_volume, base_support. destruct (collect_conflicts unsat s (IteN c a b)) as [cs|] eqn:Ec; [|done].
  assert (scannable (IteN c a b)) as H by (apply (C38_accepted unsat s); by eexists). inversion H.
Qed.
Print Assumptions C38_piecewise_refuted.

(** x < 1 and x <= 2 (collected as x < 2): with a solver that proves that the first
    implies the second, the implication is added. *)
Definition s38 : fm := OrN [AndN [lt1; symA]; LeN symx (RealC (qz 2))].
Example C38_example : logic_formula s38 /\ scannable s38 /\ scannable symx /\
  collect_conflicts (fun f => bool_decide (f = AndN [lt1; NotN (LtN symx (RealC (qz 2)))])) s38 symx =
    Ok [ImpN lt1 (LtN symx (RealC (qz 2)))] /\
  sound_solver (fun f => bool_decide (f = AndN [lt1; NotN (LtN symx (RealC (qz 2)))])).
Proof.
  split; [|split; [|split; [constructor|split]]].
  - apply lf_or. constructor; [apply lf_and; constructor; [|constructor; [constructor|constructor]]|constructor; [|constructor]].
    + apply lf_lt; [apply le_sym|apply le_const; constructor].
    + apply lf_le; [apply le_sym|apply le_const; constructor].
  - constructor; [done|]. constructor; [|constructor; [constructor|constructor]]. constructor; [done|].
    constructor; [constructor|]. constructor; [constructor|constructor].
  - vm_compute. reflexivity.
  - intros f Hf e. apply bool_decide_eq_true in Hf as ->. cbn. intros [= H]. apply andb_true_iff in H as [H1 H2].
    rewrite andb_true_r in H2. apply negb_true_iff in H2. apply qlt_spec in H1.
    assert (~ (er e "x"%string < qz 2)%Qc) as H3 by (intros H3; apply qlt_spec in H3; congruence).
    apply H3. eapply Qclt_trans; [exact H1|]. done.
Qed.
