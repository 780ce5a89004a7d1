(** C51: PyXaddEngine.compute_volume returns the sum over the boolean worlds of the
    iterated integral of the weight over the support and the bounds. *)

From Verif Require Import Base Dict Smt Smt_Facts Math_Model Math_Spec Poly_Proofs Arith_Proofs Linear_Proofs
  Piecewise_Spec Domain_Model Domain_Spec Integral_Spec Integral_Proofs Xadd_Model Resolve_Model Xadd_Spec
  Resolve_Spec Xadd_Proofs Xhist_Proofs Xreq_Proofs Toxadd_Model Toxadd_Spec Toxadd_Proofs Resolve_Props
  Volume_Model Volume_Spec Volume_Proofs Xvars_Proofs Volume_Vars.

Section Props.
  Context {E : Type} `{EqDecision E} (A : alg E) (flat : E -> E) (is_one is_zero : E -> Res bool) (simp : fm -> fm)
    (solve : list fm -> fm -> bool) (X : resolver E) (den : E -> env -> option Qc) (fl : Qc -> Qc) (to_float : E -> Res Qc).
  Notation history := (history A flat is_one is_zero simp solve X).
  Notation compute_volume := (compute_volume A flat is_one is_zero simp solve X fl to_float).

  (** For a domain that lists its booleans before its reals, each real between two
      finite bounds, a support over linear comparisons and a piecewise polynomial
      weight: a number that is returned is the sum over the boolean worlds of the
      iterated integral of the weight over the support and the bounds; it is the value
      for every order of the arguments, i.e. whatever [e] is.  Nothing can be raised
      but the assertion that the last diagram is a leaf, and what to_float raises. *)
  Theorem compute_volume_partial s ab d support weight p xs : sound_externals A flat simp solve den ->
    knows_zero_one A is_one is_zero -> resolve_externals simp X den ->
    (forall x v, to_float x = Ok v -> forall e, den x e = Some v) ->
    history [] p -> p_ordering p = false -> wf_domain d ->
    (forall v lb ub q, (v, (lb, ub)) ∈ d_doms d -> lb = Some q \/ ub = Some q -> fl q = q) ->
    d_vars d = names d TBool ++ names d TReal -> intervals d xs ->
    (forall x t, (x, t) ∈ d_types d -> rs_type X x = t) -> (forall x, x ∈ names d TReal -> rs_str X x = x) ->
    bool_formula support -> weight_formula weight ->
    proper_tests (names d TReal) support -> proper_tests (names d TReal) weight ->
    ab = true \/ (forall e, eval e support = Some (VB true) -> region d support e) ->
    match (compute_volume s ab d support weight p).2 with
    | Ok v => forall e, wmi (restricted (region d support) weight) (names d TBool) (rev xs) e v
    | Err x => x = AssertionError \/ exists y, to_float y = Err x
    end.
  Proof.
    intros HX HK HE Hfloat Hh Ho W Hfl Hv Hi Hty Hstr Hs Hw Ps Pw Hab.
    destruct (compute_volume_ok A flat is_one is_zero simp solve X den HX HE HK fl to_float s ab d support weight p xs
      (conj Hh Ho) W Hfl Hv Hi Hty Hstr Hs Hw Ps Pw Hab) as (q & r & _ & HR & [nd Hnd] & -> & Hval).
    cbn [snd]. rewrite Hnd. destruct nd as [x|? ? ?]; [|by left].
    destruct (to_float x) as [v|err] eqn:Ev; [|right; by eexists].
    intros e. apply Hval. eapply dn_leaf; [done|]. by apply Hfloat.
  Qed.

  (** The value is unique. *)
  Theorem wmi_deterministic R weight bs xs e v w :
    wmi (restricted R weight) bs xs e v -> wmi (restricted R weight) bs xs e w -> v = w.
  Proof.
    apply wmi_unique. intros e0 y z [[? Hy]|[? ->]] [[? Hz]|[? ->]]; [congruence|done|done|done].
  Qed.

  (** If moreover the support and the weight are over the variables of the domain, and
      the simplifier computes comparisons of constants and invents no variables, then
      the assertion never fails: the last diagram is a leaf, its expression has the same
      value [v] under every assignment, [v] is the value of the integral, and the result
      is what to_float makes of the expression. *)
  Theorem compute_volume_leaf s ab d support weight p xs : sound_externals A flat simp solve den ->
    knows_zero_one A is_one is_zero -> resolve_externals simp X den -> folds simp -> adds_none simp ->
    history [] p -> p_ordering p = false -> wf_domain d ->
    (forall v lb ub q, (v, (lb, ub)) ∈ d_doms d -> lb = Some q \/ ub = Some q -> fl q = q) ->
    d_vars d = names d TBool ++ names d TReal -> intervals d xs ->
    (forall x t, (x, t) ∈ d_types d -> rs_type X x = t) -> (forall x, x ∈ names d TReal -> rs_str X x = x) ->
    bool_formula support -> weight_formula weight ->
    (forall x t, (x, t) ∈ syms support \/ (x, t) ∈ syms weight -> (x, t) ∈ d_types d) ->
    proper_tests (names d TReal) support -> proper_tests (names d TReal) weight ->
    ab = true \/ (forall e, eval e support = Some (VB true) -> region d support e) ->
    exists y v, (forall e, den y e = Some v) /\
      (forall e, wmi (restricted (region d support) weight) (names d TBool) (rev xs) e v) /\
      (compute_volume s ab d support weight p).2 = to_float y.
  Proof.
    intros HX HK HE HC HN Hh Ho W Hfl Hv Hi Hty Hstr Hs Hw Hsy Ps Pw Hab.
    assert (forall x t, (x, t) ∈ d_types d -> (t = TBool /\ x ∈ names d TBool) \/ (t = TReal /\ x ∈ names d TReal)) as Hnm.
    { intros x t Hin. assert (x ∈ names d t) as Hx.
      { apply elem_of_list_filter. split; [done|]. apply (wd_types_vars d W), elem_of_list_fmap. by exists (x, t). }
      destruct (wd_type d W x t Hin) as [->| ->]; auto. }
    destruct (compute_volume_ok A flat is_one is_zero simp solve X den HX HE HK fl to_float s ab d support weight p xs
      (conj Hh Ho) W Hfl Hv Hi Hty Hstr Hs Hw Ps Pw Hab) as (q & r & Hrun & HR & Dr & -> & Hval).
    rewrite Hv in Hrun. destruct (bounds_vars d W) as [Bg Sg]. cbv zeta in Bg, Sg. set (g := mkAnd _) in *.
    set (f := if ab then _ else support) in Hrun.
    assert (bool_formula f) as Hf by (unfold f; destruct ab; [apply bf_and; by repeat constructor|done]).
    assert (forall x t, (x, t) ∈ syms f -> (x, t) ∈ d_types d) as Sf.
    { intros x t Hx. unfold f in Hx. destruct ab; [|apply Hsy; by left]. cbn [syms map concat] in Hx. rewrite app_nil_r in Hx.
      apply elem_of_app in Hx as [Hx|Hx]; [apply Hsy; by left|by apply Sg]. }
    assert (exists y, dget (p_nodes q) r = Some (TNode y)) as [y Hy].
    { eapply (steps_leaf A flat is_one is_zero simp solve X den HX HE HC HN _ _ _ p f weight q r (conj Hh Ho)); [done|done|done|..|exact Hrun].
      - intros b Hb. apply Hty. by apply elem_of_list_filter in Hb as [? _].
      - intros x Hx. split; [|by apply Hstr]. apply Hty. by apply elem_of_list_filter in Hx as [? _].
      - intros x t Hx. apply Hnm. rewrite !free_vars_syms in Hx. apply elem_of_app in Hx as [Hx|Hx]; [by apply Sf|apply Hsy; by right]. }
    destruct (re_poly _ _ _ HE y) as [P HP].
    set (F := restricted (region d support) weight) in *.
    assert (forall e, wmi F (names d TBool) (rev xs) e (poly_val e P)) as Hall.
    { intros e. apply Hval. eapply dn_leaf; [done|]. apply HP. }
    assert (forall e e' v, wmi F (names d TBool) (rev xs) e v -> wmi F (names d TBool) (rev xs) e' v) as Hind.
    { apply (wmi_indep F (names d TBool) (names d TReal)).
      - apply restricted_indep; [done|]. intros x t Hx. apply Hnm. rewrite !free_vars_syms in Hx. apply elem_of_app in Hx as [Hx|Hx]; apply Hsy; auto.
      - intros x. rewrite <- (proj1 Hi). unfold names_of. rewrite map_rev, !elem_of_list_In, <- in_rev. done. }
    exists y, (poly_val (Env (fun _ => false) (fun _ => 0%Qc)) P). split_and!.
    - intros e. rewrite HP. f_equal. eapply wmi_deterministic; [apply Hall|]. eapply Hind, Hall.
    - intros e. eapply Hind, Hall.
    - cbn [snd]. by rewrite Hy.
  Qed.

  (** So a to_float that knows the constants returns the value of the integral. *)
  Corollary compute_volume_total s ab d support weight p xs : sound_externals A flat simp solve den ->
    knows_zero_one A is_one is_zero -> resolve_externals simp X den -> folds simp -> adds_none simp ->
    (forall y v, (forall e, den y e = Some v) -> to_float y = Ok v) ->
    history [] p -> p_ordering p = false -> wf_domain d ->
    (forall v lb ub q, (v, (lb, ub)) ∈ d_doms d -> lb = Some q \/ ub = Some q -> fl q = q) ->
    d_vars d = names d TBool ++ names d TReal -> intervals d xs ->
    (forall x t, (x, t) ∈ d_types d -> rs_type X x = t) -> (forall x, x ∈ names d TReal -> rs_str X x = x) ->
    bool_formula support -> weight_formula weight ->
    (forall x t, (x, t) ∈ syms support \/ (x, t) ∈ syms weight -> (x, t) ∈ d_types d) ->
    proper_tests (names d TReal) support -> proper_tests (names d TReal) weight ->
    ab = true \/ (forall e, eval e support = Some (VB true) -> region d support e) ->
    exists v, (compute_volume s ab d support weight p).2 = Ok v /\
      forall e, wmi (restricted (region d support) weight) (names d TBool) (rev xs) e v.
  Proof.
    intros HX HK HE HC HN Hfloat Hh Ho W Hfl Hv Hi Hty Hstr Hs Hw Hsy Ps Pw Hab.
    destruct (compute_volume_leaf s ab d support weight p xs) as (y & v & Hy & Hv' & ->); [done..|]. exists v. auto.
  Qed.

End Props.
Print Assumptions compute_volume_partial.
Print Assumptions wmi_deterministic.
Print Assumptions compute_volume_leaf.
Print Assumptions compute_volume_total.

(** ** A concrete case *)

(** A simplifier that computes terms and comparisons without variables. *)
Definition e00 : env := Env (fun _ => false) (fun _ => 0%Qc).
Definition ground (f : fm) : bool := bool_decide (syms f = []).
Definition fold_term (f : fm) : fm :=
  if ground f && bool_decide (typeof f = Some TReal) then match eval e00 f with Some (VN q) => RealC q | _ => f end else f.
Definition simp2 (f : fm) : fm :=
  match f with
  | LeN a b => match fold_term a, fold_term b with RealC x, RealC y => BoolC (qle x y) | a, b => LeN a b end
  | LtN a b => match fold_term a, fold_term b with RealC x, RealC y => BoolC (qlt x y) | a, b => LtN a b end
  | f => fold_term f
  end.
Definition pd_float (p : pdict) : Res Qc :=
  if forallb (fun '(k, c) => bool_decide (k = []) || qeq c 0) p then Ok (poly_val e00 p) else Err TypeError.
Notation cv := (compute_volume pd_alg (fun p => p) pd_one pd_zero simp2 sat_any pd_resolver (fun q => q) pd_float).
Definition dom1 : domain := Dom ["a"; "x"; "y"]%string [("a", TBool); ("x", TReal); ("y", TReal)]%string
  [("x", (Some 0%Qc, Some (qz 10))); ("y", (Some 0%Qc, Some (qz 5)))]%string.
(** (a or x <= y) and x <= 3 *)
Definition sup1 : fm := AndN [OrN [BA; LeN RX RY]; LeN RX (RealC (qz 3))].
(** x^2 where a holds, 2 elsewhere *)
Definition w1 : fm := IteN BA (TimesN [RX; RX]) (RealC (qz 2)).

Lemma fold_ok f : fold_term f = f \/
  exists q, fold_term f = RealC q /\ typeof f = Some TReal /\ forall e, eval e f = Some (VN q).
Proof.
  unfold fold_term, ground. destruct (bool_decide_reflect (syms f = [])) as [Hg|]; [|by left].
  destruct (bool_decide_reflect (typeof f = Some TReal)) as [Ht|]; [|by left]. cbn.
  destruct (eval e00 f) as [[b|q]|] eqn:He; [by left| |by left]. right. exists q. split; [done|]. split; [done|].
  intros e. rewrite <- He. apply eval_agree. intros x t Hx. rewrite Hg in Hx. by apply elem_of_nil in Hx.
Qed.
Lemma fold_eval f e : eval e (fold_term f) = eval e f.
Proof. destruct (fold_ok f) as [->|(q & -> & _ & H)]; [done|]. by rewrite H. Qed.
Lemma fold_type f : typeof (fold_term f) = typeof f.
Proof. destruct (fold_ok f) as [->|(q & -> & -> & H)]; done. Qed.
Lemma simp2_cases f : simp2 f = fold_term f \/
  (exists a b, f = LeN a b /\ ((exists x y, fold_term a = RealC x /\ fold_term b = RealC y /\ simp2 f = BoolC (qle x y)) \/
     simp2 f = LeN (fold_term a) (fold_term b))) \/
  (exists a b, f = LtN a b /\ ((exists x y, fold_term a = RealC x /\ fold_term b = RealC y /\ simp2 f = BoolC (qlt x y)) \/
     simp2 f = LtN (fold_term a) (fold_term b))).
Proof.
  destruct f; try (by left); right; [left|right]; eexists _, _; (split; [done|]); cbn [simp2];
    (destruct (fold_term f1) eqn:Ea; try (by right)); (destruct (fold_term f2) eqn:Eb; try (by right)); left; eauto.
Qed.
Lemma simp2_eval e f : eval e (simp2 f) = eval e f.
Proof.
  destruct (simp2_cases f) as [->|[(a & b & -> & [(x & y & Ea & Eb & ->)| ->])|(a & b & -> & [(x & y & Ea & Eb & ->)| ->])]];
    [apply fold_eval|..]; cbn [eval]; rewrite <- ?(fold_eval a e), <- ?(fold_eval b e), ?Ea, ?Eb; done.
Qed.
Lemma simp2_type f t : typeof f = Some t -> typeof (simp2 f) = Some t.
Proof.
  destruct (simp2_cases f) as [->|[(a & b & -> & [(x & y & Ea & Eb & ->)| ->])|(a & b & -> & [(x & y & Ea & Eb & ->)| ->])]];
    [by rewrite fold_type|..]; cbn [typeof]; rewrite <- ?(fold_type a), <- ?(fold_type b), ?Ea, ?Eb; done.
Qed.
Lemma simp2_externals : sound_externals pd_alg (fun p => p) simp2 sat_any pd_den.
Proof.
  destruct pd_externals as [H1 H2 _ _ H5]. split; [done|done| | |done].
  - intros e f b He. by rewrite simp2_eval.
  - apply simp2_type.
Qed.
Lemma simp2_linear f : linear_expr f -> simp2 f = fold_term f.
Proof. destruct (simp2_cases f) as [->|[(a & b & -> & _)|(a & b & -> & _)]]; [done|..]; intros Hl%linear_expr_real; cbn in Hl; by repeat case_match. Qed.
Lemma simp2_resolves : resolve_externals simp2 pd_resolver pd_den.
Proof.
  destruct pd_resolves as [H1 H2 _ _ _ H6]. split; [done|done| | |done|done].
  - intros f Hf. split; [|intros e; apply simp2_eval]. rewrite simp2_linear by done.
    destruct (fold_ok f) as [->|(q & -> & _)]; [done|]. do 2 constructor.
  - intros f g Hf Hg. rewrite (simp2_linear f Hf), (simp2_linear g Hg). cbn [simp2].
    destruct (fold_term f); try (by right); destruct (fold_term g); try (by right). left. by eexists.
Qed.
Lemma pd_float_ok x v : pd_float x = Ok v -> forall e, pd_den x e = Some v.
Proof.
  unfold pd_float. destruct (forallb _ x) eqn:Hx; [|done]. intros [= <-] e. unfold pd_den. f_equal.
  induction x as [|[k c] x IH]; [done|]. cbn [forallb] in Hx. apply andb_true_iff in Hx as [Hk Hx]. rewrite !pv_cons, (IH Hx).
  f_equal. apply orb_true_iff in Hk as [->%bool_decide_eq_true| ->%qeq_spec]; [done|ring].
Qed.
Lemma dom1_wf : wf_domain dom1.
Proof.
  split; cbn.
  - apply (bool_decide_unpack _). by vm_compute.
  - apply (bool_decide_unpack _). by vm_compute.
  - done.
  - intros v t H. rewrite !elem_of_cons, elem_of_nil in H. decompose [or] H; simplify_eq; tauto.
  - apply (bool_decide_unpack _). by vm_compute.
  - intros v. rewrite !elem_of_cons, !elem_of_nil. split; intros H; decompose [or] H; simplify_eq; tauto.
Qed.
Definition xs1 : list (string * Qc * Qc) := [("x", 0%Qc, qz 10); ("y", 0%Qc, qz 5)]%string.
Lemma xs1_intervals : intervals dom1 xs1.
Proof.
  split; [by vm_compute|]. intros x lo hi H. unfold xs1 in H. rewrite !elem_of_cons, elem_of_nil in H. decompose [or] H; simplify_eq; [| |done]; cbn.
  - split; [by left|by vm_compute].
  - split; [by right; left|by vm_compute].
Qed.
Lemma proper1 : proper_tests (names dom1 TReal) sup1 /\ proper_tests (names dom1 TReal) w1.
Proof.
  assert (names dom1 TReal = ["x"; "y"]%string) as -> by by vm_compute.
  split; intros a b Hab e; cbn in Hab.
  - rewrite !elem_of_cons, elem_of_nil in Hab. decompose [or] Hab; simplify_eq; [| |done].
    + exists (upd_r e "x" (er e "y" + 1)). split; [done|]. split.
      * intros x Hx. cbn. rewrite decide_False; [done|]. intros ->. apply Hx. by left.
      * exists (er e "y" + 1)%Qc, (er e "y"). split; [done|]. split; [done|]. intros Heq. qclra.
    + exists (upd_r e "x" 0). split; [done|]. split.
      * intros x Hx. cbn. rewrite decide_False; [done|]. intros ->. apply Hx. by left.
      * by exists 0%Qc, (qz 3).
  - by apply elem_of_nil in Hab.
Qed.
Lemma is66 (r : Res Qc) : match r with Ok q => this q = (66 # 1)%Q | Err _ => False end -> r = Ok (qz 66).
Proof. destruct r as [q|]; [|done]. intros Hq. f_equal. apply Qc_is_canon. by rewrite Hq. Qed.
Lemma case_of (P : Qc -> Prop) (Q : exn -> Prop) r v : r = Ok v -> match r with Ok v => P v | Err x => Q x end -> P v.
Proof. by intros ->. Qed.
Lemma volume66 : (cv None true dom1 sup1 w1 (new_pool pd_alg false)).2 = Ok (qz 66).
Proof. apply is66. vm_compute. reflexivity. Qed.
Lemma sup1_formula : bool_formula sup1.
Proof.
  apply bf_and. constructor; [|constructor; [|constructor]].
  - apply bf_or. constructor; [constructor|]. constructor; [|constructor]. apply bf_le; apply le_sym.
  - apply bf_le; [apply le_sym|]. do 2 constructor.
Qed.
Lemma w1_formula : weight_formula w1.
Proof. apply wf_ite; [constructor| |constructor]. apply wf_times; [done|]. repeat constructor. Qed.
Lemma pd_knows : knows_zero_one pd_alg pd_one pd_zero.
Proof. split_and!; by vm_compute. Qed.
Lemma dom1_names : names dom1 TBool = ["a"%string] /\ d_vars dom1 = names dom1 TBool ++ names dom1 TReal.
Proof. split; by vm_compute. Qed.
Lemma dom1_types x t : (x, t) ∈ d_types dom1 -> rs_type pd_resolver x = t.
Proof. intros Hx. cbn in Hx. rewrite !elem_of_cons, elem_of_nil in Hx. decompose [or] Hx; simplify_eq; done. Qed.
(** 45 where a holds and 21 where it does not *)
Example compute_volume_case : (cv None true dom1 sup1 w1 (new_pool pd_alg false)).2 = Ok (qz 66) /\
  forall e, wmi (restricted (region dom1 sup1) w1) (names dom1 TBool) (rev xs1) e (qz 66).
Proof.
  split; [exact volume66|].
  pose proof (compute_volume_partial pd_alg (fun p => p) pd_one pd_zero simp2 sat_any pd_resolver pd_den (fun q => q) pd_float
    None true dom1 sup1 w1 (new_pool pd_alg false) xs1 simp2_externals pd_knows simp2_resolves pd_float_ok
    (hi_new _ _ _ _ _ _ _ false) eq_refl dom1_wf (fun _ _ _ _ _ _ => eq_refl) (proj2 dom1_names) xs1_intervals dom1_types
    (fun _ _ => eq_refl) sup1_formula w1_formula (proj1 proper1) (proj2 proper1) (or_introl eq_refl)) as H.
  exact (case_of (fun v => forall e, wmi (restricted (region dom1 sup1) w1) (names dom1 TBool) (rev xs1) e v)
    (fun x => x = AssertionError \/ exists y, pd_float y = Err x) _ _ volume66 H).
Qed.

(** ** A case of the total theorem *)

(** A to_float that collects equal monomials first. *)
Definition pd_float2 (p : pdict) : Res Qc := let! q := dict_times false p [([], 1%Qc)] in pd_float q.
Lemma pd_float2_ok y v : (forall e, pd_den y e = Some v) -> pd_float2 y = Ok v.
Proof.
  intros Hy. unfold pd_float2. destruct (times_total y [([], 1%Qc)]) as [q Hq]. rewrite Hq. cbn [rbind].
  destruct (times_sound _ _ _ _ Hq) as [Cq Vq].
  assert (forall e, poly_val e q = v) as Hv.
  { intros e. rewrite Vq. specialize (Hy e). unfold pd_den in Hy. injection Hy as ->. rewrite pv_cons, pv_nil. cbn. ring. }
  assert (forall k c, (k, c) ∈ dict_plus q [([], - v)%Qc] -> c = 0%Qc) as Hz.
  { apply zero_poly'.
    - apply canon_plus; [done|]. split; [apply (bool_decide_unpack _); by vm_compute|]. by repeat constructor.
    - intros e. rewrite pv_plus, Hv, pv_cons, pv_nil. cbn. ring. }
  unfold pd_float. destruct (forallb _ q) eqn:Hf; [by rewrite Hv|]. exfalso.
  apply not_true_iff_false in Hf. apply Hf, forallb_forall. intros [k c] Hin%elem_of_list_In.
  destruct (bool_decide_reflect (k = [])) as [|Hk]; [done|]. cbn. apply qeq_spec. apply (Hz k).
  assert (dwf [([] : mono, - v)%Qc]) as Hw by (apply (bool_decide_unpack _); by vm_compute).
  pose proof (dget_plus q [([], - v)%Qc] k Hw) as Hg.
  rewrite (In_dget q k c (proj1 Cq) Hin) in Hg. cbn in Hg. rewrite decide_False in Hg by (intros H0; by apply Hk). by apply dget_In in Hg.
Qed.
Lemma fold_syms f x : x ∈ syms (fold_term f) -> x ∈ syms f.
Proof. destruct (fold_ok f) as [->|(q & -> & _)]; [done|]. by intros ?%elem_of_nil. Qed.
Lemma simp2_adds_none : adds_none simp2.
Proof.
  intros f z.
  destruct (simp2_cases f) as [->|[(a & b & -> & [(x & y & Ea & Eb & ->)| ->])|(a & b & -> & [(x & y & Ea & Eb & ->)| ->])]];
    [apply fold_syms|..]; cbn [syms]; rewrite ?elem_of_app; try (by intros ?%elem_of_nil); intros [H%fold_syms|H%fold_syms]; auto.
Qed.
Lemma simp2_folds : folds simp2.
Proof. intros a b. by exists (qle a b). Qed.
Lemma syms1 x t : (x, t) ∈ syms sup1 \/ (x, t) ∈ syms w1 -> (x, t) ∈ d_types dom1.
Proof.
  cbn. intros [H|H]; rewrite !elem_of_cons, elem_of_nil in H; rewrite !elem_of_cons; decompose [or] H; simplify_eq; tauto.
Qed.
Lemma is66' (r : Res Qc) v : r = Ok v -> match r with Ok q => this q = (66 # 1)%Q | Err _ => False end -> v = qz 66.
Proof. intros -> Hq. apply Qc_is_canon. by rewrite Hq. Qed.
Lemma new_unordered : p_ordering (new_pool pd_alg false) = false.
Proof. vm_compute. reflexivity. Qed.
(** The theorem gives the integral of the example, with the conditions on the externals
    met by polynomials. *)
Example compute_volume_total_case :
  exists v, (compute_volume pd_alg (fun p => p) pd_one pd_zero simp2 sat_any pd_resolver (fun q => q) pd_float2
      None true dom1 sup1 w1 (new_pool pd_alg false)).2 = Ok v /\ v = qz 66 /\
    forall e, wmi (restricted (region dom1 sup1) w1) (names dom1 TBool) (rev xs1) e v.
Proof.
  destruct (compute_volume_total pd_alg (fun p => p) pd_one pd_zero simp2 sat_any pd_resolver pd_den (fun q => q) pd_float2
    None true dom1 sup1 w1 (new_pool pd_alg false) xs1 simp2_externals pd_knows simp2_resolves simp2_folds simp2_adds_none pd_float2_ok
    (hi_new _ _ _ _ _ _ _ false) new_unordered dom1_wf (fun _ _ _ _ _ _ => eq_refl) (proj2 dom1_names) xs1_intervals dom1_types
    (fun _ _ => eq_refl) sup1_formula w1_formula syms1 (proj1 proper1) (proj2 proper1) (or_introl eq_refl)) as (v & Hv & Hw).
  exists v. split; [exact Hv|]. split; [|exact Hw]. apply (is66' _ v Hv). vm_compute. reflexivity.
Qed.

(** Without the condition on comparisons the result can be wrong: the strict comparison
    x < x never holds, so the integral is 0, but it is walked as x <= x and the volume of
    the whole box is returned. *)
Definition dom2 : domain := Dom ["x"]%string [("x", TReal)]%string [("x", (Some 0%Qc, Some (qz 10)))]%string.
Theorem compute_volume_refuted :
  (forall e, wmi (restricted (region dom2 (LtN RX RX)) (RealC 1)) (names dom2 TBool) [("x"%string, 0%Qc, qz 10)] e 0%Qc) /\
  exists v, (compute_volume pd_alg (fun p => p) pd_one pd_zero simp2 sat_any pd_resolver (fun q => q) pd_float2
    None true dom2 (LtN RX RX) (RealC 1) (new_pool pd_alg false)).2 = Ok v /\ v <> 0%Qc.
Proof.
  split.
  - intros e. exists [0%Qc]. split; [|by apply Qc_is_canon]. repeat constructor.
    cbn [rev iterated app]. apply integral_of_zero; [by vm_compute|]. intros t _ _. right. split; [|done].
    intros [He _]. cbn in He. unfold qlt in He. injection He as He. apply negb_true_iff, not_true_iff_false in He. apply He, Qle_bool_iff, Qle_refl.
  - eexists. split; [vm_compute; reflexivity|]. intros H. by apply (f_equal (fun q : Qc => Qnum (this q))) in H.
Qed.
Print Assumptions compute_volume_refuted.
