(** Lemmas for C42-C47: repeated requests, later pools, tests that always succeed,
    and folds. *)

From Verif Require Import Base Dict Smt Smt_Facts Math_Model Math_Spec Poly_Proofs Arith_Proofs Linear_Proofs Walk_Model
  Primal_Proofs Piecewise_Spec Xadd_Model Resolve_Model Xadd_Spec Xadd_Proofs Xwalk_Proofs Xtest_Proofs Xhist_Proofs.

Section Req.
  Context {E : Type} `{EqDecision E} (A : alg E) (flat : E -> E) (is_one is_zero : E -> Res bool) (simp : fm -> fm)
    (solve : list fm -> fm -> bool) (X : resolver E) (den : E -> env -> option Qc).
  Context (HX : sound_externals A flat simp solve den).
  Notation inv := (inv A simp den).
  Notation serve := (serve A flat is_one is_zero simp solve X).
  Notation continues := (continues A flat is_one is_zero simp solve X).
  Notation history := (history A flat is_one is_zero simp solve X).
  Notation reachable := (reachable A flat is_one is_zero simp solve X).
  Notation hinv := (hinv A simp X den).

  Lemma history_hinv bad p : history bad p -> hinv bad p.
  Proof. destruct HX as [HA HF HS HT HV]. by apply history_ok. Qed.
  Lemma reachable_inv p : reachable p -> inv p.
  Proof. intros [bad Hh]. by apply history_hinv in Hh as [? _ _ _]. Qed.

  Lemma serve_next bad p r : history bad p -> well_typed r -> (forall a, a ∈ mentions r -> dlt (p_nodes p) a) ->
    ext p (serve r p).1.
  Proof.
    destruct HX as [HA HF HS HT HV]. intros Hh Hty Hm. apply history_hinv in Hh.
    pose proof (serve_ok A flat is_one is_zero simp solve X den HA HF HS HT HV bad p r Hh Hty Hm) as Hs.
    destruct (serve r p) as [q res]. apply Hs.
  Qed.

  Lemma continues_ext p q : reachable p -> continues p q -> ext p q /\ reachable q.
  Proof.
    intros [bad Hr]. induction 1 as [|q r Hc [Hx [bad' Hh]] Hty Hm]; [split; [apply ext_refl|by exists bad]|].
    split.
    - eapply ext_trans; [exact Hx|]. by eapply serve_next.
    - eexists. by apply hi_step.
  Qed.

  (** ** Repeated requests *)
  Lemma terminal_again p x q i q' : inv p -> terminal x p = (q, Ok i) -> ext q q' -> terminal x q' = (q', Ok i).
  Proof.
    intros Hi Ht Hx. destruct (terminal_ok A simp den p x Hi) as (q1 & i1 & E1 & Iq & _ & _ & Hn).
    rewrite Ht in E1. injection E1 as <- <-. apply (iv_term _ _ _ q Iq) in Hn.
    unfold terminal. by rewrite (ex_exprs _ _ Hx _ _ Hn).
  Qed.

  Lemma cons_again d ct cf p q r q' : inv p -> cons_node simp d ct cf p = (q, r) -> ext q q' ->
    cons_node simp d ct cf q' = (q', r).
  Proof.
    intros Hi Hc Hx. unfold cons_node in *. unfold mbind, mlift in *.
    destruct (to_canonical simp d ct cf) as [[[d' ct'] cf']|x]; [|by injection Hc as <- <-].
    destruct (add_test_ok A simp den p (d_test d') Hi) as (p1 & j & E1 & I1 & X1 & F1 & T1 & N1 & M1 & C1).
    rewrite E1 in Hc.
    assert (ext p1 q /\ exists i, r = Ok i /\ dget (p_internal q) (j, ct', cf') = Some i) as (Xq & i & -> & Hk).
    { destruct (dget (p_internal p1) (j, ct', cf')) as [i|] eqn:Ek.
      - injection Hc as <- <-. split; [apply ext_refl|]. by exists i.
      - cbn in Hc. injection Hc as <- <-. split.
        + split; cbn; try done.
          * intros i n Hn. rewrite dget_dset, decide_False; [done|]. intros <-. by rewrite (counter_fresh A simp den p1 I1) in Hn.
          * intros k i Hk. rewrite dget_dset, decide_False; [done|]. intros <-. by rewrite Ek in Hk.
        + eexists. split; [done|]. cbn. by rewrite dget_dset, decide_True. }
    unfold add_test. rewrite (ex_tests _ _ Hx _ _ (ex_tests _ _ Xq _ _ T1)).
    by rewrite (ex_imap _ _ Hx _ _ Hk).
  Qed.

  Lemma internal_again d ct cf p q r q' : inv p -> internal simp d ct cf p = (q, r) -> ext q q' ->
    internal simp d ct cf q' = (q', r).
  Proof.
    intros Hi Hc Hx. unfold internal in *. destruct (bool_decide (ct = cf)); [by injection Hc as <- <-|].
    unfold mbind, mlift in *. destruct (valid_branches simp d) as [[|b [|]]|x].
    - by eapply cons_again.
    - by injection Hc as <- <-.
    - by eapply cons_again.
    - by injection Hc as <- <-.
  Qed.

  Lemma request_again p r q res q' : reachable p -> by_content r -> well_typed r ->
    (forall a, a ∈ mentions r -> dlt (p_nodes p) a) -> serve r p = (q, res) -> continues q q' -> serve r q' = (q', res).
  Proof.
    intros Hr Hb Hty Hm Hs Hc. pose proof (reachable_inv p Hr) as Hi. destruct Hr as [bad Hh].
    assert (reachable q) as Hrq.
    { exists (interrupted r res ++ bad). pose proof (hi_step _ _ _ _ _ _ _ bad p r Hh Hty Hm) as Hq. by rewrite Hs in Hq. }
    destruct (continues_ext q q' Hrq Hc) as [Hx _].
    pose proof (serve_next bad p r Hh Hty Hm) as Hpq. rewrite Hs in Hpq. cbn in Hpq.
    destruct r as [x|f ct cf|f| | | | | |]; try done; cbn [Xadd_Spec.serve] in *.
    - destruct (terminal_ok A simp den p x Hi) as (q1 & i1 & E1 & _). rewrite Hs in E1. injection E1 as <- ->.
      by eapply terminal_again.
    - by eapply internal_again.
    - unfold bool_test, mbind, mget in *. rewrite (ex_zero _ _ Hx), (ex_one _ _ Hx), (ex_zero _ _ Hpq), (ex_one _ _ Hpq).
      by eapply internal_again.
  Qed.

  Lemma same_content p i j n m : inv p -> dget (p_nodes p) i = Some n -> dget (p_nodes p) j = Some m ->
    content n = content m -> i = j.
  Proof.
    intros Hi Hn Hm Hc. destruct n as [x|d ct cf], m as [y|d' ct' cf']; cbn in Hc; try done; simplify_eq.
    - apply (iv_term _ _ _ p Hi) in Hn, Hm. congruence.
    - destruct (iv_node _ _ _ p Hi _ _ _ _ Hn) as (_ & _ & _ & _ & _ & _ & k & T1 & K1).
      destruct (iv_node _ _ _ p Hi _ _ _ _ Hm) as (_ & _ & _ & _ & _ & _ & k' & T2 & K2). congruence.
  Qed.

  Lemma children_wf p : inv p -> well_founded (is_child (p_nodes p)).
  Proof.
    intros Hi. apply (well_founded_lt_compat nat (fun i => i)). intros c i (d & ct & cf & Hn & Hc).
    destruct (iv_node _ _ _ p Hi _ _ _ _ Hn) as (? & ? & _). destruct Hc; lia.
  Qed.

  (** ** Folds *)
  Section Folds.
    Context {B : Type} (vt : nat -> E -> Res B) (vi : nat -> decision -> nat -> nat -> option B -> option B -> Res B).

    Lemma visits_fold ns root order results : bottom_up_order ns root order ->
      visits vt vi ns order [] = Ok results ->
      forall id, id ∈ order -> exists m, dget results id = Some m /\ folds vt vi ns id m.
    Proof.
      intros (Hnd & _ & Hch) Hv.
      assert (forall pre suf tbl, order = pre ++ suf ->
        dkeys tbl = pre -> (forall id, id ∈ pre -> exists m, dget tbl id = Some m /\ folds vt vi ns id m) ->
        visits vt vi ns suf tbl = Ok results ->
        forall id, id ∈ order -> exists m, dget results id = Some m /\ folds vt vi ns id m) as Hgen.
      { intros pre suf. revert pre. induction suf as [|id suf IH]; intros pre tbl Ho Hk Hf Hvs.
        - cbn in Hvs. injection Hvs as <-. rewrite Ho, app_nil_r. done.
        - cbn [visits] in Hvs.
          destruct (match dget ns id with Some (TNode x) => vt id x | Some (INode d ct cf) => vi id d ct cf (dget tbl ct) (dget tbl cf) | None => Err RuntimeErr end) as [m|] eqn:Em;
            cbn [rbind] in Hvs; [|done].
          assert (id ∉ dkeys tbl) as Hni.
          { rewrite Hk. intros Hin. rewrite Ho in Hnd. apply NoDup_app in Hnd as (_ & Hd & _). apply (Hd id Hin), elem_of_cons. by left. }
          assert (tbl ++ [(id, m)] = dset tbl id m) as Hds.
          { symmetry. apply dset_fresh. exact Hni. }
          eapply (IH (pre ++ [id])); [|  | |exact Hvs].
          + by rewrite <- app_assoc.
          + unfold dkeys in *. by rewrite map_app, Hk.
          + intros k. rewrite Hds, dget_dset. rewrite elem_of_app. intros [Hk'|Hk'%elem_of_list_singleton].
            * rewrite decide_False; [by apply Hf|]. intros <-. by rewrite Hk in Hni.
            * subst k. rewrite decide_True by done. exists m. split; [done|].
              destruct (dget ns id) as [[x|d ct cf]|] eqn:En; [by eapply fo_leaf| |done].
              destruct (Hch pre id suf d ct cf Ho En) as [H1 H2].
              destruct (Hf _ H1) as (a & Ha & Fa). destruct (Hf _ H2) as (b & Hb & Fb).
              eapply fo_node; [done|exact Fa|exact Fb|]. by rewrite Ha, Hb in Em. }
      intros id Hid. apply (Hgen [] order []); [done|done| |done|done]. intros k Hk. by apply elem_of_nil in Hk.
    Qed.

    Lemma folds_fun ns id a b : folds vt vi ns id a -> folds vt vi ns id b -> a = b.
    Proof.
      intros Ha. revert b. induction Ha as [id x m Hn Hm|id d ct cf a b m Hn _ IH1 _ IH2 Hm]; intros k Hk;
        inversion Hk as [? ? ? Hn' Hm'|? ? ? ? a' b' ? Hn' Ha' Hb' Hm']; simplify_eq; [congruence|].
      apply IH1 in Ha'. apply IH2 in Hb'. congruence.
    Qed.
  End Folds.
End Req.
