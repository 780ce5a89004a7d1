(** Proofs for C17-C19. *)

From Verif Require Import Base Dict Smt Smt_Facts Poly_Proofs Arith_Proofs Domain_Model Domain_Spec Domain_Proofs Engine_Model Engine_Spec.

(** * Probabilities *)

Section prob.
  Context (vol : fm -> Res Qc) (mu : fm -> Qc) (E : exact_engine vol mu).

  Lemma proper_and2 f g : proper f -> proper g -> proper (AndN [f; g]).
  Proof. intros H1 H2 e. rewrite eval_AndN2. destruct (H1 e) as [a ->], (H2 e) as [b ->]. by eexists. Qed.
  Lemma proper_not f : proper f -> proper (NotN f).
  Proof. intros H e. cbn. destruct (H e) as [a ->]. by eexists. Qed.

  Lemma probabilities_ratio s qs : proper s -> Forall proper qs ->
    compute_probabilities vol s qs =
      Ok (map (fun q => if qlt 0 (mu s) then Some (mu (AndN [s; q]) / mu s)%Qc else None) qs).
  Proof.
    intros Hs Hq. unfold compute_probabilities. rewrite (ee_vol _ _ E s Hs). cbn [rbind].
    induction Hq as [|q qs Hq _ IH]; [done|]. rewrite rmapM_cons, IH. cbn [map].
    destruct (qlt 0 (mu s)); [|done].
    unfold with_constraint. rewrite (ee_vol _ _ E _ (proper_and2 s q Hs Hq)). done.
  Qed.

  Lemma probability_ratio s q : proper s -> proper q ->
    compute_probability vol s q = Ok (if qlt 0 (mu s) then Some (mu (AndN [s; q]) / mu s)%Qc else None).
  Proof.
    intros Hs Hq. unfold compute_probability. rewrite probabilities_ratio; [done|done|].
    by constructor.
  Qed.

  Lemma mu_mono s q r : proper s -> proper q -> proper r ->
    implies_on s q r -> (mu (AndN [s; q]) <= mu (AndN [s; r]))%Qc.
  Proof.
    intros Hs Hq Hr Hi.
    rewrite <- (ee_split _ _ E (AndN [s; r]) q (proper_and2 _ _ Hs Hr) Hq).
    assert (mu (AndN [AndN [s; r]; q]) = mu (AndN [s; q])) as ->.
    { apply (ee_meaning _ _ E).
      - by repeat apply proper_and2.
      - by apply proper_and2.
      - intros e. rewrite !eval_AndN2. destruct (Hq e) as [bq Eq]. destruct (Hr e) as [br Er].
        destruct (Hs e) as [bs Es]. rewrite Eq, Er, Es. cbn [vbool mbind option_bind].
        f_equal. f_equal. destruct bs, bq, br; try done. specialize (Hi e Es Eq). congruence. }
    assert (0 <= mu (AndN [AndN [s; r]; NotN q]))%Qc as Hnn.
    { apply (ee_nonneg _ _ E). apply proper_and2; [by apply proper_and2|by apply proper_not]. }
    qclra.
  Qed.

  Lemma mu_le s q : proper s -> proper q -> (mu (AndN [s; q]) <= mu s)%Qc.
  Proof.
    intros Hs Hq. rewrite <- (ee_split _ _ E s q Hs Hq).
    assert (0 <= mu (AndN [s; NotN q]))%Qc as Hnn.
    { apply (ee_nonneg _ _ E). apply proper_and2; [done|by apply proper_not]. }
    qclra.
  Qed.
End prob.

Lemma div_le_compat (a b c : Qc) : (0 < c)%Qc -> (a <= b)%Qc -> (a / c <= b / c)%Qc.
Proof.
  intros Hc H. unfold Qcdiv. apply Qcmult_le_compat_r; [done|].
  by apply Qclt_le_weak, qinv_pos.
Qed.
Lemma div_self (c : Qc) : (0 < c)%Qc -> (c / c = 1)%Qc.
Proof. intros H. unfold Qcdiv. apply Qcmult_inv_r. intros ->. by apply Qclt_not_eq in H. Qed.
Lemma div_add (a b c : Qc) : (a / c + b / c = (a + b) / c)%Qc.
Proof. unfold Qcdiv. ring. Qed.
Lemma div_zero_l (c : Qc) : (0 / c = 0)%Qc.
Proof. unfold Qcdiv. ring. Qed.

(** * Evidence *)

Definition assume (s : list (string * bool)) (e : env) : env :=
  Env (fun x => default (eb e x) (dget s x)) (er e).

Lemma mapM_map {A B C} (f : B -> option C) (g : A -> B) l : mapM f (map g l) = mapM (fun x => f (g x)) l.
Proof. induction l as [|x l IH]; cbn; [done|]. by rewrite IH. Qed.

Lemma subst_sound s f : typed f ->
  typeof (subst s f) = typeof f /\ forall e, eval e (subst s f) = eval (assume s e) f.
Proof.
  assert (HT : forall g t, typeof g = Some t -> typed g) by (intros g t Hg; unfold typed; by rewrite Hg).
  assert (HL : forall l, Forall (fun f => typed f -> typeof (subst s f) = typeof f /\
      forall e, eval e (subst s f) = eval (assume s e) f) l -> Forall typed l ->
      map typeof (map (subst s) l) = map typeof l /\
      (forall e, mapM (fun g => vbool (eval e g)) (map (subst s) l) = mapM (fun g => vbool (eval (assume s e) g)) l) /\
      (forall e, mapM (fun g => vnum (eval e g)) (map (subst s) l) = mapM (fun g => vnum (eval (assume s e) g)) l)).
  { induction 1 as [|x l Hx _ IH]; intros Hl; [done|]. inversion Hl; subst.
    destruct (Hx H1) as [X1 X2]. destruct (IH H2) as (I1 & I2 & I3). cbn [map mapM].
    split; [by rewrite X1, I1|]. split; intros e; rewrite X2; [by rewrite I2|by rewrite I3]. }
  induction f using fm_ind'; intros HF; cbn [subst].
  - destruct t; [|done..]. split; [by destruct (dget s n)|].
    intros e. unfold assume. cbn [eval eb]. by destruct (dget s n).
  - done.
  - done.
  - done.
  - apply typed_and in HF. destruct (HL l H (Forall_typed_bool _ _ HF)) as (H1 & H2 & _).
    cbn [typeof eval]. rewrite H1. split; [done|]. intros e. by rewrite H2.
  - apply typed_and in HF. destruct (HL l H (Forall_typed_bool _ _ HF)) as (H1 & H2 & _).
    cbn [typeof eval]. rewrite H1. split; [done|]. intros e. by rewrite H2.
  - apply typed_not in HF as HF'. destruct (IHf (HT _ _ HF')) as [H1 H2].
    rewrite HF' in H1. split.
    + rewrite (typeof_mkNot _ H1). cbn [typeof]. by rewrite bool_decide_true.
    + intros e. rewrite (eval_mkNot e _ H1). cbn [eval]. by rewrite H2.
  - apply typed_imp in HF as [HF1 HF2]. destruct (IHf1 (HT _ _ HF1)) as [A1 A2]. destruct (IHf2 (HT _ _ HF2)) as [B1 B2].
    cbn [typeof eval]. rewrite A1, B1. split; [done|]. intros e. by rewrite A2, B2.
  - apply (typed_imp f1 f2) in HF as [HF1 HF2]. destruct (IHf1 (HT _ _ HF1)) as [A1 A2]. destruct (IHf2 (HT _ _ HF2)) as [B1 B2].
    cbn [typeof eval]. rewrite A1, B1. split; [done|]. intros e. by rewrite A2, B2.
  - apply typed_ite in HF as (HF1 & HF2 & HF3). destruct (IHf1 (HT _ _ HF1)) as [A1 A2].
    destruct (IHf2 HF3) as [B1 B2]. assert (typed f3) as HF4 by (unfold typed in *; congruence).
    destruct (IHf3 HF4) as [C1 C2].
    cbn [typeof eval]. rewrite A1, B1, C1. split; [done|]. intros e. by rewrite A2, B2, C2.
  - apply typed_plus in HF as (t & _ & _ & HF). destruct (HL l H (Forall_typed_bool _ _ HF)) as (H1 & _ & H2).
    cbn [typeof eval]. rewrite H1. split; [done|]. intros e. by rewrite H2.
  - apply typed_minus in HF as (t & _ & HF1 & HF2). destruct (IHf1 (HT _ _ HF1)) as [A1 A2]. destruct (IHf2 (HT _ _ HF2)) as [B1 B2].
    cbn [typeof eval]. rewrite A1, B1. split; [done|]. intros e. by rewrite A2, B2.
  - apply (typed_plus l) in HF as (t & _ & _ & HF). destruct (HL l H (Forall_typed_bool _ _ HF)) as (H1 & _ & H2).
    cbn [typeof eval]. rewrite H1. split; [done|]. intros e. by rewrite H2.
  - apply (typed_minus f1 f2) in HF as (t & _ & HF1 & HF2). destruct (IHf1 (HT _ _ HF1)) as [A1 A2]. destruct (IHf2 (HT _ _ HF2)) as [B1 B2].
    cbn [typeof eval]. rewrite A1, B1. split; [done|]. intros e. by rewrite A2, B2.
  - apply typed_le in HF as (t & _ & HF1 & HF2). destruct (IHf1 (HT _ _ HF1)) as [A1 A2]. destruct (IHf2 (HT _ _ HF2)) as [B1 B2].
    cbn [typeof eval]. rewrite A1, B1. split; [done|]. intros e. by rewrite A2, B2.
  - apply (typed_le f1 f2) in HF as (t & _ & HF1 & HF2). destruct (IHf1 (HT _ _ HF1)) as [A1 A2]. destruct (IHf2 (HT _ _ HF2)) as [B1 B2].
    cbn [typeof eval]. rewrite A1, B1. split; [done|]. intros e. by rewrite A2, B2.
  - apply (typed_le f1 f2) in HF as (t & _ & HF1 & HF2). destruct (IHf1 (HT _ _ HF1)) as [A1 A2]. destruct (IHf2 (HT _ _ HF2)) as [B1 B2].
    cbn [typeof eval]. rewrite A1, B1. split; [done|]. intros e. by rewrite A2, B2.
  - unfold typed in HF. cbn [typeof] in HF. case_bool_decide as Hf; [|done].
    destruct (IHf (HT _ _ Hf)) as [A1 _]. cbn [typeof eval]. by rewrite A1.
  - unfold typed in HF. cbn [typeof] in HF.
    assert (typed f) as Hf. { unfold typed. by destruct (typeof f). }
    destruct (IHf Hf) as [A1 A2]. cbn [typeof eval]. rewrite A1. split; [done|]. intros e. by rewrite A2.
Qed.

Section worlds.
  Context (F : (string -> bool) -> Qc).
  Notation wsum vs G := (qsum (map G (worlds vs))).

  Lemma wsum_cons v vs (G : (string -> bool) -> Qc) :
    wsum (v :: vs) G = wsum vs (fun w => G (fun x => if decide (x = v) then true else w x) +
                                         G (fun x => if decide (x = v) then false else w x))%Qc.
  Proof.
    cbn [worlds]. rewrite map_app, qsum_app, !map_map.
    induction (worlds vs) as [|w l IH]; cbn [map]; [by vm_compute|]. rewrite !qsum_cons, <- IH. ring.
  Qed.

  Lemma wsum_ext vs G G' : (forall w, w ∈ worlds vs -> G w = G' w) -> wsum vs G = wsum vs G'.
  Proof. intros H. f_equal. apply map_ext_in. intros w Hw. apply H. by apply elem_of_list_In. Qed.
End worlds.

(** Worlds are false outside their variables. *)
Lemma worlds_outside vs w x : w ∈ worlds vs -> x ∉ vs -> w x = false.
Proof.
  revert w. induction vs as [|v vs IH]; intros w Hw Hx; cbn [worlds] in Hw.
  - apply elem_of_list_singleton in Hw as ->. done.
  - apply not_elem_of_cons in Hx as [H1 H2].
    apply elem_of_app in Hw as [Hw|Hw]; apply elem_of_list_fmap in Hw as (w' & -> & Hw);
      (rewrite decide_False by done; by apply IH).
Qed.

(** The world that follows the evidence on the listed variables. *)
Definition follow (s : list (string * bool)) (vs : list string) (w : string -> bool) (x : string) : bool :=
  if decide (x ∈ vs) then default (w x) (dget s x) else w x.

Lemma wsum_evidence s vs (G : (string -> bool) -> Qc) :
  NoDup vs ->
  (forall w w', (forall x, w x = w' x) -> G w = G w') ->
  (forall w x b, x ∈ vs -> dget s x = Some b -> w x <> b -> G w = 0%Qc) ->
  qsum (map G (worlds vs)) =
  qsum (map (fun w => G (follow s vs w)) (worlds (filter (fun v => v ∉ map fst s) vs))).
Proof.
  intros Hnd. revert G. induction Hnd as [|v vs Hv Hnd IH]; intros G Hext Hzero.
  - cbn. f_equal.
  - rewrite wsum_cons. rewrite filter_cons. destruct (dget s v) as [b|] eqn:Es.
    + rewrite decide_False.
      2:{ intros H. apply H. apply dget_is_Some. by rewrite Es. }
      rewrite (wsum_ext vs _ (fun w => G (fun x => if decide (x = v) then b else w x))).
      2:{ intros w _. destruct b.
          - rewrite (Hzero (fun x => if decide (x = v) then false else w x) v true); [ring|by left|done|].
            rewrite decide_True by done. done.
          - rewrite (Hzero (fun x => if decide (x = v) then true else w x) v false); [ring|by left|done|].
            rewrite decide_True by done. done. }
      rewrite IH.
      * apply wsum_ext. intros w _. apply Hext. intros x. unfold follow.
        destruct (decide (x = v)) as [->|Hne].
        -- rewrite decide_True by by left. by rewrite Es.
        -- destruct (decide (x ∈ vs)).
           ++ rewrite decide_True by by right. done.
           ++ rewrite decide_False; [done|]. intros Hx. apply elem_of_cons in Hx as [?|?]; done.
      * intros w w' Hw. apply Hext. intros x. by rewrite Hw.
      * intros w x b' Hx Hb Hne. apply (Hzero _ x b'); [by right|done|].
        rewrite decide_False; [done|]. intros ->. done.
    + rewrite decide_True.
      2:{ by apply dget_None. }
      rewrite wsum_cons. rewrite IH.
      * apply wsum_ext. intros w _. f_equal; apply Hext; intros x; unfold follow.
        -- destruct (decide (x = v)) as [->|Hne].
           ++ rewrite decide_True by by left. by rewrite Es.
           ++ destruct (decide (x ∈ vs)).
              ** rewrite decide_True by by right. done.
              ** rewrite decide_False; [done|]. intros Hx. apply elem_of_cons in Hx as [?|?]; done.
        -- destruct (decide (x = v)) as [->|Hne].
           ++ rewrite decide_True by by left. by rewrite Es.
           ++ destruct (decide (x ∈ vs)).
              ** rewrite decide_True by by right. done.
              ** rewrite decide_False; [done|]. intros Hx. apply elem_of_cons in Hx as [?|?]; done.
      * intros w w' Hw. f_equal; apply Hext; intros x; by rewrite Hw.
      * intros w x b' Hx Hb Hne. rewrite (Hzero _ x b'), (Hzero _ x b'); [ring|by right|done| |by right|done|].
        -- rewrite decide_False; [done|]. intros ->. done.
        -- rewrite decide_False; [done|]. intros ->. done.
Qed.

Lemma literal_value e n (b : bool) : eval e (if b then Sym n TBool else NotN (Sym n TBool)) = Some (VB (Bool.eqb (eb e n) b)).
Proof. destruct b; cbn; by destruct (eb e n). Qed.

Lemma integrand_evidence e sup w (ev : list (string * bool)) :
  (forall n b, (n, b) ∈ ev -> eb e n = b) ->
  integrand (AndN (sup :: literals ev)) w e = integrand sup w e.
Proof.
  intros H. unfold integrand.
  assert (eval e (AndN (sup :: literals ev)) = (b ← vbool (eval e sup); Some (VB b))) as ->.
  { cbn [eval mapM]. assert (mapM (fun g => vbool (eval e g)) (literals ev) = Some (map (fun _ => true) ev)) as ->.
    { induction ev as [|[n b] ev IH]; [done|]. cbn [literals map mapM fst snd].
      rewrite literal_value. rewrite (H n b) by by left. rewrite eqb_reflx. cbn [vbool mbind option_bind].
      fold (literals ev). rewrite IH; [done|]. intros n' b' Hin. apply H. by right. }
    destruct (vbool (eval e sup)) as [b|]; [|done]. cbn. f_equal. f_equal.
    assert (forallb id (map (fun _ : string * bool => true) ev) = true) as ->
      by (clear; induction ev; cbn; auto).
    by destruct b. }
  destruct (eval e sup) as [[[]|]|]; done.
Qed.

Lemma integrand_zero e sup w (ev : list (string * bool)) n b :
  (n, b) ∈ ev -> eb e n <> b -> integrand (AndN (sup :: literals ev)) w e = 0%Qc.
Proof.
  intros Hin Hne. unfold integrand.
  destruct (eval e (AndN (sup :: literals ev))) as [[[]|]|] eqn:E; try done. exfalso.
  cbn [eval] in E. destruct (mapM (fun g => vbool (eval e g)) (sup :: literals ev)) as [bs|] eqn:Em; [|done].
  cbn in E. injection E as E. apply mapM_Forall2_vbool in Em.
  assert ((if b then Sym n TBool else NotN (Sym n TBool)) ∈ sup :: literals ev) as Hl.
  { right. apply elem_of_list_fmap. by exists (n, b). }
  apply elem_of_list_lookup in Hl as [i Hi].
  destruct (Forall2_lookup_l _ _ _ _ _ Em Hi) as (v & Hv & Hval). rewrite literal_value in Hval.
  injection Hval as <-. assert (Bool.eqb (eb e n) b = true) as Hb.
  { rewrite forallb_forall in E. apply (E _). apply elem_of_list_In. by eapply elem_of_list_lookup_2. }
  apply eqb_prop in Hb. done.
Qed.

Lemma wmi_evidence J simp bools sup w ev : integral J ->
  (forall f, typed f -> fequiv (simp f) f) -> typed sup -> typed w ->
  NoDup bools -> NoDup (map fst ev) -> (forall n, n ∈ map fst ev -> n ∈ bools) ->
  wmi J (filter (fun v => v ∉ map fst ev) bools) (subst ev sup) (simp (subst ev w)) =
  wmi J bools (AndN (sup :: literals ev)) w.
Proof.
  intros [Jext Jzero] Hsimp Hsup Hw Hnd Hev Hin. unfold wmi. symmetry.
  rewrite (wsum_evidence ev bools).
  - apply wsum_ext. intros b Hb. apply Jext. intros r.
    rewrite integrand_evidence.
    2:{ intros n v Hnv. cbn [eb]. unfold follow. rewrite decide_True.
        - by rewrite (In_dget ev n v Hev Hnv).
        - apply Hin. apply elem_of_list_fmap. by exists (n, v). }
    unfold integrand. destruct (subst_sound ev sup Hsup) as [_ S1]. destruct (subst_sound ev w Hw) as [Tw S2].
    rewrite (Hsimp (subst ev w)) by (unfold typed in *; congruence). rewrite S1, S2.
    assert (forall f, eval (Env (follow ev bools b) r) f = eval (assume ev (Env b r)) f) as E.
    { intros f. apply eval_ext; intros x; cbn [eb er assume]; [|done]. unfold follow.
      destruct (decide (x ∈ bools)) as [|Hx]; [done|].
      destruct (dget ev x) as [v|] eqn:Ex; [|done]. exfalso. apply Hx, Hin.
      apply dget_is_Some. by rewrite Ex. }
    by rewrite !E.
  - done.
  - intros w1 w2 H12. apply Jext. intros r. unfold integrand.
    rewrite (eval_ext (Env w1 r) (Env w2 r)) by done.
    rewrite (eval_ext (Env w1 r) (Env w2 r)) by done. done.
  - intros b x v Hx Hv Hne. rewrite <- Jzero. apply Jext. intros r.
    apply (integrand_zero _ _ _ _ x v); [by apply dget_In|done].
Qed.

Lemma check_evidence_ok ev :
  rmapM check_evidence (map (fun p => (Sym (fst p) TBool, BoolC (snd p))) ev) = Ok ev.
Proof. induction ev as [|[n b] ev IH]; [done|]. cbn [map]. rewrite rmapM_cons. cbn. by rewrite IH. Qed.

Lemma check_evidence_inv subs ev : rmapM check_evidence subs = Ok ev ->
  subs = map (fun p => (Sym (fst p) TBool, BoolC (snd p))) ev.
Proof.
  revert ev. induction subs as [|[k v] subs IH]; intros ev H.
  - rewrite rmapM_nil in H. by injection H as <-.
  - rewrite rmapM_cons in H. destruct (check_evidence (k, v)) as [[n b]|] eqn:E; [|done]. cbn [rbind] in H.
    destruct (rmapM check_evidence subs) as [ev'|]; [|done]. cbn [rbind] in H. injection H as <-.
    cbn [map fst snd]. rewrite <- (IH ev' eq_refl). f_equal.
    unfold check_evidence in E. repeat case_match; congruence.
Qed.

Lemma filter_filter_in {A} (P Q R : A -> Prop) `{!forall x, Decision (P x)} `{!forall x, Decision (Q x)}
    `{!forall x, Decision (R x)} (l : list A) :
  (forall x, x ∈ l -> Q x -> (P x <-> R x)) -> filter P (filter Q l) = filter Q (filter R l).
Proof.
  induction l as [|x l IH]; intros HL; [done|]. rewrite (filter_cons Q x l), (filter_cons R x l).
  assert (filter P (filter Q l) = filter Q (filter R l)) as IHl.
  { apply IH. intros y Hy. apply HL. by right. }
  assert (Q x -> (P x <-> R x)) as Hx by (apply HL; by left).
  destruct (decide (Q x)) as [HQ|HQ], (decide (R x)) as [HR|HR]; rewrite ?filter_cons.
  - rewrite !decide_True by tauto. by rewrite IHl.
  - rewrite decide_False by tauto. done.
  - rewrite decide_False by tauto. done.
  - done.
Qed.

Lemma filter_all {A} (P : A -> Prop) `{!forall x, Decision (P x)} (l : list A) :
  (forall x, x ∈ l -> P x) -> filter P l = l.
Proof.
  induction l as [|x l IH]; intros HL; [done|]. rewrite filter_cons, decide_True by (apply HL; by left).
  f_equal. apply IH. intros y Hy. apply HL. by right.
Qed.

Lemma evidence_ok J simp d sup w (ev : list (string * bool)) : integral J ->
  (forall f, typed f -> fequiv (simp f) f) ->
  wf_domain d -> typed sup -> typed w ->
  NoDup (map fst ev) -> (forall n, n ∈ map fst ev -> n ∈ names d TBool) ->
  exists d' sup' w',
    with_evidence simp d sup w (map (fun p => (Sym (fst p) TBool, BoolC (snd p))) ev) = Ok (d', sup', w') /\
    wf_domain d' /\
    d_vars d' = filter (fun v => v ∉ map fst ev) (d_vars d) /\
    (forall v, v ∈ names d' TBool <-> v ∈ names d TBool /\ v ∉ map fst ev) /\
    names d' TReal = names d TReal /\ d_doms d' = d_doms d /\
    wmi J (names d' TBool) sup' w' = wmi J (names d TBool) (AndN (sup :: literals ev)) w.
Proof.
  intros HJ Hsimp W Hsup Hw Hnd Hin. unfold with_evidence. rewrite check_evidence_ok. cbn [rbind].
  set (vs := filter (fun v => v ∉ map fst ev) (d_vars d)).
  destruct (rmapM_all (fun v => let! t := ditem (d_types d) v in Ok (v, t))
    (fun v p => fst p = v /\ (v, snd p) ∈ d_types d) vs) as (ts & -> & Hts).
  { intros v Hv. apply elem_of_list_filter in Hv as [_ Hv].
    destruct (wf_lookup d v W Hv) as (t & H1 & H2). exists (v, t). rewrite H1. done. }
  cbn [rbind].
  assert (map fst ts = vs) as Hk by (apply (forall2_pair_map (fun v t => (v, t) ∈ d_types d)); exact Hts).
  assert (NoDup vs) as Hvs by apply NoDup_filter, W.
  assert (set_all [] ts = ts) as Hset.
  { rewrite dset_all_fresh; [done|]. cbn [app]. by rewrite Hk. }
  assert (forall v t, (v, t) ∈ ts <-> v ∈ vs /\ (v, t) ∈ d_types d) as Htin.
  { intros v t. split.
    - intros Hts'. split; [rewrite <- Hk; apply elem_of_list_fmap; by exists (v, t)|].
      apply elem_of_list_lookup in Hts' as [i Hi].
      destruct (Forall2_lookup_r _ _ _ _ _ Hts Hi) as (v' & _ & <- & H). done.
    - intros [Hv H2]. rewrite <- Hk in Hv. apply elem_of_list_fmap in Hv as ([v' t'] & -> & Hin'). cbn in *.
      apply elem_of_list_lookup in Hin' as Hi. destruct Hi as [i Hi].
      destruct (Forall2_lookup_r _ _ _ _ _ Hts Hi) as (v'' & _ & H3 & H4). cbn in *. subst.
      pose proof (ditem_ok _ _ _ (wd_types d W) H2). pose proof (ditem_ok _ _ _ (wd_types d W) H4). congruence. }
  assert (forall v, v ∈ map fst ev -> (v, TReal) ∈ d_types d -> False) as Hev.
  { intros v H1 H2. apply Hin in H1. unfold names in H1. apply elem_of_list_filter in H1 as [H1 _].
    pose proof (ditem_ok _ _ _ (wd_types d W) H2). pose proof (ditem_ok _ _ _ (wd_types d W) H1). congruence. }
  set (d' := Dom vs (set_all [] ts) (d_doms d)). exists d', (subst ev sup), (simp (subst ev w)).
  assert (forall t, names d' t = filter (fun v => v ∉ map fst ev) (names d t)) as HF.
  { intros t. unfold names, d'. cbn [d_vars d_types]. rewrite Hset. apply filter_filter_in.
    intros v Hv HQ. rewrite Htin. unfold vs. rewrite elem_of_list_filter. tauto. }
  split; [done|]. split.
  { unfold d'. rewrite Hset. split; cbn [d_vars d_types d_doms].
    - done.
    - by rewrite Hk.
    - intros v. by rewrite Hk.
    - intros v t Hv. apply Htin in Hv as [_ Hv]. by apply (wd_type d W) in Hv.
    - apply W.
    - intros v. rewrite (wd_doms_real d W), Htin. split; [|tauto]. intros Hv. split; [|done].
      unfold vs. apply elem_of_list_filter. split; [intros H1; exact (Hev v H1 Hv)|].
      apply (wd_types_vars d W). apply elem_of_list_fmap. by exists (v, TReal). }
  split; [done|]. split; [intros v; rewrite HF, elem_of_list_filter; tauto|].
  split.
  { rewrite HF. apply filter_all. intros v Hv H1. unfold names in Hv.
    apply elem_of_list_filter in Hv as [Hv _]. exact (Hev v H1 Hv). }
  split; [done|]. rewrite HF.
  apply wmi_evidence; try done. unfold names. apply NoDup_filter, W.
Qed.

(** * Temporary files *)

Section temp.
  Context (fresh : (string -> option string) -> string).

  Lemma with_block_ok {A} cb (body : string -> world -> world * Res A) w w1 w2 r :
    (forall c, cb = Some c -> exists u, snd (c (fresh (files w))
       (World (files (set_file (fresh (files w)) (Some "") w)) (S (fds w)))) = Ok u) ->
    fst (fst (enter fresh cb w)) = w1 -> body (fresh (files w)) w1 = (w2, r) ->
    exists w', with_block fresh cb body w = (w', r) /\
      files w' (fresh (files w)) = None /\
      (forall m, m <> fresh (files w) -> files w' m = files w2 m) /\ fds w' = fds w2.
  Proof.
    intros Hcb H1 H2. unfold with_block.
    assert (enter fresh cb w = (w1, Some (fresh (files w)), Ok (fresh (files w)))) as ->.
    { unfold enter in *. destruct cb as [c|]; [|by rewrite <- H1].
      destruct (Hcb c eq_refl) as [u Hu]. destruct (c _ _) as [w1' r'] eqn:Ec. cbn in Hu, H1. by subst. }
    rewrite H2. eexists. split; [reflexivity|]. unfold exit.
    destruct (files w2 (fresh (files w))) as [c|] eqn:Ef.
    - cbn. rewrite decide_True by done. split; [done|]. split; [|done]. intros m Hm. by rewrite decide_False.
    - done.
  Qed.

  (** When callback and body write no other file, nothing else changes. *)
  Definition only_writes (n : string) (w w' : world) : Prop :=
    forall m, m <> n -> files w' m = files w m.

  Lemma with_block_frame {A} cb (body : string -> world -> world * Res A) w :
    files w (fresh (files w)) = None ->
    (forall c, cb = Some c -> forall n w, (exists u, snd (c n w) = Ok u) /\ only_writes n w (fst (c n w))) ->
    (forall n w, only_writes n w (fst (body n w))) ->
    forall m, files (fst (with_block fresh cb body w)) m = files w m.
  Proof.
    intros Hfresh Hcb Hbody m. set (n := fresh (files w)).
    set (w0 := World (files (set_file n (Some "") w)) (S (fds w))).
    assert (only_writes n w (fst (fst (enter fresh cb w)))) as H1.
    { unfold enter. fold n w0. assert (only_writes n w w0) as H0.
      { intros k Hk. cbn. by rewrite decide_False. }
      destruct cb as [c|]; [|done]. destruct (Hcb c eq_refl n w0) as [_ Hc].
      destruct (c n w0) as [w1 r]. cbn in *. intros k Hk. rewrite Hc by done. by apply H0. }
    set (w1 := fst (fst (enter fresh cb w))) in *.
    destruct (body n w1) as [w2 r] eqn:Eb.
    destruct (with_block_ok cb body w w1 w2 r) as (w' & -> & H2 & H3 & _).
    - intros c Hc. by apply Hcb.
    - done.
    - done.
    - cbn [fst]. destruct (decide (m = n)) as [->|Hm].
      + unfold n. rewrite H2. symmetry. apply Hfresh.
      + rewrite H3 by done. specialize (Hbody n w1). rewrite Eb in Hbody. rewrite Hbody by done. by apply H1.
  Qed.
End temp.
