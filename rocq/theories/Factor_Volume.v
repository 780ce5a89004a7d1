(** The value returned by the factorized engine (C37). *)

From Verif Require Import Print_Proofs.
From Verif Require Import Base Dict Smt Smt_Facts Walk_Model Math_Model Math_Spec Poly_Proofs Linear_Proofs Arith_Proofs.
From Verif Require Import Walk_Proofs Bounds_Proofs Engine_Spec Engine_Model Lit_Model Lit_Spec Lit_Proofs Lit_Tests Sdd_Model Sdd_Spec Sdd_Proofs Sdd_Props.
From Verif Require Import Piecewise_Model Piecewise_Spec Piecewise_Proofs Piecewise_Props Multimap_Model Resolve_Model Xsdd_Model Xsdd_Spec Xsdd_Proofs.
From Verif Require Import Factor_Model Factor_Spec Factor_Integral Factor_Proofs Factor_Walk Factor_Value Factor_Piece Factor_Term.

(** * The supports of the terms *)

Definition holds (e : env) (c : fm) : bool := bool_decide (eval e c = Some (VB true)).
Definition tsum (e : env) (m : list (pdict * list fm)) : Qc :=
  qsum (map (fun kv : pdict * list fm => (if existsb (holds e) kv.2 then 1 else 0) * poly_val e kv.1)%Qc m).

Lemma tsum_dset e m k vs vs' : dget m k = Some vs ->
  tsum e (dset m k vs') = (tsum e m + ((if existsb (holds e) vs' then 1 else 0) - (if existsb (holds e) vs then 1 else 0)) * poly_val e k)%Qc.
Proof.
  unfold tsum. induction m as [|[k0 v0] m IH]; [done|]. cbn [dget dset]. destruct (decide (k0 = k)) as [->|].
  - intros [= ->]. cbn [map]. rewrite !qsum_cons. cbn [fst snd]. ring.
  - intros H. cbn [map]. rewrite !qsum_cons, (IH H). cbn [fst snd]. ring.
Qed.
Lemma tsum_add e m k c : (holds e c = true -> forall vs, dget m k = Some vs -> existsb (holds e) vs = false) ->
  tsum e (mm_add m k c) = (tsum e m + (if holds e c then 1 else 0) * poly_val e k)%Qc.
Proof.
  intros H. unfold mm_add, mm_get. destruct (dget m k) as [vs|] eqn:G.
  - rewrite (tsum_dset e m k vs _ G). f_equal. f_equal. specialize (fun Hc => H Hc vs eq_refl).
    destruct (bool_decide (c ∈ vs)) eqn:B.
    + apply bool_decide_eq_true in B. destruct (holds e c) eqn:Hc; [|ring]. exfalso. specialize (H eq_refl).
      rewrite (proj2 (existsb_exists _ _)) in H; [done|]. exists c. split; [by apply elem_of_list_In|done].
    + rewrite existsb_app. cbn [existsb]. rewrite orb_false_r. destruct (holds e c); [rewrite H by done; cbn; ring|]. rewrite orb_false_r. ring.
  - assert (bool_decide (c ∈ ([] : list fm)) = false) as -> by (apply bool_decide_eq_false_2; apply not_elem_of_nil).
    rewrite (tsum_dset e (dset m k []) k [] [c]).
    + assert (tsum e (dset m k []) = tsum e m) as ->.
      { apply dget_None in G. rewrite dset_fresh by done. unfold tsum. rewrite map_app, qsum_app. cbn. ring. }
      cbn [existsb app]. rewrite orb_false_r. destruct (holds e c); ring.
    + rewrite dget_dset. by rewrite decide_True.
Qed.
Lemma mm_add_get (m : list (pdict * list fm)) k c k' vs : dget (mm_add m k c) k' = Some vs ->
  (k' = k /\ exists old, (dget m k = Some old \/ dget m k = None /\ old = []) /\ forall v, v ∈ vs <-> v ∈ old \/ v = c) \/
  (k' <> k /\ dget m k' = Some vs).
Proof.
  unfold mm_add, mm_get. intros H.
  assert (forall (m0 : list (pdict * list fm)) old, (forall k', k' <> k -> dget m0 k' = dget m k') ->
    dget (dset m0 k (if bool_decide (c ∈ old) then old else old ++ [c])) k' = Some vs ->
    (k' = k /\ forall v, v ∈ vs <-> v ∈ old \/ v = c) \/ (k' <> k /\ dget m k' = Some vs)) as HG.
  { intros m0 old H0. rewrite dget_dset. destruct (decide (k = k')) as [<-|Hne].
    - intros [= <-]. left. split; [done|]. intros v. destruct (bool_decide (c ∈ old)) eqn:B.
      + apply bool_decide_eq_true in B. split; [by left|]. intros [?| ->]; done.
      + rewrite elem_of_app, elem_of_list_singleton. done.
    - intros Hg. right. split; [done|]. by rewrite <- H0. }
  destruct (dget m k) as [old|] eqn:G.
  - destruct (HG m old) as [[-> Hv]|[Hne Hg]]; [done|done|left|right; done]. split; [done|]. exists old. split; [by left|done].
  - destruct (HG (dset m k []) []) as [[-> Hv]|[Hne Hg]].
    + intros k0 Hk0. rewrite dget_dset. by rewrite decide_False.
    + done.
    + left. split; [done|]. exists []. split; [by right|done].
    + by right.
Qed.
Lemma mm_add_wf (m : list (pdict * list fm)) k c : dwf m -> dwf (mm_add m k c).
Proof. unfold mm_add, mm_get. intros H. destruct (dget m k); apply dwf_dset; [done|by apply dwf_dset]. Qed.

(** The entries come from pieces. *)
Definition from (pre : list (pkey * fm)) (m : list (pdict * list fm)) : Prop :=
  dwf m /\ forall k vs, dget m k = Some vs -> exists t, k = [t] /\ vs <> [] /\ forall v, v ∈ vs -> exists kc, kc ∈ pre /\ v = kc.2 /\ has_term t kc.1.

Section supports.
  Variable full : list (pkey * fm).
  Hypothesis HX : exclusive_terms full.

  Lemma one_piece pre c q after e : full = pre ++ (KPoly q, c) :: after -> forall todo doneq m, doneq ++ todo = q -> NoDup q ->
    from (pre ++ [(KPoly doneq, c)]) m ->
    from (pre ++ [(KPoly q, c)]) (fold_left (fun m t => mm_add m [t] c) todo m) /\
    tsum e (fold_left (fun m t => mm_add m [t] c) todo m) = (tsum e m + (if holds e c then 1 else 0) * poly_val e todo)%Qc.
  Proof.
    intros Hfull. induction todo as [|t todo IH]; intros doneq m Hq Hnd [Hwf Hm]; cbn [fold_left].
    - rewrite app_nil_r in Hq. subst doneq. split; [done|]. rewrite pv_nil. ring.
    - destruct (IH (doneq ++ [t]) (mm_add m [t] c)) as [I1 I2].
      + by rewrite <- app_assoc.
      + done.
      + split; [by apply mm_add_wf|]. intros k vs Hg.
        assert (forall t0 v, (exists kc, kc ∈ pre ++ [(KPoly doneq, c)] /\ v = kc.2 /\ has_term t0 kc.1) ->
          exists kc, kc ∈ pre ++ [(KPoly (doneq ++ [t]), c)] /\ v = kc.2 /\ has_term t0 kc.1) as Hmono.
        { intros t0 v (kc & Hkc & -> & Ht). apply elem_of_app in Hkc as [Hkc|Hkc].
          - exists kc. split; [apply elem_of_app; by left|done].
          - apply elem_of_list_singleton in Hkc as ->. cbn [fst snd] in *. exists (KPoly (doneq ++ [t]), c).
            split; [apply elem_of_app; right; by apply elem_of_list_singleton|]. split; [done|]. apply elem_of_app. by left. }
        apply mm_add_get in Hg as [(-> & old & Hold & Hv)|[Hne Hg]].
        * exists t. split; [done|]. split.
          { intros ->. apply (not_elem_of_nil c), Hv. by right. }
          intros v Hin. apply Hv in Hin as [Hin| ->].
          -- destruct Hold as [Hold|[_ ->]]; [|by apply elem_of_nil in Hin]. destruct (Hm _ _ Hold) as (t' & [= <-] & _ & Hall). auto.
          -- exists (KPoly (doneq ++ [t]), c). split; [apply elem_of_app; right; by apply elem_of_list_singleton|]. split; [done|].
             apply elem_of_app. right. by apply elem_of_list_singleton.
        * destruct (Hm _ _ Hg) as (t' & -> & Hne' & Hall). exists t'. split; [done|]. split; [done|]. auto.
      + split; [done|]. rewrite I2, tsum_add.
        * destruct t as [k v]. rewrite !Poly_Proofs.pv_cons, pv_nil. ring.
        * intros Hc vs Hg. apply not_true_iff_false. intros Hex. apply existsb_exists in Hex as (v & Hv & Hhv). apply elem_of_list_In in Hv.
          destruct (Hm _ _ Hg) as (t' & [= <-] & _ & Hall). destruct (Hall v Hv) as (kc & Hkc & -> & Ht).
          apply bool_decide_eq_true in Hc, Hhv. apply elem_of_app in Hkc as [Hkc|Hkc].
          -- apply elem_of_list_split in Hkc as (l1 & l2 & ->). destruct kc as [k' c']. cbn [fst snd] in *.
             apply (HX l1 k' c' (l2 ++ (KPoly q, c) :: after) (KPoly q) c t e); try done.
             ++ by rewrite Hfull, <- app_assoc.
             ++ apply elem_of_app. right. by left.
             ++ cbn. rewrite <- Hq. apply elem_of_app. right. by left.
          -- apply elem_of_list_singleton in Hkc as ->. cbn in Ht. rewrite <- Hq in Hnd. apply NoDup_app in Hnd as (_ & Hd & _).
             apply (Hd t Ht). by left.
  Qed.

  Lemma all_supports e todo : Forall (fun kc : pkey * fm => is_poly kc.1) todo -> Forall (fun kc : pkey * fm => key_wf kc.1) todo ->
    forall pre m, full = pre ++ todo -> from pre m ->
    exists m', fold_left (fun r (kc : pkey * fm) => let! m := r in
        match kc.1 with KNum _ => Err AttributeError | KPoly p => Ok (fold_left (fun m t => mm_add m [t] kc.2) p m) end) todo (Ok m) = Ok m' /\
      from full m' /\ tsum e m' = (tsum e m + qsum (map (fun kc : pkey * fm => (if holds e kc.2 then 1 else 0) * poly_val e (key_poly kc.1)) todo))%Qc.
  Proof.
    induction todo as [|[k c] todo IH]; intros HF HW pre m Hfull Hm.
    - cbn. exists m. split; [done|]. rewrite app_nil_r in Hfull. subst. split; [done|]. change (qsum []) with 0%Qc. ring.
    - apply Forall_cons in HF as [Hk HF], HW as [Hw HW]. destruct k as [x|q]; [done|]. cbn [fold_left rbind fst snd].
      destruct (one_piece pre c q todo e Hfull q [] m) as [M1 M2].
      + done.
      + eapply NoDup_fmap_1; exact Hw.
      + destruct Hm as [W Hm]. split; [done|]. intros k vs Hg. destruct (Hm _ _ Hg) as (t & -> & Hne & Hall). exists t. split; [done|]. split; [done|].
        intros v Hv. destruct (Hall v Hv) as (kc & Hkc & H). exists kc. split; [apply elem_of_app; by left|done].
      + destruct (IH HF HW (pre ++ [(KPoly q, c)]) _ ltac:(by rewrite <- app_assoc) M1) as (m' & E & F1 & V).
        exists m'. split; [exact E|]. split; [done|]. rewrite V, M2. cbn [map fst snd key_poly]. rewrite qsum_cons. ring.
  Qed.
End supports.

Lemma term_supports_ok p : exclusive_terms p -> Forall (fun kc : pkey * fm => is_poly kc.1) p -> Forall (fun kc : pkey * fm => key_wf kc.1) p ->
  exists m, term_supports p = Ok m /\ from p m /\
    forall e, tsum e m = qsum (map (fun kc : pkey * fm => (if holds e kc.2 then 1 else 0) * poly_val e (key_poly kc.1))%Qc p).
Proof.
  intros HX HF HW. assert (from [] []) as H0 by (split; [apply dwf_nil|done]).
  destruct (all_supports p HX (Env (fun _ => false) (fun _ => 0%Qc)) p HF HW [] [] eq_refl H0) as (m & E & F1 & _).
  exists m. split; [exact E|]. split; [done|]. intros e. destruct (all_supports p HX e p HF HW [] [] eq_refl H0) as (m' & E' & _ & V).
  assert (m' = m) as -> by congruence. rewrite V. unfold tsum. cbn [map]. change (qsum []) with 0%Qc. ring.
Qed.

(** * The variables of the pieces *)

Section keys.
  Context {E : Type} (A : alg E) (two : E) (simplify : fm -> fm) (strict : bool) (Q : E -> Prop) (V : string -> Prop).
  Hypothesis QR : forall q, Q (a_real A q).
  Hypothesis QS : forall x, V x -> Q (a_symbol A x).
  Hypothesis Q2 : Q two.
  Hypothesis QT : forall a b, Q a -> Q b -> Q (alg_times A a b).
  Notation ok := (Forall (fun kc : E * fm => Q kc.1)).

  Lemma kset_keys p e c : ok p -> Q e -> ok (kset A p e c).
  Proof.
    intros Hp Hc. unfold kset. destruct (kget A p e).
    - apply Forall_forall. intros kc Hin. apply elem_of_list_In, in_map_iff in Hin as (kc' & <- & Hin).
      apply elem_of_list_In in Hin. eapply Forall_forall in Hp; [|exact Hin]. by destruct (a_eq A kc'.1 e).
    - apply Forall_app. split; [done|]. by constructor.
  Qed.
  Lemma kpop_keys p e : ok p -> ok (kpop A p e).
  Proof. apply Forall_lfilter. Qed.
  Lemma addpiece_keys p e c p' : ok p -> Q e -> addpiece A two simplify strict p e c = Ok p' -> ok p'.
  Proof.
    intros Hp Hc. unfold addpiece. destruct (is_false c); [by intros [= <-]|].
    destruct (kget A p e) as [old|] eqn:G.
    - destruct (strict && _); [done|].
      assert (ok (if is_false (simplify (mkAnd [mkOr [old; c]; mkNot (mkAnd [old; c])])) then kpop A p e
        else kset A p e (simplify (mkAnd [mkOr [old; c]; mkNot (mkAnd [old; c])])))) as H1.
      { destruct (is_false _); [by apply kpop_keys|by apply kset_keys]. }
      destruct (is_false (simplify (mkAnd [old; c]))); [intros [= <-]; by apply kpop_keys|]. destruct (kmem A _ _); [done|].
      intros [= <-]. apply kset_keys; [done|by apply QT].
    - intros [= <-]. by apply kset_keys.
  Qed.
  Lemma addall_keys l : forall p p', ok p -> ok l -> addall A two simplify strict p l = Ok p' -> ok p'.
  Proof.
    unfold addall. induction l as [|[e c] l IH]; intros p p' Hp Hl; cbn [fold_left rbind fst snd].
    - by intros [= <-].
    - apply Forall_cons in Hl as [Hc Hl]. destruct (addpiece A two simplify strict p e c) as [p1|x] eqn:E1.
      + intros H. apply (IH p1 p'); [|done|done]. by apply (addpiece_keys p e c).
      + by rewrite addall_err.
  Qed.
  Lemma pw_add_keys p q r : ok p -> ok q -> pw_add A two simplify strict p q = Ok r -> ok r.
  Proof.
    intros Hp Hq. unfold pw_add. destruct p as [|kp p]; [by intros [= <-]|]. destruct q as [|kq q]; [by intros [= <-]|].
    apply addall_keys; [constructor|]. apply Forall_lfilter. by apply Forall_app.
  Qed.
  Lemma pw_mul_keys p q r : ok p -> ok q -> pw_mul A two simplify strict p q = Ok r -> ok r.
  Proof.
    intros Hp Hq. unfold pw_mul. apply addall_keys; [constructor|].
    apply Forall_forall. intros kc Hin. apply elem_of_list_In, in_flat_map in Hin as (k1 & Hk1 & Hin).
    apply in_flat_map in Hin as (k2 & Hk2 & Hin). apply elem_of_list_In in Hk1, Hk2.
    eapply Forall_forall in Hp; [|exact Hk1]. eapply Forall_forall in Hq; [|exact Hk2]. unfold mul_piece in Hin.
    destruct (_ && _) in Hin; [|done]. destruct (negb _) in Hin; [|done]. destruct Hin as [<-|[]]. cbn [fst].
    destruct (a_eq A k1.1 _); [done|]. destruct (a_eq A k2.1 _); [done|]. by apply QT.
  Qed.
  Lemma pw_neg_keys p r : ok p -> pw_neg A strict p = Ok r -> ok r.
  Proof.
    unfold pw_neg. intros Hp.
    assert (forall d, ok d -> fold_left (fun r (kc : E * fm) => let! d := r in
      let e := alg_negate A kc.1 in if strict && kmem A d e then Err RuntimeErr else Ok (kset A d e kc.2)) p (Ok d) = Ok r -> ok r) as HG.
    { induction Hp as [|[k c] p Hc Hp IH]; intros d Hd; cbn [fold_left rbind fst snd]; [by intros [= <-]|].
      destruct (strict && _).
      - assert (forall x, fold_left (fun r (kc : E * fm) => let! d := r in
          if strict && kmem A d (alg_negate A kc.1) then Err RuntimeErr else Ok (kset A d (alg_negate A kc.1) kc.2)) p (Err x) = Err x) as Herr.
        { intros x. clear. by induction p. }
        intros H. cbn zeta in H. rewrite Herr in H. done.
      - intros H. apply (IH _ (kset_keys d _ c Hd (QT _ _ Hc (QR _))) H). }
    apply HG. constructor.
  Qed.
  Lemma pw_condition_keys p c : ok p -> ok (pw_condition p c).
  Proof.
    intros Hp. unfold pw_condition. apply Forall_forall. intros kc Hin.
    apply elem_of_list_In, in_map_iff in Hin as (kc' & <- & Hin). cbn [fst]. apply elem_of_list_In in Hin.
    by eapply Forall_forall in Hp; [|exact Hin].
  Qed.
  Lemma reduce_keys (op : list (E * fm) -> list (E * fm) -> Res (list (E * fm))) ps r :
    (forall p q r, ok p -> ok q -> op p q = Ok r -> ok r) -> Forall ok ps -> reduceM op ps = Ok r -> ok r.
  Proof.
    intros Hop HF. destruct ps as [|p ps]; [done|]. cbn [reduceM]. apply Forall_cons in HF as [Hp HF].
    revert p Hp. induction HF as [|q ps Hq _ IH]; intros p Hp; cbn [fold_left rbind]; [by intros [= <-]|].
    destruct (op p q) as [p1|x] eqn:E1.
    - apply IH. by apply (Hop p q).
    - assert (fold_left (fun r y => let! r := r in op r y) ps (Err x) = Err x) as -> by (clear; by induction ps). done.
  Qed.
  Lemma walk_keys n : forall f p, (forall x, (x, TReal) ∈ syms f -> V x) -> walk (pw_walker A two simplify strict) n f = Ok p -> ok p.
  Proof.
    induction n as [|n IH]; intros f p; [done|]. cbn [walk].
    assert (forall l ps, (forall x, (x, TReal) ∈ concat (map syms l) -> V x) -> rmapM (walk (pw_walker A two simplify strict) n) l = Ok ps -> Forall ok ps) as HL.
    { induction l as [|g l IHl]; intros ps HF; [intros [= <-]; constructor|]. rewrite rmapM_cons. cbn [map concat] in HF.
      destruct (walk _ n g) as [pg|] eqn:Eg; cbn [rbind]; [|done].
      destruct (rmapM _ l) as [ps'|] eqn:El; cbn [rbind]; [|done]. intros [= <-]. constructor.
      - apply (IH g); [|done]. intros x Hx. apply HF, elem_of_app. by left.
      - apply IHl; [|done]. intros x Hx. apply HF, elem_of_app. by right. }
    destruct f as [x [] | b | q | z | l | l | g | g h | g h | c g h | l | g h | l | g h | g h | g h | g h | g | g];
      cbn [dispatch syms]; try done.
    - intros HV [= <-]. constructor; [|constructor]. apply QS, HV. by left.
    - intros _ [= <-]. constructor; [|constructor]. apply QR.
    - intros HV H. apply (IH _ _) in H; [done|]. intros x Hx. apply HV. cbn [imp_expand mkOr syms map concat] in Hx. rewrite app_nil_r in Hx.
      apply elem_of_app in Hx as [Hx%syms_mkNot_in|Hx]; apply elem_of_app; auto.
    - cbn [w_ite pw_walker]. intros HV.
      destruct (walk _ n g) as [pg|] eqn:Eg; cbn [rbind]; [|done].
      destruct (walk _ n h) as [ph|] eqn:Eh; cbn [rbind]; [|done]. unfold pw_ite.
      apply pw_add_keys; apply pw_condition_keys; [apply (IH g)|apply (IH h)]; try done; intros x Hx; apply HV; rewrite !elem_of_app; auto.
    - cbn [w_plus pw_walker]. intros HF. destruct (rmapM _ l) as [ps|] eqn:El; cbn [rbind]; [|done].
      apply reduce_keys; [exact pw_add_keys|by apply (HL l)].
    - cbn [w_minus pw_walker]. intros HV.
      destruct (walk _ n g) as [pg|] eqn:Eg; cbn [rbind]; [|done].
      destruct (walk _ n h) as [ph|] eqn:Eh; cbn [rbind]; [|done].
      destruct (pw_neg A strict ph) as [ph'|] eqn:En; cbn [rbind]; [|done].
      apply pw_add_keys; [apply (IH g)|apply (pw_neg_keys ph); [apply (IH h)|]]; try done; intros x Hx; apply HV; rewrite !elem_of_app; auto.
    - cbn [w_times pw_walker]. intros HF. destruct (rmapM _ l) as [ps|] eqn:El; cbn [rbind]; [|done].
      apply reduce_keys; [exact pw_mul_keys|by apply (HL l)].
    - cbn [w_pow pw_walker]. unfold pw_pow. intros HV. destruct (walk _ n g) as [pg|] eqn:Eg; cbn [rbind]; [|done].
      destruct (const_val h) as [x|]; [|done]. destruct (int_of_qc x) as [z|]; [|done].
      destruct (z =? 0)%Z; [intros [= <-]; constructor; [apply QR|constructor]|]. apply reduce_keys; [exact pw_mul_keys|].
      apply Forall_forall. intros p' Hin. apply elem_of_list_In, repeat_spec in Hin as ->. apply (IH g); [|done].
      intros y Hy; apply HV; rewrite !elem_of_app; auto.
  Qed.
End keys.

Lemma nkeys_mul (Q : string -> Prop) d1 d2 d : nkeys Q d1 -> nkeys Q d2 -> dict_times false d1 d2 = Ok d -> nkeys Q d.
Proof.
  intros H1 H2. unfold dict_times.
  assert (forall r, nkeys Q r ->
    fold_left (fun r kv1 => fold_left (times_step false kv1.1 kv1.2) d2 r) d1 (Ok r) = Ok d ->
    nkeys Q d) as H; [|apply H; constructor].
  induction H1 as [|[k1 v1] d1 Hk1 H1 IH]; intros r Hr; cbn [fold_left].
  { by intros [= <-]. }
  cbn in Hk1. cbn [fst snd].
  assert (forall r, nkeys Q r -> forall r', fold_left (times_step false k1 v1) d2 (Ok r) = Ok r' ->
    nkeys Q r') as Hin.
  { clear -Hk1 H2. induction H2 as [|[k2 v2] d2 Hk2 H2 IH]; intros r Hr r'; cbn [fold_left].
    { by intros [= <-]. }
    cbn in Hk2. unfold times_step at 2. cbn [rbind fst snd].
    rewrite andb_false_r.
    apply IH. apply nkeys_dset; [done|]. rewrite (psort_perm str_cmp _). by apply Forall_app. }
  destruct (fold_left (times_step false k1 v1) d2 (Ok r)) as [r'|] eqn:E.
  - apply IH. by eapply Hin.
  - by rewrite times_outer_err.
Qed.
Lemma nkeys_variables (Q : string -> Prop) d v : nkeys Q d -> v ∈ poly_variables d -> Q v.
Proof.
  intros H Hv. unfold poly_variables in Hv. apply elem_of_remove_dups, elem_of_list_In, in_concat in Hv as (k & Hk & Hx).
  apply in_map_iff in Hk as (kv & <- & Hin). apply elem_of_list_In in Hin, Hx. unfold nkeys in H. rewrite Forall_forall in H.
  specialize (H _ Hin). rewrite Forall_forall in H. auto.
Qed.

Lemma piece_variables simplify w p (V : string -> Prop) : (forall x, (x, TReal) ∈ syms w -> V x) -> split_weight simplify true w = Ok p ->
  Forall (fun kc : pkey * fm => nkeys V (key_poly kc.1)) p.
Proof.
  intros HV H.
  assert (forall q, nkeys V (poly_const q)) as HC by (intros q; constructor; [constructor|constructor]).
  assert (forall a b : pdict, nkeys V a -> nkeys V b -> nkeys V (a_mul poly_alg a b)) as HMul.
  { intros a b Ha Hb. cbn. unfold poly_mul. destruct (times_total a b) as [r Hr]. rewrite Hr. by apply (nkeys_mul V a b). }
  refine (walk_keys key_alg key_two simplify true (fun k => nkeys V (key_poly k)) V _ _ _ _ _ w p HV H).
  - intros q. apply HC.
  - intros x Hx. constructor; [|constructor]. constructor; [done|constructor].
  - constructor.
  - intros a b Ha Hb. unfold alg_times, alg_zero, alg_one. destruct (_ || _); [apply HC|]. destruct (a_eq _ a _); [done|]. destruct (a_eq _ b _); [done|].
    destruct a, b; cbn in *; try constructor; apply HMul; auto; apply HC.
Qed.
Lemma piece_wf simplify w p : sound_simplifier simplify -> split_weight simplify true w = Ok p -> Forall (fun kc : pkey * fm => key_wf kc.1) p.
Proof.
  intros HS H. destruct (walk_value key_alg key_two key_wf key_den simplify key_algebra HS _ _ _ H) as (_ & HK & _).
  exact (keys_Forall key_alg key_wf p HK).
Qed.

(** The variables of the conditions and of the base support. *)
Lemma conditions_syms w c : c ∈ conditions w -> forall x t, (x, t) ∈ syms c -> (x, t) ∈ syms w.
Proof.
  assert (forall l, Forall (fun f => forall c, c ∈ conditions f -> forall x t, (x, t) ∈ syms c -> (x, t) ∈ syms f) l ->
    forall c, c ∈ concat (map conditions l) -> forall x t, (x, t) ∈ syms c -> (x, t) ∈ concat (map syms l)) as HL.
  { intros l HF. induction HF as [|f l Hf _ IH]; intros c0 Hc x t Hx; cbn [map concat] in *; [by apply elem_of_nil in Hc|].
    apply elem_of_app. apply elem_of_app in Hc as [Hc|Hc]; [left|right]; eauto. }
  revert c. induction w using fm_ind'; intros c0 Hc x t' Hx; cbn [conditions] in Hc; try by apply elem_of_nil in Hc.
  all: cbn [syms]; try (by eapply HL); rewrite ?elem_of_cons, ?elem_of_app in *.
  - destruct Hc as [->|[Hc|Hc]]; eauto.
  - destruct Hc as [Hc|Hc]; eauto.
  - eauto.
Qed.

Section base.
  Context (W : string -> ty -> Prop).
  Notation over f := (forall x t, (x, t) ∈ syms f -> W x t).
  Lemma over_list l : over (AndN l) -> forall g, g ∈ l -> over g.
  Proof.
    intros H g Hg x t Hx. apply H. cbn [syms]. apply elem_of_list_In, in_concat. exists (syms g).
    split; [apply in_map; by apply elem_of_list_In|by apply elem_of_list_In].
  Qed.
  Lemma list_over l : (forall g, g ∈ l -> over g) -> over (AndN l).
  Proof.
    intros H x t Hx. cbn [syms] in Hx. apply elem_of_list_In, in_concat in Hx as (k & Hk & Hx).
    apply in_map_iff in Hk as (g & <- & Hg). apply elem_of_list_In in Hg, Hx. by apply (H g).
  Qed.
  Lemma over_not f : over f -> over (mkNot f).
  Proof. intros H x t Hx%syms_mkNot_in. auto. Qed.
  Lemma scan_over n : forall f l, logic_formula f -> over f -> walk (bounds_walker true) n f = Ok l -> forall g, g ∈ l -> over g.
  Proof.
    induction n as [|n IH]; intros f l Hf HO; [done|]. cbn [walk].
    assert (forall fs l g, Forall logic_formula fs -> (forall h, h ∈ fs -> over h) -> collect (walk (bounds_walker true) n) fs = Ok l -> g ∈ l -> over g) as HC.
    { intros fs l' g HF HO'. unfold collect. destruct (rmapM _ fs) as [ls|] eqn:E; cbn [rbind]; [|done].
      destruct ls as [|l0 ls]; [done|]. intros [= <-] Hg. apply elem_fold_union in Hg.
      assert (exists k, k ∈ l0 :: ls /\ g ∈ k) as (k & Hk & Hg').
      { destruct Hg as [Hg|(k & Hk & Hg)]; [exists l0; split; [by left|done]|exists k; split; [by right|done]]. }
      apply rmapM_Forall2 in E. apply elem_of_list_lookup in Hk as [j Hj].
      destruct (Forall2_lookup_r _ _ _ _ _ E Hj) as (h & Hh & Eh). apply elem_of_list_lookup_2 in Hh.
      eapply Forall_forall in HF; [|exact Hh]. apply (IH h k); [done|by apply HO'|done|done]. }
    assert (forall a b, logic_formula a -> logic_formula b -> logic_formula (imp_expand a b)) as LI.
    { intros a b Ha Hb. apply lf_or. constructor; [by apply logic_mkNot|]. by constructor. }
    destruct Hf as [b|x|fs Hfs|fs Hfs|f Hf|f h Hf Hh|f h Hf Hh|c f h Hc Hf Hh|a b Ha Hb|a b Ha Hb];
      cbn [dispatch bounds_walker w_and w_or w_not w_ite w_lte w_lt w_symbol w_const negb andb].
    - intros [= <-] g Hg. by apply elem_of_nil in Hg.
    - intros [= <-] g Hg. by apply elem_of_nil in Hg.
    - intros H g Hg. apply (HC fs l g Hfs); [|done|done]. by apply over_list.
    - intros H g Hg. apply (HC fs l g Hfs); [|done|done]. by apply over_list.
    - destruct (walk _ n f) as [s|] eqn:E; cbn [rbind]; [|done]. intros [= <-] g (h & Hh & ->)%elem_set_map.
      apply over_not. by apply (IH f s).
    - intros H g Hg. apply (IH (imp_expand f h) l); [by apply LI| |done|done]. intros x t Hx. apply HO. cbn [imp_expand mkOr syms map concat] in Hx.
      rewrite app_nil_r in Hx. apply elem_of_app in Hx as [Hx%syms_mkNot_in|Hx]; apply elem_of_app; auto.
    - intros H g Hg. apply (HC [ImpN f h; ImpN h f] l g); [| |done|done].
      + constructor; [by constructor|]. constructor; [by constructor|constructor].
      + intros h' Hh' x t Hx. apply HO. cbn [syms]. apply elem_of_cons in Hh' as [->|Hh']; [done|].
        apply elem_of_list_singleton in Hh' as ->. cbn [syms] in Hx. rewrite elem_of_app in *. tauto.
    - done.
    - intros [= <-] g ->%elem_of_list_singleton. done.
    - intros [= <-] g ->%elem_of_list_singleton. done.
  Qed.
  Lemma conflicts_over unsat l c : (forall g, g ∈ l -> over g) -> c ∈ all_conflicts unsat l -> over c.
  Proof.
    induction l as [|p l IH]; intros HF; [by intros ?%elem_of_nil|]. cbn [all_conflicts]. intros [H|H]%elem_of_app.
    - apply elem_of_list_In, in_flat_map in H as (q & Hq & H). apply elem_of_list_In in Hq, H.
      assert (over p) as Op by (apply HF; by left). assert (over q) as Oq by (apply HF; by right).
      unfold pair_conflicts in H. destruct (same_vars p q); [|by apply elem_of_nil in H].
      assert (forall a b, over a -> over b -> c ∈ (if implies unsat a b then [ImpN a b] else []) -> over c) as H1.
      { intros a b Ha Hb. destruct (implies unsat a b) eqn:E; [|by intros ?%elem_of_nil]. intros ->%elem_of_list_singleton.
        intros x t Hx. cbn [syms] in Hx. apply elem_of_app in Hx as [Hx|Hx]; auto. }
      rewrite !elem_of_app in H. destruct H as [H|[H|[H|H]]].
      + by apply (H1 p q).
      + apply (H1 (mkNot p) q); [by apply over_not|done|done].
      + by apply (H1 q p).
      + apply (H1 (mkNot q) p); [by apply over_not|done|done].
    - apply IH; [|done]. intros g Hg. apply HF. by right.
  Qed.
  Lemma mkAnd_over l : (forall g, g ∈ l -> over g) -> over (mkAnd l).
  Proof.
    intros H. destruct l as [|c [|d l]].
    - intros x t Hx. by apply elem_of_nil in Hx.
    - apply H. by left.
    - by apply list_over.
  Qed.
  Lemma mkOr_over l : (forall g, g ∈ l -> over g) -> over (mkOr l).
  Proof.
    intros H. destruct l as [|c [|d l]].
    - intros x t Hx. by apply elem_of_nil in Hx.
    - apply H. by left.
    - by apply list_over.
  Qed.
  Lemma base_over unsat find s w base : logic_formula s -> weight_expr w -> over s -> base_support unsat find s w = Ok base -> over base.
  Proof.
    intros Hs Hw HO. unfold base_support. destruct find; [|by intros [= <-]].
    destruct (collect_conflicts unsat s w) as [cs|] eqn:E; cbn [rbind]; [|done]. intros [= <-].
    apply list_over. intros g Hg. apply elem_of_cons in Hg as [->|Hg]; [|by apply elem_of_list_singleton in Hg as ->].
    apply mkAnd_over. intros c. revert E. unfold collect_conflicts, bounds_of. destruct (walk _ _ s) as [ls|] eqn:Es; cbn [rbind]; [|done].
    destruct (walk _ _ w) as [lw|] eqn:Ew; cbn [rbind]; [|done]. intros [= <-]. apply conflicts_over.
    intros g Hg. apply elem_set_union in Hg as [Hg|Hg]; [by apply (scan_over _ s ls Hs HO Es)|].
    apply scan_weight in Ew as ->; [|done]. by apply elem_of_nil in Hg.
  Qed.
End base.

Lemma base_conjunct unsat find s w base c : base_support unsat find s w = Ok base -> conjunct c s -> conjunct c base.
Proof.
  unfold base_support. destruct find; [|by intros [= <-]]. destruct (collect_conflicts unsat s w) as [cs|]; cbn [rbind]; [|done].
  intros [= <-] Hc. apply (cj_and _ _ s); [right; by left|done].
Qed.

(** * Integrals over all variables are numbers *)

Section whole.
  Context (generic : (string -> Qc) -> Prop) (fine : rfn -> Prop) (ae : rfn -> rfn -> Prop) (J : string -> rfn -> rfn).
  Hypothesis HJ : integration generic fine ae J.
  Definition depends (S : string -> Prop) (f : rfn) : Prop := forall r r', (forall x, S x -> r x = r' x) -> f r = f r'.
  Lemma joint_depends vs f : forall S, depends S f -> depends (fun x => S x /\ x ∉ vs) (joint J vs f).
  Proof.
    induction vs as [|v vs IH]; intros S Hf r r' Hr.
    - cbn. apply Hf. intros x Hx. apply Hr. split; [done|]. apply not_elem_of_nil.
    - cbn [joint fold_right]. apply (in_local _ _ _ _ HJ). intros q q' Hq Hq' Hv. apply (IH S Hf). intros x [Hx Hn].
      destruct (decide (x = v)) as [->|Hne]; [done|]. rewrite Hq, Hq' by done. apply Hr. split; [done|]. by apply not_elem_of_cons.
  Qed.
  Lemma joint_whole vs f r r' : depends (fun x => x ∈ vs) f -> joint J vs f r = joint J vs f r'.
  Proof. intros Hf. apply (joint_depends vs f _ Hf). by intros x [H1 H2]. Qed.
End whole.

Lemma truth_and e a b : (exists x, eval e a = Some (VB x)) -> (exists y, eval e b = Some (VB y)) ->
  truth e (AndN [a; b]) = (truth e a * truth e b)%Qc.
Proof.
  intros [x Ex] [y Ey]. unfold truth. rewrite (eval_and2_true e a b x y Ex Ey), Ex, Ey.
  destruct x, y; cbn [andb]; rewrite ?bool_decide_eq_true_2, ?bool_decide_eq_false_2 by done; ring.
Qed.
Lemma truth_or e l : (forall g, g ∈ l -> exists b, eval e g = Some (VB b)) ->
  (exists b, eval e (mkOr l) = Some (VB b)) /\ truth e (mkOr l) = (if existsb (holds e) l then 1 else 0)%Qc.
Proof.
  intros H. rewrite <- Forall_forall in H. unfold truth. rewrite eval_mkOr_eq by done.
  assert (eval e (OrN l) = Some (VB (existsb (holds e) l))) as ->.
  { cbn [eval]. induction H as [|g l [b Hb] _ IH]; [done|]. cbn [mapM existsb]. rewrite Hb. cbn.
    destruct (mapM (fun g => vbool (eval e g)) l) as [bs|] eqn:Em; cbn in IH |- *; [|done]. injection IH as IH. do 2 f_equal. rewrite <- IH.
    unfold holds at 1. rewrite Hb. destruct b; [by rewrite bool_decide_eq_true_2|by rewrite bool_decide_eq_false_2]. }
  split; [by eexists|]. destruct (existsb _ _); [by rewrite bool_decide_eq_true_2|by rewrite bool_decide_eq_false_2].
Qed.
Lemma existsb_perm {X} (f : X -> bool) l k : l ≡ₚ k -> existsb f l = existsb f k.
Proof.
  induction 1 as [|x l k _ IH|x y l|l k m _ IH1 _ IH2]; cbn; [done|by rewrite IH|by rewrite !orb_assoc, (orb_comm (f y))|congruence].
Qed.

Section volume.
  Context (s w : fm) (fine : rfn -> Prop) (ae : rfn -> rfn -> Prop) (J : string -> rfn -> rfn).
  Notation gen := (Xsdd_Spec.generic s w).
  Hypothesis HJ : integration gen fine ae J.
  Context {E : Type} (A : alg E) (den : E -> env -> option Qc) (parse_condition : fm -> Res E)
    (integrate : list string -> E -> Res E) (iter : list nat -> list nat) (iter_fm : list fm -> list fm).
  Hypothesis HA : sound_arith (a_real A) (a_symbol A) (a_eq A) (a_mul A) (a_add A) den.
  Hypothesis HP : parses den parse_condition.
  Hypothesis HInt : integrates den fine ae J integrate.
  Hypothesis Hiter : forall l, iter l ≡ₚ l.
  Hypothesis Hiterf : forall l, iter_fm l ≡ₚ l.
  Context (mgr : linfo -> manager) (own : linfo -> sdd -> Prop) (simplify : fm -> fm) (unsat : fm -> bool) (to_float : E -> Res Qc)
    (bools reals : list string) (ordered : bool).
  Hypothesis HM : sound_managers mgr own.
  Hypothesis Htrim : forall i n, own i n -> trimmed n.
  Hypothesis Hal : live_compilation mgr bools.
  Hypothesis HS : sound_simplifier simplify.
  Hypothesis HK : keeps_tests simplify.
  Hypothesis HKV : keeps_variables simplify.
  Hypothesis HU : sound_solver unsat.
  Hypothesis HT : reads den fine ae to_float.
  Hypothesis Hs : logic_formula s.
  Hypothesis Hw : weight_function w.
  Definition declared (x : string) (t : ty) : Prop := match t with TBool => x ∈ bools | TReal => x ∈ reals | _ => True end.
  Hypothesis HDs : forall x t, (x, t) ∈ syms s -> declared x t.
  Hypothesis HDw : forall x t, (x, t) ∈ syms w -> declared x t.
  Hypothesis Hnd : NoDup reals.
  Hypothesis Hbd : forall v, v ∈ reals -> bounded_in s v.
  Context (base : fm) (Hb1 : logic_formula base) (Hb2 : forall e, eval e base = eval e s)
    (Hb3 : forall e, off_tests e s -> off_tests e base) (Hb4 : forall x t, (x, t) ∈ syms base -> declared x t)
    (Hb5 : forall c, conjunct c s -> conjunct c base).

  Definition fair (c : fm) : Prop := logic_formula c /\ (forall r b, gen r -> off_tests (Env b r) c) /\ forall x t, (x, t) ∈ syms c -> declared x t.

  Definition term_mass (ts : pdict * list fm) (r : string -> Qc) : Qc :=
    (qsum (map (fun b => truth (Env b r) (AndN [mkOr (iter_fm ts.2); base])) (worlds bools)) * pval ts.1 r)%Qc.

  Lemma mkOr_fair l : (forall c, c ∈ l -> fair c) -> fair (mkOr l).
  Proof.
    intros H. split; [|split].
    - destruct l as [|c [|d l]]; cbn [mkOr]; [constructor|apply H; by left|]. constructor. apply Forall_forall. intros g Hg. by apply H.
    - intros r b Hr. destruct l as [|c [|d l]]; cbn [mkOr]; [done|apply H; [by left|done]|].
      apply (off_tests_list _ (c :: d :: l)), Forall_forall. intros g Hg. by apply H.
    - apply mkOr_over. intros g Hg. apply (H g Hg).
  Qed.
  Lemma support_fair l : (forall c, c ∈ l -> fair c) -> fair (AndN [mkOr (iter_fm l); base]).
  Proof.
    intros H. destruct (mkOr_fair (iter_fm l)) as (F1 & F2 & F3); [intros c Hc; apply H; by rewrite <- (Hiterf l)|]. split; [|split].
    - constructor. constructor; [done|]. constructor; [done|constructor].
    - intros r b Hr. cbn. split; [by apply F2|]. split; [|done]. apply Hb3. by destruct (Hr b).
    - apply list_over. intros g Hg. apply elem_of_cons in Hg as [->|Hg]; [done|]. by apply elem_of_list_singleton in Hg as ->.
  Qed.

  Lemma term_mass_fit ts : (forall c, c ∈ ts.2 -> fair c) -> fit fine reals (term_mass ts).
  Proof.
    intros H. destruct (support_fair _ H) as (F1 & _ & _). split.
    - apply (fi_times _ _ _ _ HJ (fun r => qsum (map (fun b => truth (Env b r) (AndN [mkOr (iter_fm ts.2); base])) (worlds bools))) (pval ts.1)).
      + apply (fine_qsum _ _ _ _ HJ (worlds bools) (fun b r => truth (Env b r) (AndN [mkOr (iter_fm ts.2); base]))). intros b _.
        by apply (fine_truth gen fine ae J HJ).
      + apply (fine_pval gen fine ae J HJ).
    - intros v Hv. apply (within_mul_l v (fun r => qsum (map (fun b => truth (Env b r) (AndN [mkOr (iter_fm ts.2); base])) (worlds bools)))).
      induction (worlds bools) as [|b bs IH]; [apply within_0|].
      apply (within_plus v (fun r => truth (Env b r) (AndN [mkOr (iter_fm ts.2); base])) (fun r => qsum (map (fun b => truth (Env b r) (AndN [mkOr (iter_fm ts.2); base])) bs))); [|exact IH].
      apply bounded_within. destruct (Hbd v Hv) as (l & u & H1 & H2 & H3 & H4). exists l, u. split; [done|]. split; [done|].
      split; (apply (cj_and _ _ base); [right; by left|]); auto.
  Qed.

  Lemma term_volume_ok ts : (forall c, c ∈ ts.2 -> fair c) -> (forall v, v ∈ poly_variables ts.1 -> v ∈ reals) ->
    exists x, term_volume A parse_condition integrate iter iter_fm mgr bools reals ordered base [] ts = Ok x /\
      shows den fine ae (joint J reals (term_mass ts)) x.
  Proof.
    intros H Hv. destruct (support_fair _ H) as (F1 & F2 & F3). unfold term_volume.
    destruct (extract_sem (AndN [mkOr (iter_fm ts.2); base]) F1) as (g & i & Ex & _). rewrite Ex. cbn [rbind].
    destruct (compile_extract _ g i (mgr i) (own i) F1 Ex (HM i)) as (node & Ec & _). rewrite Ec. cbn [rbind].
    destruct (piece_value gen fine ae J HJ A den parse_condition integrate iter HA HP HInt Hiter
      (AndN [mkOr (iter_fm ts.2); base]) g i (mgr i) (own i) node bools reals ts.1 ordered) as (x & E1 & S1); try done.
    - by apply Htrim.
    - apply (Hal _ g i node F1); [|done|done]. intros x Hx. exact (F3 x TBool Hx).
    - intros x Hx. exact (F3 x TBool Hx).
    - intros x Hx. exact (F3 x TReal Hx).
    - intros v Hin. destruct (Hbd v Hin) as (l & u & H1 & H2 & H3 & H4). exists l, u. split; [done|]. split; [done|].
      split; (apply (cj_and _ _ base); [right; by left|]); auto.
    - by exists x.
  Qed.

  Lemma terms_ok m : (forall ts, ts ∈ m -> (forall c, c ∈ ts.2 -> fair c) /\ forall v, v ∈ poly_variables ts.1 -> v ∈ reals) ->
    forall F x, fit fine reals F -> shows den fine ae (joint J reals F) x ->
    exists y, fold_left (fun r ts => let! volume := r in
        let! sub := term_volume A parse_condition integrate iter iter_fm mgr bools reals ordered base [] ts in
        Ok (alg_plus A volume sub)) m (Ok x) = Ok y /\
      shows den fine ae (joint J reals (fun r => F r + qsum (map (fun ts => term_mass ts r) m))%Qc) y /\
      fit fine reals (fun r => F r + qsum (map (fun ts => term_mass ts r) m))%Qc.
  Proof.
    induction m as [|ts m IH]; intros Hm F x HF Hx.
    - cbn [fold_left map]. exists x. split; [done|]. assert (forall r, (F r = F r + qsum [])%Qc) as HE by (intros r; change (qsum []) with 0%Qc; ring).
      assert (fit fine reals (fun r => F r + qsum [])%Qc) as HF' by by apply (fit_same gen fine ae J HJ reals F).
      split; [|done]. refine (shows_same gen fine ae J HJ den _ _ x Hx _). intros r. apply (joint_point gen fine ae J HJ); [apply HF|done|done].
    - destruct (Hm ts) as [T1 T2]; [by left|]. destruct (term_volume_ok ts T1 T2) as (y & Ey & Sy). cbn [fold_left rbind]. rewrite Ey. cbn [rbind].
      pose proof (term_mass_fit ts T1) as HT1. assert (fit fine reals (fun r => F r + term_mass ts r)%Qc) as HF1 by by apply (fit_plus gen fine ae J HJ).
      destruct (IH ltac:(intros ts' Hts; apply Hm; by right) (fun r => F r + term_mass ts r)%Qc (alg_plus A x y) HF1) as (z & Ez & Sz & Fz).
      + eapply (shows_ae gen fine ae J HJ den); [apply (shows_plus gen fine ae J HJ A den HA _ _ x y Hx Sy)|by apply (joint_fine gen fine ae J HJ)|].
        apply (ae_sym gen fine ae J HJ). by apply (joint_plus gen fine ae J HJ).
      + exists z. split; [exact Ez|].
        assert (forall r, (F r + term_mass ts r + qsum (map (fun ts => term_mass ts r) m) = F r + qsum (map (fun ts => term_mass ts r) (ts :: m)))%Qc) as HE.
        { intros r. cbn [map]. rewrite qsum_cons. ring. }
        split; [|by apply (fit_same gen fine ae J HJ reals _ _ HE Fz)].
        refine (shows_same gen fine ae J HJ den _ _ z Sz _). intros r. apply (joint_point gen fine ae J HJ); [apply Fz|done|done].
  Qed.

  (** The masses of the terms add up to the integrand, summed over the worlds. *)
  Lemma masses p m r : split_weight simplify true w = Ok p -> Forall (fun kc : pkey * fm => is_poly kc.1) p ->
    from p m -> (forall e, tsum e m = qsum (map (fun kc : pkey * fm => (if holds e kc.2 then 1 else 0) * poly_val e (key_poly kc.1))%Qc p)) ->
    (forall kc, kc ∈ p -> fair kc.2) ->
    qsum (map (fun ts => term_mass ts r) m) = qsum (map (fun b => integrand s w (Env b r)) (worlds bools)).
  Proof.
    intros Hp HF [Hwf Hm] HV HG.
    assert (forall ts, ts ∈ m -> forall c, c ∈ ts.2 -> fair c) as Hfair.
    { intros [k vs] Hin c Hc. apply (In_dget m k vs Hwf) in Hin. destruct (Hm _ _ Hin) as (t & _ & _ & Hall).
      destruct (Hall c Hc) as (kc & Hkc & -> & _). by apply HG. }
    transitivity (qsum (map (fun ts : pdict * list fm => qsum (map (fun b => (if existsb (holds (Env b r)) ts.2 then 1 else 0) * poly_val (Env b r) ts.1 *
      truth (Env b r) base)%Qc (worlds bools))) m)).
    { f_equal. apply map_ext_in. intros ts Hts. apply elem_of_list_In in Hts. unfold term_mass. rewrite Qcmult_comm, <- qsum_scale. f_equal.
      apply map_ext. intros b.
      assert (forall g, g ∈ iter_fm ts.2 -> exists x, eval (Env b r) g = Some (VB x)) as Hval.
      { intros g Hg. apply logic_total. apply (Hfair ts Hts g). by rewrite <- (Hiterf ts.2). }
      destruct (truth_or (Env b r) (iter_fm ts.2) Hval) as [Ho Ht].
      rewrite truth_and by (done || by apply logic_total). rewrite Ht, (existsb_perm _ _ _ (Hiterf ts.2)).
      unfold pval. change (poly_val (Env (fun _ => false) r) ts.1) with (poly_val (Env b r) ts.1). ring. }
    rewrite qsum_swap. f_equal. apply map_ext. intros b.
    rewrite <- (integrand_pieces s w bools simplify Hs Hw ltac:(intros c x Hc Hx; exact (HDw x TBool (conditions_syms w c Hc x TBool Hx))) HS HK base p b r Hp HF Hb1 Hb2).
    transitivity (tsum (Env b r) m * truth (Env b r) base)%Qc.
    { unfold tsum. rewrite Qcmult_comm, <- qsum_scale. f_equal. apply map_ext. intros ts. ring. }
    rewrite HV, Qcmult_comm, <- qsum_scale. f_equal. apply map_ext_in. intros kc Hkc. apply elem_of_list_In in Hkc. unfold part.
    change (if bool_decide (eval (Env b r) (AndN [kc.2; base]) = Some (VB true)) then poly_val (Env b r) (key_poly kc.1) else 0%Qc) with
      (if holds (Env b r) (AndN [kc.2; base]) then poly_val (Env b r) (key_poly kc.1) else 0%Qc).
    pose proof (truth_and (Env b r) kc.2 base (logic_total _ _ (proj1 (HG kc Hkc))) (logic_total _ _ Hb1)) as HTA.
    unfold truth in HTA. unfold truth, holds. destruct (bool_decide (eval (Env b r) (AndN _) = _)), (bool_decide (eval (Env b r) kc.2 = _)),
      (bool_decide (eval (Env b r) base = _)); try ring; exfalso; revert HTA; clear; intros HTA; by apply (f_equal this) in HTA; vm_compute in HTA.
  Qed.

  Lemma volume_base p : split_weight simplify true w = Ok p -> Forall (fun kc : pkey * fm => is_poly kc.1) p -> exclusive_terms p ->
    exists y, volume_from_terms A parse_condition integrate iter iter_fm mgr bools reals ordered base [] p = Ok y /\
      shows den fine ae (joint J reals (fun r => qsum (map (fun b => integrand s w (Env b r)) (worlds bools)))) y.
  Proof.
    intros Hp HF HX.
    assert (forall kc, kc ∈ p -> fair kc.2) as HG.
    { pose proof (good_pieces s w bools simplify Hw ltac:(intros c x Hc Hx; exact (HDw x TBool (conditions_syms w c Hc x TBool Hx))) HK p Hp) as HG.
      assert (Forall (fun kc : pkey * fm => forall x t, (x, t) ∈ syms kc.2 -> declared x t) p) as HD.
      { apply (walk_cond key_alg key_two simplify true (fun c => forall x t, (x, t) ∈ syms c -> declared x t)) in Hp; [done|..].
        - intros x t Hx. by apply elem_of_nil in Hx.
        - intros a b Ha Hb. apply mkAnd_over. intros g Hg. apply elem_of_cons in Hg as [->|Hg]; [done|]. by apply elem_of_list_singleton in Hg as ->.
        - intros a b Ha Hb. apply mkOr_over. intros g Hg. apply elem_of_cons in Hg as [->|Hg]; [done|]. by apply elem_of_list_singleton in Hg as ->.
        - intros a Ha. by apply over_not.
        - intros a Ha x t Hx%HKV. auto.
        - apply Forall_forall. intros c Hc x t Hx. apply HDw. by apply (conditions_syms w c). }
      intros kc Hkc. rewrite Forall_forall in HG, HD. destruct (HG kc Hkc) as (G1 & G2 & _). split; [done|]. split; [done|]. by apply HD. }
    destruct (term_supports_ok p HX HF (piece_wf simplify w p HS Hp)) as (m & Em & Hm & HV).
    pose proof (piece_variables simplify w p (fun x => x ∈ reals) ltac:(intros x Hx; exact (HDw x TReal Hx)) Hp) as HPV. rewrite Forall_forall in HPV.
    unfold volume_from_terms. rewrite Em. cbn [rbind].
    destruct (terms_ok m) with (F := fun _ : string -> Qc => 0%Qc) (x := alg_zero A) as (y & Ey & Sy & Fy).
    - intros [k vs] Hin. destruct Hm as [Hwf Hm]. apply (In_dget m k vs Hwf) in Hin. destruct (Hm _ _ Hin) as (t & -> & Hne & Hall). cbn [fst snd]. split.
      + intros c Hc. destruct (Hall c Hc) as (kc & Hkc & -> & _). by apply HG.
      + intros v Hv. destruct vs as [|c vs]; [done|]. destruct (Hall c) as (kc & Hkc & _ & Ht); [by left|].
        specialize (HPV _ Hkc). destruct kc as [[x|q] c']; [done|]. cbn in *. apply (nkeys_variables (fun x => x ∈ reals) [t]); [|done].
        constructor; [|constructor]. unfold nkeys in HPV. rewrite Forall_forall in HPV. by apply HPV.
    - apply (fit_0 gen fine ae J HJ).
    - eapply (shows_same gen fine ae J HJ den); [apply (shows_real gen fine ae J HJ A den HA 0%Qc)|]. intros r. cbn beta. symmetry. by apply (joint_zero gen fine ae J HJ).
    - exists y. split; [exact Ey|]. refine (shows_same gen fine ae J HJ den _ _ y Sy _). intros r. apply (joint_point gen fine ae J HJ); [apply Fy| |done].
      intros r'. rewrite (masses p m r' Hp HF Hm HV HG). ring.
  Qed.
End volume.

Lemma logic_kinds f : logic_formula f -> forall x t, (x, t) ∈ syms f -> t <> TInt.
Proof.
  assert (forall l, Forall (fun f => logic_formula f -> forall x t, (x, t) ∈ syms f -> t <> TInt) l -> Forall logic_formula l ->
    forall x t, (x, t) ∈ concat (map syms l) -> t <> TInt) as HL.
  { intros l H. induction H as [|g l Hg _ IH]; intros HF x t Hx; [by apply elem_of_nil in Hx|]. apply Forall_cons in HF as [H1 H2].
    cbn [map concat] in Hx. apply elem_of_app in Hx as [Hx|Hx]; eauto. }
  induction f using fm_ind'; intros Hl x t' Hx; inversion Hl; subst; cbn [syms] in Hx; rewrite ?elem_of_app in Hx.
  - apply elem_of_list_singleton in Hx. congruence.
  - by apply elem_of_nil in Hx.
  - by apply (HL l H H1 x).
  - by apply (HL l H H1 x).
  - eauto.
  - destruct Hx; eauto.
  - destruct Hx; eauto.
  - destruct Hx as [?|[?|?]]; eauto.
  - destruct Hx as [Hx|Hx]; [apply (linear_syms f1) in Hx|apply (linear_syms f2) in Hx]; congruence.
  - destruct Hx as [Hx|Hx]; [apply (linear_syms f1) in Hx|apply (linear_syms f2) in Hx]; congruence.
Qed.
Lemma weight_kinds f : weight_expr f -> Forall logic_formula (conditions f) -> forall x t, (x, t) ∈ syms f -> t <> TInt.
Proof.
  assert (forall l, Forall (fun f => weight_expr f -> Forall logic_formula (conditions f) -> forall x t, (x, t) ∈ syms f -> t <> TInt) l -> Forall weight_expr l ->
    Forall logic_formula (concat (map conditions l)) -> forall x t, (x, t) ∈ concat (map syms l) -> t <> TInt) as HL.
  { intros l H. induction H as [|g l Hg _ IH]; intros HF HC x t Hx; [by apply elem_of_nil in Hx|]. apply Forall_cons in HF as [H1 H2].
    cbn [map concat] in HC. apply Forall_app in HC as [C1 C2].
    cbn [map concat] in Hx. apply elem_of_app in Hx as [Hx|Hx]; eauto. }
  induction f using fm_ind'; intros Hl HC x t' Hx; inversion Hl; subst; cbn [syms conditions] in Hx, HC; rewrite ?elem_of_app in Hx.
  - apply elem_of_list_singleton in Hx. congruence.
  - by apply elem_of_nil in Hx.
  - apply Forall_cons in HC as [Hc [HC1 HC2]%Forall_app]. destruct Hx as [Hx|[?|?]]; [by apply (logic_kinds f1 Hc x)|eauto|eauto].
  - by apply (HL l H) with (x := x).
  - apply Forall_app in HC as [C1 C2]. destruct Hx; eauto.
  - by apply (HL l H) with (x := x).
  - destruct Hx as [Hx|Hx]; [eauto|]. cbn in Hx. by apply elem_of_nil in Hx.
Qed.

Lemma volume_factorized {E : Type} (A : alg E) den fine ae J parse_condition integrate iter iter_fm mgr own simplify unsat to_float bools reals ordered find s w base p :
  logic_formula s -> weight_function w ->
  (forall x, (x, TBool) ∈ syms s ++ syms w -> x ∈ bools) -> (forall x, (x, TReal) ∈ syms s ++ syms w -> x ∈ reals) ->
  NoDup reals -> (forall v, v ∈ reals -> bounded_in s v) ->
  integration (Xsdd_Spec.generic s w) fine ae J ->
  sound_arith (a_real A) (a_symbol A) (a_eq A) (a_mul A) (a_add A) den -> parses den parse_condition ->
  integrates den fine ae J integrate -> reads den fine ae to_float ->
  (forall l, iter l ≡ₚ l) -> (forall l, iter_fm l ≡ₚ l) ->
  sound_managers mgr own -> (forall i n, own i n -> trimmed n) -> live_compilation mgr bools ->
  sound_simplifier simplify -> keeps_tests simplify -> keeps_variables simplify -> sound_solver unsat ->
  extract_labels_and_weight w = Ok ([], w) -> split_weight simplify true w = Ok p ->
  Forall (fun kc : pkey * fm => is_poly kc.1) p -> exclusive_terms p ->
  base_support unsat find s w = Ok base ->
  forall r, compute_volume_factorized A parse_condition integrate iter iter_fm mgr simplify unsat to_float bools reals ordered find false s w =
    Ok (joint J reals (fun r => qsum (map (fun b => integrand s w (Env b r)) (worlds bools))) r).
Proof.
  intros Hs Hw HB HR Hnd Hbd HJ HA HP HInt HT Hit Hitf HM Htr Hal HS HK HKV HU HL Hp HF HX Hbase r.
  assert (forall x t, (x, t) ∈ syms s -> declared bools reals x t) as HDs.
  { intros x [] Hx; cbn; [apply HB|apply HR|]; try done; apply elem_of_app; by left. }
  assert (forall x t, (x, t) ∈ syms w -> declared bools reals x t) as HDw.
  { intros x [] Hx; cbn; [apply HB|apply HR|]; try done; apply elem_of_app; by right. }
  destruct (base_same unsat find s w base HU Hs (proj1 Hw) Hbase) as (B1 & B2 & B3 & _).
  destruct (volume_base s w fine ae J HJ A den parse_condition integrate iter iter_fm HA HP HInt Hit Hitf mgr own simplify bools reals ordered
    HM Htr Hal HS HK HKV Hs Hw HDw Hnd Hbd base B1 B2 B3 (base_over _ unsat find s w base Hs (proj1 Hw) HDs Hbase)
    (fun c => base_conjunct unsat find s w base c Hbase) p Hp HF HX) as (y & Ey & Sy).
  unfold compute_volume_factorized. rewrite Hbase. cbn [rbind]. rewrite HL. cbn [rbind].
  destruct (C34_value_partial simplify w p HS Hp) as [-> _]. cbn [rbind]. rewrite Ey. cbn [rbind]. apply HT.
  refine (shows_same (Xsdd_Spec.generic s w) fine ae J HJ den _ _ y Sy _). intros r'. cbn beta.
  apply (joint_whole _ fine ae J HJ). intros q q' Hq. f_equal. apply map_ext. intros b. unfold integrand.
  assert (forall f, (forall x t, (x, t) ∈ syms f -> declared bools reals x t) -> (forall x t, (x, t) ∈ syms f -> t <> TInt) -> eval (Env b q) f = eval (Env b q') f) as HE.
  { intros f HD HI. apply eval_agree. intros x t Hx. pose proof (HD x t Hx) as Hd. pose proof (HI x t Hx) as Hi. destruct t; cbn in *; [done|by apply Hq|done]. }
  rewrite (HE s), (HE w); try done; [destruct Hw; by apply weight_kinds|by apply logic_kinds].
Qed.
