(** Polynomials: C06, C07, C08, C58. *)

From Verif Require Import Base Dict Smt Walk_Model Walk_Proofs Check_Proofs Math_Model Math_Spec.

(** * Values of dictionaries *)

Lemma qsum_cons x l : qsum (x :: l) = (x + qsum l)%Qc.
Proof. done. Qed.
Lemma qprod_cons x l : qprod (x :: l) = (x * qprod l)%Qc.
Proof. done. Qed.

Lemma mono_val_app e k1 k2 : mono_val e (k1 ++ k2) = (mono_val e k1 * mono_val e k2)%Qc.
Proof. unfold mono_val. by rewrite map_app, qprod_app. Qed.

Lemma qprod_perm l k : l ≡ₚ k -> qprod l = qprod k.
Proof. induction 1 as [|x l k H IH| |]; cbn in *; [done|by f_equal|ring|congruence]. Qed.
Lemma qsum_perm l k : l ≡ₚ k -> qsum l = qsum k.
Proof. induction 1 as [|x l k H IH| |]; cbn in *; [done|by f_equal|ring|congruence]. Qed.

Lemma mono_val_perm e k1 k2 : k1 ≡ₚ k2 -> mono_val e k1 = mono_val e k2.
Proof. intros H. unfold mono_val. apply qprod_perm. by rewrite H. Qed.

Lemma mono_val_sort e k : mono_val e (psort str_cmp k) = mono_val e k.
Proof. apply mono_val_perm, psort_perm. Qed.

Lemma pv_nil e : poly_val e [] = 0%Qc.
Proof. done. Qed.
Lemma pv_cons e (k : mono) v (d : pdict) : poly_val e ((k, v) :: d) = (v * mono_val e k + poly_val e d)%Qc.
Proof. done. Qed.
Lemma pv_app e d1 d2 : poly_val e (d1 ++ d2) = (poly_val e d1 + poly_val e d2)%Qc.
Proof. unfold poly_val. by rewrite map_app, qsum_app. Qed.

Lemma pv_dset e (d : pdict) (k : mono) v :
  poly_val e (dset d k v) = (poly_val e d + (v - default 0%Qc (dget d k)) * mono_val e k)%Qc.
Proof.
  induction d as [|[k0 v0] d IH]; cbn [dset dget].
  - rewrite pv_cons, pv_nil. cbn [default]. change (default 0%Qc None) with 0%Qc. ring.
  - destruct (decide (k0 = k)) as [->|].
    + rewrite !pv_cons. change (default 0%Qc (Some v0)) with v0. ring.
    + rewrite !pv_cons, IH. ring.
Qed.

Lemma pv_neg e d : poly_val e (dict_neg d) = (- poly_val e d)%Qc.
Proof.
  induction d as [|[k v] d IH]; [cbn; ring|]. cbn [dict_neg map]. rewrite !pv_cons. cbn [fst snd].
  fold (dict_neg d). rewrite IH. ring.
Qed.

Lemma pv_scale e d c : poly_val e (dict_scale d c) = (poly_val e d / c)%Qc.
Proof.
  induction d as [|[k v] d IH]; [cbn; unfold Qcdiv; ring|].
  cbn [dict_scale map]. rewrite !pv_cons. cbn [fst snd].
  fold (dict_scale d c). rewrite IH. unfold Qcdiv. ring.
Qed.

Lemma pv_filter e d : poly_val e (List.filter nonzero d) = poly_val e d.
Proof.
  induction d as [|[k v] d IH]; [done|]. cbn [List.filter]. unfold nonzero at 1. cbn [snd].
  destruct (qeq v 0) eqn:E; cbn [negb].
  - apply qeq_spec in E as ->. rewrite IH, pv_cons. ring.
  - rewrite !pv_cons, IH. done.
Qed.

Lemma pv_plus e d1 d2 : poly_val e (dict_plus d1 d2) = (poly_val e d1 + poly_val e d2)%Qc.
Proof.
  unfold dict_plus. revert d1. induction d2 as [|[k v] d2 IH]; intros d1; cbn [fold_left].
  - rewrite pv_nil. ring.
  - rewrite IH, pv_cons. cbn [fst snd]. destruct (dget d1 k) as [w|] eqn:E; rewrite pv_dset, E.
    + change (default 0%Qc (Some w)) with w. ring.
    + change (default 0%Qc None) with 0%Qc. ring.
Qed.

(** * Canonical dictionaries *)

Definition canon (d : pdict) : Prop := dwf d /\ Forall (fun kv => StronglySorted (cle str_cmp) kv.1) d.

Lemma canon_nil : canon [].
Proof. split; [apply dwf_nil|constructor]. Qed.

Lemma canon_dset d k v : canon d -> StronglySorted (cle str_cmp) k -> canon (dset d k v).
Proof.
  intros [H1 H2] Hk. split; [by apply dwf_dset|].
  clear H1. induction d as [|[k0 v0] d IH]; cbn [dset]; [by repeat constructor|].
  inversion H2; subst. destruct (decide (k0 = k)) as [->|]; by constructor; auto.
Qed.

Lemma canon_in d k v : canon d -> (k, v) ∈ d -> StronglySorted (cle str_cmp) k.
Proof. intros [_ H] Hin. rewrite Forall_forall in H. by apply (H (k, v)). Qed.

Lemma canon_plus d1 d2 : canon d1 -> canon d2 -> canon (dict_plus d1 d2).
Proof.
  intros H1 [_ H2]. unfold dict_plus. revert d1 H1.
  induction H2 as [|[k v] d2 Hk H2 IH]; intros d1 H1; cbn [fold_left]; [done|].
  apply IH. cbn [fst snd]. destruct (dget d1 k); by apply canon_dset.
Qed.

Lemma map_keys_canon (g : mono * Qc -> Qc) d :
  canon d -> canon (map (fun kv => (kv.1, g kv)) d).
Proof.
  intros [H1 H2]. split.
  - unfold dwf, dkeys in *. rewrite map_map. cbn. done.
  - apply Forall_forall. intros kv Hin. apply elem_of_list_fmap in Hin as (kv' & -> & Hin).
    cbn. rewrite Forall_forall in H2. by apply H2.
Qed.
Lemma canon_neg d : canon d -> canon (dict_neg d).
Proof. apply (map_keys_canon (fun kv => - kv.2)%Qc). Qed.
Lemma canon_scale d c : canon d -> canon (dict_scale d c).
Proof. apply (map_keys_canon (fun kv => kv.2 / c)%Qc). Qed.

Lemma dwf_lfilter (p : mono * Qc -> bool) d : dwf d -> dwf (List.filter p d).
Proof.
  unfold dwf. induction d as [|[k0 v0] d IH]; cbn [dkeys map fst]; intros Hwf; [done|].
  inversion Hwf as [|? ? Hni Hnd]; subst. cbn [List.filter]. destruct (p (k0, v0)); [|by apply IH].
  cbn. constructor; [|by apply IH]. intros Hin. apply Hni.
  apply elem_of_list_fmap in Hin as ([k v] & -> & Hin). apply elem_of_list_In, filter_In in Hin as [Hin _].
  apply elem_of_list_fmap. exists (k, v). split; [done|]. by apply elem_of_list_In.
Qed.

Lemma canon_filter p d : canon d -> canon (List.filter p d).
Proof.
  intros [H1 H2]. split; [by apply dwf_lfilter|]. rewrite Forall_forall in *. intros kv Hin.
  apply H2. apply elem_of_list_In, filter_In in Hin as [Hin _]. by apply elem_of_list_In.
Qed.

(** * Products *)

Lemma times_inner_err fl k1 v1 d2 x : fold_left (times_step fl k1 v1) d2 (Err x) = Err x.
Proof. induction d2 as [|kv d2 IH]; [done|]. cbn [fold_left]. apply IH. Qed.

Lemma times_outer_err fl d1 d2 x :
  fold_left (fun r kv1 => fold_left (times_step fl kv1.1 kv1.2) d2 r) d1 (Err x) = Err x.
Proof. induction d1 as [|kv d1 IH]; [done|]. cbn [fold_left]. by rewrite times_inner_err. Qed.

Lemma times_inner_sound fl k1 v1 d2 r d :
  fold_left (times_step fl k1 v1) d2 (Ok r) = Ok d -> canon r ->
  canon d /\ forall e, poly_val e d = (poly_val e r + v1 * mono_val e k1 * poly_val e d2)%Qc.
Proof.
  revert r. induction d2 as [|[k2 v2] d2 IH]; intros r; cbn [fold_left].
  - intros [= ->] Hc. split; [done|]. intros e. rewrite pv_nil. ring.
  - unfold times_step at 2. cbn [rbind fst snd]. destruct (_ && fl).
    { by rewrite times_inner_err. }
    intros H Hc. apply IH in H as [H1 H2].
    + split; [done|]. intros e. rewrite H2, pv_dset, pv_cons, mono_val_sort, mono_val_app. ring.
    + apply canon_dset; [done|]. apply psort_sorted, good_str.
Qed.

Lemma times_sound fl d1 d2 d :
  dict_times fl d1 d2 = Ok d ->
  canon d /\ forall e, poly_val e d = (poly_val e d1 * poly_val e d2)%Qc.
Proof.
  unfold dict_times.
  enough (forall r, canon r ->
    fold_left (fun r kv1 => fold_left (times_step fl kv1.1 kv1.2) d2 r) d1 (Ok r) = Ok d ->
    canon d /\ forall e, poly_val e d = (poly_val e r + poly_val e d1 * poly_val e d2)%Qc) as H.
  { intros Hd. destruct (H [] canon_nil Hd) as [H1 H2]. split; [done|]. intros e.
    rewrite H2, pv_nil. ring. }
  induction d1 as [|[k1 v1] d1 IH]; intros r Hc; cbn [fold_left].
  - intros [= ->]. split; [done|]. intros e. rewrite pv_nil. ring.
  - cbn [fst snd]. destruct (fold_left (times_step fl k1 v1) d2 (Ok r)) as [r'|] eqn:E.
    + apply times_inner_sound in E as [E1 E2]; [|done]. intros H. apply IH in H as [H1 H2]; [|done].
      split; [done|]. intros e. rewrite H2, E2, pv_cons. ring.
    + by rewrite times_outer_err.
Qed.

Lemma times_total d1 d2 : exists d, dict_times false d1 d2 = Ok d.
Proof.
  unfold dict_times. change (@Ok pdict []) with (@Ok pdict ([] : pdict)); generalize ([] : pdict). induction d1 as [|[k1 v1] d1 IH]; intros r; cbn [fold_left].
  { eauto. }
  cbn [fst snd].
  assert (forall r : pdict, exists r' : pdict, fold_left (times_step false k1 v1) d2 (Ok r) = Ok r') as H.
  { clear. induction d2 as [|[k2 v2] d2 IH]; intros r; cbn [fold_left]; [eauto|].
    unfold times_step at 2. cbn [rbind]. rewrite andb_false_r. apply IH. }
  destruct (H r) as [r' ->]. apply IH.
Qed.

(** Products with a constant factor. *)
Definition const_keys (d : pdict) : Prop := Forall (fun kv => kv.1 = CONST_KEY) d.

Lemma times_const_ok fl d1 d2 :
  const_keys d1 \/ const_keys d2 -> exists d, dict_times fl d1 d2 = Ok d.
Proof.
  intros Hor. unfold dict_times. change (@Ok pdict []) with (@Ok pdict ([] : pdict)); generalize ([] : pdict).
  induction d1 as [|[k1 v1] d1 IH]; intros r; cbn [fold_left]; [eauto|].
  cbn [fst snd].
  assert (forall r : pdict, exists r' : pdict, fold_left (times_step fl k1 v1) d2 (Ok r) = Ok r') as H.
  { clear IH. revert Hor. clear r. intros Hor r. revert r.
    assert (k1 = CONST_KEY \/ const_keys d2) as Hk.
    { destruct Hor as [H|H]; [|by right]. inversion H; subst. by left. }
    clear Hor. induction d2 as [|[k2 v2] d2 IH]; intros r; cbn [fold_left]; [eauto|].
    unfold times_step at 2. cbn [rbind fst snd].
    assert (negb (bool_decide (k1 = CONST_KEY)) && negb (bool_decide (k2 = CONST_KEY)) = false) as ->.
    { destruct Hk as [->|H]; [by rewrite bool_decide_true|].
      inversion H as [|? ? Hk2 ?]; subst. cbn in Hk2. subst.
      rewrite (bool_decide_true (CONST_KEY = CONST_KEY)) by done. by rewrite andb_false_r. }
    cbn [andb]. apply IH. destruct Hk as [|H]; [by left|]. right. by inversion H. }
  destruct (H r) as [r' ->]. apply IH. destruct Hor as [H'|H']; [|by right].
  left. by inversion H'.
Qed.

Lemma const_keys_dset d v : const_keys d -> const_keys (dset d CONST_KEY v).
Proof.
  intros H. induction H as [|[k w] d Hk H IH]; cbn [dset]; [by repeat constructor|].
  cbn in Hk. subst. destruct (decide _); by constructor.
Qed.

Lemma times_const_keys fl d1 d2 d :
  const_keys d1 -> const_keys d2 -> dict_times fl d1 d2 = Ok d -> const_keys d.
Proof.
  intros H1 H2. unfold dict_times.
  assert (forall r, const_keys r ->
    fold_left (fun r kv1 => fold_left (times_step fl kv1.1 kv1.2) d2 r) d1 (Ok r) = Ok d ->
    const_keys d) as H; [|apply H; constructor].
  induction H1 as [|[k1 v1] d1 Hk1 H1 IH]; intros r Hr; cbn [fold_left].
  { by intros [= <-]. }
  cbn in Hk1. subst k1. cbn [fst snd].
  assert (forall r, const_keys r -> forall r', fold_left (times_step fl CONST_KEY v1) d2 (Ok r) = Ok r' ->
    const_keys r') as Hin.
  { clear -H2. induction H2 as [|[k2 v2] d2 Hk2 H2 IH]; intros r Hr r'; cbn [fold_left].
    { by intros [= <-]. }
    cbn in Hk2. subst k2. unfold times_step at 2. cbn [rbind fst snd].
    rewrite (bool_decide_true (CONST_KEY = CONST_KEY)) by done. cbn [negb andb].
    apply IH. change (psort str_cmp (CONST_KEY ++ CONST_KEY)) with CONST_KEY. by apply const_keys_dset. }
  destruct (fold_left (times_step fl CONST_KEY v1) d2 (Ok r)) as [r'|] eqn:E.
  - apply IH. by eapply Hin.
  - by rewrite times_outer_err.
Qed.

Lemma plus_const_keys d1 d2 : const_keys d1 -> const_keys d2 -> const_keys (dict_plus d1 d2).
Proof.
  intros H1 H2. unfold dict_plus. revert d1 H1.
  induction H2 as [|[k v] d2 Hk H2 IH]; intros d1 H1; cbn [fold_left]; [done|].
  cbn in Hk. subst. apply IH. cbn [fst snd]. destruct (dget d1 CONST_KEY); by apply const_keys_dset.
Qed.

Lemma mapkeys_const (g : mono * Qc -> Qc) d :
  const_keys d -> const_keys (map (fun kv => (kv.1, g kv)) d).
Proof. induction 1 as [|kv d Hk H IH]; constructor; done. Qed.

(** * Exponents *)

Lemma int_of_qc_spec q z : int_of_qc q = Some z -> q = qz z.
Proof.
  unfold int_of_qc. destruct (Pos.eqb_spec (Qden (this q)) 1) as [H|]; [|done]. intros [= <-].
  apply Qc_is_canon. unfold qz. cbn. rewrite Qred_correct. destruct q as [[n d] Hq]. cbn in *.
  subst. done.
Qed.

Lemma this_qz z : this (qz z) = (z # 1)%Q.
Proof.
  unfold qz. cbn. unfold Qred, inject_Z.
  pose proof (Z.ggcd_gcd z 1). pose proof (Z.ggcd_correct_divisors z 1).
  destruct (Z.ggcd z 1) as [g [a b]]. cbn in *. rewrite Z.gcd_1_r in H. subst g.
  destruct H0 as [H1 H2]. rewrite !Z.mul_1_l in *. subst. done.
Qed.

Lemma int_of_qz z : int_of_qc (qz z) = Some z.
Proof. unfold int_of_qc. by rewrite this_qz. Qed.

Lemma nat_of_qn n : nat_of_qc (qn n) = Some n.
Proof.
  unfold nat_of_qc, qn. rewrite this_qz. cbn.
  destruct (Z.leb_spec 0 (Z.of_nat n)); [|lia]. by rewrite Nat2Z.id.
Qed.

Lemma nat_of_qz z : (0 <= z)%Z -> nat_of_qc (qz z) = Some (Z.to_nat z).
Proof. intros. rewrite <- (Z2Nat.id z) at 1 by done. apply nat_of_qn. Qed.

Lemma mul_loop_sound fl n b r d :
  mul_loop fl n b r = Ok d -> canon r ->
  canon d /\ forall e, poly_val e d = (poly_val e r * qpow (poly_val e b) n)%Qc.
Proof.
  revert r. induction n as [|n IH]; intros r; cbn [mul_loop qpow].
  - intros [= ->] Hc. split; [done|]. intros. ring.
  - destruct (dict_times fl r b) as [r'|] eqn:E; [|done]. cbn [rbind]. intros H Hc.
    apply times_sound in E as [E1 E2]. apply IH in H as [H1 H2]; [|done].
    split; [done|]. intros e. rewrite H2, E2. ring.
Qed.

Lemma mul_loop_total n b r : exists d, mul_loop false n b r = Ok d.
Proof.
  revert r. induction n as [|n IH]; intros r; cbn [mul_loop]; [eauto|].
  destruct (times_total r b) as [d ->]. apply IH.
Qed.

(** * Soundness of the converter *)

Definition means (f : fm) (d : pdict) : Prop :=
  canon d /\ forall e, eval e f = Some (VN (poly_val e d)).

Lemma mapM_means e l ds : Forall2 means l ds ->
  mapM (fun g => vnum (eval e g)) l = Some (map (poly_val e) ds).
Proof.
  intros H. apply mapM_Some. induction H as [|f d l ds [_ Hf] H IH]; constructor; [|done].
  by rewrite Hf.
Qed.

Lemma reduce_plus ds d :
  reduceM (fun a b => Ok (dict_plus a b)) ds = Ok d -> Forall canon ds ->
  canon d /\ forall e, poly_val e d = qsum (map (poly_val e) ds).
Proof.
  destruct ds as [|d0 ds]; [done|]. cbn [reduceM].
  enough (forall d0, canon d0 -> Forall canon ds ->
    fold_left (fun r y => let! r := r in Ok (dict_plus r y)) ds (Ok d0) = Ok d ->
    canon d /\ forall e, poly_val e d = (poly_val e d0 + qsum (map (poly_val e) ds))%Qc) as H.
  { intros Hd Hc. inversion Hc; subst. destruct (H d0) as [? ?]; try done. }
  induction ds as [|d1 ds IH]; intros d' Hc Hcs; cbn [fold_left].
  - intros [= <-]. split; [done|]. intros. cbn. ring.
  - inversion Hcs; subst. cbn [rbind]. intros H.
    destruct (IH (dict_plus d' d1)) as [H3 H4]; [by apply canon_plus|done|done|].
    split; [done|]. intros e. rewrite H4, pv_plus. cbn [map]. rewrite qsum_cons. ring.
Qed.

Lemma reduce_err {A} (f : A -> A -> Res A) l x :
  fold_left (fun r y => let! r := r in f r y) l (Err x) = Err x.
Proof. induction l; [done|]. cbn [fold_left rbind]. done. Qed.

Lemma reduce_times fl ds d :
  reduceM (dict_times fl) ds = Ok d -> Forall canon ds ->
  canon d /\ forall e, poly_val e d = qprod (map (poly_val e) ds).
Proof.
  destruct ds as [|d0 ds]; [done|]. cbn [reduceM].
  enough (forall d0, canon d0 ->
    fold_left (fun r y => let! r := r in dict_times fl r y) ds (Ok d0) = Ok d ->
    canon d /\ forall e, poly_val e d = (poly_val e d0 * qprod (map (poly_val e) ds))%Qc) as H.
  { intros Hd Hc. inversion Hc; subst. destruct (H d0) as [? ?]; try done. }
  induction ds as [|d1 ds IH]; intros d' Hc; cbn [fold_left].
  - intros [= <-]. split; [done|]. intros. cbn. ring.
  - cbn [rbind]. intros H. destruct (dict_times fl d' d1) as [d2|] eqn:E.
    + apply times_sound in E as [E1 E2]. destruct (IH d2) as [H3 H4]; [done|done|].
      split; [done|]. intros e. rewrite H4, E2. cbn [map]. rewrite qprod_cons. ring.
    + by rewrite reduce_err in H.
Qed.

Lemma all_real_args l t : nary_num (map typeof l) = Some t -> Forall (fun f => typeof f = Some t) l.
Proof. intros H. by apply nary_num_Forall in H as (_ & _ & H). Qed.

Lemma pe1_pow_inv a q : poly_expr1 (PowN a (RealC q)) ->
  exists m, m <> 0 /\ q = qn m /\ poly_expr1 a.
Proof. intros H. inversion H; subst. by exists n. Qed.

Lemma math_sound n fl f d :
  walk (math_walker fl) n f = Ok d -> typeof f = Some TReal ->
  fl = true \/ poly_expr1 f -> means f d.
Proof.
  revert f d. induction n as [|n IH]; intros f d Hw Ht Hf; [done|]. cbn [walk] in Hw.
  assert (HL : forall l ds, rmapM (walk (math_walker fl) n) l = Ok ds ->
    Forall (fun f => typeof f = Some TReal) l -> fl = true \/ Forall poly_expr1 l ->
    Forall2 means l ds).
  { intros l ds H Hty Hl. apply rmapM_Forall2 in H. induction H as [|f' d' l ds H0 H IHl]; [constructor|].
    inversion Hty; subst. constructor.
    - apply IH; [done|done|]. destruct Hl as [|Hl]; [by left|]. inversion Hl; by right.
    - apply IHl; [done|]. destruct Hl as [|Hl]; [by left|]. inversion Hl; by right. }
  assert (HC : forall l ds, Forall2 means l ds -> Forall canon ds).
  { induction 1 as [|? ? ? ? [? _]]; by constructor. }
  destruct f as [x t|b|q|z|l|l|a|a b|a b|c a b|l|a b|l|a b|a b|a b|a b|a|a];
    cbn [dispatch math_walker w_and w_or w_plus w_minus w_times w_not w_ite w_pow w_lte w_lt
         w_equals w_symbol w_const w_cannot] in Hw; try done.
  - destruct t; try done. injection Hw as <-. split.
    + split; [|by repeat constructor]. apply NoDup_singleton.
    + intros e. cbn [eval]. rewrite pv_cons, pv_nil. unfold mono_val. cbn [map qprod fold_right]. do 2 f_equal. ring.
  - injection Hw as <-. split.
    + split; [|by repeat constructor]. apply NoDup_singleton.
    + intros e. cbn [eval]. rewrite pv_cons, pv_nil. unfold mono_val, CONST_KEY. cbn [map qprod fold_right]. do 2 f_equal. ring.
  - cbn [typeof] in Ht. case_bool_decide; done.
  - cbn [typeof] in Ht. repeat case_bool_decide; done.
  - destruct (rmapM _ l) as [ds|] eqn:E; [|done]. cbn [rbind] in Hw. cbn [typeof] in Ht.
    assert (Forall2 means l ds) as H2.
    { apply HL; [done|by apply all_real_args|]. destruct Hf as [|Hf]; [by left|]. inversion Hf; by right. }
    apply reduce_plus in Hw as [Hc Hv]; [|by eapply HC]. split; [done|]. intros e. cbn [eval].
    rewrite (mapM_means e _ _ H2). cbn. by rewrite Hv.
  - unfold math_minus in Hw. destruct (walk _ n a) as [da|] eqn:Ea; [|done].
    destruct (walk _ n b) as [db|] eqn:Eb; [|done]. injection Hw as <-.
    cbn [typeof] in Ht. apply (nary_num_Forall [a; b]) in Ht as (_ & _ & Ht).
    inversion Ht as [|? ? Ta Ht2]; subst. inversion Ht2 as [|? ? Tb _]; subst.
    destruct (IH a da) as [Ca Va]; [done|done|destruct Hf as [|Hf]; [by left|inversion Hf; by right]|].
    destruct (IH b db) as [Cb Vb]; [done|done|destruct Hf as [|Hf]; [by left|inversion Hf; by right]|].
    split; [apply canon_plus; [done|by apply canon_neg]|]. intros e. cbn [eval].
    rewrite Va, Vb. cbn. do 2 f_equal. rewrite pv_plus, pv_neg. ring.
  - destruct (rmapM _ l) as [ds|] eqn:E; [|done]. cbn [rbind] in Hw. cbn [typeof] in Ht.
    assert (Forall2 means l ds) as H2.
    { apply HL; [done|by apply all_real_args|]. destruct Hf as [|Hf]; [by left|]. inversion Hf; by right. }
    apply reduce_times in Hw as [Hc Hv]; [|by eapply HC]. split; [done|]. intros e. cbn [eval].
    rewrite (mapM_means e _ _ H2). cbn. by rewrite Hv.
  - unfold math_pow in Hw. destruct (const_val b) as [x|] eqn:Ex; [|done].
    destruct (int_of_qc x) as [z|] eqn:Ez; [|done]. apply int_of_qc_spec in Ez.
    destruct (negb (z =? 1)%Z && fl) eqn:Efl; [done|].
    destruct (walk _ n a) as [da|] eqn:Ea; [|done]. cbn [rbind] in Hw.
    cbn [typeof] in Ht. apply (nary_num_Forall [a; b]) in Ht as (_ & _ & Ht).
    inversion Ht as [|? ? Ta Ht2]; subst. inversion Ht2 as [|? ? Tb _]; subst.
    assert (fl = true \/ poly_expr1 a) as Hfa.
    { destruct Hf as [|Hf]; [by left|inversion Hf; by right]. }
    destruct (IH a da) as [Ca Va]; [done|done|done|].
    assert (b = RealC (qz z)) as ->.
    { destruct b; cbn in Ex, Tb; try done. by injection Ex as ->. }
    assert (1 <= z)%Z as Hz.
    { destruct Hf as [->|Hf].
      - rewrite andb_true_r, negb_false_iff in Efl. lia.
      - apply pe1_pow_inv in Hf as (m & Hm & Hq & _).
        apply (f_equal int_of_qc) in Hq. unfold qn in Hq.
        rewrite !int_of_qz in Hq. injection Hq as ->. lia. }
    apply mul_loop_sound in Hw as [Hc Hv]; [|done]. split; [done|]. intros e. cbn [eval].
    rewrite Va. cbn [vnum mbind option_bind]. rewrite nat_of_qz by lia. cbn.
    rewrite Hv. replace (Z.to_nat z) with (S (Z.to_nat (z - 1))) by lia. done.
  - cbn [typeof] in Ht. by destruct (nary_num [typeof a; typeof b]).
  - cbn [typeof] in Ht. by destruct (nary_num [typeof a; typeof b]).
Qed.

(** * Success of the converter *)

Lemma poly_expr1_expr f : poly_expr1 f -> poly_expr f.
Proof.
  revert f. fix IH 2. intros f H. destruct H as [q|x|l Hne Hl|a b Ha Hb|l Hne Hl|a n Hn Ha].
  - constructor.
  - constructor.
  - constructor; [done|]. clear Hne. induction Hl; constructor; auto.
  - constructor; auto.
  - constructor; [done|]. clear Hne. induction Hl; constructor; auto.
  - constructor. auto.
Qed.

Lemma poly_expr_real f : poly_expr f -> typeof f = Some TReal.
Proof.
  revert f. fix IH 2. intros f H. destruct H as [q|x|l Hne Hl|a b Ha Hb|l Hne Hl|a n Ha].
  - done.
  - done.
  - cbn [typeof]. apply nary_num_intro; [done|done|]. clear Hne. induction Hl; constructor; auto.
  - cbn [typeof]. apply (nary_num_intro [a; b]); [done|done|]. repeat constructor; auto.
  - cbn [typeof]. apply nary_num_intro; [done|done|]. clear Hne. induction Hl; constructor; auto.
  - cbn [typeof]. apply (nary_num_intro [a; RealC (qn n)]); [done|done|]. repeat constructor; auto.
Qed.

Lemma reduce_ok {A} (f : A -> A -> Res A) l :
  l <> [] -> (forall x y, exists z, f x y = Ok z) -> exists z, reduceM f l = Ok z.
Proof.
  intros Hne Hf. destruct l as [|x l]; [done|]. cbn [reduceM]. clear Hne. revert x.
  induction l as [|y l IH]; intros x; cbn [fold_left]; [eauto|]. cbn [rbind].
  destruct (Hf x y) as [z ->]. apply IH.
Qed.

Lemma rmapM_ok {A B} (f : A -> Res B) l :
  Forall (fun x => exists y, f x = Ok y) l -> exists ys, rmapM f l = Ok ys.
Proof.
  induction 1 as [|x l [y Hy] _ [ys IH]]; [by exists []|].
  exists (y :: ys). rewrite rmapM_cons, Hy. cbn [rbind]. by rewrite IH.
Qed.

Lemma math_ok_poly n f : poly_expr f -> msize f <= n -> exists d, walk (math_walker false) n f = Ok d.
Proof.
  revert f. induction n as [|n IH]; intros f Hf Hn; [pose proof (msize_pos f); lia|].
  assert (HL : forall l, S (list_sum (map msize l)) <= S n -> Forall poly_expr l ->
             exists ds, rmapM (walk (math_walker false) n) l = Ok ds).
  { intros l Hs Hl. apply rmapM_ok. rewrite Forall_forall in *. intros g Hg.
    apply IH; [by apply Hl|]. pose proof (msize_in g l Hg). lia. }
  destruct Hf as [q|x|l Hne Hl|a b Ha Hb|l Hne Hl|a m Ha];
    cbn [walk dispatch math_walker w_and w_or w_plus w_minus w_times w_not w_ite w_pow w_lte w_lt
         w_equals w_symbol w_const w_cannot]; cbn [msize] in Hn.
  - eauto.
  - eauto.
  - destruct (HL l Hn Hl) as [ds Hds]. rewrite Hds. cbn [rbind]. apply reduce_ok; [|eauto].
    apply rmapM_ok_length in Hds. by destruct l, ds.
  - unfold math_minus. destruct (IH a Ha) as [da ->]; [lia|]. cbn [rbind].
    destruct (IH b Hb) as [db ->]; [lia|]. cbn [rbind]. eauto.
  - destruct (HL l Hn Hl) as [ds Hds]. rewrite Hds. cbn [rbind]. apply reduce_ok; [|apply times_total].
    apply rmapM_ok_length in Hds. by destruct l, ds.
  - unfold math_pow. cbn [const_val]. unfold qn. rewrite int_of_qz. rewrite andb_false_r.
    destruct (IH a Ha) as [da ->]; [lia|]. cbn [rbind]. apply mul_loop_total.
Qed.

(** C06 *)
Lemma from_smt_value f : poly_expr1 f ->
  exists p, poly_from_smt f = Ok p /\ forall e, eval e f = Some (VN (poly_val e p)).
Proof.
  intros Hf. pose proof (poly_expr1_expr f Hf) as Hf'.
  destruct (math_ok_poly (msize f) f Hf') as [d Hd]; [done|].
  exists (List.filter nonzero d). unfold poly_from_smt, math_walk. rewrite Hd. split; [done|].
  intros e. destruct (math_sound _ _ _ _ Hd) as [_ Hv]; [by apply poly_expr_real|by right|].
  by rewrite pv_filter.
Qed.

(** * Polynomial identity theorem *)

Fixpoint upoly (cs : list Qc) (x : Qc) : Qc :=
  match cs with [] => 0%Qc | c :: cs => (c + x * upoly cs x)%Qc end.

Fixpoint uquot (a : Qc) (cs : list Qc) : list Qc :=
  match cs with
  | [] => []
  | c :: cs' => match cs' with [] => [] | _ => upoly cs' a :: uquot a cs' end
  end.

Lemma uquot_spec a cs x :
  (upoly cs x - upoly cs a)%Qc = ((x - a) * upoly (uquot a cs) x)%Qc.
Proof.
  induction cs as [|c cs IH]; [cbn; ring|]. destruct cs as [|c' cs'].
  - cbn. ring.
  - change (uquot a (c :: c' :: cs')) with (upoly (c' :: cs') a :: uquot a (c' :: cs')).
    remember (c' :: cs') as t eqn:Ht. clear Ht. cbn [upoly].
    assert (upoly t x = (x - a) * upoly (uquot a t) x + upoly t a)%Qc as ->.
    { rewrite <- IH. ring. }
    ring.
Qed.

Lemma uquot_length a cs : length (uquot a cs) = length cs - 1.
Proof. induction cs as [|c [|c' cs] IH]; [done|done|]. cbn [uquot length] in *. lia. Qed.

Lemma uquot_zero a cs : upoly cs a = 0%Qc -> Forall (fun c => c = 0%Qc) (uquot a cs) ->
  Forall (fun c => c = 0%Qc) cs.
Proof.
  induction cs as [|c cs IH]; intros H0 Hq; [constructor|]. destruct cs as [|c' cs'].
  - constructor; [|constructor]. cbn in H0. rewrite <- H0. ring.
  - cbn [uquot] in Hq. inversion Hq as [|? ? H1 H2]; subst. constructor; [|by apply IH].
    cbn [upoly] in H0, H1. rewrite H1 in H0. rewrite <- H0. ring.
Qed.

Lemma qn_inj n m : qn n = qn m -> n = m.
Proof.
  intros H. apply (f_equal int_of_qc) in H. unfold qn in H. rewrite !int_of_qz in H.
  injection H. lia.
Qed.

Lemma upoly_zero_all cs N :
  (forall n, N <= n -> upoly cs (qn n) = 0%Qc) -> Forall (fun c => c = 0%Qc) cs.
Proof.
  remember (length cs) as m eqn:Hm. revert cs N Hm.
  induction m as [|m IH]; intros cs N Hm H.
  { destruct cs; [constructor|done]. }
  apply (uquot_zero (qn N)); [by apply H|].
  apply (IH _ (S N)).
  - rewrite uquot_length. lia.
  - intros n Hn. pose proof (uquot_spec (qn N) cs (qn n)) as Hq.
    rewrite (H n), (H N) in Hq by lia.
    assert ((qn n - qn N) <> 0)%Qc as Hne.
    { intros Heq. assert (qn n = qn N) as Hnn.
      { rewrite <- (Qcplus_0_r (qn N)), <- Heq. ring. }
      apply qn_inj in Hnn. lia. }
    assert ((qn n - qn N) * upoly (uquot (qn N) cs) (qn n) = 0)%Qc as Hz by (rewrite <- Hq; ring).
    apply Qcmult_integral in Hz as [Hz|Hz]; done.
Qed.

(** Splitting a monomial at one variable. *)
Definition cnt (x : string) (k : mono) : nat := length (filter (fun y => y = x) k).
Definition rest (x : string) (k : mono) : mono := filter (fun y => y <> x) k.

Lemma mono_split e x k : mono_val e k = (qpow (er e x) (cnt x k) * mono_val e (rest x k))%Qc.
Proof.
  unfold cnt, rest. induction k as [|y k IH]; [cbn; unfold mono_val; cbn; ring|].
  change (mono_val e (y :: k)) with (er e y * mono_val e k)%Qc.
  rewrite IH, !filter_cons. destruct (decide (y = x)) as [->|Hy].
  - rewrite decide_False by (intros H; by apply H). cbn [length qpow]. ring.
  - rewrite decide_True by done.
    change (mono_val e (y :: ?k)) with (er e y * mono_val e k)%Qc. ring.
Qed.

Lemma split_perm x k : k ≡ₚ replicate (cnt x k) x ++ rest x k.
Proof.
  unfold cnt, rest. induction k as [|y k IH]; [done|].
  rewrite !filter_cons. destruct (decide (y = x)) as [->|Hy].
  - rewrite decide_False by (intros H; by apply H). cbn [length replicate]. cbn. by rewrite <- IH.
  - rewrite decide_True by done. rewrite <- Permutation_middle. by rewrite <- IH.
Qed.

Lemma split_inj x k1 k2 :
  StronglySorted (cle str_cmp) k1 -> StronglySorted (cle str_cmp) k2 ->
  cnt x k1 = cnt x k2 -> rest x k1 = rest x k2 -> k1 = k2.
Proof.
  intros H1 H2 Hc Hr. apply (sorted_unique str_cmp good_str); [done|done|].
  rewrite (split_perm x k1), (split_perm x k2). by rewrite Hc, Hr.
Qed.

Lemma sorted_filter (P : string -> Prop) `{forall x, Decision (P x)} k :
  StronglySorted (cle str_cmp) k -> StronglySorted (cle str_cmp) (filter P k).
Proof.
  induction 1 as [|y k Hk IH Hall]; [constructor|]. rewrite filter_cons. destruct (decide (P y)); [|done].
  constructor; [done|]. rewrite Forall_forall in *. intros z Hz.
  apply elem_of_list_filter in Hz as [_ Hz]. by apply Hall.
Qed.

(** Coefficient (a polynomial in the other variables) of the i-th power of x. *)
Definition coef (x : string) (i : nat) (d : pdict) : pdict :=
  map (fun kv => (rest x kv.1, kv.2)) (filter (fun kv => cnt x kv.1 = i) d).

Lemma coef_canon x i d : canon d -> canon (coef x i d).
Proof.
  intros [H1 H2]. split.
  - unfold coef, dwf, dkeys. rewrite map_map. cbn [fst].
    assert (forall d' : pdict, Forall (fun kv => StronglySorted (cle str_cmp) kv.1 /\ cnt x kv.1 = i) d' -> NoDup (map fst d') ->
       NoDup (map (fun kv => rest x kv.1) d')) as Hg.
    { clear. induction d' as [|[k v] d IH]; intros Hs Hnd; [constructor|]. cbn in *.
      inversion Hnd as [|? ? Hni Hnd']; subst. inversion Hs as [|? ? [Hk Hc] Hs']; subst. cbn in *.
      constructor; [|by apply IH]. intros Hin. apply Hni.
      apply elem_of_list_fmap in Hin as ([k' v'] & Hr & Hin). cbn in Hr.
      rewrite Forall_forall in Hs'. destruct (Hs' _ Hin) as [Hk' Hc']. cbn in *.
      assert (k = k') as -> by (by eapply split_inj). apply elem_of_list_fmap. by exists (k', v'). }
    apply Hg.
    + rewrite Forall_forall in *. intros kv Hkv. apply elem_of_list_filter in Hkv as [Hc Hkv].
      split; [by apply H2|done].
    + apply (dwf_filter (fun kv => cnt x kv.1 = i)). done.
  - unfold coef. rewrite Forall_forall in *. intros kv Hin.
    apply elem_of_list_fmap in Hin as (kv' & -> & Hin). apply elem_of_list_filter in Hin as [_ Hin].
    cbn. apply sorted_filter. by apply H2.
Qed.

Lemma pv_indep e x q d : (forall k v, (k, v) ∈ d -> x ∉ k) ->
  poly_val (upd_r e x q) d = poly_val e d.
Proof.
  intros H. induction d as [|[k v] d IH]; [done|]. rewrite !pv_cons, IH.
  - f_equal. f_equal. assert (x ∉ k) as Hk by (apply (H k v); by left). clear -Hk.
    induction k as [|y k IH]; [done|]. apply not_elem_of_cons in Hk as [Hy Hk].
    unfold mono_val in *. cbn [map qprod fold_right]. fold (qprod (map (er (upd_r e x q)) k)).
    fold (qprod (map (er e) k)). rewrite IH by done. f_equal. cbn. by rewrite decide_False.
  - intros k' v' Hin. apply (H k' v'). by right.
Qed.

Lemma coef_indep x i d k v : (k, v) ∈ coef x i d -> x ∉ k.
Proof.
  intros Hin Hx. apply elem_of_list_fmap in Hin as (kv & [= -> ->] & _).
  unfold rest in Hx. apply elem_of_list_filter in Hx as [Hx _]. done.
Qed.

Fixpoint bigsum (f : nat -> Qc) (n : nat) : Qc :=
  match n with 0 => 0%Qc | S n => (bigsum f n + f n)%Qc end.

Lemma bigsum_ext f g n : (forall i, i < n -> f i = g i) -> bigsum f n = bigsum g n.
Proof. induction n as [|n IH]; intros H; [done|]. cbn. rewrite H by lia. rewrite IH; [done|]. intros i Hi. apply H. lia. Qed.
Lemma bigsum_add f g n : bigsum (fun i => f i + g i)%Qc n = (bigsum f n + bigsum g n)%Qc.
Proof. induction n as [|n IH]; cbn; [ring|]. rewrite IH. ring. Qed.
Lemma bigsum_zero n : bigsum (fun _ => 0%Qc) n = 0%Qc.
Proof. induction n as [|n IH]; cbn; [done|]. rewrite IH. ring. Qed.
Lemma bigsum_single (c : Qc) j n : j < n -> bigsum (fun i => if decide (j = i) then c else 0%Qc) n = c.
Proof.
  induction n as [|n IH]; intros Hj; [lia|]. cbn. destruct (decide (j = n)) as [->|].
  - rewrite (bigsum_ext _ (fun _ => 0%Qc)), bigsum_zero; [ring|].
    intros i Hi. rewrite decide_False by lia. done.
  - rewrite IH by lia. ring.
Qed.

Lemma pv_split e x d N : (forall k v, (k, v) ∈ d -> cnt x k < N) ->
  poly_val e d = bigsum (fun i => qpow (er e x) i * poly_val e (coef x i d))%Qc N.
Proof.
  intros H. induction d as [|[k v] d IH].
  - rewrite (bigsum_ext _ (fun _ => 0%Qc)), bigsum_zero; [done|]. intros. cbn. ring.
  - rewrite pv_cons, IH.
    + rewrite (mono_split e x k).
      rewrite <- (bigsum_single (v * (qpow (er e x) (cnt x k) * mono_val e (rest x k)))%Qc (cnt x k) N)
        by (apply (H k v); by left).
      rewrite <- bigsum_add. apply bigsum_ext. intros i _. unfold coef. rewrite filter_cons. cbn [fst].
      destruct (decide (cnt x k = i)) as [<-|]; [|ring].
      cbn [map]. rewrite pv_cons. cbn [fst snd]. ring.
    + intros k' v' Hin. apply (H k' v'). by right.
Qed.

Lemma bigsum_upoly (g : nat -> Qc) (X : Qc) n :
  bigsum (fun i => qpow X i * g i)%Qc n = upoly (map g (seq 0 n)) X.
Proof.
  assert (forall m n, upoly (map g (seq m n)) X = bigsum (fun i => qpow X i * g (m + i)%nat)%Qc n) as H.
  { clear. intros m n. revert m. induction n as [|n IH]; intros m; [done|].
    cbn [seq map upoly]. rewrite IH.
    assert (forall f, bigsum f (S n) = (f 0%nat + bigsum (fun i => f (S i)) n)%Qc) as Hs.
    { clear. intros f. induction n as [|n IH]; [cbn; ring|].
      change (bigsum f (S (S n))) with (bigsum f (S n) + f (S n))%Qc. rewrite IH.
      cbn [bigsum]. ring. }
    rewrite Hs. cbn [qpow]. rewrite Nat.add_0_r.
    rewrite (bigsum_ext (fun i => qpow X (S i) * g (m + S i)%nat) (fun i => X * (qpow X i * g (S m + i)%nat)))%Qc.
    - assert (forall f, bigsum (fun i => X * f i)%Qc n = (X * bigsum f n)%Qc) as Hm.
      { clear. intros f. induction n as [|n IH]; cbn; [ring|]. rewrite IH. ring. }
      rewrite Hm. ring.
    - intros i _. cbn [qpow]. replace (m + S i) with (S m + i) by lia. ring. }
  rewrite H. done.
Qed.

Lemma cnt_bound x (d : pdict) : exists N, forall k v, (k, v) ∈ d -> cnt x k < N.
Proof.
  induction d as [|[k v] d [N IH]].
  - exists 0. intros k v H. by apply elem_of_nil in H.
  - exists (S (cnt x k) + N). intros k' v' Hin. apply elem_of_cons in Hin as [[= -> ->]|Hin]; [lia|].
    apply IH in Hin. lia.
Qed.

Lemma zero_poly (vs : list string) (d : pdict) :
  canon d -> (forall k v, (k, v) ∈ d -> forall x, x ∈ k -> x ∈ vs) ->
  (forall e, poly_val e d = 0%Qc) -> forall k v, (k, v) ∈ d -> v = 0%Qc.
Proof.
  revert d. induction vs as [|x vs IH]; intros d Hc Hvs Hz k v Hin.
  - assert (forall k v, (k, v) ∈ d -> k = []) as Hnil.
    { intros k' v' Hin'. destruct k' as [|y k']; [done|].
      specialize (Hvs _ _ Hin' y ltac:(by left)). by apply elem_of_nil in Hvs. }
    assert (d = [(k, v)]) as Hd.
    { destruct d as [|[k1 v1] [|[k2 v2] d]].
      - by apply elem_of_nil in Hin.
      - apply elem_of_list_singleton in Hin. by rewrite Hin.
      - exfalso. destruct Hc as [Hwf _]. unfold dwf in Hwf. cbn in Hwf. inversion Hwf as [|? ? Hni _]; subst.
        apply Hni. rewrite (Hnil k1 v1) by by left. rewrite (Hnil k2 v2) by (right; by left). by left. }
    subst d. specialize (Hz (Env (fun _ => false) (fun _ => 0%Qc))).
    rewrite pv_cons, pv_nil in Hz. rewrite (Hnil k v) in Hz by by left.
    unfold mono_val in Hz. cbn in Hz. rewrite <- Hz. ring.
  - destruct (cnt_bound x d) as [N HN].
    assert (forall i e, i < N -> poly_val e (coef x i d) = 0%Qc) as Hcz.
    { intros i e Hi.
      assert (Forall (fun c => c = 0%Qc) (map (fun i => poly_val e (coef x i d)) (seq 0 N))) as HF.
      { apply (upoly_zero_all _ 0). intros n _.
        rewrite <- bigsum_upoly. rewrite <- (Hz (upd_r e x (qn n))).
        rewrite (pv_split _ x d N HN). apply bigsum_ext. intros j _.
        cbn [upd_r er]. rewrite decide_True by done.
        rewrite pv_indep; [done|]. intros k' v' Hk'. by eapply coef_indep. }
      rewrite Forall_forall in HF. apply HF. apply elem_of_list_fmap.
      exists i. split; [done|]. apply elem_of_list_In, in_seq. lia. }
    apply (IH (coef x (cnt x k) d)) with (k := rest x k).
    + by apply coef_canon.
    + intros k' v' Hk' y Hy. apply elem_of_list_fmap in Hk' as ([k0 v0] & [= -> ->] & Hk0).
      apply elem_of_list_filter in Hk0 as [_ Hk0]. cbn [fst] in *.
      unfold rest in Hy. apply elem_of_list_filter in Hy as [Hne Hy].
      specialize (Hvs _ _ Hk0 y Hy). apply elem_of_cons in Hvs as [->|]; done.
    + intros e. apply Hcz. by eapply HN.
    + apply elem_of_list_fmap. exists (k, v). split; [done|]. apply elem_of_list_filter. done.
Qed.

Lemma zero_poly' d : canon d -> (forall e, poly_val e d = 0%Qc) -> forall k v, (k, v) ∈ d -> v = 0%Qc.
Proof.
  intros Hc Hz. apply (zero_poly (concat (map fst d))); [done| |done].
  intros k v Hin x Hx. apply elem_of_list_In, in_concat. exists k.
  split; [|by apply elem_of_list_In]. apply in_map_iff. exists (k, v). split; [done|].
  by apply elem_of_list_In.
Qed.

(** Coefficients of a sum. *)
Lemma dget_plus d1 d2 k : dwf d2 ->
  dget (dict_plus d1 d2) k =
  match dget d1 k, dget d2 k with
  | Some v, Some w => Some (v + w)%Qc
  | Some v, None => Some v
  | None, o => o
  end.
Proof.
  unfold dict_plus. revert d1. induction d2 as [|[k0 v0] d2 IH]; intros d1 Hwf; cbn [fold_left].
  { cbn. by destruct (dget d1 k). }
  unfold dwf in Hwf. cbn in Hwf. inversion Hwf as [|? ? Hni Hnd]; subst.
  rewrite IH by done. cbn [dget fst snd].
  destruct (decide (k0 = k)) as [->|Hk].
  - apply dget_None in Hni. rewrite Hni. destruct (dget d1 k); rewrite dget_dset, decide_True by done; done.
  - destruct (dget d1 k0); rewrite dget_dset, decide_False by done; done.
Qed.

Lemma dget_neg d k : dget (dict_neg d) k = (fun v => - v)%Qc <$> dget d k.
Proof.
  induction d as [|[k0 v0] d IH]; [done|]. cbn. destruct (decide (k0 = k)); [done|]. apply IH.
Qed.

Definition all_nonzero (d : pdict) : Prop := forall k v, (k, v) ∈ d -> v <> 0%Qc.

Lemma filter_nonzero d : all_nonzero (List.filter nonzero d).
Proof.
  intros k v Hin. apply elem_of_list_In, filter_In in Hin as [_ Hin]. unfold nonzero in Hin. cbn in Hin.
  by apply negb_true_iff, qeq_false in Hin.
Qed.

Lemma same_function p q : canon p -> canon q -> all_nonzero p -> all_nonzero q ->
  (forall e, poly_val e p = poly_val e q) -> forall k, dget p k = dget q k.
Proof.
  intros Cp Cq Np Nq Heq k.
  assert (forall k v, (k, v) ∈ dict_plus p (dict_neg q) -> v = 0%Qc) as Hz.
  { apply zero_poly'.
    - apply canon_plus; [done|by apply canon_neg].
    - intros e. rewrite pv_plus, pv_neg, Heq. ring. }
  pose proof (dget_plus p (dict_neg q) k (proj1 (canon_neg _ Cq))) as Hg. rewrite dget_neg in Hg.
  destruct (dget p k) as [v|] eqn:Ev, (dget q k) as [w|] eqn:Ew; cbn in Hg.
  - apply dget_In, Hz in Hg. f_equal. rewrite <- (Qcplus_0_r w), <- Hg. ring.
  - apply dget_In, Hz in Hg. subst. apply dget_In, Np in Ev. done.
  - apply dget_In, Hz in Hg. apply dget_In, Nq in Ew. destruct Ew. rewrite <- (Qcopp_involutive w), Hg. ring.
  - done.
Qed.

Lemma elem_of_dkeys (d : pdict) k : k ∈ dkeys d <-> exists v, (k, v) ∈ d.
Proof.
  unfold dkeys. split.
  - intros H. apply elem_of_list_fmap in H as ([k' v] & -> & H). by exists v.
  - intros [v H]. apply elem_of_list_fmap. by exists (k, v).
Qed.

Lemma same_dict_perm (p q : pdict) : dwf p -> dwf q -> (forall k, dget p k = dget q k) -> p ≡ₚ q.
Proof.
  intros Wp Wq H. assert (NoDup p /\ NoDup q) as [Np Nq].
  { split; eapply NoDup_fmap_1; eassumption. }
  apply NoDup_Permutation; [done|done|]. intros [k v]. split; intros Hin.
  - apply dget_In. rewrite <- H. by apply In_dget.
  - apply dget_In. rewrite H. by apply In_dget.
Qed.

Lemma poly_eqb_spec (p q : pdict) : dwf p -> dwf q -> poly_eqb p q = true <-> p ≡ₚ q.
Proof.
  intros Wp Wq. unfold poly_eqb. rewrite andb_true_iff, Nat.eqb_eq, forallb_forall. split.
  - intros [Hl Hall].
    assert (NoDup p) as Np by (eapply NoDup_fmap_1; eassumption).
    apply submseteq_Permutation_length_le; [lia|].
    apply NoDup_submseteq; [done|]. intros [k v] Hin.
    specialize (Hall (k, v) ltac:(by apply elem_of_list_In)). apply bool_decide_eq_true in Hall.
    by apply dget_In.
  - intros Hp. split; [by apply Permutation_length|]. intros [k v] Hin. apply bool_decide_eq_true.
    cbn. apply In_dget; [done|]. rewrite <- Hp. by apply elem_of_list_In.
Qed.

(** C07 *)
Lemma from_smt_canon f p : poly_from_smt f = Ok p -> poly_expr1 f -> canon p /\ all_nonzero p.
Proof.
  unfold poly_from_smt. destruct (math_walk false f) as [d|] eqn:E; [|done]. cbn [rbind].
  intros [= <-] Hf. pose proof (poly_expr1_expr f Hf) as Hf'.
  destruct (math_sound _ _ _ _ E) as [Hc _]; [by apply poly_expr_real|by right|].
  split; [by apply canon_filter|apply filter_nonzero].
Qed.

Lemma equal_iff_same_function f g : poly_expr1 f -> poly_expr1 g ->
  exists p q, poly_from_smt f = Ok p /\ poly_from_smt g = Ok q /\ (poly_eqb p q = true <-> fequiv f g).
Proof.
  intros Hf Hg. destruct (from_smt_value f Hf) as (p & Ep & Vp).
  destruct (from_smt_value g Hg) as (q & Eq & Vq). exists p, q. split; [done|]. split; [done|].
  destruct (from_smt_canon f p Ep Hf) as [Cp Np]. destruct (from_smt_canon g q Eq Hg) as [Cq Nq].
  rewrite poly_eqb_spec by (apply Cp || apply Cq). split.
  - intros Hp e. rewrite Vp, Vq. do 2 f_equal. unfold poly_val. apply qsum_perm. by rewrite Hp.
  - intros He. apply same_dict_perm; [apply Cp|apply Cq|]. apply same_function; try done.
    intros e. specialize (He e). rewrite Vp, Vq in He. congruence.
Qed.
