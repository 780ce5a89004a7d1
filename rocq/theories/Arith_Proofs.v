(** Polynomial arithmetic and algebras (C08, C58), rescaling (C10), bounds (C11). *)

From Verif Require Import Base Dict Smt Walk_Model Walk_Proofs Check_Proofs Math_Model Math_Spec
  Poly_Proofs Linear_Proofs.

(** * C08 *)

Lemma poly_key_sound e k : exists t, poly_key k = Ok t /\ eval e t = Some (VN (mono_val e k)).
Proof.
  destruct k as [|x k]; [by eexists|]. unfold poly_key.
  destruct (mkTimes (map (fun n => Sym n TReal) (x :: k))) as [t|] eqn:E.
  - exists t. split; [done|]. by apply sym_prod.
  - by destruct k.
Qed.

Lemma poly_term_sound kv : exists t, poly_term kv = Ok t /\
  forall e, eval e t = Some (VN (kv.2 * mono_val e kv.1)%Qc).
Proof.
  destruct kv as [k v]. unfold poly_term. cbn [fst snd].
  destruct (poly_key_sound (Env (fun _ => true) (fun _ => 0%Qc)) k) as (t & Ht & _).
  assert (forall e, eval e t = Some (VN (mono_val e k))) as Hv.
  { intros e. destruct (poly_key_sound e k) as (t' & Ht' & Hv). congruence. }
  rewrite Ht. cbn [rbind]. destruct (qeq v 1) eqn:E.
  - apply qeq_spec in E. subst. exists t. split; [done|]. intros e. rewrite Hv. do 2 f_equal. ring.
  - eexists. split; [done|]. intros e. cbn [eval mapM]. cbn. rewrite Hv. cbn. do 2 f_equal. ring.
Qed.

Lemma poly_to_smt_sound p : p <> [] -> exists g, poly_to_smt p = Ok g /\
  forall e, eval e g = Some (VN (poly_val e p)).
Proof.
  intros Hne. unfold poly_to_smt.
  destruct (rmapM_ok poly_term p) as [ts Hts].
  { apply Forall_forall. intros kv _. destruct (poly_term_sound kv) as (t & Ht & _). eauto. }
  rewrite Hts. cbn [rbind].
  assert (exists s, mkPlus ts = Ok s) as [s Hs].
  { apply rmapM_ok_length in Hts. destruct p as [|? p']; [done|]. destruct ts as [|? [|]]; cbn; eauto. done. }
  exists s. split; [done|]. intros e. apply (mkPlus_sound e ts); [done|].
  apply rmapM_Forall2 in Hts. clear -Hts. induction Hts as [|kv t d ts Ht Hts IH]; [constructor|].
  constructor; [|done]. destruct (poly_term_sound kv) as (t' & Ht' & Hv). congruence.
Qed.

Lemma poly_mul_value p q : exists r, poly_mul p q = Ok r /\
  forall e, poly_val e r = (poly_val e p * poly_val e q)%Qc.
Proof.
  destruct (times_total p q) as [r Hr]. exists r. split; [done|].
  by apply times_sound in Hr as [_ Hr].
Qed.

(** * C58 *)

Section Alg.
  Context {E : Type} (A : alg E) (den : E -> env -> option Qc) (cond : E -> env -> option bool).
  Hypothesis HA : sound_arith (a_real A) (a_symbol A) (a_eq A) (a_mul A) (a_add A) den.
  Variable e : env.

  Lemma alg_times_value a b x y : den a e = Some x -> den b e = Some y ->
    den (alg_times A a b) e = Some (x * y)%Qc.
  Proof.
    intros Hx Hy. unfold alg_times, alg_zero, alg_one.
    destruct (a_eq A a (a_real A 0)) eqn:E1; cbn [orb].
    { apply (sa_eq _ _ _ _ _ _ HA _ _ e) in E1. rewrite (sa_real _ _ _ _ _ _ HA) in *.
      f_equal. assert (x = 0)%Qc as -> by congruence. ring. }
    destruct (a_eq A b (a_real A 0)) eqn:E2.
    { apply (sa_eq _ _ _ _ _ _ HA _ _ e) in E2. rewrite (sa_real _ _ _ _ _ _ HA) in *.
      f_equal. assert (y = 0)%Qc as -> by congruence. ring. }
    destruct (a_eq A a (a_real A 1)) eqn:E3.
    { apply (sa_eq _ _ _ _ _ _ HA _ _ e) in E3. rewrite (sa_real _ _ _ _ _ _ HA) in *.
      rewrite Hy. f_equal. assert (x = 1)%Qc as -> by congruence. ring. }
    destruct (a_eq A b (a_real A 1)) eqn:E4.
    { apply (sa_eq _ _ _ _ _ _ HA _ _ e) in E4. rewrite (sa_real _ _ _ _ _ _ HA) in *.
      rewrite Hx. f_equal. assert (y = 1)%Qc as -> by congruence. ring. }
    by apply (sa_mul _ _ _ _ _ _ HA).
  Qed.

  Lemma alg_plus_value a b x y : den a e = Some x -> den b e = Some y ->
    den (alg_plus A a b) e = Some (x + y)%Qc.
  Proof.
    intros Hx Hy. unfold alg_plus, alg_zero.
    destruct (a_eq A a (a_real A 0)) eqn:E1.
    { apply (sa_eq _ _ _ _ _ _ HA _ _ e) in E1. rewrite (sa_real _ _ _ _ _ _ HA) in *.
      rewrite Hy. f_equal. assert (x = 0)%Qc as -> by congruence. ring. }
    destruct (a_eq A b (a_real A 0)) eqn:E2.
    { apply (sa_eq _ _ _ _ _ _ HA _ _ e) in E2. rewrite (sa_real _ _ _ _ _ _ HA) in *.
      rewrite Hx. f_equal. assert (y = 0)%Qc as -> by congruence. ring. }
    by apply (sa_add _ _ _ _ _ _ HA).
  Qed.

  Lemma alg_negate_value a x : den a e = Some x -> den (alg_negate A a) e = Some (- x)%Qc.
  Proof.
    intros Hx. unfold alg_negate.
    rewrite (alg_times_value _ _ x (-1)%Qc Hx (sa_real _ _ _ _ _ _ HA _ _)). f_equal. ring.
  Qed.

  Lemma alg_power_loop_value n a r x y : den a e = Some x -> den r e = Some y ->
    den (alg_power_loop A n a r) e = Some (y * qpow x n)%Qc.
  Proof.
    intros Hx. revert r y. induction n as [|n IH]; intros r y Hy; cbn [alg_power_loop qpow].
    - rewrite Hy. f_equal. ring.
    - rewrite (IH _ (y * x)%Qc) by by apply alg_times_value. f_equal. ring.
  Qed.

  Lemma alg_power_value a x n : den a e = Some x ->
    exists r, alg_power A a (qn n) = Ok r /\ den r e = Some (qpow x n).
  Proof.
    intros Hx. unfold alg_power, qn. rewrite int_of_qz.
    destruct (Z.ltb_spec (Z.of_nat n) 0); [lia|]. rewrite Nat2Z.id. eexists. split; [done|].
    unfold alg_one. rewrite (alg_power_loop_value n a _ x 1%Qc Hx (sa_real _ _ _ _ _ _ HA _ _)). f_equal. ring.
  Qed.

  Lemma alg_term_value k t x : den t e = Some x ->
    den (fold_left (fun t v => alg_times A t (a_symbol A v)) k t) e = Some (x * mono_val e k)%Qc.
  Proof.
    revert t x. induction k as [|y k IH]; intros t x Ht; cbn [fold_left].
    - rewrite Ht. f_equal. unfold mono_val. cbn. ring.
    - rewrite (IH _ (x * er e y)%Qc).
      + f_equal. unfold mono_val. cbn [map]. rewrite qprod_cons. ring.
      + apply alg_times_value; [done|apply (sa_symbol _ _ _ _ _ _ HA)].
  Qed.

  Lemma to_expression_value p : den (to_expression A p) e = Some (poly_val e p).
  Proof.
    unfold to_expression.
    enough (forall r y, den r e = Some y -> den (fold_left (fun result kv =>
      let term := fold_left (fun t v => alg_times A t (a_symbol A v)) kv.1 (alg_one A) in
      alg_plus A result (alg_times A term (a_real A kv.2))) p r) e = Some (y + poly_val e p)%Qc) as H.
    { etransitivity; [apply (H _ 0%Qc); apply (sa_real _ _ _ _ _ _ HA)|]. f_equal. ring. }
    induction p as [|[k v] p IH]; intros r y Hy; cbn [fold_left].
    - rewrite Hy. f_equal. cbn. ring.
    - cbn [fst snd]. rewrite (IH _ (y + 1 * mono_val e k * v)%Qc).
      + f_equal. rewrite pv_cons. ring.
      + apply alg_plus_value; [done|]. apply alg_times_value; [|apply (sa_real _ _ _ _ _ _ HA)].
        apply alg_term_value. apply (sa_real _ _ _ _ _ _ HA).
  Qed.

  Hypothesis HC : sound_comp (a_le A) (a_lt A) den cond.

  Lemma alg_comparisons a b x y : den a e = Some x -> den b e = Some y ->
    cond (alg_less_than A a b) e = Some (qlt x y) /\
    cond (alg_less_than_equal A a b) e = Some (qle x y) /\
    cond (alg_greater_than A a b) e = Some (qlt y x) /\
    cond (alg_greater_than_equal A a b) e = Some (qle y x).
  Proof.
    intros Hx Hy. unfold alg_greater_than, alg_greater_than_equal, alg_less_than, alg_less_than_equal.
    rewrite (sc_lt _ _ _ _ HC a b e x y), (sc_le _ _ _ _ HC a b e x y) by done.
    rewrite (sc_lt _ _ _ _ HC _ _ e (- x) (- y))%Qc, (sc_le _ _ _ _ HC _ _ e (- x) (- y))%Qc
      by by apply alg_negate_value.
    repeat split; f_equal; apply eq_iff_eq_true.
    - rewrite !qlt_spec. split; intros; qclra.
    - rewrite !qle_spec. split; intros; qclra.
  Qed.

  Lemma li_to_expression_value d : dwf d ->
    cond (li_to_expression A d) e = Some (qle (poly_val e d) 0).
  Proof.
    intros Hwf. unfold li_to_expression, alg_less_than_equal.
    set (d' := List.filter (fun kv => negb (bool_decide (kv.1 = CONST_KEY))) d).
    rewrite (sc_le _ _ _ _ HC _ _ e (poly_val e d') (- default 0 (dget d CONST_KEY))%Qc).
    - f_equal. rewrite (pv_const_split e d Hwf). fold d'. apply eq_iff_eq_true. rewrite !qle_spec.
      set (u := poly_val e d'). set (w := default 0%Qc _). clearbody u w. split; intros; qclra.
    - unfold d'. clear Hwf d'.
      enough (forall r y, den r e = Some y -> den (fold_left (fun result kv =>
        if bool_decide (kv.1 = CONST_KEY) then result else
        let term := fold_left (fun t v => alg_times A t (a_symbol A v)) kv.1 (alg_one A) in
        alg_plus A result (alg_times A term (a_real A kv.2))) d r) e =
        Some (y + poly_val e (List.filter (fun kv => negb (bool_decide (kv.1 = CONST_KEY))) d))%Qc) as H.
      { etransitivity; [apply (H _ 0%Qc); apply (sa_real _ _ _ _ _ _ HA)|]. f_equal. ring. }
      induction d as [|[k v] d IH]; intros r y Hy; cbn [fold_left].
      + rewrite Hy. f_equal. cbn. ring.
      + cbn [fst snd List.filter]. destruct (bool_decide (k = CONST_KEY)) eqn:Ek; cbn [negb].
        * by apply IH.
        * rewrite (IH _ (y + 1 * mono_val e k * v)%Qc).
          -- f_equal. rewrite pv_cons. ring.
          -- apply alg_plus_value; [done|]. apply alg_times_value; [|apply (sa_real _ _ _ _ _ _ HA)].
             apply alg_term_value. apply (sa_real _ _ _ _ _ _ HA).
    - apply (sa_real _ _ _ _ _ _ HA).
  Qed.
End Alg.

Lemma pysmt_sound_arith : sound_arith (a_real pysmt_alg) (a_symbol pysmt_alg) (a_eq pysmt_alg)
  (a_mul pysmt_alg) (a_add pysmt_alg) fm_den.
Proof.
  split; try done.
  - intros a b e H. apply bool_decide_eq_true in H. by subst.
  - intros a b e x y Hx Hy. unfold fm_den in *. apply vnum_some in Hx, Hy.
    cbn [a_mul pysmt_alg eval]. cbn. rewrite Hx, Hy. cbn. f_equal. ring.
  - intros a b e x y Hx Hy. unfold fm_den in *. apply vnum_some in Hx, Hy.
    cbn [a_add pysmt_alg eval]. cbn. rewrite Hx, Hy. cbn. f_equal. ring.
Qed.

Lemma pysmt_power_value a n : typeof a = Some TReal ->
  exists r, pysmt_power a (qn n) = Ok r /\
    forall e x, eval e a = Some (VN x) -> eval e r = Some (VN (qpow x n)).
Proof.
  intros Ht. unfold pysmt_power, mkPow. cbn [is_const const_val].
  assert (forall x, qpowz x (qn n) = Some (qpow x n)) as Hp.
  { intros x. unfold qpowz, qn. rewrite this_qz. cbn. destruct (Z.leb_spec 0 (Z.of_nat n)); [|lia].
    by rewrite Nat2Z.id. }
  assert (forall e x, eval e a = Some (VN x) -> eval e (PowN a (RealC (qn n))) = Some (VN (qpow x n))) as Hd.
  { intros e x Hx. cbn [eval]. rewrite Hx. cbn [vnum mbind option_bind]. by rewrite nat_of_qn. }
  destruct a; try done; try (eexists; split; [reflexivity|exact Hd]).
  rewrite Hp. eexists. split; [done|]. intros e x [= <-]. done.
Qed.

(** Polynomials with duplicate-free sorted keys form a sound algebra; the carrier
    of the record is restricted to them through [den]. *)
Definition pden (p : pdict) (e : env) : option Qc := Some (poly_val e p).

Lemma poly_eqb_val (p q : pdict) e : dwf p -> dwf q -> poly_eqb p q = true -> poly_val e p = poly_val e q.
Proof. intros Hp Hq H. apply poly_eqb_spec in H; [|done|done]. unfold poly_val. apply qsum_perm. by rewrite H. Qed.

(** Without the invariant: equality with a constant polynomial is still sound. *)
Lemma poly_eqb_const (p : pdict) c e : poly_eqb p (poly_const c) = true -> poly_val e p = c.
Proof.
  unfold poly_eqb, poly_const. intros H. apply andb_true_iff in H as [Hl Hf]. apply Nat.eqb_eq in Hl.
  destruct p as [|[k v] [|]]; try done. cbn in Hf. rewrite andb_true_r in Hf. apply bool_decide_eq_true in Hf.
  destruct (decide (CONST_KEY = k)) as [<-|]; [|done]. injection Hf as ->. rewrite pv_cons, pv_nil.
  unfold mono_val, CONST_KEY. cbn. ring.
Qed.

(** The algebra of polynomials: the same statements for [poly_alg], whose equality
    is only used against constants. *)
Lemma poly_alg_times p q e : poly_val e (alg_times poly_alg p q) = (poly_val e p * poly_val e q)%Qc.
Proof.
  unfold alg_times, alg_zero, alg_one. cbn [poly_alg a_eq a_real a_mul].
  assert (forall c, poly_val e (poly_const c) = c) as Hc.
  { intros c. unfold poly_const. rewrite pv_cons, pv_nil. unfold mono_val, CONST_KEY. cbn. ring. }
  destruct (poly_eqb p (poly_const 0)) eqn:E1; cbn [orb].
  { rewrite Hc, (poly_eqb_const _ _ _ E1). ring. }
  destruct (poly_eqb q (poly_const 0)) eqn:E2.
  { rewrite Hc, (poly_eqb_const _ _ _ E2). ring. }
  destruct (poly_eqb p (poly_const 1)) eqn:E3.
  { rewrite (poly_eqb_const _ _ _ E3). ring. }
  destruct (poly_eqb q (poly_const 1)) eqn:E4.
  { rewrite (poly_eqb_const _ _ _ E4). ring. }
  destruct (poly_mul_value p q) as (r & -> & Hr). by rewrite Hr.
Qed.

Lemma poly_alg_plus p q e : poly_val e (alg_plus poly_alg p q) = (poly_val e p + poly_val e q)%Qc.
Proof.
  unfold alg_plus, alg_zero. cbn [poly_alg a_eq a_real a_add].
  destruct (poly_eqb p (poly_const 0)) eqn:E1.
  { rewrite (poly_eqb_const _ _ _ E1). ring. }
  destruct (poly_eqb q (poly_const 0)) eqn:E2.
  { rewrite (poly_eqb_const _ _ _ E2). ring. }
  apply pv_plus.
Qed.

Lemma poly_alg_negate p e : poly_val e (alg_negate poly_alg p) = (- poly_val e p)%Qc.
Proof.
  unfold alg_negate. rewrite poly_alg_times. cbn [poly_alg a_real]. unfold poly_const.
  rewrite pv_cons, pv_nil. unfold mono_val, CONST_KEY. cbn [map qprod fold_right]. ring.
Qed.

Lemma poly_alg_power p n : exists r, alg_power poly_alg p (qn n) = Ok r /\
  forall e, poly_val e r = qpow (poly_val e p) n.
Proof.
  unfold alg_power, qn. rewrite int_of_qz. destruct (Z.ltb_spec (Z.of_nat n) 0); [lia|].
  rewrite Nat2Z.id. eexists. split; [done|]. intros e.
  assert (forall r, poly_val e (alg_power_loop poly_alg n p r) = (poly_val e r * qpow (poly_val e p) n)%Qc) as Hl.
  { induction n as [|n IH]; intros r; cbn [alg_power_loop qpow]; [ring|].
    rewrite IH by lia. rewrite poly_alg_times. ring. }
  rewrite Hl. unfold alg_one. cbn [poly_alg a_real]. unfold poly_const. rewrite pv_cons, pv_nil.
  unfold mono_val, CONST_KEY. cbn [map qprod fold_right]. ring.
Qed.

(** * C10 *)

Lemma li_make_id d : all_nonzero d -> li_make d = d.
Proof.
  unfold li_make. induction d as [|[k v] d IH]; intros H; [done|]. cbn [List.filter].
  unfold nonzero at 1. cbn [snd]. assert (qeq v 0 = false) as ->.
  { apply qeq_false. apply (H k v). by left. }
  cbn [negb]. f_equal. apply IH. intros k' v' Hin. apply (H k' v'). by right.
Qed.

Definition scaled (c : Qc) (d : pdict) : pdict := map (fun kv => (kv.1, c * kv.2)%Qc) d.

Lemma pv_scaled e c d : poly_val e (scaled c d) = (c * poly_val e d)%Qc.
Proof.
  induction d as [|[k v] d IH]; [cbn; ring|]. cbn [scaled map]. rewrite !pv_cons. cbn [fst snd].
  fold (scaled c d). rewrite IH. ring.
Qed.

Lemma scaled_holds e c d : (0 < c)%Qc -> li_holds e (scaled c d) = li_holds e d.
Proof.
  intros Hc. unfold li_holds. assert (only_const (scaled c d) = only_const d) as ->.
  { destruct d as [|[[|] v] [|]]; done. }
  rewrite pv_scaled. set (u := poly_val e d). clearbody u.
  destruct (only_const d); apply eq_iff_eq_true.
  - rewrite !qle_spec. split; intros; qcnra.
  - rewrite !qlt_spec. split; intros; qcnra.
Qed.

Lemma scaled_nonzero c d : c <> 0%Qc -> all_nonzero d -> all_nonzero (scaled c d).
Proof.
  intros Hc Hd k v Hin. apply elem_of_list_fmap in Hin as ([k' v'] & [= -> ->] & Hin).
  intros H. apply Qcmult_integral in H as [|H]; [done|]. by apply Hd in Hin.
Qed.

Lemma scaled_dwf c d : dwf d -> dwf (scaled c d).
Proof. unfold dwf, dkeys, scaled. rewrite map_map. done. Qed.

Lemma scaled_same c d g : (0 < c)%Qc -> dwf d -> li_to_smt d = Ok g ->
  exists g', li_to_smt (scaled c d) = Ok g' /\ fequiv g' g.
Proof.
  intros Hc Hwf Hg. destruct (li_to_smt_sound d Hwf) as (g0 & Hg0 & V0).
  destruct (li_to_smt_sound _ (scaled_dwf c d Hwf)) as (g1 & Hg1 & V1).
  exists g1. split; [done|]. intros e. rewrite Hg in Hg0. injection Hg0 as <-.
  by rewrite V1, V0, scaled_holds.
Qed.

Lemma max_abs_pos d : d <> [] -> all_nonzero d -> (0 < max_abs d)%Qc.
Proof.
  intros Hne Hnz. unfold max_abs. destruct d as [|[k v] d]; [done|]. cbn [map snd].
  assert (0 < qabs v)%Qc as Hv.
  { assert (v <> 0%Qc) as Hz by (apply (Hnz k v); by left). unfold qabs.
    destruct (qle 0 v) eqn:E; [apply qle_spec in E; apply Qcle_lt_or_eq in E as [|<-]; done|].
    apply qle_false in E. qclra. }
  generalize (qabs v) Hv. clear. induction (map (fun kv => qabs kv.2) d) as [|y l IH]; intros x Hx; cbn [fold_left]; [done|].
  apply IH. unfold qmax. destruct (qlt x y) eqn:E; [|done]. apply qlt_spec in E. by eapply Qclt_trans.
Qed.

Lemma qinv_pos c : (0 < c)%Qc -> (0 < / c)%Qc.
Proof.
  intros Hc. apply Qcnot_le_lt. intros Hle.
  assert (c * / c = 1)%Qc as H1 by (apply Qcmult_inv_r; intros ->; by apply Qclt_not_eq in Hc).
  set (u := (/ c)%Qc) in *. clearbody u. qcnra.
Qed.

Lemma scale_is_scaled d c : dict_scale d c = scaled (/ c) d.
Proof. unfold dict_scale, scaled. apply map_ext. intros [k v]. cbn. unfold Qcdiv. f_equal. ring. Qed.

Lemma li_normalize_same d g : dwf d -> all_nonzero d -> li_to_smt d = Ok g ->
  exists g', li_to_smt (li_normalize d) = Ok g' /\ fequiv g' g.
Proof.
  intros Hwf Hnz Hg. destruct d as [|kv d]; [by exists g|].
  assert (0 < max_abs (kv :: d))%Qc as Hm by by apply max_abs_pos.
  unfold li_normalize. assert (qeq (max_abs (kv :: d)) 0 = false) as ->.
  { apply qeq_false. intros H. rewrite H in Hm. done. }
  rewrite scale_is_scaled, li_make_id.
  - apply scaled_same; [by apply qinv_pos|done|done].
  - apply scaled_nonzero; [|done]. pose proof (qinv_pos _ Hm) as H. intros H0. rewrite H0 in H. done.
Qed.

Lemma round53_id z : (0 <= z <= 2 ^ 53)%Z -> round53 z = z.
Proof.
  intros [H0 H]. unfold round53. destruct (Z.leb_spec (Z.log2 z - 52) 0) as [|Hl]; [done|].
  assert (z = 2 ^ 53)%Z as ->; [|by vm_compute].
  apply Z.le_antisymm; [done|]. apply Z.log2_le_pow2; [|lia]. destruct (Z.eq_dec z 0%Z) as [->|]; [done|lia].
Qed.

Lemma li_lcm_divides a b M : (0 < a)%Z -> (0 < b)%Z -> (0 < M <= 2 ^ 53)%Z -> (a | M)%Z -> (b | M)%Z ->
  (0 < li_lcm a b)%Z /\ (a | li_lcm a b)%Z /\ (b | li_lcm a b)%Z /\ (li_lcm a b | M)%Z.
Proof.
  intros Ha Hb HM Da Db. unfold li_lcm.
  assert (Z.gcd a b <> 0)%Z as Hg by (intros H; apply Z.gcd_eq_0_l in H; lia).
  assert (a * b / Z.gcd a b = Z.lcm a b)%Z as Hl.
  { unfold Z.lcm. rewrite Z.divide_div_mul_exact; [|done|apply Z.gcd_divide_r].
    rewrite Z.abs_eq; [done|]. apply Z.mul_nonneg_nonneg; [lia|]. apply Z.div_pos; [lia|].
    pose proof (Z.gcd_nonneg a b). lia. }
  rewrite Hl. assert (Z.lcm a b | M)%Z as Dl by by apply Z.lcm_least.
  assert (0 < Z.lcm a b)%Z as Hp.
  { pose proof (Z.lcm_nonneg a b). destruct (Z.eq_dec (Z.lcm a b) 0%Z) as [H0|]; [|lia].
    apply Z.lcm_eq_0 in H0. lia. }
  rewrite round53_id.
  - repeat split; [done|apply Z.divide_lcm_l|apply Z.divide_lcm_r|done].
  - split; [lia|]. apply Z.divide_pos_le in Dl; lia.
Qed.

Lemma fold_lcm M l x z : (0 < M <= 2 ^ 53)%Z -> (0 < x)%Z -> (x | M)%Z ->
  Forall (fun y => 0 < y /\ (y | M))%Z l ->
  fold_left (fun r y => let! r := r in Ok (li_lcm r y)) l (Ok x) = Ok z ->
  (0 < z)%Z /\ (x | z)%Z /\ Forall (fun y => (y | z)%Z) l.
Proof.
  intros HM. revert x. induction l as [|y l IH]; intros x Hx Dx Hl; cbn [fold_left rbind].
  { intros [= <-]. split; [done|]. split; [apply Z.divide_refl|constructor]. }
  inversion Hl as [|? ? [Hy Dy] Hl']; subst.
  destruct (li_lcm_divides x y M Hx Hy HM Dx Dy) as (H1 & H2 & H3 & H4). intros Hz.
  destruct (IH _ H1 H4 Hl' Hz) as (H5 & H6 & H7).
  split; [done|]. split; [by eapply Z.divide_trans|]. constructor; [by eapply Z.divide_trans|done].
Qed.

Lemma fold_ok {A} (g : A -> A -> A) l x :
  fold_left (fun r y => let! r := r in Ok (g r y)) l (Ok x) = Ok (fold_left g l x).
Proof. revert x. induction l as [|y l IH]; intros x; [done|]. cbn [fold_left rbind]. apply IH. Qed.

Lemma fold_gcd l x : (fold_left Z.gcd l x | x)%Z /\ Forall (fun y => (fold_left Z.gcd l x | y)%Z) l.
Proof.
  revert x. induction l as [|y l IH]; intros x; cbn [fold_left].
  { split; [apply Z.divide_refl|constructor]. }
  destruct (IH (Z.gcd x y)) as [H1 H2]. split.
  - eapply Z.divide_trans; [exact H1|]. apply Z.gcd_divide_l.
  - constructor; [|done]. eapply Z.divide_trans; [exact H1|]. apply Z.gcd_divide_r.
Qed.
Lemma fold_gcd_pos l x : (0 < x)%Z -> (0 < fold_left Z.gcd l x)%Z.
Proof.
  revert x. induction l as [|y l IH]; intros x Hx; cbn [fold_left]; [done|]. apply IH.
  pose proof (Z.gcd_nonneg x y). destruct (Z.eq_dec (Z.gcd x y) 0%Z) as [H0|]; [|lia].
  apply Z.gcd_eq_0_l in H0. lia.
Qed.

Lemma qz_mul a b : qz (a * b) = (qz a * qz b)%Qc.
Proof. apply Qc_is_canon. unfold qz, Qcmult. cbn [this Q2Qc]. rewrite !Qred_correct. by rewrite inject_Z_mult. Qed.
Lemma qz_inj a b : qz a = qz b -> a = b.
Proof. intros H. apply (f_equal int_of_qc) in H. rewrite !int_of_qz in H. congruence. Qed.
Lemma qz_pos a : (0 < a)%Z -> (0 < qz a)%Qc.
Proof. intros H. unfold Qclt. rewrite this_qz. change (this 0%Qc) with (0 # 1)%Q. unfold Qlt. cbn [Qnum Qden]. lia. Qed.

(** [v] times a multiple of its denominator is an integer. *)
Lemma mul_den (v : Qc) l : (Zpos (Qden (this v)) | l)%Z ->
  (v * qz l)%Qc = qz (Qnum (this v) * (l / Zpos (Qden (this v)))).
Proof.
  intros [m ->]. rewrite Z.div_mul by done. rewrite !qz_mul.
  assert (v * qz (Zpos (Qden (this v))) = qz (Qnum (this v)))%Qc as H.
  { apply Qc_is_canon. unfold qz, Qcmult. cbn [this Q2Qc]. rewrite !Qred_correct.
    destruct v as [[n d] ?]. cbn [this Qnum Qden]. unfold Qeq, Qmult, inject_Z. cbn. lia. }
  rewrite <- H. ring.
Qed.

Lemma trunc_qz z : trunc (qz z) = z.
Proof. unfold trunc. rewrite this_qz. cbn. apply Z.quot_1_r. Qed.

Lemma reduce_map_ne {A} (g : A -> A -> A) l x : reduceM (fun a b => Ok (g a b)) (x :: l) = Ok (fold_left g l x).
Proof. cbn [reduceM]. apply fold_ok. Qed.

Lemma li_scale_scaled lim M d :
  d <> [] -> all_nonzero d ->
  (forall k v, (k, v) ∈ d -> lim v = v) ->
  (0 < M <= 2 ^ 53)%Z -> (forall k v, (k, v) ∈ d -> (Zpos (Qden (this v)) | M)%Z) ->
  exists c, (0 < c)%Qc /\ li_scale_to_integer lim d = Ok (scaled c d) /\
    forall k v, (k, v) ∈ scaled c d -> exists z, v = qz z.
Proof.
  intros Hne Hnz Hlim HM HD. unfold li_scale_to_integer.
  assert (map (fun kv => (kv.1, lim kv.2)) d = d) as ->.
  { clear -Hlim. induction d as [|[k v] d IH]; [done|]. cbn. rewrite (Hlim k v) by by left. f_equal.
    apply IH. intros k' v' Hin. apply (Hlim k' v'). by right. }
  destruct d as [|[k0 v0] d0]; [done|]. set (d := (k0, v0) :: d0) in *.
  destruct (reduceM (fun a b => Ok (li_lcm a b)) (map (fun kv => Zpos (Qden (this kv.2))) d)) as [l|] eqn:El.
  2: { unfold d in El. cbn [map] in El. by rewrite reduce_map_ne in El. }
  cbn [rbind].
  assert ((0 < l)%Z /\ forall k v, (k, v) ∈ d -> (Zpos (Qden (this v)) | l)%Z) as [Hl Dl].
  { unfold d in El. cbn [map] in El. cbn [reduceM] in El.
    apply (fold_lcm M) in El as (H1 & H2 & H3); [|done|done|apply (HD k0 v0); by left|].
    - split; [done|]. intros k v Hin. apply elem_of_cons in Hin as [[= -> ->]|Hin]; [done|].
      rewrite Forall_forall in H3. apply H3. apply elem_of_list_fmap. by exists (k, v).
    - apply Forall_forall. intros y Hy. apply elem_of_list_fmap in Hy as ([k v] & -> & Hin). cbn.
      split; [done|]. apply (HD k v). by right. }
  clear El. set (nu := fun v : Qc => (Qnum (this v) * (l / Zpos (Qden (this v))))%Z).
  assert (forall k v, (k, v) ∈ d -> (v * qz l)%Qc = qz (nu v)) as Hnu.
  { intros k v Hin. apply mul_den. by eapply Dl. }
  assert (forall k v, (k, v) ∈ d -> nu v <> 0%Z) as Hnu0.
  { intros k v Hin H0. specialize (Hnu k v Hin). rewrite H0 in Hnu. change (qz 0) with 0%Qc in Hnu.
    apply Qcmult_integral in Hnu as [Hv|Hv]; [by apply Hnz in Hin|]. apply (qz_inj l 0%Z) in Hv. lia. }
  rewrite !map_map. cbn [fst snd].
  assert (forall h : Qc -> Z, map (fun kv : mono * Qc => h (kv.2 * qz l)%Qc) d = map (fun kv => h (qz (nu kv.2))) d) as Hmap.
  { intros h. apply map_ext_in. intros [k v] Hin. cbn. f_equal. apply (Hnu k). by apply elem_of_list_In. }
  rewrite (Hmap (fun q => Z.abs (Qnum (this q)))).
  assert (map (fun kv : mono * Qc => Z.abs (Qnum (this (qz (nu kv.2))))) d = map (fun kv => Z.abs (nu kv.2)) d) as ->.
  { apply map_ext. intros [k v]. by rewrite this_qz. }
  destruct (reduceM (fun a b => Ok (Z.gcd a b)) (map (fun kv => Z.abs (nu kv.2)) d)) as [gg|] eqn:Eg.
  2: { unfold d in Eg. cbn [map] in Eg. by rewrite reduce_map_ne in Eg. }
  cbn [rbind].
  assert ((0 < gg)%Z /\ forall k v, (k, v) ∈ d -> (gg | nu v)%Z) as [Hgg Dg].
  { unfold d in Eg. cbn [map snd] in Eg. rewrite reduce_map_ne in Eg. injection Eg as <-. split.
    - apply fold_gcd_pos. pose proof (Hnu0 k0 v0 ltac:(by left)). lia.
    - destruct (fold_gcd (map (fun kv => Z.abs (nu kv.2)) d0) (Z.abs (nu v0))) as [H1 H2].
      intros k v Hin. apply elem_of_cons in Hin as [[= -> ->]|Hin]; [by apply Z.divide_abs_r|].
      rewrite Forall_forall in H2. apply Z.divide_abs_r. apply H2. apply elem_of_list_fmap. by exists (k, v). }
  assert ((gg =? 0)%Z = false) as -> by (apply Z.eqb_neq; lia).
  set (c := (qz l * / qz gg)%Qc).
  assert (0 < c)%Qc as Hc.
  { unfold c. pose proof (qinv_pos _ (qz_pos _ Hgg)). pose proof (qz_pos _ Hl).
    set (u := (/ qz gg)%Qc) in *. set (w := qz l) in *. clearbody u w. qcnra. }
  assert (qz gg <> 0%Qc) as Hgz.
  { intros H. apply (qz_inj gg 0%Z) in H. lia. }
  rewrite map_map. cbn [fst snd].
  assert (map (fun kv : mono * Qc => (kv.1, qz (trunc (kv.2 * qz l / qz gg)%Qc))) d = scaled c d) as ->.
  { apply map_ext_in. intros [k v] Hin. apply elem_of_list_In in Hin. cbn [fst snd]. f_equal.
    destruct (Dg k v Hin) as [m Hm]. pose proof (Hnu k v Hin) as Hv.
    assert (v * qz l / qz gg = qz m)%Qc as Hq.
    { rewrite Hv, Hm, qz_mul. unfold Qcdiv. rewrite <- Qcmult_assoc, Qcmult_inv_r by done. ring. }
    rewrite Hq, trunc_qz, <- Hq. unfold c, Qcdiv. ring. }
  assert (all_nonzero (scaled c d)) as Hsc.
  { apply scaled_nonzero; [|done]. intros H. rewrite H in Hc. done. }
  rewrite li_make_id by done. exists c. split; [done|]. split; [done|].
  intros k v Hin. apply elem_of_list_fmap in Hin as ([k' v'] & [= -> ->] & Hin).
  destruct (Dg k' v' Hin) as [m Hm]. exists m. pose proof (Hnu k' v' Hin) as Hv.
  assert (c * v' = v' * qz l * / qz gg)%Qc as -> by (unfold c; ring).
  rewrite Hv, Hm, qz_mul. rewrite <- Qcmult_assoc, Qcmult_inv_r by done. ring.
Qed.

Lemma li_scale_same lim M d g :
  d <> [] -> dwf d -> all_nonzero d ->
  (forall k v, (k, v) ∈ d -> lim v = v) ->
  (0 < M <= 2 ^ 53)%Z -> (forall k v, (k, v) ∈ d -> (Zpos (Qden (this v)) | M)%Z) ->
  li_to_smt d = Ok g ->
  exists d' g', li_scale_to_integer lim d = Ok d' /\
    (forall k v, (k, v) ∈ d' -> exists z, v = qz z) /\ li_to_smt d' = Ok g' /\ fequiv g' g.
Proof.
  intros Hne Hwf Hnz Hlim HM HD Hg. destruct (li_scale_scaled lim M d) as (c & Hc & E & Hz); try done.
  destruct (scaled_same c d g Hc Hwf Hg) as (g' & Hg' & He). exists (scaled c d), g'. by split_and!.
Qed.

