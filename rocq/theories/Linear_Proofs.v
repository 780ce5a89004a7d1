(** Linear inequalities and bounds: C09, C10, C11; polynomial arithmetic: C08, C58. *)

From Verif Require Import Base Dict Smt Walk_Model Walk_Proofs Check_Proofs Math_Model Math_Spec Poly_Proofs.

(** * Linear expressions *)

Lemma const_expr_real f : const_expr f -> typeof f = Some TReal.
Proof.
  revert f. fix IH 2. intros f H. destruct H as [q|l Hne Hl|a b Ha Hb|l Hne Hl].
  - done.
  - cbn [typeof]. apply nary_num_intro; [done|done|]. clear Hne. induction Hl; constructor; auto.
  - cbn [typeof]. apply (nary_num_intro [a; b]); [done|done|]. repeat constructor; auto.
  - cbn [typeof]. apply nary_num_intro; [done|done|]. clear Hne. induction Hl; constructor; auto.
Qed.

Lemma linear_expr_real f : linear_expr f -> typeof f = Some TReal.
Proof.
  revert f. fix IH 2. intros f H. destruct H as [f H|x|l Hne Hl|a b Ha Hb|l1 a l2 H1 Ha H2|a Ha].
  - by apply const_expr_real.
  - done.
  - cbn [typeof]. apply nary_num_intro; [done|done|]. clear Hne. induction Hl; constructor; auto.
  - cbn [typeof]. apply (nary_num_intro [a; b]); [done|done|]. repeat constructor; auto.
  - cbn [typeof]. apply nary_num_intro; [done|by destruct l1|]. apply Forall_app. split.
    + eapply Forall_impl; [exact H1|]. apply const_expr_real.
    + constructor; [auto|]. eapply Forall_impl; [exact H2|]. apply const_expr_real.
  - cbn [typeof]. apply (nary_num_intro [a; RealC (qn 1)]); [done|done|]. repeat constructor; auto.
Qed.

Lemma rmapM_prop {A B} (P : B -> Prop) (f : A -> Res B) l :
  Forall (fun x => exists y, f x = Ok y /\ P y) l -> exists ys, rmapM f l = Ok ys /\ Forall P ys.
Proof.
  induction 1 as [|x l (y & Hy & HP) _ (ys & IH & IHP)]; [by exists []|].
  exists (y :: ys). rewrite rmapM_cons, Hy. cbn [rbind]. rewrite IH. split; [done|]. by constructor.
Qed.

Lemma reduce_prop {A} (P : A -> Prop) (f : A -> A -> Res A) l :
  l <> [] -> Forall P l -> (forall x y, P x -> P y -> exists z, f x y = Ok z /\ P z) ->
  exists z, reduceM f l = Ok z /\ P z.
Proof.
  intros Hne Hl Hf. destruct l as [|x l]; [done|]. cbn [reduceM]. clear Hne.
  inversion Hl as [|? ? Hx Hl']; subst. clear Hl. revert x Hx.
  induction Hl' as [|y l Hy Hl' IH]; intros x Hx; cbn [fold_left]; [eauto|]. cbn [rbind].
  destruct (Hf x y Hx Hy) as (z & -> & Hz). by apply IH.
Qed.

Lemma math_ok_const n f : const_expr f -> msize f <= n ->
  exists d, walk (math_walker true) n f = Ok d /\ const_keys d.
Proof.
  revert f. induction n as [|n IH]; intros f Hf Hn; [pose proof (msize_pos f); lia|].
  assert (HL : forall l, S (list_sum (map msize l)) <= S n -> Forall const_expr l ->
             exists ds, rmapM (walk (math_walker true) n) l = Ok ds /\ Forall const_keys ds).
  { intros l Hs Hl. apply rmapM_prop. rewrite Forall_forall in *. intros g Hg.
    apply IH; [by apply Hl|]. pose proof (msize_in g l Hg). lia. }
  destruct Hf as [q|l Hne Hl|a b Ha Hb|l Hne Hl];
    cbn [walk dispatch math_walker w_and w_or w_plus w_minus w_times w_not w_ite w_pow w_lte w_lt
         w_equals w_symbol w_const w_cannot]; cbn [msize] in Hn.
  - eexists. split; [done|]. by repeat constructor.
  - destruct (HL l Hn Hl) as (ds & Hds & Hc). rewrite Hds. cbn [rbind].
    apply reduce_prop; [apply rmapM_ok_length in Hds; by destruct l, ds|done|].
    intros x y Hx Hy. eexists. split; [done|]. by apply plus_const_keys.
  - unfold math_minus. destruct (IH a Ha) as (da & -> & Ca); [lia|]. cbn [rbind].
    destruct (IH b Hb) as (db & -> & Cb); [lia|]. cbn [rbind]. eexists. split; [done|].
    apply plus_const_keys; [done|]. by apply (mapkeys_const (fun kv => - kv.2)%Qc).
  - destruct (HL l Hn Hl) as (ds & Hds & Hc). rewrite Hds. cbn [rbind].
    apply reduce_prop; [apply rmapM_ok_length in Hds; by destruct l, ds|done|].
    intros x y Hx Hy. destruct (times_const_ok true x y) as [z Hz]; [by left|].
    exists z. split; [done|]. exact (times_const_keys _ _ _ _ Hx Hy Hz).
Qed.

Lemma math_ok_linear n f : linear_expr f -> msize f <= n ->
  exists d, walk (math_walker true) n f = Ok d.
Proof.
  revert f. induction n as [|n IH]; intros f Hf Hn; [pose proof (msize_pos f); lia|].
  destruct Hf as [f Hf|x|l Hne Hl|a b Ha Hb|l1 a l2 H1 Ha H2|a Ha].
  - destruct (math_ok_const (S n) f Hf Hn) as (d & Hd & _). eauto.
  - cbn. eauto.
  - cbn [walk dispatch math_walker w_plus]. cbn [msize] in Hn.
    destruct (rmapM_ok (walk (math_walker true) n) l) as [ds Hds].
    { rewrite Forall_forall in *. intros g Hg. apply IH; [by apply Hl|].
      pose proof (msize_in g l Hg). lia. }
    rewrite Hds. cbn [rbind]. apply reduce_ok; [|eauto].
    apply rmapM_ok_length in Hds. by destruct l, ds.
  - cbn [walk dispatch math_walker w_minus]. unfold math_minus. cbn [msize] in Hn.
    destruct (IH a Ha) as [da ->]; [lia|]. cbn [rbind].
    destruct (IH b Hb) as [db ->]; [lia|]. cbn [rbind]. eauto.
  - cbn [walk dispatch math_walker w_times]. cbn [msize] in Hn.
    rewrite map_app, list_sum_app in Hn. cbn [map list_sum foldr] in Hn.
    assert (HL : forall l, list_sum (map msize l) <= n -> Forall const_expr l ->
             exists ds, rmapM (walk (math_walker true) n) l = Ok ds /\ Forall const_keys ds).
    { intros l Hs Hl. apply rmapM_prop. rewrite Forall_forall in *. intros g Hg.
      apply math_ok_const; [by apply Hl|]. pose proof (msize_in g l Hg). lia. }
    destruct (HL l1) as (ds1 & E1 & C1); [lia|done|].
    destruct (HL l2) as (ds2 & E2 & C2).
    { unfold list_sum. lia. }
    { done. }
    destruct (IH a Ha) as [da Ea]; [lia|].
    assert (rmapM (walk (math_walker true) n) (l1 ++ a :: l2) = Ok (ds1 ++ da :: ds2)) as ->.
    { apply rmapM_Forall2. apply rmapM_Forall2 in E1, E2. apply Forall2_app; [done|]. by constructor. }
    cbn [rbind].
    assert (forall z, exists d, fold_left (fun r y => let! r := r in dict_times true r y) ds2 (Ok z) = Ok d) as Hr2.
    { clear -C2. induction C2 as [|y l Hy Hl IH]; intros z; cbn [fold_left]; [eauto|]. cbn [rbind].
      destruct (times_const_ok true z y) as [w ->]; [by right|]. apply IH. }
    destruct ds1 as [|d1 ds1]; [apply Hr2|]. cbn [app reduceM]. inversion C1 as [|? ? Cd1 Cds1]; subst.
    clear C1 E1. revert d1 Cd1. induction Cds1 as [|y l Hy Hl IHl]; intros d1 Cd1; cbn [app fold_left rbind].
    + destruct (times_const_ok true d1 da) as [w ->]; [by left|]. apply Hr2.
    + destruct (times_const_ok true d1 y) as [w Hw]; [by left|]. rewrite Hw. apply IHl.
      exact (times_const_keys _ _ _ _ Cd1 Hy Hw).
  - cbn [walk dispatch math_walker w_pow]. unfold math_pow. cbn [const_val]. unfold qn.
    rewrite int_of_qz. cbn [msize] in Hn. destruct (IH a Ha) as [da ->]; [lia|]. cbn. eauto.
Qed.

(** * From comparisons to dictionaries *)

Lemma first_nonzero_spec d ks c : first_nonzero d ks = Some c -> (0 < c)%Qc.
Proof.
  induction ks as [|k ks IH]; cbn [first_nonzero]; [done|]. destruct (dget d k) as [v|]; [|done].
  destruct (qeq v 0) eqn:E; [done|]. intros [= <-]. apply qeq_false in E. unfold qabs.
  destruct (qle 0 v) eqn:Ev.
  - apply qle_spec in Ev. apply Qcle_lt_or_eq in Ev as [|<-]; done.
  - apply qle_false in Ev. qclra.
Qed.

Lemma first_nonzero_none d ks : first_nonzero d ks = None ->
  forall k v, k ∈ ks -> dget d k = Some v -> v = 0%Qc.
Proof.
  induction ks as [|k ks IH]; cbn [first_nonzero]; intros H k' v Hin Hg; [by apply elem_of_nil in Hin|].
  apply elem_of_cons in Hin as [->|Hin].
  - rewrite Hg in H. destruct (qeq v 0) eqn:E; [|done]. by apply qeq_spec.
  - apply (IH) with k'; [|done|done]. destruct (dget d k); [|done]. by destruct (qeq q 0).
Qed.

Lemma pv_all_zero e d : (forall k v, (k, v) ∈ d -> v = 0%Qc) -> poly_val e d = 0%Qc.
Proof.
  induction d as [|[k v] d IH]; intros H; [done|]. rewrite pv_cons, IH.
  - rewrite (H k v) by by left. ring.
  - intros k' v' Hin. apply (H k' v'). by right.
Qed.

(** The dictionary of a comparison is a positive multiple of [a - b]. *)
Definition diff_of (a b : fm) (d : pdict) (s : Qc) : Prop :=
  canon d /\ exists c, (0 < c)%Qc /\ forall e x y,
    eval e a = Some (VN x) -> eval e b = Some (VN y) -> poly_val e d = (s * c * (x - y))%Qc.

Lemma math_lte_sound n a b d :
  math_lte (walk (math_walker true) n) a b = Ok d ->
  typeof a = Some TReal -> typeof b = Some TReal -> diff_of a b d 1.
Proof.
  unfold math_lte, math_minus. destruct (walk _ n a) as [da|] eqn:Ea; [|done].
  destruct (walk _ n b) as [db|] eqn:Eb; [|done]. cbn [rbind]. intros H Ta Tb.
  destruct (math_sound _ _ _ _ Ea Ta) as [Ca Va]; [by left|].
  destruct (math_sound _ _ _ _ Eb Tb) as [Cb Vb]; [by left|].
  set (r := dict_plus da (dict_neg db)) in *.
  assert (canon r) as Cr by (apply canon_plus; [done|by apply canon_neg]).
  assert (forall e x y, eval e a = Some (VN x) -> eval e b = Some (VN y) -> poly_val e r = (x - y)%Qc) as Vr.
  { intros e x y Hx Hy. rewrite Va in Hx. rewrite Vb in Hy. injection Hx as <-. injection Hy as <-.
    unfold r. rewrite pv_plus, pv_neg. ring. }
  destruct (first_nonzero r _) as [c|] eqn:Ec; injection H as <-.
  - pose proof (first_nonzero_spec _ _ _ Ec) as Hc. split; [by apply canon_scale|].
    exists (/ c)%Qc. split.
    + apply Qcnot_le_lt. intros Hle.
      assert (c * / c = 1)%Qc as H1 by (apply Qcmult_inv_r; intros ->; by apply Qclt_not_eq in Hc).
      set (u := (/ c)%Qc) in *. clearbody u. qcnra.
    + intros e x y Hx Hy. rewrite pv_scale, (Vr _ _ _ Hx Hy). unfold Qcdiv. ring.
  - split; [split; [apply NoDup_singleton|by repeat constructor]|].
    exists 1%Qc. split; [done|]. intros e x y Hx Hy.
    rewrite pv_cons, pv_nil, <- (Vr _ _ _ Hx Hy), (pv_all_zero e r); [ring|].
    intros k v Hin. eapply (first_nonzero_none _ _ Ec) with k.
    + apply elem_of_list_In. eapply Permutation_in; [symmetry; apply psort_perm|]. apply elem_of_list_In.
      apply elem_of_dkeys. eauto.
    + by apply In_dget; [apply Cr|].
Qed.

(** [negs f] is true when the number of negations in front of the comparison is odd. *)
Fixpoint negs (f : fm) : bool := match f with NotN g => negb (negs g) | _ => false end.

Lemma walk_compares n f a b d :
  compares f a b -> walk (math_walker true) n f = Ok d ->
  typeof a = Some TReal -> typeof b = Some TReal ->
  diff_of a b d (if negs f then -1 else 1)%Qc.
Proof.
  intros Hc. revert n d. induction Hc as [a b|a b|f a b Hc IH]; intros n d Hw Ta Tb.
  - destruct n as [|n]; [done|]. cbn [walk dispatch math_walker w_lte] in Hw. by eapply math_lte_sound.
  - destruct n as [|n]; [done|]. cbn [walk dispatch math_walker w_lt] in Hw. by eapply math_lte_sound.
  - destruct n as [|n]; [done|]. cbn [walk dispatch math_walker w_not] in Hw.
    destruct (walk _ n f) as [d'|] eqn:E; [|done]. injection Hw as <-.
    destruct (IH n d' E Ta Tb) as (Cd & c & Hpos & Hv). split; [by apply canon_neg|].
    exists c. split; [done|]. intros e x y Hx Hy. rewrite pv_neg, (Hv _ _ _ Hx Hy). cbn [negs].
    destruct (negs f); cbn [negb]; ring.
Qed.

Lemma walk_compares_ok n f a b :
  compares f a b -> linear_expr a -> linear_expr b -> msize f <= n ->
  exists d, walk (math_walker true) n f = Ok d.
Proof.
  intros Hc. revert n. induction Hc as [a b|a b|f a b Hc IH]; intros n Ha Hb Hn.
  1, 2: destruct n as [|n]; [cbn [msize] in Hn; lia|]; cbn [msize] in Hn;
    cbn [walk dispatch math_walker w_lte w_lt]; unfold math_lte, math_minus;
    (destruct (math_ok_linear n a Ha) as [da ->]; [lia|]); cbn [rbind];
    (destruct (math_ok_linear n b Hb) as [db ->]; [lia|]); cbn [rbind];
    destruct (first_nonzero _ _); eauto.
  destruct n as [|n]; [cbn [msize] in Hn; lia|]. cbn [walk dispatch math_walker w_not].
  cbn [msize] in Hn. destruct (IH n Ha Hb) as [d ->]; [lia|]. cbn [rbind]. eauto.
Qed.

Lemma eval_compares e f a b x y :
  compares f a b -> eval e a = Some (VN x) -> eval e b = Some (VN y) -> x <> y ->
  eval e f = Some (VB (xorb (negs f) (qlt x y))).
Proof.
  intros Hc Hx Hy Hne. induction Hc as [a b|a b|f a b Hc IH].
  - cbn [eval negs]. rewrite Hx, Hy, xorb_false_l. cbn [vnum mbind option_bind]. do 2 f_equal. apply eq_iff_eq_true. rewrite qle_spec, qlt_spec.
    split; [intros H; apply Qcle_lt_or_eq in H as [|]; done|apply Qclt_le_weak].
  - cbn [eval]. rewrite Hx, Hy. cbn. by destruct (qlt x y).
  - cbn [eval]. rewrite IH by done. cbn. do 2 f_equal. by destruct (negs f), (qlt x y).
Qed.

(** * to_smt *)

(** What [to_smt] means at a point. *)
Definition only_const (d : pdict) : bool :=
  match d with [] => true | [([], _)] => true | _ => false end.
Definition li_holds (e : env) (d : pdict) : bool :=
  if only_const d then qle (poly_val e d) 0 else qlt (poly_val e d) 0.

Lemma sym_prod e (k : mono) f : mkTimes (map (fun n => Sym n TReal) k) = Ok f ->
  eval e f = Some (VN (mono_val e k)).
Proof.
  assert (forall k, eval e (TimesN (map (fun n => Sym n TReal) k)) = Some (VN (mono_val e k))) as H.
  { clear. intros k. cbn [eval]. assert (mapM (fun g => vnum (eval e g)) (map (fun n => Sym n TReal) k) = Some (map (er e) k)) as ->.
    { induction k as [|y k IH]; [done|]. cbn. cbn in IH. by rewrite IH. }
    done. }
  destruct k as [|y [|z k]]; intros Hf; [done| |].
  - injection Hf as <-. cbn. unfold mono_val. cbn. do 2 f_equal. ring.
  - injection Hf as <-. apply (H (y :: z :: k)).
Qed.

Lemma li_term_sound e kv t : li_term kv = Ok t -> eval e t = Some (VN (kv.2 * mono_val e kv.1)%Qc).
Proof.
  unfold li_term. destruct (mkTimes _) as [f|] eqn:E; [|done]. cbn [rbind].
  apply (sym_prod e) in E. destruct (qeq kv.2 1) eqn:E1.
  - intros [= <-]. rewrite E. apply qeq_spec in E1. rewrite E1. do 2 f_equal. ring.
  - intros [= <-]. cbn [eval mapM]. cbn. rewrite E. cbn. do 2 f_equal. ring.
Qed.

Lemma li_term_ok kv : kv.1 <> [] -> exists t, li_term kv = Ok t.
Proof.
  destruct kv as [k v]. cbn. intros Hk. unfold li_term. cbn [fst snd].
  destruct k as [|x [|y k]]; [done| |]; cbn [map mkTimes rbind]; destruct (qeq v 1); cbn; eauto.
Qed.

Lemma mkPlus_sound e ts s qs :
  mkPlus ts = Ok s -> Forall2 (fun t q => eval e t = Some (VN q)) ts qs ->
  eval e s = Some (VN (qsum qs)).
Proof.
  intros Hs H. destruct ts as [|t [|t' ts]]; [done| |].
  - injection Hs as <-. inversion H as [|? q ? ? Hq Hn]; subst. inversion Hn; subst. rewrite Hq.
    do 2 f_equal. cbn. ring.
  - injection Hs as <-. apply mapM_Forall2_vnum in H. cbn [eval]. by rewrite H.
Qed.

Lemma pv_const_split e d : dwf d ->
  poly_val e d = (poly_val e (List.filter (fun kv => negb (bool_decide (kv.1 = CONST_KEY))) d)
    + default 0%Qc (dget d CONST_KEY))%Qc.
Proof.
  induction d as [|[k v] d IH]; intros Hwf; [cbn; ring|].
  unfold dwf in *. cbn [dkeys map fst] in Hwf. inversion Hwf as [|? ? Hni Hnd]; subst.
  cbn [List.filter dget fst]. destruct (decide (k = CONST_KEY)) as [->|Hk].
  - rewrite bool_decide_true by done. cbn [negb]. rewrite pv_cons, IH by done.
    apply dget_None in Hni. rewrite Hni. change (default 0%Qc (Some v)) with v.
    change (default 0%Qc None) with 0%Qc. unfold mono_val, CONST_KEY. cbn [map qprod fold_right]. ring.
  - rewrite bool_decide_false by done. cbn [negb]. rewrite !pv_cons, IH by done. ring.
Qed.

Lemma filter_const_nil d : dwf d -> only_const d = false ->
  List.filter (fun kv => negb (bool_decide (kv.1 = CONST_KEY))) d <> [].
Proof.
  intros Hwf Ho Hf. destruct d as [|[[|x k] v] d]; [done| |done].
  destruct d as [|[k' v'] d]; [done|]. cbn in Hf. destruct k' as [|y k']; [|done].
  unfold dwf in Hwf. cbn in Hwf. inversion Hwf as [|? ? Hni _]; subst. apply Hni. by left.
Qed.

Lemma qlt_sub x y : qlt x y = qlt (x - y) 0.
Proof. apply eq_iff_eq_true. rewrite !qlt_spec. split; intros H; qclra. Qed.

Lemma li_to_smt_sound d : dwf d -> exists g, li_to_smt d = Ok g /\
  forall e, eval e g = Some (VB (li_holds e d)).
Proof.
  intros Hwf. unfold li_holds. destruct (only_const d) eqn:Ho.
  - destruct d as [|[[|] v] [|]]; try done.
    + eexists. split; [done|]. done.
    + eexists. split; [done|]. intros e. cbn [eval vnum mbind option_bind]. do 2 f_equal.
      rewrite pv_cons, pv_nil. unfold mono_val. cbn [map qprod fold_right].
      apply eq_iff_eq_true. rewrite !qle_spec. split; intros H; qclra.
  - assert (li_to_smt d =
      let! ts := rmapM li_term (List.filter (fun kv => negb (bool_decide (kv.1 = CONST_KEY))) d) in
      let! s := mkPlus ts in Ok (LtN s (RealC (li_b d)))) as ->.
    { destruct d as [|[[|] v] [|]]; done. }
    pose proof (filter_const_nil d Hwf Ho) as Hne.
    pose proof (fun e => pv_const_split e d Hwf) as Hs.
    set (d' := List.filter _ d) in *.
    destruct (rmapM_ok li_term d') as [ts Hts].
    { apply Forall_forall. intros kv Hin. apply li_term_ok. apply elem_of_list_In, filter_In in Hin as [_ Hin].
      by apply negb_true_iff, bool_decide_eq_false in Hin. }
    rewrite Hts. cbn [rbind].
    assert (exists s, mkPlus ts = Ok s) as [s Hsum].
    { apply rmapM_ok_length in Hts. destruct d' as [|? d'']; [done|]. destruct ts as [|? [|]]; cbn; eauto. done. }
    rewrite Hsum. cbn [rbind]. eexists. split; [done|]. intros e.
    assert (eval e s = Some (VN (poly_val e d'))) as Hv.
    { apply (mkPlus_sound e ts); [done|]. apply rmapM_Forall2 in Hts.
      clearbody d'. clear -Hts. induction Hts as [|kv t d1 ts Ht Hts IH]; [constructor|].
      constructor; [by apply li_term_sound|done]. }
    cbn [eval]. rewrite Hv. cbn. do 2 f_equal. rewrite qlt_sub. f_equal.
    rewrite Hs. unfold li_b, li_coefficient. ring.
Qed.

Lemma li_make_holds e d : dwf d ->
  poly_val e (li_make d) = poly_val e d /\ dwf (li_make d).
Proof. intros H. split; [apply pv_filter|by apply dwf_lfilter]. Qed.

Lemma li_holds_off e d : poly_val e d <> 0%Qc -> li_holds e d = qlt (poly_val e d) 0.
Proof.
  intros H. unfold li_holds. destruct (only_const d); [|done]. apply eq_iff_eq_true.
  rewrite qle_spec, qlt_spec. split; [intros H'; apply Qcle_lt_or_eq in H' as [|]; done|apply Qclt_le_weak].
Qed.

Lemma diff_holds e a b d (s : bool) x y :
   diff_of a b d (if s then -1 else 1)%Qc ->
  eval e a = Some (VN x) -> eval e b = Some (VN y) -> x <> y ->
  poly_val e d <> 0%Qc /\ qlt (poly_val e d) 0 = xorb s (qlt x y).
Proof.
  intros (Cd & c & Hc & Hv) Hx Hy Hne. rewrite (Hv _ _ _ Hx Hy). clear Hv.
  destruct (Qc_dec x y) as [[Hlt|Hlt]|]; [| |done].
  - assert (qlt x y = true) as -> by by apply qlt_spec.
    destruct s; cbn.
    + split; [intros H; qcnra|]. apply qlt_false. qcnra.
    + split; [intros H; qcnra|]. apply qlt_spec. qcnra.
  - assert (qlt x y = false) as -> by (apply qlt_false; by apply Qclt_le_weak).
    destruct s; cbn.
    + split; [intros H; qcnra|]. apply qlt_spec. qcnra.
    + split; [intros H; qcnra|]. apply qlt_false. qcnra.
Qed.

(** C09, for any accepted comparison of real expressions. *)
Lemma li_half_space f a b d :
  compares f a b -> typeof a = Some TReal -> typeof b = Some TReal -> li_from_smt f = Ok d ->
  exists g h, li_to_smt d = Ok g /\ li_to_smt (li_inverted d) = Ok h /\
    forall e, off e a b -> eval e g = eval e f /\ eval e h = eval e (NotN f).
Proof.
  unfold li_from_smt, math_walk. intros Hc Ta Tb. destruct (walk _ _ f) as [d'|] eqn:E; [|done].
  intros [= <-]. pose proof (walk_compares _ _ _ _ _ Hc E Ta Tb) as Hd.
  assert (dwf (li_make d')) as Wd by (apply dwf_lfilter; apply Hd).
  assert (dwf (li_inverted (li_make d'))) as Wi.
  { apply dwf_lfilter. unfold dwf, dict_neg, dkeys in *. rewrite map_map. cbn. done. }
  destruct (li_to_smt_sound _ Wd) as (g & Hg & Vg). destruct (li_to_smt_sound _ Wi) as (h & Hh & Vh).
  exists g, h. split; [done|]. split; [done|]. intros e (x & y & Hx & Hy & Hne).
  destruct (diff_holds _ _ _ _ _ _ _ Hd Hx Hy Hne) as [Hnz Hs].
  rewrite Vg, Vh. cbn [eval]. rewrite (eval_compares e f a b x y) by done. cbn.
  split; do 2 f_equal.
  - rewrite li_holds_off by (unfold li_make; by rewrite pv_filter). unfold li_make. by rewrite pv_filter.
  - assert (poly_val e (li_inverted (li_make d')) = - poly_val e d')%Qc as Hi.
    { unfold li_inverted, li_make. by rewrite pv_filter, pv_neg, pv_filter. }
    rewrite li_holds_off; rewrite Hi.
    + rewrite <- Hs. apply eq_iff_eq_true. rewrite negb_true_iff, qlt_spec, qlt_false.
      set (u := poly_val e d') in *. clearbody u. split; intros H.
      * qclra.
      * destruct (Qc_dec u 0) as [[H1|H1]|H1]; [qclra|qclra|done].
    + set (u := poly_val e d') in *. clearbody u. intros H. apply Hnz. qclra.
Qed.

Lemma li_from_smt_ok f a b : compares f a b -> linear_expr a -> linear_expr b ->
  exists d, li_from_smt f = Ok d.
Proof.
  intros Hc Ha Hb. unfold li_from_smt, math_walk.
  destruct (walk_compares_ok (msize f) f a b Hc Ha Hb) as [d ->]; [done|]. eexists. done.
Qed.

(** Only linear monomials are accepted. *)
Definition lin_keys (d : pdict) : Prop := Forall (fun kv => length kv.1 <= 1) d.

Lemma lin_keys_dset d k v : lin_keys d -> length k <= 1 -> lin_keys (dset d k v).
Proof.
  intros H Hk. induction H as [|[k' w] d Hk' H IH]; cbn [dset]; [constructor; [done|constructor]|].
  destruct (decide _); by constructor.
Qed.
Lemma lin_keys_plus d1 d2 : lin_keys d1 -> lin_keys d2 -> lin_keys (dict_plus d1 d2).
Proof.
  intros H1 H2. unfold dict_plus. revert d1 H1.
  induction H2 as [|[k v] d2 Hk H2 IH]; intros d1 H1; cbn [fold_left]; [done|].
  apply IH. cbn [fst snd] in *. destruct (dget d1 k); by apply lin_keys_dset.
Qed.
Lemma lin_keys_map (g : mono * Qc -> Qc) d :
  lin_keys d -> lin_keys (map (fun kv => (kv.1, g kv)) d).
Proof. induction 1 as [|kv d Hk H IH]; constructor; done. Qed.
Lemma lin_keys_times d1 d2 d :
  lin_keys d1 -> lin_keys d2 -> dict_times true d1 d2 = Ok d -> lin_keys d.
Proof.
  intros H1 H2. unfold dict_times.
  assert (forall r, lin_keys r ->
    fold_left (fun r kv1 => fold_left (times_step true kv1.1 kv1.2) d2 r) d1 (Ok r) = Ok d ->
    lin_keys d) as H; [|apply H; constructor].
  induction H1 as [|[k1 v1] d1 Hk1 H1 IH]; intros r Hr; cbn [fold_left].
  { by intros [= <-]. }
  cbn in Hk1. cbn [fst snd].
  assert (forall r, lin_keys r -> forall r', fold_left (times_step true k1 v1) d2 (Ok r) = Ok r' ->
    lin_keys r') as Hin.
  { clear -Hk1 H2. induction H2 as [|[k2 v2] d2 Hk2 H2 IH]; intros r Hr r'; cbn [fold_left].
    { by intros [= <-]. }
    cbn in Hk2. unfold times_step at 2. cbn [rbind fst snd].
    destruct (_ && true) eqn:E.
    - by rewrite times_inner_err.
    - apply IH. apply lin_keys_dset; [done|]. rewrite (Permutation_length (psort_perm str_cmp _)), app_length.
      rewrite andb_true_r, andb_false_iff, !negb_false_iff, !bool_decide_eq_true in E.
      unfold CONST_KEY in E. destruct E as [->| ->]; cbn; lia. }
  destruct (fold_left (times_step true k1 v1) d2 (Ok r)) as [r'|] eqn:E.
  - apply IH. by eapply Hin.
  - by rewrite times_outer_err.
Qed.

Lemma reduce_inv {A} (P : A -> Prop) (f : A -> A -> Res A) l z :
  reduceM f l = Ok z -> Forall P l -> (forall x y w, P x -> P y -> f x y = Ok w -> P w) -> P z.
Proof.
  intros Hz Hl Hf. destruct l as [|x l]; [done|]. cbn [reduceM] in Hz.
  inversion Hl as [|? ? Hx Hl']; subst. clear Hl. revert x Hx Hz.
  induction Hl' as [|y l Hy Hl' IH]; intros x Hx Hz; cbn [fold_left] in Hz; [by injection Hz as <-|].
  cbn [rbind] in Hz. destruct (f x y) as [w|] eqn:E.
  - apply (IH w); [|done]. exact (Hf _ _ _ Hx Hy E).
  - by rewrite reduce_err in Hz.
Qed.

Lemma walk_lin_keys n f d : walk (math_walker true) n f = Ok d -> lin_keys d.
Proof.
  revert f d. induction n as [|n IH]; intros f d Hw; [done|]. cbn [walk] in Hw.
  assert (HL : forall l ds, rmapM (walk (math_walker true) n) l = Ok ds -> Forall lin_keys ds).
  { intros l ds H. apply rmapM_Forall2 in H. induction H as [|f' d' l ds H0 H IHl]; constructor; [by eapply IH|done]. }
  assert (HM : forall a b r, math_minus (walk (math_walker true) n) a b = Ok r -> lin_keys r).
  { intros a b r. unfold math_minus. destruct (walk _ n a) as [da|] eqn:Ea; [|done].
    destruct (walk _ n b) as [db|] eqn:Eb; [|done]. intros [= <-].
    apply lin_keys_plus; [by eapply IH|]. apply (lin_keys_map (fun kv => - kv.2)%Qc). by eapply IH. }
  assert (HR : forall a b r, math_lte (walk (math_walker true) n) a b = Ok r -> lin_keys r).
  { intros a b r. unfold math_lte. destruct (math_minus _ a b) as [m|] eqn:Em; [|done]. cbn [rbind].
    destruct (first_nonzero _ _) as [c|]; intros [= <-].
    - apply (lin_keys_map (fun kv => kv.2 / c)%Qc). by eapply HM.
    - repeat constructor. }
  destruct f as [x t|b|q|z|l|l|a|a b|a b|c a b|l|a b|l|a b|a b|a b|a b|a|a];
    cbn [dispatch math_walker w_and w_or w_plus w_minus w_times w_not w_ite w_pow w_lte w_lt
         w_equals w_symbol w_const w_cannot] in Hw; try done.
  - destruct t; try done. injection Hw as <-. by repeat constructor.
  - injection Hw as <-. repeat constructor.
  - destruct (walk _ n a) as [da|] eqn:Ea; [|done]. injection Hw as <-.
    apply (lin_keys_map (fun kv => - kv.2)%Qc). by eapply IH.
  - by eapply IH.
  - destruct (rmapM _ l) as [ds|] eqn:E; [|done]. cbn [rbind] in Hw.
    eapply (reduce_inv lin_keys); [exact Hw|by eapply HL|]. intros x y w Hx Hy [= <-]. by apply lin_keys_plus.
  - by eapply HM.
  - destruct (rmapM _ l) as [ds|] eqn:E; [|done]. cbn [rbind] in Hw.
    eapply (reduce_inv lin_keys); [exact Hw|by eapply HL|]. intros x y w Hx Hy. by apply lin_keys_times.
  - unfold math_pow in Hw. destruct (const_val b) as [x|]; [|done]. destruct (int_of_qc x) as [z|]; [|done].
    destruct (z =? 1)%Z eqn:Ez; [|done]. cbn [negb andb] in Hw. apply Z.eqb_eq in Ez. subst.
    destruct (walk _ n a) as [da|] eqn:Ea; [|done]. cbn in Hw. injection Hw as <-. by eapply IH.
  - by eapply HR.
  - by eapply HR.
Qed.

Lemma li_linear f d : li_from_smt f = Ok d -> forall k v, (k, v) ∈ d -> length k <= 1 /\ v <> 0%Qc.
Proof.
  unfold li_from_smt, math_walk. destruct (walk _ _ f) as [d'|] eqn:E; [|done]. intros [= <-] k v Hin.
  split; [|by eapply filter_nonzero]. apply walk_lin_keys in E. unfold lin_keys in E. rewrite Forall_forall in E.
  apply elem_of_list_In, filter_In in Hin as [Hin _]. apply elem_of_list_In in Hin. by apply (E (k, v)).
Qed.

(** The dictionaries have no duplicate keys, whatever the formula. *)
Lemma dwf_plus d1 d2 : dwf d1 -> dwf (dict_plus d1 d2).
Proof.
  unfold dict_plus. revert d1. induction d2 as [|[k v] d2 IH]; intros d1 H1; cbn [fold_left]; [done|].
  apply IH. destruct (dget d1 _); by apply dwf_dset.
Qed.
Lemma dwf_map (g : mono * Qc -> Qc) (d : pdict) : dwf d -> dwf (map (fun kv => (kv.1, g kv)) d).
Proof. unfold dwf, dkeys. by rewrite map_map. Qed.
Lemma dwf_times d1 d2 d : dict_times true d1 d2 = Ok d -> dwf d.
Proof.
  unfold dict_times.
  assert (forall r, dwf r ->
    fold_left (fun r kv1 => fold_left (times_step true kv1.1 kv1.2) d2 r) d1 (Ok r) = Ok d ->
    dwf d) as H; [|apply H; constructor].
  induction d1 as [|[k1 v1] d1 IH]; intros r Hr; cbn [fold_left].
  { by intros [= <-]. }
  cbn [fst snd].
  assert (forall r, dwf r -> forall r', fold_left (times_step true k1 v1) d2 (Ok r) = Ok r' -> dwf r') as Hin.
  { clear. induction d2 as [|[k2 v2] d2 IH]; intros r Hr r'; cbn [fold_left].
    { by intros [= <-]. }
    unfold times_step at 2. cbn [rbind fst snd]. destruct (_ && true) eqn:E.
    - by rewrite times_inner_err.
    - apply IH. by apply dwf_dset. }
  destruct (fold_left (times_step true k1 v1) d2 (Ok r)) as [r'|] eqn:E.
  - apply IH. by eapply Hin.
  - by rewrite times_outer_err.
Qed.
Lemma walk_dwf n f d : walk (math_walker true) n f = Ok d -> dwf d.
Proof.
  revert f d. induction n as [|n IH]; intros f d Hw; [done|]. cbn [walk] in Hw.
  assert (H1 : forall k (q : Qc), dwf [(k : mono, q)]).
  { intros k q. unfold dwf. cbn. apply NoDup_singleton. }
  assert (HL : forall l ds, rmapM (walk (math_walker true) n) l = Ok ds -> Forall (@dwf mono Qc) ds).
  { intros l ds H. apply rmapM_Forall2 in H. induction H as [|f' d' l ds H0 H IHl]; constructor; [by eapply IH|done]. }
  assert (HM : forall a b r, math_minus (walk (math_walker true) n) a b = Ok r -> dwf r).
  { intros a b r. unfold math_minus. destruct (walk _ n a) as [da|] eqn:Ea; [|done].
    destruct (walk _ n b) as [db|] eqn:Eb; [|done]. intros [= <-]. apply dwf_plus. by eapply IH. }
  assert (HR : forall a b r, math_lte (walk (math_walker true) n) a b = Ok r -> dwf r).
  { intros a b r. unfold math_lte. destruct (math_minus _ a b) as [m|] eqn:Em; [|done]. cbn [rbind].
    destruct (first_nonzero _ _) as [c|]; intros [= <-]; [|done].
    apply (dwf_map (fun kv => kv.2 / c)%Qc). by eapply HM. }
  destruct f as [x t|b|q|z|l|l|a|a b|a b|c a b|l|a b|l|a b|a b|a b|a b|a|a];
    cbn [dispatch math_walker w_and w_or w_plus w_minus w_times w_not w_ite w_pow w_lte w_lt
         w_equals w_symbol w_const w_cannot] in Hw; try done.
  - destruct t; try done. by injection Hw as <-.
  - by injection Hw as <-.
  - destruct (walk _ n a) as [da|] eqn:Ea; [|done]. injection Hw as <-.
    apply (dwf_map (fun kv => - kv.2)%Qc). by eapply IH.
  - by eapply IH.
  - destruct (rmapM _ l) as [ds|] eqn:E; [|done]. cbn [rbind] in Hw.
    eapply (reduce_inv (@dwf mono Qc)); [exact Hw|by eapply HL|]. intros x y w Hx Hy [= <-]. by apply dwf_plus.
  - by eapply HM.
  - destruct (rmapM _ l) as [ds|] eqn:E; [|done]. cbn [rbind] in Hw.
    eapply (reduce_inv (@dwf mono Qc)); [exact Hw|by eapply HL|]. intros x y w Hx Hy. apply dwf_times.
  - unfold math_pow in Hw. destruct (const_val b) as [x|]; [|done]. destruct (int_of_qc x) as [z|]; [|done].
    destruct (z =? 1)%Z eqn:Ez; [|done]. cbn [negb andb] in Hw. apply Z.eqb_eq in Ez. subst.
    destruct (walk _ n a) as [da|] eqn:Ea; [|done]. cbn in Hw. injection Hw as <-. by eapply IH.
  - by eapply HR.
  - by eapply HR.
Qed.
Lemma li_dwf f d : li_from_smt f = Ok d -> dwf d.
Proof.
  unfold li_from_smt, math_walk. destruct (walk _ _ f) as [d'|] eqn:E; [|done]. intros [= <-].
  apply dwf_lfilter. by eapply walk_dwf.
Qed.
