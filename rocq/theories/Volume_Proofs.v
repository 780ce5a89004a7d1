(** Lemmas for C51. *)

From Verif Require Import Base Dict Smt Smt_Facts Math_Model Math_Spec Poly_Proofs Arith_Proofs Linear_Proofs
  Walk_Model Piecewise_Spec Domain_Model Domain_Spec Domain_Proofs Integral_Spec Integral_Proofs Xadd_Model Resolve_Model Xadd_Spec
  Resolve_Spec Xadd_Proofs Xwalk_Proofs Resolve_Proofs Xhist_Proofs Xreq_Proofs Toxadd_Model Toxadd_Spec Toxadd_Proofs
  Volume_Model Volume_Spec.

(** ** Integrals *)

(** The values at finitely many points do not matter. *)
Lemma integral_except (l : list Qc) : forall (F G : Qc -> Qc -> Prop) a b v, integral F a b v ->
  (forall t y, (a < t)%Qc -> (t < b)%Qc -> t ∉ l -> F t y -> G t y) -> integral G a b v.
Proof.
  induction l as [|p l IH]; intros F G a b v Hi HG.
  - eapply integral_mono; [exact Hi|]. intros t y H1 H2. apply HG; [done|done|]. by intros ?%elem_of_nil.
  - pose proof (integral_le _ _ _ _ Hi) as Hab.
    destruct (Qclt_le_dec a p) as [Hap|Hap]; [destruct (Qclt_le_dec p b) as [Hpb|Hpb]|].
    + destruct (integral_cut _ _ _ _ Hi p) as (v1 & v2 & H1 & H2 & ->); [qclra|qclra|]. apply (in_join _ _ p).
      * apply (IH F); [done|]. intros t y Ht1 Ht2 Ht. apply HG; [done|qclra|]. rewrite elem_of_cons. intros [->|?]; [qclra|done].
      * apply (IH F); [done|]. intros t y Ht1 Ht2 Ht. apply HG; [qclra|done|]. rewrite elem_of_cons. intros [->|?]; [qclra|done].
    + apply (IH F); [done|]. intros t y Ht1 Ht2 Ht. apply HG; [done|done|]. rewrite elem_of_cons. intros [->|?]; [qclra|done].
    + apply (IH F); [done|]. intros t y Ht1 Ht2 Ht. apply HG; [done|done|]. rewrite elem_of_cons. intros [->|?]; [qclra|done].
Qed.

Lemma pol_sum cs ds x : pol (primitive (padd cs ds)) x = (pol (primitive cs) x + pol (primitive ds) x)%Qc.
Proof. unfold primitive. cbn [pol]. rewrite divided_padd. ring. Qed.

(** The integral of a sum. *)
Definition plus_rel (F G : Qc -> Qc -> Prop) (t y : Qc) : Prop := exists u v, F t u /\ G t v /\ y = (u + v)%Qc.
Lemma integral_plus F G a b v w : integral F a b v -> integral G a b w -> integral (plus_rel F G) a b (v + w)%Qc.
Proof.
  intros HF. revert w. induction HF as [a b cs Hab Hp|a c b v1 v2 H1 IH1 H2 IH2]; intros w HG.
  - revert Hp Hab. induction HG as [a b ds Hab Hq|a c b w1 w2 H1 IH1 H2 IH2]; intros Hp _.
    + replace (_ + _)%Qc with (pol (primitive (padd cs ds)) b - pol (primitive (padd cs ds)) a)%Qc by (rewrite !pol_sum; ring).
      apply in_piece; [done|]. intros t Ht1 Ht2. exists (pol cs t), (pol ds t). rewrite pol_padd. auto.
    + pose proof (integral_le _ _ _ _ H1). pose proof (integral_le _ _ _ _ H2).
      replace (_ + (w1 + w2))%Qc with ((pol (primitive cs) c - pol (primitive cs) a + w1) + (pol (primitive cs) b - pol (primitive cs) c + w2))%Qc by ring.
      apply (in_join _ _ c); [apply IH1|apply IH2]; try done; intros t Ht1 Ht2; apply Hp; qclra.
  - pose proof (integral_le _ _ _ _ H1). pose proof (integral_le _ _ _ _ H2).
    destruct (integral_cut _ _ _ _ HG c) as (w1 & w2 & G1 & G2 & ->); [done|done|].
    replace (v1 + v2 + (w1 + w2))%Qc with ((v1 + w1) + (v2 + w2))%Qc by ring. apply (in_join _ _ c); auto.
Qed.

(** ** Iterated integrals *)
Lemma iterated_mono (F G : env -> Qc -> Prop) xs : (forall e y, F e y -> G e y) -> forall e v, iterated F xs e v -> iterated G xs e v.
Proof.
  intros HG. induction xs as [|[[x lo] hi] xs IH]; intros e v; cbn [iterated]; [apply HG|].
  intros H. eapply integral_mono; [exact H|]. cbn beta. auto.
Qed.
Lemma iterated_unique (F : env -> Qc -> Prop) xs : (forall e y z, F e y -> F e z -> y = z) ->
  forall e v w, iterated F xs e v -> iterated F xs e w -> v = w.
Proof.
  intros HF. induction xs as [|[[x lo] hi] xs IH]; intros e v w; cbn [iterated]; [apply HF|].
  apply integral_unique. intros t y z. apply IH.
Qed.
Definition names_of (xs : list (string * Qc * Qc)) : list string := map (fun '(x, _, _) => x) xs.
Lemma iterated_zero (F : env -> Qc -> Prop) xs : forall e v, iterated F xs e v ->
  (forall e' y, (forall x, x ∉ names_of xs -> er e' x = er e x) -> F e' y -> y = 0%Qc) -> v = 0%Qc.
Proof.
  induction xs as [|[[x lo] hi] xs IH]; intros e v; cbn [iterated].
  - intros H HF. by apply (HF e).
  - intros H HF. eapply integral_zero; [exact H|]. cbn beta. intros t y _ _ Hy. apply (IH _ _ Hy).
    intros e' z Hag. apply HF. intros x' Hx'. cbn in Hx'. rewrite elem_of_cons in Hx'.
    rewrite Hag by naive_solver. cbn. rewrite decide_False; naive_solver.
Qed.
Lemma iterated_plus F G xs : forall e v w, iterated F xs e v -> iterated G xs e w ->
  iterated (fun e y => exists a b, F e a /\ G e b /\ y = (a + b)%Qc) xs e (v + w)%Qc.
Proof.
  induction xs as [|[[x lo] hi] xs IH]; intros e v w; cbn [iterated]; [eauto|].
  intros H1 H2. eapply integral_mono; [exact (integral_plus _ _ _ _ _ _ H1 H2)|]. cbn beta.
  intros t y _ _ (a & b & Ha & Hb & ->). by apply IH.
Qed.
Lemma iterated_app F xs ys : forall e v, iterated F (xs ++ ys) e v <-> iterated (iterated F ys) xs e v.
Proof.
  induction xs as [|[[x lo] hi] xs IH]; intros e v; cbn [iterated app]; [done|].
  split; intros H; (eapply integral_mono; [exact H|]); cbn beta; intros t y _ _; apply IH.
Qed.

(** ** Sums over worlds *)
Definition summed_over (F : env -> Qc -> Prop) (bs : list string) (e : env) (y : Qc) : Prop :=
  exists ys, Forall2 F (worlds bs e) ys /\ y = qsum ys.
Definition both (b : string) (F : env -> Qc -> Prop) (e : env) (y : Qc) : Prop :=
  exists u v, F (upd_b e b true) u /\ F (upd_b e b false) v /\ y = (u + v)%Qc.
Lemma summed_nil F e y : summed_over F [] e y <-> F e y.
Proof.
  split.
  - intros (ys & Hys & ->). cbn in Hys. inversion Hys as [|? u ? ? Hu Hys']; subst. inversion Hys'; subst.
    by replace (qsum [u]) with u by (cbn; ring).
  - intros Hy. exists [y]. split; [by repeat constructor|cbn; ring].
Qed.
Lemma summed_cons F b bs e y : summed_over F (b :: bs) e y <-> summed_over (both b F) bs e y.
Proof.
  unfold summed_over. cbn [worlds]. revert y. generalize (worlds bs e) as l. induction l as [|e' l IH]; intros y; cbn [flat_map].
  - split; intros (ys & Hys & ->); inversion Hys; subst; by exists [].
  - split.
    + intros (ys & Hys & ->). cbn [app] in Hys. inversion Hys as [|? u ? ? Hu Hys']; subst.
      inversion Hys' as [|? v ? ys Hv Hys'']; subst. destruct (proj1 (IH (qsum ys))) as (zs & Hzs & Hs); [by exists ys|].
      exists ((u + v)%Qc :: zs). split; [constructor; [by exists u, v|done]|].
      change (u + (v + qsum ys) = (u + v) + qsum zs)%Qc. rewrite Hs. ring.
    + intros (ys & Hys & ->). inversion Hys as [|? w ? zs (u & v & Hu & Hv & ->) Hzs]; subst.
      destruct (proj2 (IH (qsum zs))) as (ts & Hts & Hs); [by exists zs|].
      exists (u :: v :: ts). split; [by constructor; [|constructor]|].
      change ((u + v) + qsum zs = u + (v + qsum ts))%Qc. rewrite <- Hs. ring.
Qed.
Lemma summed_mono (F G : env -> Qc -> Prop) bs e y : (forall e y, F e y -> G e y) -> summed_over F bs e y -> summed_over G bs e y.
Proof. intros H (ys & Hys & ->). exists ys. split; [|done]. eapply Forall2_impl; [exact Hys|]. auto. Qed.
Lemma upd_rb e x t b v : upd_r (upd_b e b v) x t = upd_b (upd_r e x t) b v.
Proof. done. Qed.
Lemma iterated_b F b v xs : forall e w, iterated F xs (upd_b e b v) w <-> iterated (fun e => F (upd_b e b v)) xs e w.
Proof.
  induction xs as [|[[x lo] hi] xs IH]; intros e w; cbn [iterated]; [done|].
  split; intros H; (eapply integral_mono; [exact H|]); cbn beta; intros t y _ _; rewrite upd_rb; apply IH.
Qed.
(** The sum of the integrals is the integral of the sum. *)
Lemma wmi_iterated bs xs : forall F e v, wmi F bs xs e v -> iterated (summed_over F bs) xs e v.
Proof.
  induction bs as [|b bs IH]; intros F e v.
  - intros Hw. apply (summed_nil (iterated F xs)) in Hw. eapply iterated_mono; [|exact Hw]. intros e' y. by rewrite summed_nil.
  - intros Hw. apply (summed_cons (iterated F xs)) in Hw. eapply iterated_mono; [|apply (IH (both b F))].
    + intros e' y. by rewrite summed_cons.
    + eapply summed_mono; [|exact Hw]. intros e' y (u & w & Hu & Hw' & ->). apply iterated_b in Hu, Hw'.
      exact (iterated_plus _ _ _ _ _ _ Hu Hw').
Qed.
Lemma summed_unique (F : env -> Qc -> Prop) bs : (forall e y z, F e y -> F e z -> y = z) ->
  forall e y z, summed_over F bs e y -> summed_over F bs e z -> y = z.
Proof.
  intros HF e y z (ys & Hy & ->) (zs & Hz & ->). f_equal. revert zs Hz.
  induction Hy as [|e' y l ys Hy' Hy IH]; intros zs Hz; inversion Hz; subst; [done|]. f_equal; eauto.
Qed.
Lemma wmi_unique (F : env -> Qc -> Prop) bs xs : (forall e y z, F e y -> F e z -> y = z) ->
  forall e v w, wmi F bs xs e v -> wmi F bs xs e w -> v = w.
Proof. intros HF. apply summed_unique. intros e y z. by apply iterated_unique. Qed.
(** If every world has an integral, then the integral of the sum is their sum. *)
Lemma iterated_wmi (F : env -> Qc -> Prop) bs xs : (forall e y z, F e y -> F e z -> y = z) ->
  (forall e, exists v, iterated F xs e v) -> forall e v, iterated (summed_over F bs) xs e v -> wmi F bs xs e v.
Proof.
  intros HF Hex e v Hv.
  assert (exists vs, Forall2 (iterated F xs) (worlds bs e) vs) as (vs & Hvs).
  { generalize (worlds bs e) as l. induction l as [|e' l (vs & IH)]; [by exists []|].
    destruct (Hex e') as [u Hu]. exists (u :: vs). by constructor. }
  assert (wmi F bs xs e (qsum vs)) as Hw by (by exists vs). replace v with (qsum vs); [done|].
  apply wmi_iterated in Hw. eapply iterated_unique; [|exact Hw|exact Hv]. by apply summed_unique.
Qed.

(** ** Linear terms along a variable *)
Definition slope (x : string) (d : pdict) : Qc := qsum (map (fun kv => if decide (kv.1 = [x]) then kv.2 else 0%Qc) d).
Lemma poly_val_slope x d e t : lin_keys d ->
  poly_val (upd_r e x t) d = (poly_val e d + slope x d * (t - er e x))%Qc.
Proof.
  unfold poly_val, slope. induction 1 as [|[k c] d Hk H IH]; cbn [map qsum foldr]; [unfold qsum; cbn; ring|].
  unfold qsum in *. cbn [foldr fst snd] in *. rewrite IH.
  destruct k as [|y [|? ?]]; [|destruct (decide ([y] = [x])) as [[= ->]|Hne]|cbn in Hk; lia].
  - rewrite decide_False by done. unfold mono_val. cbn. ring.
  - unfold mono_val. cbn. rewrite decide_True by done. ring.
  - unfold mono_val. cbn. rewrite decide_False by congruence. ring.
Qed.
Lemma linear_form f : linear_expr f -> exists d, lin_keys d /\ forall e, eval e f = Some (VN (poly_val e d)).
Proof.
  intros Hf. destruct (math_ok_linear (msize f) f Hf) as [d Hd]; [done|]. exists d. split; [by eapply walk_lin_keys|].
  intros e. apply (math_sound (msize f) true f d Hd); [by apply linear_expr_real|by left].
Qed.

(** The difference of the sides of a comparison. *)
Definition difference (a b : fm) (d : pdict) : Prop :=
  lin_keys d /\ forall e, off e a b <-> poly_val e d <> 0%Qc.
Lemma difference_ok a b : linear_expr a -> linear_expr b -> exists d, difference a b d.
Proof.
  intros Ha Hb. destruct (linear_form (MinusN a b)) as (d & Hd & He); [by constructor|]. exists d. split; [done|]. intros e.
  destruct (linear_form a Ha) as (da & _ & Ea). destruct (linear_form b Hb) as (db & _ & Eb).
  specialize (He e). cbn [eval] in He. rewrite Ea, Eb in He. cbn in He. injection He as He. unfold off. rewrite Ea, Eb. split.
  - intros (x & y & [= <-] & [= <-] & Hne) Hz. apply Hne. rewrite <- He in Hz. qclra.
  - intros Hne. eexists _, _. split; [done|]. split; [done|]. intros Heq. apply Hne. rewrite <- He. qclra.
Qed.
Lemma differences_ok (l : list (fm * fm)) : (forall a b, (a, b) ∈ l -> linear_expr a /\ linear_expr b) ->
  exists ds, Forall lin_keys ds /\ (forall e, (forall a b, (a, b) ∈ l -> off e a b) <-> Forall (fun d => poly_val e d <> 0%Qc) ds) /\
    Forall (fun d => exists a b, (a, b) ∈ l /\ difference a b d) ds.
Proof.
  induction l as [|[a b] l IH]; intros Hl.
  - exists []. split_and!; [constructor| |constructor]. intros e. split; [constructor|]. intros _ a b []%elem_of_nil.
  - destruct IH as (ds & H1 & H2 & H3); [intros a' b' Hin; apply Hl; by right|].
    destruct (Hl a b) as [La Lb]; [by left|]. destruct (difference_ok a b La Lb) as (d & Hd). exists (d :: ds). split_and!.
    + constructor; [apply Hd|done].
    + intros e. rewrite Forall_cons. rewrite <- H2. destruct Hd as [_ Hd]. rewrite <- Hd. split.
      * intros H. split; [apply H; by left|]. intros a' b' Hin. apply H. by right.
      * intros [Ho H] a' b' Hin. apply elem_of_cons in Hin as [[= -> ->]|Hin]; auto.
    + constructor; [exists a, b; split; [by left|done]|]. eapply Forall_impl; [exact H3|]. intros d' (a' & b' & Hin & Hd').
      exists a', b'. split; [by right|done].
Qed.

(** ** The exceptional points *)
Definition clear (ks : list string) (ds : list pdict) (e : env) : Prop :=
  Forall (fun d => (forall x, x ∈ ks -> slope x d = 0%Qc) -> poly_val e d <> 0%Qc) ds.
Lemma clear_nil ds e : clear [] ds e <-> Forall (fun d => poly_val e d <> 0%Qc) ds.
Proof.
  split; intros H; (eapply Forall_impl; [exact H|]); cbn beta; [|auto]. intros d Hd. apply Hd. intros x []%elem_of_nil.
Qed.
Lemma exceptional x ks ds e : Forall lin_keys ds -> clear (ks ++ [x]) ds e -> exists l : list Qc, forall t, t ∉ l -> clear ks ds (upd_r e x t).
Proof.
  intros Hl. unfold clear. induction Hl as [|d ds Hd Hl IH]; intros Hc; [exists []; constructor|].
  apply Forall_cons in Hc as [Hc Hcs]. destruct (IH Hcs) as (l & Hl').
  destruct (decide (slope x d = 0%Qc)) as [Hz|Hnz].
  - exists l. intros t Ht. constructor; [|auto]. intros Hks. rewrite (poly_val_slope x d e t Hd), Hz.
    replace (poly_val e d + 0 * (t - er e x))%Qc with (poly_val e d) by ring. apply Hc. intros y Hy.
    apply elem_of_app in Hy as [Hy|Hy%elem_of_list_singleton]; [auto|by subst].
  - exists ((er e x - poly_val e d / slope x d)%Qc :: l). intros t Ht. rewrite elem_of_cons in Ht. constructor; [|auto].
    intros _. rewrite (poly_val_slope x d e t Hd). intros Heq. apply Ht. left.
    transitivity (er e x + (poly_val e d + slope x d * (t - er e x)) / slope x d - poly_val e d / slope x d)%Qc; [by field|].
    rewrite Heq. by field.
Qed.
Lemma around (l : list Qc) lo hi : exists lo' hi', (lo' <= lo)%Qc /\ (hi <= hi')%Qc /\ forall t, t ∈ l -> (lo' <= t)%Qc /\ (t <= hi')%Qc.
Proof.
  induction l as [|p l (lo' & hi' & H1 & H2 & H3)].
  - exists lo, hi. split_and!; [apply Qcle_refl..|]. intros t []%elem_of_nil.
  - assert (exists lo2, lo2 <= lo' /\ lo2 <= p)%Qc as (lo2 & L1 & L2).
    { destruct (Qclt_le_dec lo' p); [exists lo'|exists p]; split; qclra. }
    assert (exists hi2, hi' <= hi2 /\ p <= hi2)%Qc as (hi2 & U1 & U2).
    { destruct (Qclt_le_dec hi' p); [exists p|exists hi']; split; qclra. }
    exists lo2, hi2. split_and!; [qclra|qclra|]. intros t [->|Ht]%elem_of_cons; [done|]. apply H3 in Ht. split; qclra.
Qed.

(** ** Formulas and weights have values *)
Lemma mapM_vbool e l : Forall (fun f => exists b, eval e f = Some (VB b)) l -> exists bs, mapM (fun g => vbool (eval e g)) l = Some bs.
Proof.
  induction 1 as [|f l (b & Hb) Hl (bs & IH)]; [by exists []|]. exists (b :: bs). cbn. rewrite Hb. cbn. by rewrite IH.
Qed.
Lemma mapM_vnum e l : Forall (fun f => exists b, eval e f = Some (VN b)) l -> exists bs, mapM (fun g => vnum (eval e g)) l = Some bs.
Proof.
  induction 1 as [|f l (b & Hb) Hl (bs & IH)]; [by exists []|]. exists (b :: bs). cbn. rewrite Hb. cbn. by rewrite IH.
Qed.
Lemma bool_formula_total f e : bool_formula f -> exists b, eval e f = Some (VB b).
Proof.
  induction f as [x t|b|q|z|l IH|l IH|f IH|f g IHf IHg|f g IHf IHg|c f g IHc IHf IHg|l IH
                   |f g IHf IHg|l IH|f g IHf IHg|f g IHf IHg|f g IHf IHg|f g IHf IHg|f IH|f IH]
      using fm_ind'; intros Hf; inversion Hf; subst; cbn [eval]; try (by eexists).
  - destruct (mapM_vbool e l) as [bs ->]; [|by eexists]. rewrite Forall_forall in *. auto.
  - destruct (mapM_vbool e l) as [bs ->]; [|by eexists]. rewrite Forall_forall in *. auto.
  - destruct IH as [b ->]; [done|]. by eexists.
  - destruct IHf as [b ->]; [done|]. destruct IHg as [b' ->]; [done|]. by eexists.
  - destruct IHf as [b ->]; [done|]. destruct IHg as [b' ->]; [done|]. by eexists.
  - destruct IHc as [b ->]; [done|]. destruct IHf as [b1 ->]; [done|]. destruct IHg as [b2 ->]; [done|]. cbn. by destruct b; eexists.
  - destruct (linear_form f) as (df & _ & ->); [done|]. destruct (linear_form g) as (dg & _ & ->); [done|]. by eexists.
  - destruct (linear_form f) as (df & _ & ->); [done|]. destruct (linear_form g) as (dg & _ & ->); [done|]. by eexists.
Qed.
Lemma weight_formula_total f e : weight_formula f -> exists b, eval e f = Some (VN b).
Proof.
  induction f as [x t|b|q|z|l IH|l IH|f IH|f g IHf IHg|f g IHf IHg|c f g IHc IHf IHg|l IH
                   |f g IHf IHg|l IH|f g IHf IHg|f g IHf IHg|f g IHf IHg|f g IHf IHg|f IH|f IH]
      using fm_ind'; intros Hf; inversion Hf; subst; cbn [eval]; try (by eexists).
  - destruct (bool_formula_total c e) as [b ->]; [done|]. destruct IHf as [b1 ->]; [done|]. destruct IHg as [b2 ->]; [done|]. cbn.
    by destruct b; eexists.
  - destruct (mapM_vnum e l) as [bs ->]; [|by eexists]. rewrite Forall_forall in *. auto.
  - destruct IHf as [b ->]; [done|]. destruct IHg as [b' ->]; [done|]. by eexists.
  - destruct (mapM_vnum e l) as [bs ->]; [|by eexists]. rewrite Forall_forall in *. auto.
  - destruct IHf as [b ->]; [done|]. cbn. rewrite nat_of_qn. by eexists.
Qed.
Lemma bool_formula_linear f : bool_formula f -> forall a b, (a, b) ∈ comparisons f -> linear_expr a /\ linear_expr b.
Proof.
  assert (forall l, Forall (fun f => forall a b, (a, b) ∈ comparisons f -> linear_expr a /\ linear_expr b) l ->
    forall a b, (a, b) ∈ concat (map comparisons l) -> linear_expr a /\ linear_expr b) as HL.
  { intros l Hl a b Hab. apply elem_of_list_In, in_concat in Hab as (k & Hk & Hab). apply in_map_iff in Hk as (g & <- & Hg).
    rewrite Forall_forall in Hl. apply (Hl g); by apply elem_of_list_In. }
  induction f as [x t|b|q|z|l IH|l IH|f IH|f g IHf IHg|f g IHf IHg|c f g IHc IHf IHg|l IH
                   |f g IHf IHg|l IH|f g IHf IHg|f g IHf IHg|f g IHf IHg|f g IHf IHg|f IH|f IH]
      using fm_ind'; intros Hf; inversion Hf; subst; cbn [comparisons]; try (by intros a' b' []%elem_of_nil).
  - apply HL. apply Forall_forall. intros g Hg. rewrite Forall_forall in IH. apply IH; [done|].
    match goal with H : Forall _ l |- _ => rewrite Forall_forall in H; by apply H end.
  - apply HL. apply Forall_forall. intros g Hg. rewrite Forall_forall in IH. apply IH; [done|].
    match goal with H : Forall _ l |- _ => rewrite Forall_forall in H; by apply H end.
  - by apply IH.
  - intros a' b' [H|H]%elem_of_app; [by apply IHf|by apply IHg].
  - intros a' b' [H|H]%elem_of_app; auto.
  - intros a' b' [H|[H|H]%elem_of_app]%elem_of_app; auto.
  - intros a' b' [= -> ->]%elem_of_list_singleton. auto.
  - intros a' b' [= -> ->]%elem_of_list_singleton. auto.
Qed.
Lemma weight_formula_linear f : weight_formula f -> forall a b, (a, b) ∈ comparisons f -> linear_expr a /\ linear_expr b.
Proof.
  assert (forall l, Forall (fun f => forall a b, (a, b) ∈ comparisons f -> linear_expr a /\ linear_expr b) l ->
    forall a b, (a, b) ∈ concat (map comparisons l) -> linear_expr a /\ linear_expr b) as HL.
  { intros l Hl a b Hab. apply elem_of_list_In, in_concat in Hab as (k & Hk & Hab). apply in_map_iff in Hk as (g & <- & Hg).
    rewrite Forall_forall in Hl. apply (Hl g); by apply elem_of_list_In. }
  induction f as [x t|b|q|z|l IH|l IH|f IH|f g IHf IHg|f g IHf IHg|c f g IHc IHf IHg|l IH
                   |f g IHf IHg|l IH|f g IHf IHg|f g IHf IHg|f g IHf IHg|f g IHf IHg|f IH|f IH]
      using fm_ind'; intros Hf; inversion Hf; subst; cbn [comparisons]; try (by intros a' b' []%elem_of_nil).
  - intros a' b' [H|[H|H]%elem_of_app]%elem_of_app; [eapply bool_formula_linear|..]; eauto.
  - apply HL. apply Forall_forall. intros g Hg. rewrite Forall_forall in IH. apply IH; [done|].
    match goal with H : Forall _ l |- _ => rewrite Forall_forall in H; by apply H end.
  - intros a' b' [H|H]%elem_of_app; auto.
  - apply HL. apply Forall_forall. intros g Hg. rewrite Forall_forall in IH. apply IH; [done|].
    match goal with H : Forall _ l |- _ => rewrite Forall_forall in H; by apply H end.
  - intros a' b'. rewrite app_nil_r. auto.
Qed.

Lemma elem_of_concat {T : Type} (x : T) (ls : list (list T)) : x ∈ concat ls <-> exists l, x ∈ l /\ l ∈ ls.
Proof.
  rewrite elem_of_list_In, in_concat. split; intros (l & H1 & H2); exists l; rewrite !elem_of_list_In in *; done.
Qed.

(** ** The integrations *)
Section Run.
  Context {E : Type} `{EqDecision E} (A : alg E) (flat : E -> E) (is_one is_zero : E -> Res bool) (simp : fm -> fm)
    (solve : list fm -> fm -> bool) (X : resolver E) (den : E -> env -> option Qc).
  Context (HX : sound_externals A flat simp solve den) (HE : resolve_externals simp X den).
  Notation RI := (RI A simp X den false).
  Notation denotes := (denotes den).
  Notation integrate := (integrate A flat simp solve X).
  Notation integrate_all := (integrate_all A flat simp solve X).

  Lemma real_step s p id x lo hi ks ds (T : env -> Qc -> Prop) : RI p -> dlt (p_nodes p) id -> rs_type X x = TReal -> rs_str X x = x ->
    (lo <= hi)%Qc -> Forall lin_keys ds ->
    (forall e v, clear ks ds e -> denotes (p_nodes p) e id v -> T e v) ->
    (forall e t y, (t < lo \/ hi < t)%Qc -> T (upd_r e x t) y -> y = 0%Qc) ->
    exists q r, integrate s x id p = (q, Ok r) /\ RI q /\ ext p q /\ dlt (p_nodes q) r /\
      forall e v, clear (ks ++ [x]) ds e -> denotes (p_nodes q) e r v -> integral (fun t y => T (upd_r e x t) y) lo hi v.
  Proof.
    intros HR Hd Ht Hs Hle Hds HT Hz. destruct HX as [HA HF HS HT' HV].
    pose proof (integrate_ok A flat simp solve X den HA HF HS HT' HV false s x p id HR Hd) as Hok.
    unfold ok in Hok. destruct (integrate s x id p) as [q [r|y]]; destruct Hok as (HRq & Hx & _ & Hres).
    2:{ exfalso. apply Hres. split; [done|]. by left. }
    destruct Hres as (Dr & Hres & _). exists q, r. split; [done|]. split; [done|]. split; [done|]. split; [done|].
    intros e v Hc Hv. destruct (exceptional x ks ds e Hds Hc) as (l & Hl).
    destruct (around l lo hi) as (lo' & hi' & L1 & L2 & Har).
    assert (forall t y, t ∉ l -> denotes (p_nodes p) (upd_r e x t) id y -> T (upd_r e x t) y) as HD by (intros t y Hn; by apply HT, Hl).
    assert (forall t y, (t < lo' \/ hi' < t)%Qc -> denotes (p_nodes p) (upd_r e x t) id y -> y = 0%Qc) as HZ.
    { intros t y Hlt Hy. apply (Hz e t); [destruct Hlt; [left|right]; qclra|]. apply HD; [|done]. intros Hin. apply Har in Hin as [? ?].
      destruct Hlt; qclra. }
    destruct (Hres Ht Hs HE e lo' hi') as (w & Hw & Hin).
    { split; [qclra|]. split; intros t y Hlt; apply HZ; auto. }
    replace v with w by (by eapply denotes_fun).
    apply (integral_shrink _ lo' hi'); [|done|done|done|left; intros t y Hlt; apply Hz; by left|left; intros t y Hlt; apply Hz; by right].
    eapply (integral_except l); [exact Hin|]. intros t y _ _ Hn. by apply HD.
  Qed.

  Lemma reals_ok s (F : env -> Qc -> Prop) ds xs : Forall lin_keys ds -> forall done p id, RI p -> dlt (p_nodes p) id ->
    NoDup (names_of (done ++ xs)) ->
    (forall x lo hi, (x, lo, hi) ∈ xs -> rs_type X x = TReal /\ rs_str X x = x /\ (lo <= hi)%Qc /\
       forall e y, (er e x < lo \/ hi < er e x)%Qc -> F e y -> y = 0%Qc) ->
    (forall e v, clear (names_of done) ds e -> denotes (p_nodes p) e id v -> iterated F (rev done) e v) ->
    exists q r, integrate_all s (names_of xs) id p = (q, Ok r) /\ RI q /\ ext p q /\ dlt (p_nodes q) r /\
      forall e v, clear (names_of (done ++ xs)) ds e -> denotes (p_nodes q) e r v -> iterated F (rev (done ++ xs)) e v.
  Proof.
    intros Hds. induction xs as [|[[x lo] hi] xs IH]; intros done p id HR Hd Hnd Hxs HF.
    - exists p, id. split; [done|]. split; [done|]. split; [apply ext_refl|]. split; [done|]. by rewrite app_nil_r.
    - destruct (Hxs x lo hi) as (Ht & Hs & Hle & Hz); [by left|].
      destruct (real_step s p id x lo hi (names_of done) ds (iterated F (rev done))) as (q & r & Hi & HRq & Hxq & Dr & Hr); try done.
      { intros e t y Hlt Hy. eapply iterated_zero; [exact Hy|]. intros e' z Hag. apply Hz. rewrite Hag; [cbn; by rewrite decide_True|].
        unfold names_of in *. rewrite map_rev, elem_of_list_In, <- in_rev, <- elem_of_list_In. rewrite map_app in Hnd. cbn in Hnd.
        apply NoDup_app in Hnd as (_ & Hnd & _). intros Hin. apply (Hnd x Hin). by left. }
      destruct (IH (done ++ [(x, lo, hi)]) q r HRq Dr) as (q' & r' & Hi' & HR' & Hx' & Dr' & Hr').
      { by rewrite <- app_assoc. }
      { intros x' lo' hi' Hin. apply Hxs. by right. }
      { intros e v Hc Hv. rewrite rev_app_distr. cbn [rev app iterated]. apply Hr; [|done]. unfold names_of in *. by rewrite map_app in Hc. }
      exists q', r'. cbn [names_of map Volume_Model.integrate_all]. unfold mbind. rewrite Hi. split; [done|]. split; [done|].
      split; [by eapply ext_trans|]. split; [done|]. rewrite <- app_assoc in Hr'. done.
  Qed.

  Lemma bools_ok s ds bs : forall (F : env -> Qc -> Prop) p id, RI p -> dlt (p_nodes p) id -> ordered p id ->
    (forall b, b ∈ bs -> rs_type X b = TBool) ->
    (forall e v, clear [] ds e -> denotes (p_nodes p) e id v -> F e v) ->
    exists q r, integrate_all s bs id p = (q, Ok r) /\ RI q /\ ext p q /\ dlt (p_nodes q) r /\
      forall e v, clear [] ds e -> denotes (p_nodes q) e r v -> summed_over F bs e v.
  Proof.
    induction bs as [|b bs IH]; intros F p id HR Hd Ho Hb HF.
    - exists p, id. split; [done|]. split; [done|]. split; [apply ext_refl|]. split; [done|]. intros e v Hc Hv. apply summed_nil. auto.
    - pose proof HX as [HA HFl HS HT' HV].
      pose proof (integrate_ok A flat simp solve X den HA HFl HS HT' HV false s b p id HR Hd) as Hok.
      pose proof (Hb b (elem_of_list_here _ _)) as Ht.
      unfold ok in Hok. destruct (integrate s b id p) as [q [r|y]] eqn:Hi; destruct Hok as (HRq & Hx & _ & Hres).
      2:{ exfalso. apply Hres. split; [done|]. by right. }
      destruct Hres as (Dr & _ & Hres & Hsu). destruct (Hsu Ht) as [[_ Hsh] _].
      assert (ordered q id) as Ho' by (apply (ordered_iff A simp den p q); [apply HR|done|done|done]).
      destruct (IH (both b F) q r HRq Dr) as (q' & r' & Hi' & HR' & Hx' & Dr' & Hr').
      { by apply Hsh. }
      { intros b' Hb'. apply Hb. by right. }
      { intros e v Hc Hv. pose proof (re_poly _ _ _ HE) as HP.
        destruct (poly_total A simp den p (proj1 HR) HP id Hd (upd_b e b true)) as [u Hu].
        destruct (poly_total A simp den p (proj1 HR) HP id Hd (upd_b e b false)) as [w Hw].
        exists u, w. split; [by apply HF|]. split; [by apply HF|].
        eapply denotes_fun; [exact Hv|]. apply Hres; auto. }
      exists q', r'. cbn [Volume_Model.integrate_all]. unfold mbind. rewrite Hi. split; [done|]. split; [done|].
      split; [by eapply ext_trans|]. split; [done|]. intros e v Hc Hv. apply summed_cons. auto.
  Qed.

  Lemma integrate_all_app s l k id p : integrate_all s (l ++ k) id p =
    mbind (integrate_all s l id) (integrate_all s k) p.
  Proof.
    revert id p. induction l as [|v l IH]; intros id p; [done|]. cbn [app Volume_Model.integrate_all]. unfold mbind in *.
    destruct (integrate s v id p) as [q [r|x]]; [|done]. by rewrite IH.
  Qed.

  Context (HK : knows_zero_one A is_one is_zero).
  Notation HI := (HI A flat is_one is_zero simp solve X).
  Notation translate := (translate A flat is_one is_zero simp).

  Lemma HI_RI p : HI p -> RI p.
  Proof.
    intros [Hh Ho]. pose proof (hinv_RI A simp X den [] p (history_hinv A flat is_one is_zero simp solve X den HX [] p Hh)) as HR.
    by rewrite Ho in HR.
  Qed.

  (** The part of the computation up to the first integration. *)
  Definition product (support weight : fm) : M E nat :=
    do! theory := translate true support in
    do! weight := translate false weight in
    do! t := as_node theory in
    do! w := as_node weight in
    apply A flat simp Multiplication t w.

  Lemma product_ok p support weight : HI p -> bool_formula support -> weight_formula weight ->
    exists q c, product support weight p = (q, Ok c) /\ HI q /\ ext p q /\ dlt (p_nodes q) c /\ ordered q c /\
      forall e v, off_tests e support -> off_tests e weight -> denotes (p_nodes q) e c v ->
        restricted (fun e => eval e support = Some (VB true)) weight e v.
  Proof.
    intros Hp Hs Hw.
    assert (mok A flat is_one is_zero simp solve X p (product support weight) (fun q c => wnode q c /\
      forall e v, off_tests e support -> off_tests e weight -> denotes (p_nodes q) e c v ->
        restricted (fun e => eval e support = Some (VB true)) weight e v)) as (q & c & Hc & Hq & Hx & [Dc Oc] & Hv).
    2:{ exists q, c. done. }
    unfold product. eapply m_bind.
    { apply (translate_ok A flat is_one is_zero simp solve X den HX HK (re_triv _ _ _ HE) KBool support p Hp).
      split; [done|by apply bool_formula_bool]. }
    intros q1 [t|g] Hq1 X1 Ht; cbn [holds] in Ht; [|done]. eapply m_bind.
    { apply (translate_ok A flat is_one is_zero simp solve X den HX HK (re_triv _ _ _ HE) KWeight weight q1 Hq1).
      split; [done|by apply weight_formula_real]. }
    intros q2 [w|g] Hq2 X2 Hwv; cbn [holds] in Hwv; [|done]. cbn [as_node].
    eapply m_bind; [apply (m_ret A flat is_one is_zero simp solve X q2 t (fun q b => b = t /\ q = q2)); done|].
    intros ? ? _ _ [-> ->].
    eapply m_bind; [apply (m_ret A flat is_one is_zero simp solve X q2 w (fun q b => b = w /\ q = q2)); done|].
    intros ? ? _ _ [-> ->].
    destruct Ht as [Bt Vt]. destruct Hwv as [Bw Vw].
    eapply m_weaken; [apply (m_arith A flat is_one is_zero simp solve X den HX q2 Multiplication t w)|]; [by right|done| |done|].
    { apply bnode_wnode. by apply (bnode_ext A flat is_one is_zero simp solve X den HX q1 q2). }
    cbn beta. intros q3 c Hq3 X3 [Wc Vc]. split; [done|]. intros e v O1 O2 Hv.
    destruct (bool_formula_total support e Hs) as [b Eb]. destruct (weight_formula_total weight e Hw) as [y Ey].
    assert (denotes (p_nodes q3) e c (b2q b * y)%Qc) as Hm.
    { apply (Vc e (b2q b) y).
      - apply (ext_denotes den q1 q3); [by eapply ext_trans|]. by apply Vt.
      - apply (ext_denotes den q2 q3); [done|]. by apply Vw. }
    replace v with (b2q b * y)%Qc by (by eapply denotes_fun). destruct b; cbn.
    - left. split; [done|]. rewrite Ey. do 2 f_equal. ring.
    - right. split; [congruence|ring].
  Qed.

  Lemma poly_val_agree e e' d : (forall x, er e x = er e' x) -> poly_val e d = poly_val e' d.
  Proof.
    intros H. unfold poly_val. f_equal. apply map_ext. intros [k c]. cbn. f_equal. unfold mono_val. f_equal. apply map_ext. done.
  Qed.
  Lemma poly_val_flat d (xs : list string) : lin_keys d -> (forall x, x ∈ xs -> slope x d = 0%Qc) -> forall e e',
    (forall x, x ∉ xs -> er e x = er e' x) -> poly_val e d = poly_val e' d.
  Proof.
    intros Hd. induction xs as [|x xs IH]; intros Hs e e' Hag.
    - apply poly_val_agree. intros x. apply Hag. by intros ?%elem_of_nil.
    - transitivity (poly_val (upd_r e x (er e' x)) d).
      + rewrite poly_val_slope by done. rewrite Hs by by left. ring.
      + apply IH; [intros y Hy; apply Hs; by right|]. intros y Hy. cbn. destruct (decide (y = x)) as [->|Hne]; [done|].
        apply Hag. rewrite elem_of_cons. naive_solver.
  Qed.

  (** All steps. *)
  Lemma steps_ok s bs xs p support weight : HI p -> bool_formula support -> weight_formula weight ->
    proper_tests (names_of xs) support -> proper_tests (names_of xs) weight ->
    (forall b, b ∈ bs -> rs_type X b = TBool) -> NoDup (names_of xs) ->
    (forall x lo hi, (x, lo, hi) ∈ xs -> rs_type X x = TReal /\ rs_str X x = x /\ (lo <= hi)%Qc /\
       forall e, eval e support = Some (VB true) -> (lo <= er e x <= hi)%Qc) ->
    exists q r, mbind (product support weight) (integrate_all s (bs ++ names_of xs)) p = (q, Ok r) /\ RI q /\ dlt (p_nodes q) r /\
      forall e v, denotes (p_nodes q) e r v -> wmi (restricted (fun e => eval e support = Some (VB true)) weight) bs (rev xs) e v.
  Proof.
    intros Hp Hs Hw Ps Pw Hbs Hnd Hxs. set (F := restricted (fun e => eval e support = Some (VB true)) weight).
    destruct (product_ok p support weight Hp Hs Hw) as (q1 & c & Hc & Hq1 & X1 & Dc & Oc & Vc).
    destruct (differences_ok (comparisons support ++ comparisons weight)) as (ds & Hds & Hoff & Hdiff).
    { intros a b [Hab|Hab]%elem_of_app; [by eapply bool_formula_linear|by eapply weight_formula_linear]. }
    assert (forall e v, clear [] ds e -> denotes (p_nodes q1) e c v -> F e v) as HF.
    { intros e v Hcl Hv. apply clear_nil in Hcl. pose proof (proj2 (Hoff e) Hcl) as Hcl'. apply Vc; [| |done]; intros a b Hab; apply Hcl', elem_of_app; auto. }
    assert (forall e, clear (names_of xs) ds e) as Hclear.
    { intros e. unfold clear. rewrite Forall_forall in *. intros d Hd Hsl. destruct (Hdiff d Hd) as (a & b & Hab & Hdd).
      assert (exists e', (forall x, x ∉ names_of xs -> er e x = er e' x) /\ off e' a b) as (e' & Hag & Hof).
      { apply elem_of_app in Hab as [Hab|Hab]; [destruct (Ps a b Hab e) as (e' & _ & ? & ?)|destruct (Pw a b Hab e) as (e' & _ & ? & ?)]; eauto. }
      rewrite (poly_val_flat d (names_of xs) (Hds d Hd) Hsl e e' Hag). by apply Hdd. }
    assert (forall e y z, F e y -> F e z -> y = z) as HFu.
    { intros e y z [[? Hy]|[? ->]] [[? Hz]|[? ->]]; [congruence|done|done|done]. }
    assert (forall x lo hi, (x, lo, hi) ∈ xs -> rs_type X x = TReal /\ rs_str X x = x /\ (lo <= hi)%Qc /\
       forall e y, (er e x < lo \/ hi < er e x)%Qc -> F e y -> y = 0%Qc) as HxF.
    { intros x lo hi Hin. destruct (Hxs x lo hi Hin) as (H1 & H2 & H3 & H4). split_and!; [done..|].
      intros e y Hlt [[Hr _]|[_ ->]]; [|done]. apply H4 in Hr as [? ?]. exfalso. destruct Hlt; qclra. }
    assert (forall e, exists v, iterated F (rev xs) e v) as Hex.
    { destruct (reals_ok s F ds xs Hds [] q1 c) as (q' & r' & _ & HR' & _ & Dr' & Hr'); [by apply HI_RI|done|done|done|exact HF|].
      intros e. destruct (poly_total A simp den q' (proj1 HR') (re_poly _ _ _ HE) r' Dr' e) as [v Hv]. exists v. by apply Hr'. }
    destruct (bools_ok s ds bs F q1 c) as (q2 & r2 & H2 & HR2 & X2 & D2 & V2); [by apply HI_RI|done..|].
    destruct (reals_ok s (summed_over F bs) ds xs Hds [] q2 r2) as (q3 & r3 & H3 & HR3 & X3 & D3 & V3); [done|done|done| |done|].
    { intros x lo hi Hin. destruct (HxF x lo hi Hin) as (Ht & Hst & Hle & Hz). split_and!; [done..|].
      intros e y Hlt (ys & Hys & ->). assert (Forall (fun z => z = 0%Qc) ys) as H0.
      { assert (Forall (fun e' => forall x, er e' x = er e x) (worlds bs e)) as Hwo.
        { clear. induction bs as [|b bs IH]; cbn [worlds]; [by repeat constructor|]. induction IH as [|e' l He' Hl IHl]; cbn [flat_map]; [constructor|].
          cbn [app]. by repeat constructor. }
        clear -Hys Hwo Hz Hlt. induction Hys as [|e' z l zs Hz' Hys IH]; constructor; inversion Hwo as [|? ? He' Hwo']; subst; [|auto].
        apply (Hz e'); [by rewrite He'|done]. }
      clear -H0. induction H0 as [|z zs -> H0 IH]; [done|]. change (0 + qsum zs = 0)%Qc. rewrite IH. ring. }
    exists q3, r3. split; [|split; [done|split; [done|]]].
    - unfold mbind at 1. rewrite Hc. rewrite integrate_all_app. unfold mbind. by rewrite H2.
    - intros e v Hv. apply iterated_wmi; [done|done|]. apply (V3 e v); [apply Hclear|done].
  Qed.

  (** ** compute_volume *)
  Context (fl : Qc -> Qc) (to_float : E -> Res Qc).
  Notation compute_volume := (compute_volume A flat is_one is_zero simp solve X fl to_float).

  Lemma compute_volume_run s ab d support weight p f ts :
    volume_support fl ab d support = Ok f -> rmapM (get_symbol d) (d_vars d) = Ok ts ->
    compute_volume s ab d support weight p =
      mbind (mbind (product f weight) (integrate_all (strategy_of s) (d_vars d)))
        (fun r => do! p := mget in match dget (p_nodes p) r with None => merr RuntimeErr | Some (INode _ _ _) => merr AssertionError
          | Some (TNode x) => mlift (to_float x) end) p.
  Proof.
    intros Hf Hts. unfold Volume_Model.compute_volume, product. rewrite Hf, Hts. unfold mbind, mlift.
    destruct (translate true f p) as [p1 [t|]]; [|done]. destruct (translate false weight p1) as [p2 [w|]]; [|done].
    destruct (as_node t p2) as [p3 [t'|]]; [|done]. destruct (as_node w p3) as [p4 [w'|]]; [|done].
    by destruct (apply A flat simp Multiplication t' w' p4) as [p5 [c|]].
  Qed.

  Lemma compute_volume_ok s ab d support weight p xs : HI p -> wf_domain d ->
    (forall v lb ub q, (v, (lb, ub)) ∈ d_doms d -> lb = Some q \/ ub = Some q -> fl q = q) ->
    d_vars d = names d TBool ++ names d TReal -> intervals d xs ->
    (forall x t, (x, t) ∈ d_types d -> rs_type X x = t) -> (forall x, x ∈ names d TReal -> rs_str X x = x) ->
    bool_formula support -> weight_formula weight ->
    proper_tests (names d TReal) support -> proper_tests (names d TReal) weight ->
    ab = true \/ (forall e, eval e support = Some (VB true) -> region d support e) ->
    exists q r, mbind (product (if ab then AndN [support; mkAnd (concat (map (fun '(x, (lb, ub)) =>
        match lb with Some q => [LeN (RealC q) (Sym x TReal)] | None => [] end ++
        match ub with Some q => [LeN (Sym x TReal) (RealC q)] | None => [] end) (d_doms d)))] else support) weight)
        (integrate_all (strategy_of s) (d_vars d)) p = (q, Ok r) /\ RI q /\ dlt (p_nodes q) r /\
      compute_volume s ab d support weight p = (q, match dget (p_nodes q) r with
        | None => Err RuntimeErr | Some (INode _ _ _) => Err AssertionError | Some (TNode x) => to_float x end) /\
      forall e v, denotes (p_nodes q) e r v -> wmi (restricted (region d support) weight) (names d TBool) (rev xs) e v.
  Proof.
    intros Hp W Hfl Hvars [Hn Hxs] Hty Hstr Hs Hw Ps Pw Hab.
    set (ls := fun '(x, (lb, ub)) =>
        match lb with Some q => [LeN (RealC q) (Sym x TReal)] | None => [] end ++
        match ub with Some q => [LeN (Sym x TReal) (RealC q)] | None => [] end : list fm).
    assert (get_bounds fl d = Ok (mkAnd (concat (map ls (d_doms d))))) as Hgb.
    { unfold get_bounds. replace (rmapM (bound_fms fl d) (d_doms d)) with (Ok (map ls (d_doms d))); [done|]. symmetry.
      apply rmapM_Forall2. apply Forall2_fmap_r, Forall_Forall2_diag, Forall_forall. intros [x [lb ub]] Hin.
      unfold bound_fms, get_symbol. rewrite (wf_real_item d x (lb, ub) W Hin). cbn [rbind].
      destruct lb as [q|], ub as [u|]; cbn; rewrite ?(Hfl _ _ _ q Hin), ?(Hfl _ _ _ u Hin) by auto; done. }
    destruct (get_bounds_box fl d W Hfl) as (g & Hg & Hbox). rewrite Hgb in Hg. injection Hg as <-.
    set (g := mkAnd (concat (map ls (d_doms d)))) in *.
    assert (forall x b, (x, b) ∈ d_doms d -> x ∈ names d TReal) as Hreal.
    { intros x b Hin. assert ((x, TReal) ∈ d_types d) as Ht by (apply (wd_doms_real d W), elem_of_list_fmap; by exists (x, b)).
      apply elem_of_list_filter. split; [done|]. apply (wd_types_vars d W), elem_of_list_fmap. by exists (x, TReal). }
    assert (Forall (fun h => bool_formula h /\ exists x q, x ∈ names d TReal /\ (comparisons h = [(RealC q, Sym x TReal)] \/
       comparisons h = [(Sym x TReal, RealC q)])) (concat (map ls (d_doms d)))) as Hls.
    { apply Forall_forall. intros h (l & Hh & Hl)%elem_of_concat. apply elem_of_list_fmap in Hl as ([x [lb ub]] & -> & Hin).
      apply elem_of_app in Hh as [Hh|Hh].
      - destruct lb as [q|]; [|by apply elem_of_nil in Hh]. apply elem_of_list_singleton in Hh as ->.
        split; [apply bf_le; [apply le_const; constructor|apply le_sym]|]. exists x, q. split; [by eapply Hreal|by left].
      - destruct ub as [q|]; [|by apply elem_of_nil in Hh]. apply elem_of_list_singleton in Hh as ->.
        split; [apply bf_le; [apply le_sym|apply le_const; constructor]|]. exists x, q. split; [by eapply Hreal|by right]. }
    assert (bool_formula g /\ forall a b, (a, b) ∈ comparisons g -> exists x q, x ∈ names d TReal /\
      ((a, b) = (RealC q, Sym x TReal) \/ (a, b) = (Sym x TReal, RealC q))) as [Hgf Hgc].
    { unfold g, mkAnd. clear -Hls. set (l := concat (map ls (d_doms d))) in *. clearbody l. 
      assert (bool_formula (AndN l) /\ forall a b, (a, b) ∈ comparisons (AndN l) -> exists x q, x ∈ names d TReal /\
        ((a, b) = (RealC q, Sym x TReal) \/ (a, b) = (Sym x TReal, RealC q))) as [H1 H2].
      { split; [apply bf_and; eapply Forall_impl; [exact Hls|]; by intros h [? _]|]. cbn [comparisons]. intros a b (k & Hh & Hk)%elem_of_concat.
        apply elem_of_list_fmap in Hk as (h & -> & Hin). rewrite Forall_forall in Hls.
        destruct (Hls h Hin) as (_ & x & q & Hx & Hq). exists x, q. split; [done|].
        destruct Hq as [->| ->] in Hh |- *; apply elem_of_list_singleton in Hh; auto. }
      destruct l as [|h [|h' l]]; [split; [constructor|intros a b H; by apply elem_of_nil in H]| |done].
      split; [by inversion H1 as [| |? Hf| | | | | | |]; subst; inversion Hf|]. cbn [comparisons map concat] in H2. by rewrite app_nil_r in H2. }
    assert (proper_tests (names d TReal) g) as Pg.
    { intros a b Hin e. destruct (Hgc a b Hin) as (x & q & Hx & Hq). exists (upd_r e x (q + 1)).
      split; [done|]. split; [intros y Hy; cbn; by rewrite decide_False by (intros ->; done)|].
      destruct Hq as [[= -> ->]|[= -> ->]]; eexists _, _; cbn; rewrite decide_True by done; (split; [done|]); (split; [done|]); intros Heq; qclra. }
    set (f := if ab then AndN [support; g] else support).
    assert (volume_support fl ab d support = Ok f) as Hvs.
    { unfold volume_support, f. destruct ab; [|done]. rewrite Hgb. cbn [rbind]. unfold chk, mkAnd. cbn. fold g.
      by rewrite (bool_formula_bool support Hs), (bool_formula_bool g Hgf). }
    assert (bool_formula f) as Hf by (unfold f; destruct ab; [apply bf_and; by repeat constructor|done]).
    assert (proper_tests (names d TReal) f) as Pf.
    { unfold f. destruct ab; [|done]. intros a b Hin. cbn in Hin. rewrite app_nil_r in Hin.
      apply elem_of_app in Hin as [Hin|Hin]; [by apply Ps|by apply Pg]. }
    assert (forall e, eval e f = Some (VB true) <-> region d support e) as Hreg.
    { intros e. unfold f, region. destruct ab.
      - destruct (bool_formula_total support e Hs) as [b Eb]. destruct (Hbox e) as [[c Ec] Hc]. cbn. rewrite Eb, Ec. cbn.
        rewrite <- Hc, Ec. destruct b, c; cbn; split; try done; by intros [? ?].
      - destruct Hab as [|Hab]; [done|]. split; [apply Hab|by intros [? _]]. }
    assert (map (fun '(x, _, _) => x) xs = names_of xs) as Hno.
    { unfold names_of. apply map_ext. by intros [[? ?] ?]. }
    assert (exists ts, rmapM (get_symbol d) (d_vars d) = Ok ts) as [ts Hts].
    { assert (forall l, (forall v, v ∈ l -> v ∈ d_vars d) -> exists ts, rmapM (get_symbol d) l = Ok ts) as H; [|by apply H].
      induction l as [|v l IH]; intros Hl; [by eexists|]. destruct IH as [ts Hts]; [intros; apply Hl; by right|].
      destruct (wf_lookup d v W) as (t & Ht & _); [apply Hl; by left|]. rewrite rmapM_cons. unfold get_symbol at 1. rewrite Ht. cbn [rbind].
      rewrite Hts. by eexists. }
    rewrite Hn in Hno.
    destruct (steps_ok (strategy_of s) (names d TBool) xs p f weight) as (q & r & Hr & HR & Dr & Hv); try done; try by rewrite <- Hno.
    { intros b Hb. apply elem_of_list_filter in Hb as [Hb _]. by apply Hty. }
    { rewrite <- Hno. unfold names. apply NoDup_filter, W. }
    { intros x lo hi Hin. destruct (Hxs x lo hi Hin) as [Hd Hle].
      pose proof (Hreal _ _ Hd) as Hx. split; [apply Hty; by apply elem_of_list_filter in Hx as [? _]|]. split; [by apply Hstr|]. split; [done|].
      intros e He. apply Hreg in He as [_ He]. destruct (He _ _ Hd) as [H1 H2]. split; [by apply H1|by apply H2]. }
    rewrite <- Hno, <- Hvars in Hr.
    exists q, r. split; [exact Hr|]. split; [done|]. split; [done|]. split.
    - rewrite (compute_volume_run s ab d support weight p f ts Hvs Hts). unfold mbind at 1. rewrite Hr.
      unfold mbind, mget. destruct (dget (p_nodes q) r) as [[x|? ? ?]|]; done.
    - intros e v Hden. specialize (Hv e v Hden). destruct Hv as (vs & HF & ->). exists vs. split; [|done].
      eapply Forall2_impl; [exact HF|]. intros e' w. apply iterated_mono. intros e0 y [[HR0 Hy]|[HR0 Hy]]; [left|right]; rewrite <- Hreg; done.
  Qed.
End Run.
