(** Proofs about the SMT-LIB importer (Smtlib_Model). *)

From Verif Require Import Base Smt Dict Smtlib_Model Smtlib_Spec.

(** * Kinds *)

Definition vk (v : val) : bool := match v with VB _ => false | VN _ => true end.
Definition gk (g : stag) : bool := match g with GBool => false | _ => true end.
Definition kk (k : skind) : bool := match k with KBool => false | KNum => true end.

(** The value of a well-typed formula has the kind its type announces. *)
Lemma nary_num_ty l t : nary_num l = Some t -> ty_num t = true.
Proof.
  destruct l as [|[t'|] l]; cbn; try done. destruct (ty_num t' && _) eqn:E; [|done].
  intros [= ->]. by apply andb_true_iff in E as [? _].
Qed.

Lemma typeof_kind f : forall t e v, typeof f = Some t -> eval e f = Some v -> vk v = ty_num t.
Proof.
  induction f using fm_ind'; intros t0 e0 v0 Ht He; cbn [typeof eval] in Ht, He.
  all: try (destruct t; simplify_eq; done).
  all: try (simplify_eq; done).
  all: repeat match goal with
    | H : context [if ?b then _ else _] |- _ => destruct b eqn:?; [|done]
    | H : match nary_num ?l with _ => _ end = Some _ |- _ => destruct (nary_num l) eqn:?; [|done]
    | H : (_ <$> ?m) = Some _ |- _ => destruct m eqn:?; [|done]; cbn in H
    | H : (mbind _ ?m) = Some _ |- _ => destruct m eqn:?; [|done]; cbn in H
    end; simplify_eq; cbn.
  all: try done.
  all: try (symmetry; by eapply nary_num_ty).
  - match goal with H : vite _ ?a ?b = Some _ |- _ => rename H into Hv end.
    destruct v as [x|x]; destruct v1 as [y|y]; cbn in Hv; simplify_eq; cbn.
    + by apply (IHf2 _ e0 (VB x) Ht).
    + by apply (IHf2 _ e0 (VN x) Ht).
  - destruct (typeof f) as [[]|]; simplify_eq; done.
Qed.

(** * Objects and heaps *)

(** The formula is well typed and the tag says whether it is boolean or numeric. *)
Definition agrees (o : obj) : Prop :=
  exists t, typeof (o_value o) = Some t /\ ty_num t = gk (o_type o).

(** What an in-place change may do to an object. *)
Definition ole (o o' : obj) : Prop :=
  (forall e v, eval e (o_value o) = Some v -> eval e (o_value o') = Some v) /\
  (typed (o_value o) -> typed (o_value o')) /\
  (agrees o -> agrees o') /\ gk (o_type o') = gk (o_type o).

Lemma ole_refl o : ole o o.
Proof. by split_and!. Qed.
Lemma ole_trans o1 o2 o3 : ole o1 o2 -> ole o2 o3 -> ole o1 o3.
Proof. intros (A&B&C&D) (A'&B'&C'&D'). split_and!; eauto; congruence. Qed.

Definition heap_le (h h' : list obj) : Prop :=
  forall a o, h !! a = Some o -> exists o', h' !! a = Some o' /\ ole o o'.
Lemma heap_le_refl h : heap_le h h.
Proof. intros a o H. exists o. split; [done|apply ole_refl]. Qed.
Lemma heap_le_trans h1 h2 h3 : heap_le h1 h2 -> heap_le h2 h3 -> heap_le h1 h3.
Proof.
  intros H1 H2 a o H. destruct (H1 a o H) as (o2 & H' & L1).
  destruct (H2 a o2 H') as (o3 & H'' & L2). exists o3. split; [done|]. by eapply ole_trans.
Qed.
Lemma heap_le_app h l : heap_le h (h ++ l).
Proof. intros a o H. exists o. split; [by apply lookup_app_l_Some|apply ole_refl]. Qed.
Lemma heap_le_insert h a o o' : h !! a = Some o -> ole o o' -> heap_le h (<[a := o']> h).
Proof.
  intros H L b ob Hb. destruct (decide (a = b)) as [->|Hne].
  - exists o'. rewrite list_lookup_insert by (by eapply lookup_lt_Some).
    split; [done|]. by simplify_eq.
  - exists ob. rewrite list_lookup_insert_ne by done. split; [done|apply ole_refl].
Qed.

(** Everything but the heap is unchanged, and the heap has only grown. *)
Definition hle (s s' : vstate) : Prop :=
  (exists h, s' = set_heap s h) /\ heap_le (v_heap s) (v_heap s').
Lemma set_heap_same s : set_heap s (v_heap s) = s.
Proof. by destruct s. Qed.
Lemma hle_refl s : hle s s.
Proof. split; [exists (v_heap s); by rewrite set_heap_same|apply heap_le_refl]. Qed.
Lemma hle_trans s1 s2 s3 : hle s1 s2 -> hle s2 s3 -> hle s1 s3.
Proof.
  intros [[h ->] H1] [[h' ->] H2]. split; [by exists h'|]. by eapply heap_le_trans.
Qed.
Lemma hle_alloc s o s' a : valloc s o = (s', a) -> hle s s' /\ v_heap s' !! a = Some o.
Proof.
  intros [= <- <-]. split.
  - split; [by eexists|]. apply heap_le_app.
  - cbn. rewrite lookup_app_r by lia. by rewrite Nat.sub_diag.
Qed.
Lemma hle_set s a o o' : v_heap s !! a = Some o -> ole o o' -> hle s (vset s a o').
Proof. intros H L. split; [by eexists|]. by eapply heap_le_insert. Qed.

Lemma vget_ok s a o : vget s a = Ok o <-> v_heap s !! a = Some o.
Proof. unfold vget. destruct (v_heap s !! a); split; intros H; by simplify_eq. Qed.

(** * ToReal and _cast *)

Lemma to_real_num f g : to_real f = Ok g ->
  exists t, typeof f = Some t /\ ty_num t = true /\ typeof g = Some TReal /\
  (forall e v, eval e f = Some v -> eval e g = Some v).
Proof.
  unfold to_real. destruct (typeof f) as [[]|] eqn:Ht; try done.
  - intros [= <-]. by exists TReal.
  - intros H. exists TInt. split_and!; [done..| |].
    + assert (typeof (ToRealN f) = Some TReal) as HR by (cbn [typeof]; by rewrite Ht).
      destruct f; injection H as <-; first [exact HR|done].
    + intros e v He. assert (vk v = true) as Hv by exact (typeof_kind f TInt e v Ht He).
      destruct v as [|q]; [done|].
      assert (eval e (ToRealN f) = Some (VN q)) as HR by (cbn [eval]; by rewrite He).
      destruct f; injection H as <-; first [exact HR|exact He].
Qed.

Lemma to_real_ole o v g : to_real (o_value o) = Ok v -> gk (o_type o) = true -> gk g = true ->
  ole o (Obj v g).
Proof.
  intros H Hk Hg. destruct (to_real_num _ _ H) as (t & Ht & Hn & Hv & He).
  split_and!; cbn; [done| | |congruence].
  - intros _. unfold typed. by rewrite Hv.
  - intros _. exists TReal. cbn. by rewrite Hv.
Qed.

Lemma retag_ole o : gk (o_type o) = true -> ole o (Obj (o_value o) GFloat).
Proof.
  intros Hk. split_and!; cbn; [done|done| |done]. intros (t & Ht & Hn). exists t.
  cbn. split; [done|]. congruence.
Qed.

Lemma cast_ok s a b oa ob s' r : v_heap s !! a = Some oa -> v_heap s !! b = Some ob ->
  cast s a b = Ok (s', r) ->
  hle s s' /\ (r = true -> gk (o_type oa) = gk (o_type ob)).
Proof.
  intros Ha Hb H. unfold cast in H.
  rewrite (proj2 (vget_ok s a oa) Ha) in H. cbn [rbind] in H.
  rewrite (proj2 (vget_ok s b ob) Hb) in H. cbn [rbind] in H.
  destruct (decide (o_type oa = o_type ob)) as [E|E].
  { injection H as <- <-. split; [apply hle_refl|]. by rewrite E. }
  set (R := let! va := to_real (o_value oa) in _) in H.
  assert (gk (o_type oa) = true -> gk (o_type ob) = true -> R = Ok (s', r) -> hle s s') as HR.
  { intros Ka Kb HR. unfold R in HR.
    destruct (to_real (o_value oa)) as [va|] eqn:Ea; [|done]. cbn [rbind] in HR.
    pose proof (hle_set s a oa _ Ha (to_real_ole oa va (o_type oa) Ea Ka Ka)) as L1.
    set (s1 := vset s a (Obj va (o_type oa))) in *.
    destruct (proj2 L1 b ob Hb) as (ob1 & Hb1 & O1).
    rewrite (proj2 (vget_ok s1 b ob1) Hb1) in HR. cbn [rbind] in HR.
    assert (gk (o_type ob1) = true) as Kb1 by (destruct O1 as (_&_&_&->); done).
    destruct (to_real (o_value ob1)) as [vb|] eqn:Eb; [|done]. cbn [rbind] in HR.
    pose proof (hle_set s1 b ob1 _ Hb1 (to_real_ole ob1 vb (o_type ob1) Eb Kb1 Kb1)) as L2.
    set (s2 := vset s1 b (Obj vb (o_type ob1))) in *.
    destruct (proj2 (hle_trans _ _ _ L1 L2) a oa Ha) as (oa2 & Ha2 & O2).
    rewrite (proj2 (vget_ok s2 a oa2) Ha2) in HR. cbn [rbind] in HR.
    assert (gk (o_type oa2) = true) as Ka2 by (destruct O2 as (_&_&_&->); done).
    pose proof (hle_set s2 a oa2 _ Ha2 (retag_ole oa2 Ka2)) as L3.
    set (s3 := vset s2 a (Obj (o_value oa2) GFloat)) in *.
    destruct (proj2 (hle_trans _ _ _ (hle_trans _ _ _ L1 L2) L3) b ob Hb) as (ob3 & Hb3 & O3).
    rewrite (proj2 (vget_ok s3 b ob3) Hb3) in HR. cbn [rbind] in HR.
    assert (gk (o_type ob3) = true) as Kb3 by (destruct O3 as (_&_&_&->); done).
    pose proof (hle_set s3 b ob3 _ Hb3 (retag_ole ob3 Kb3)) as L4.
    injection HR as <- <-.
    exact (hle_trans _ _ _ (hle_trans _ _ _ (hle_trans _ _ _ L1 L2) L3) L4). }
  destruct (o_type oa) eqn:Ta, (o_type ob) eqn:Tb; try done.
  all: try (injection H as <- <-; split; [apply hle_refl|done]).
  all: split; [by apply HR|done].
Qed.

(** * Applications *)

Lemma chk_ok f g : chk f = Ok g -> g = f /\ typed f.
Proof. unfold chk, typed. destruct (typeof f); [|done]. intros [= <-]. done. Qed.

Lemma map_VN_inv vs q qs (P : fm -> val -> Prop) l : Forall2 P l vs -> vs = map VN (q :: qs) ->
  Forall2 (fun f q => P f (VN q)) l (q :: qs).
Proof. intros H ->. exact (proj1 (Forall2_fmap_r VN P l (q :: qs)) H). Qed.
Lemma map_VB_inv vs b bs (P : fm -> val -> Prop) l : Forall2 P l vs -> vs = map VB (b :: bs) ->
  Forall2 (fun f b => P f (VB b)) l (b :: bs).
Proof. intros H ->. exact (proj1 (Forall2_fmap_r VB P l (b :: bs)) H). Qed.

Ltac res_step H :=
  match type of H with
  | rbind ?m _ = Ok _ => destruct m eqn:?; [|done]; cbn [rbind] in H
  end.

Lemma two_inv {A B} (P : A -> B -> Prop) l x y : Forall2 P l [x; y] ->
  exists f g, l = [f; g] /\ P f x /\ P g y.
Proof.
  intros H. inversion H as [|f ? l' ? H1 H2]; subst. inversion H2 as [|g ? l'' ? H3 H4]; subst.
  inversion H4; subst. by exists f, g.
Qed.

(** The value built for an operator has the operator's meaning. *)
Lemma app_value_meaning e op os vs v f g :
  op <> "ite"%string -> op_meaning op vs v ->
  Forall2 (fun o w => eval e (o_value o) = Some w) os vs ->
  app_value op os = Ok (f, g) -> eval e f = Some v.
Proof.
  intros Hop Hm HF H.
  assert (Forall2 (fun h w => eval e h = Some w) (map o_value os) vs) as HV.
  { exact (proj2 (Forall2_fmap_l o_value (fun h w => eval e h = Some w) os vs) HF). }
  unfold app_value in H. set (fs := map o_value os) in *.
  destruct Hm; try done.
  all: repeat match type of H with
    | context [decide (?a = ?b)] => first [rewrite (decide_True (P := a = b)) in H by reflexivity | rewrite (decide_False (P := a = b)) in H by discriminate]
    end.
  all: try match type of HV with
    | Forall2 _ _ [_; _] =>
        destruct (two_inv _ _ _ _ HV) as (f1 & f2 & Hfs & E1 & E2); rewrite ?Hfs in H
    end.
  1-7: res_step H; match goal with E : chk _ = Ok _ |- _ => apply chk_ok in E as [-> ?] end; injection H as <- <-.
  - unfold mkEqOrIff. destruct (typeof f1) as [[]|] eqn:T1; cbn; try (by rewrite E1, E2).
    by pose proof (typeof_kind f1 TBool e _ T1 E1).
  - unfold mkEqOrIff in *. destruct (typeof f1) as [[]|] eqn:T1; cbn; try (by rewrite E1, E2).
    + by pose proof (typeof_kind f1 TReal e _ T1 E1).
    + by pose proof (typeof_kind f1 TInt e _ T1 E1).
    + unfold typed in *. cbn [typeof] in *. rewrite T1 in *. done.
  - cbn. by rewrite E1, E2.
  - cbn. by rewrite E1, E2.
  - cbn. by rewrite E1, E2.
  - cbn. by rewrite E1, E2.
  - cbn. by rewrite E1, E2.
  - (* + *)
    res_step H. res_step H.
    match goal with E : chk _ = Ok _ |- _ => apply chk_ok in E as [-> ?] end.
    destruct os; [done|]. injection H as <- <-.
    pose proof (map_VN_inv _ q qs _ _ HV eq_refl) as HQ.
    destruct fs as [|f1 [|f2 l]]; [done| |]; cbn in Heqr; injection Heqr as <-.
    + inversion HQ as [|? ? ? ? Hq Hn]; subst. inversion Hn; subst. rewrite Hq. f_equal. f_equal. cbn. ring.
    + apply mapM_Forall2_vnum in HQ. cbn [eval]. by rewrite HQ.
  - (* - *)
    unfold fs in Hfs. destruct os as [|o1 [|o2 [|? ?]]]; try done. cbn in Hfs. injection Hfs as <- <-.
    res_step H. apply chk_ok in Heqr as [-> ?]. injection H as <- <-. cbn. by rewrite E1, E2.
  - unfold fs in HV. destruct os as [|o1 [|o2 ?]].
    { inversion HV. }
    2: { inversion HV as [|? ? ? ? Hq Hn]; subst. inversion Hn. }
    inversion HV as [|? ? ? ? Hq Hn]; subst.
    destruct (o_type o1) eqn:To; [done| |]; res_step H; apply chk_ok in Heqr as [-> ?];
      injection H as <- <-; cbn; rewrite Hq; cbn; f_equal; f_equal.
    + change (qz (-1)) with (- (1))%Qc. ring.
    + ring.
  - (* * *)
    res_step H. res_step H.
    match goal with E : chk _ = Ok _ |- _ => apply chk_ok in E as [-> ?] end.
    destruct os; [done|]. injection H as <- <-.
    pose proof (map_VN_inv _ q qs _ _ HV eq_refl) as HQ.
    destruct fs as [|f1 [|f2 l]]; [done| |]; cbn in Heqr; injection Heqr as <-.
    + inversion HQ as [|? ? ? ? Hq Hn]; subst. inversion Hn; subst. rewrite Hq. f_equal. f_equal. cbn. ring.
    + apply mapM_Forall2_vnum in HQ. cbn [eval]. by rewrite HQ.
  - (* / *)
    res_step H. res_step H. res_step H. injection H as <- <-.
    apply to_real_num in Heqr as (t1 & _ & _ & _ & R1). apply to_real_num in Heqr0 as (t2 & _ & _ & _ & R2).
    apply R1 in E1. apply R2 in E2. unfold mkDiv in Heqr1. destruct a0; try done.
    cbn in E2. injection E2 as ->.
    destruct (qeq y 0); [done|]. apply chk_ok in Heqr1 as [-> ?]. cbn. rewrite E1. cbn.
    f_equal. f_equal. field. done.
  - (* and *)
    res_step H. apply chk_ok in Heqr as [-> ?]. injection H as <- <-.
    pose proof (map_VB_inv _ b bs _ _ HV eq_refl) as HQ.
    destruct fs as [|f1 [|f2 l]].
    + inversion HQ.
    + inversion HQ as [|? ? ? ? Hq Hn]; subst. inversion Hn; subst. cbn. rewrite Hq. by destruct b.
    + apply mapM_Forall2_vbool in HQ. cbn [mkAnd eval]. by rewrite HQ.
  - (* or *)
    res_step H. apply chk_ok in Heqr as [-> ?]. injection H as <- <-.
    pose proof (map_VB_inv _ b bs _ _ HV eq_refl) as HQ.
    destruct fs as [|f1 [|f2 l]].
    + inversion HQ.
    + inversion HQ as [|? ? ? ? Hq Hn]; subst. inversion Hn; subst. cbn. rewrite Hq. by destruct b.
    + apply mapM_Forall2_vbool in HQ. cbn [mkOr eval]. by rewrite HQ.
  - (* not *)
    inversion HV as [|h ? l ? Hq Hn Hx]; subst. inversion Hn; subst. rewrite <- Hx in H.
    res_step H. apply chk_ok in Heqr as [-> ?]. injection H as <- <-.
    assert (eval e (NotN h) = Some (VB (negb b))) as Hd by (cbn; by rewrite Hq).
    destruct h; try exact Hd. cbn [mkNot]. cbn in Hq.
    destruct (eval e h) as [[c|]|]; cbn in *; try done. injection Hq as <-. by rewrite negb_involutive.
Qed.

Lemma app_value_typed op os f g : app_value op os = Ok (f, g) -> typed f.
Proof.
  unfold app_value. intros H.
  repeat match type of H with
    | (if decide ?P then _ else _) = Ok _ => destruct (decide P); [clear P|]
    end; try done.
  all: repeat (first
    [ match type of H with match ?m with _ => _ end = Ok _ => destruct m eqn:?; try done end
    | res_step H ]).
  all: repeat match goal with E : chk _ = Ok _ |- _ => apply chk_ok in E as [-> ?] end.
  all: try (injection H as <- <-; done).
  all: injection H as <- <-.
  unfold mkDiv in *. destruct a0; try done. destruct (qeq q 0); [done|].
  by match goal with E : chk _ = Ok _ |- _ => apply chk_ok in E as [-> ?] end.
Qed.

(** Well-typed nodes: the types of the operands and of the node. *)
Lemma typed_cmp a b : typed (LeN a b) \/ typed (LtN a b) \/ typed (EqN a b) ->
  exists t, ty_num t = true /\ typeof a = Some t /\ typeof b = Some t.
Proof.
  intros H. assert (nary_num [typeof a; typeof b] <> None) as HN.
  { intros E. unfold typed in H. cbn [typeof] in H. rewrite E in H. tauto. }
  destruct (nary_num [typeof a; typeof b]) as [t|] eqn:E; [|done].
  pose proof (nary_num_Forall [a; b] t E) as (Ht & _ & HF). exists t.
  inversion HF as [|? ? H1 H2]; subst. inversion H2; subst. done.
Qed.

Lemma typed_nary l : typed (PlusN l) \/ typed (TimesN l) ->
  exists t, ty_num t = true /\ Forall (fun f => typeof f = Some t) l /\
    typeof (PlusN l) = Some t /\ typeof (TimesN l) = Some t.
Proof.
  intros H. assert (nary_num (map typeof l) <> None) as HN.
  { intros E. unfold typed in H. cbn [typeof] in H. rewrite E in H. tauto. }
  destruct (nary_num (map typeof l)) as [t|] eqn:E; [|done].
  pose proof (nary_num_Forall l t E) as (Ht & _ & HF). exists t. cbn [typeof]. by rewrite E.
Qed.

Lemma eval_nums e l vs t : ty_num t = true -> Forall (fun f => typeof f = Some t) l ->
  Forall2 (fun f w => eval e f = Some w) l vs -> exists qs, vs = map VN qs.
Proof.
  intros Ht HF HV. induction HV as [|f w l vs Hw HV IH]; [by exists []|].
  inversion HF as [|? ? H1 H2]; subst. destruct (IH H2) as [qs ->].
  pose proof (typeof_kind f t e w H1 Hw) as K. rewrite Ht in K. destruct w as [|q]; [done|].
  by exists (q :: qs).
Qed.
Lemma eval_bools e l vs : Forall (fun f => typeof f = Some TBool) l ->
  Forall2 (fun f w => eval e f = Some w) l vs -> exists bs, vs = map VB bs.
Proof.
  intros HF HV. induction HV as [|f w l vs Hw HV IH]; [by exists []|].
  inversion HF as [|? ? H1 H2]; subst. destruct (IH H2) as [qs ->].
  pose proof (typeof_kind f TBool e w H1 Hw) as K. destruct w as [q|]; [|done].
  by exists (q :: qs).
Qed.

Lemma typed_bools l : typed (AndN l) \/ typed (OrN l) ->
  Forall (fun f => typeof f = Some TBool) l /\ typeof (AndN l) = Some TBool /\
  typeof (OrN l) = Some TBool.
Proof.
  unfold typed. cbn [typeof]. destruct (all_ty TBool (map typeof l)) eqn:E; [|tauto].
  intros _. split; [by apply all_ty_Forall|done].
Qed.

Lemma two_inv_r {A B} (P : A -> B -> Prop) l x y : Forall2 P [x; y] l ->
  exists f g, l = [f; g] /\ P x f /\ P y g.
Proof.
  intros H. inversion H as [|? f ? l' H1 H2]; subst. inversion H2 as [|? g ? l'' H3 H4]; subst.
  inversion H4; subst. by exists f, g.
Qed.
Lemma one_inv_r {A B} (P : A -> B -> Prop) l x : Forall2 P [x] l -> exists f, l = [f] /\ P x f.
Proof.
  intros H. inversion H as [|? f ? l' H1 H2]; subst. inversion H2; subst. by exists f.
Qed.

(** An accepted application whose operands have the kinds their tags say is one to
    which SMT-LIB gives a value, of the kind of the resulting tag. *)
Lemma app_value_regular e op os vs f g :
  (op ∈ ["+"; "*"; "and"; "or"]%string -> (2 <= length os)%nat) ->
  Forall agrees os ->
  Forall2 (fun o w => eval e (o_value o) = Some w) os vs ->
  app_value op os = Ok (f, g) -> agrees (Obj f g) /\ exists v, op_meaning op vs v.
Proof.
  intros Hlen HA HF H.
  assert (Forall2 (fun h w => eval e h = Some w) (map o_value os) vs) as HV.
  { exact (proj2 (Forall2_fmap_l o_value (fun h w => eval e h = Some w) os vs) HF). }
  unfold app_value in H.
  assert (forall (a b : fm) (w1 w2 : val) t, ty_num t = true -> typeof a = Some t -> typeof b = Some t ->
    eval e a = Some w1 -> eval e b = Some w2 -> exists x y, w1 = VN x /\ w2 = VN y) as HN.
  { intros a b w1 w2 t Ht Ha Hb E1 E2.
    pose proof (typeof_kind a t e w1 Ha E1) as K1. pose proof (typeof_kind b t e w2 Hb E2) as K2.
    rewrite Ht in K1, K2. destruct w1, w2; try done. eauto. }
  assert (forall (a b : fm) (w1 w2 : val), typeof a = Some TBool -> typeof b = Some TBool ->
    eval e a = Some w1 -> eval e b = Some w2 -> exists x y, w1 = VB x /\ w2 = VB y) as HB.
  { intros a b w1 w2 Ha Hb E1 E2.
    pose proof (typeof_kind a TBool e w1 Ha E1) as K1. pose proof (typeof_kind b TBool e w2 Hb E2) as K2.
    destruct w1, w2; try done. eauto. }
  (* = *)
  destruct (decide (op = "="%string)) as [->|_].
  { destruct (map o_value os) as [|a [|b [|? ?]]]; try done. res_step H.
    apply chk_ok in Heqr as [-> Ht]. injection H as <- <-.
    apply two_inv_r in HV as (w1 & w2 & -> & E1 & E2).
    unfold mkEqOrIff in *. destruct (typeof a) as [[]|] eqn:Ta.
    1: { assert (typeof b = Some TBool) as Tb.
      { unfold typed in Ht. cbn [typeof] in Ht.
        destruct (bool_decide (typeof b = Some TBool)) eqn:Tb; [by apply bool_decide_eq_true in Tb|].
        by rewrite andb_false_r in Ht. }
      split; [exists TBool; cbn; rewrite Ta, Tb; done|].
      destruct (HB a b w1 w2 Ta Tb E1 E2) as (x & y & -> & ->). eexists. constructor. }
    all: pose proof (typed_cmp a b (or_intror (or_intror Ht))) as (t & Hn & Ta' & Tb).
    all: split; [exists TBool; split; [|done]; unfold typed in Ht; cbn [o_value typeof] in *;
      rewrite Ta', Tb in *; cbn in *; by destruct t|].
    all: destruct (HN a b w1 w2 t Hn Ta' Tb E1 E2) as (x & y & -> & ->); eexists; constructor. }
  assert (forall P : fm -> fm -> fm,
    (forall a b, typed (P a b) -> typeof (P a b) = Some TBool) ->
    (forall a b, typed (P a b) -> exists t, ty_num t = true /\ typeof a = Some t /\ typeof b = Some t) ->
    (forall x y, exists v, op_meaning op [VN x; VN y] v) ->
    match map o_value os with
    | [f; g] => let! v := chk (P f g) in Ok (v, GBool)
    | _ => Err ParsingError
    end = Ok (f, g) -> agrees (Obj f g) /\ exists v, op_meaning op vs v) as HC.
  { intros P HT HP HM HH. destruct (map o_value os) as [|a [|b [|? ?]]]; try done. res_step HH.
    apply chk_ok in Heqr as [-> Ht]. injection HH as <- <-.
    apply two_inv_r in HV as (w1 & w2 & -> & E1 & E2).
    split; [exists TBool; cbn; by rewrite HT|].
    destruct (HP _ _ Ht) as (t & Hn & Ta & Tb).
    by destruct (HN a b w1 w2 t Hn Ta Tb E1 E2) as (x & y & -> & ->). }
  destruct (decide (op = ">"%string)) as [->|_].
  { apply (HC (fun a b => LtN b a)); [| | |exact H].
    - intros a b Ht. unfold typed in Ht. cbn [typeof] in *. by destruct (nary_num _).
    - intros a b Ht. destruct (typed_cmp b a) as (t & Hn & A & B); [by right; left|]. by exists t.
    - intros x y. eexists. constructor. }
  destruct (decide (op = ">="%string)) as [->|_].
  { apply (HC (fun a b => LeN b a)); [| | |exact H].
    - intros a b Ht. unfold typed in Ht. cbn [typeof] in *. by destruct (nary_num _).
    - intros a b Ht. destruct (typed_cmp b a) as (t & Hn & A & B); [by left|]. by exists t.
    - intros x y. eexists. constructor. }
  destruct (decide (op = "<"%string)) as [->|_].
  { apply (HC (fun a b => LtN a b)); [| | |exact H].
    - intros a b Ht. unfold typed in Ht. cbn [typeof] in *. by destruct (nary_num _).
    - intros a b Ht. destruct (typed_cmp a b) as (t & Hn & A & B); [by right; left|]. by exists t.
    - intros x y. eexists. constructor. }
  destruct (decide (op = "<="%string)) as [->|_].
  { apply (HC (fun a b => LeN a b)); [| | |exact H].
    - intros a b Ht. unfold typed in Ht. cbn [typeof] in *. by destruct (nary_num _).
    - intros a b Ht. destruct (typed_cmp a b) as (t & Hn & A & B); [by left|]. by exists t.
    - intros x y. eexists. constructor. }
  clear HC.
  (* => *)
  destruct (decide (op = "=>"%string)) as [->|_].
  { destruct (map o_value os) as [|a [|b [|? ?]]]; try done. res_step H.
    apply chk_ok in Heqr as [-> Ht]. injection H as <- <-.
    apply two_inv_r in HV as (w1 & w2 & -> & E1 & E2).
    unfold typed in Ht. cbn [typeof] in Ht.
    destruct (bool_decide (typeof a = Some TBool)) eqn:Ta; [|done].
    destruct (bool_decide (typeof b = Some TBool)) eqn:Tb; [|done].
    split; [exists TBool; cbn [o_value typeof]; by rewrite Ta, Tb|].
    apply bool_decide_eq_true in Ta, Tb.
    destruct (HB a b w1 w2 Ta Tb E1 E2) as (x & y & -> & ->). eexists. constructor. }
  (* + *)
  assert (forall mk : list fm -> fm, (forall l, typed (mk l) ->
      exists t, ty_num t = true /\ Forall (fun f => typeof f = Some t) l /\ typeof (mk l) = Some t) ->
    (forall q qs, exists v, op_meaning op (map VN (q :: qs)) v) ->
    (2 <= length os)%nat -> typed (mk (map o_value os)) -> f = mk (map o_value os) ->
    (exists o l, os = o :: l /\ g = o_type o) ->
    agrees (Obj f g) /\ exists v, op_meaning op vs v) as HC.
  { intros mk HT HM Hl Ht -> (o & l & -> & ->). destruct (HT _ Ht) as (t & Hn & HFt & HTt).
    split.
    - exists t. split; [done|]. inversion HA as [|? ? (t' & Ht' & Hk) _]; subst.
      inversion HFt as [|? ? Ht'' _]; subst. cbn. congruence.
    - destruct (eval_nums e _ _ t Hn HFt HV) as [[|q qs] ->]; [inversion HV|]. apply HM. }
  destruct (decide (op = "+"%string)) as [->|_].
  { assert (2 <= length os)%nat as Hl by (apply Hlen; dec). res_step H. res_step H.
    apply chk_ok in Heqr0 as [-> Ht]. destruct os as [|o [|o' l]]; [cbn in *; lia..|].
    injection H as <- <-. injection Heqr as <-.
    apply (HC PlusN); [| |done|exact Ht|done|by eexists _, _].
    - intros l' Hl'. destruct (typed_nary l') as (t & A & B & C & D); [by left|]. by exists t.
    - intros q qs. eexists. constructor. }
  (* - *)
  destruct (decide (op = "-"%string)) as [->|_].
  { destruct os as [|o1 [|o2 [|? ?]]]; try done.
    - apply one_inv_r in HV as (w & -> & E1). cbn [map] in *.
      assert (exists c, (typeof c = Some TInt \/ typeof c = Some TReal) /\ f = TimesN [o_value o1; c] /\ gk g = true /\
         typed f) as (c & Hc & -> & Hg & Ht).
      { destruct (o_type o1); [done| |]; res_step H; apply chk_ok in Heqr as [-> Ht]; injection H as <- <-.
        - exists (IntC (-1)). split_and!; [by left|done..].
        - exists (RealC (- (1))). split_and!; [by right|done..]. }
      destruct (typed_nary [o_value o1; c]) as (t & Hn & HFt & _ & HTt); [by right|].
      inversion HFt as [|? ? T1 _]; subst.
      split; [exists t; cbn [o_value o_type]; rewrite Hg; done|].
      pose proof (typeof_kind _ t e w T1 E1) as K. rewrite Hn in K. destruct w; [done|].
      eexists. constructor.
    - res_step H. apply chk_ok in Heqr as [-> Ht]. injection H as <- <-.
      apply two_inv_r in HV as (w1 & w2 & -> & E1 & E2).
      unfold typed in Ht. cbn [typeof] in Ht.
      destruct (nary_num [typeof (o_value o1); typeof (o_value o2)]) as [t|] eqn:E; [|done].
      pose proof (nary_num_Forall [o_value o1; o_value o2] t E) as (Hn & _ & HFt).
      inversion HFt as [|? ? T1 HF2]; subst. inversion HF2 as [|? ? T2 _]; subst.
      split.
      + exists t. cbn [o_value o_type typeof]. split; [done|].
        inversion HA as [|? ? (t' & Ht' & Hk) _]; subst. congruence.
      + destruct (HN _ _ w1 w2 t Hn T1 T2 E1 E2) as (x & y & -> & ->). eexists. constructor. }
  (* * *)
  destruct (decide (op = "*"%string)) as [->|_].
  { assert (2 <= length os)%nat as Hl by (apply Hlen; dec). res_step H. res_step H.
    apply chk_ok in Heqr0 as [-> Ht]. destruct os as [|o [|o' l]]; [cbn in *; lia..|].
    injection H as <- <-. injection Heqr as <-.
    apply (HC TimesN); [| |done|exact Ht|done|by eexists _, _].
    - intros l' Hl'. destruct (typed_nary l') as (t & A & B & C & D); [by right|]. by exists t.
    - intros q qs. eexists. constructor. }
  clear HC.
  (* / *)
  destruct (decide (op = "/"%string)) as [->|_].
  { destruct (map o_value os) as [|a [|b [|? ?]]]; try done. res_step H. res_step H. res_step H.
    injection H as <- <-. apply two_inv_r in HV as (w1 & w2 & -> & E1 & E2).
    apply to_real_num in Heqr as (t1 & T1 & N1 & R1 & V1). apply to_real_num in Heqr0 as (t2 & T2 & N2 & R2 & V2).
    apply V1 in E1. apply V2 in E2. unfold mkDiv in Heqr1. destruct a1; try done.
    destruct (qeq q 0) eqn:Eq; [done|]. apply chk_ok in Heqr1 as [-> Ht].
    split; [exists TReal; split; [|done]; cbn [o_value typeof map nary_num all_ty forallb]; by rewrite R1|].
    pose proof (typeof_kind _ TReal e w1 R1 E1) as K1. destruct w1 as [|x]; [done|].
    cbn in E2. injection E2 as <-. apply qeq_false in Eq. eexists. by constructor. }
  (* and *)
  destruct (decide (op = "and"%string)) as [->|_].
  { assert (2 <= length os)%nat as Hl by (apply Hlen; dec). res_step H.
    apply chk_ok in Heqr as [-> Ht]. injection H as <- <-.
    destruct os as [|o [|o' l]]; [cbn in *; lia..|]. cbn [map mkAnd] in *.
    destruct (typed_bools (o_value o :: o_value o' :: map o_value l)) as (HFt & HTt & _); [by left|].
    split; [by exists TBool|].
    destruct (eval_bools e _ _ HFt HV) as [[|q qs] ->]; [inversion HV|]. eexists. constructor. }
  (* or *)
  destruct (decide (op = "or"%string)) as [->|_].
  { assert (2 <= length os)%nat as Hl by (apply Hlen; dec). res_step H.
    apply chk_ok in Heqr as [-> Ht]. injection H as <- <-.
    destruct os as [|o [|o' l]]; [cbn in *; lia..|]. cbn [map mkOr] in *.
    destruct (typed_bools (o_value o :: o_value o' :: map o_value l)) as (HFt & _ & HTt); [by right|].
    split; [by exists TBool|].
    destruct (eval_bools e _ _ HFt HV) as [[|q qs] ->]; [inversion HV|]. eexists. constructor. }
  (* not *)
  destruct (decide (op = "not"%string)) as [->|_]; [|done].
  destruct (map o_value os) as [|a [|? ?]] eqn:Hos; try done. res_step H.
  apply chk_ok in Heqr as [-> Ht]. injection H as <- <-.
  apply one_inv_r in HV as (w & -> & E1).
  assert (typeof a = Some TBool /\ typeof (mkNot a) = Some TBool) as [Ta Tn].
  { destruct a; cbn [mkNot] in *; unfold typed in Ht;
      try (cbn [typeof] in *; match type of Ht with (if ?b then _ else _) <> _ => destruct b eqn:E end;
           [apply bool_decide_eq_true in E; by rewrite ?E|done]).
    destruct os as [|o [|? ?]]; try done. cbn in Hos. injection Hos as Ho.
    inversion HA as [|? ? (t' & Ht' & Hk) _]; subst. rewrite Ho in Ht'. cbn [typeof] in Ht' |- *.
    destruct (bool_decide (typeof a = Some TBool)) eqn:E; [|done].
    apply bool_decide_eq_true in E. done. }
  split; [by exists TBool|].
  pose proof (typeof_kind _ TBool e w Ta E1) as K. destruct w; [|done]. eexists. constructor.
Qed.

(** * Terms *)

Section sterm_ind.
  Variable P : sterm -> Prop.
  Hypothesis HNum : forall z, P (TNum z).
  Hypothesis HDec : forall q, P (TDec q).
  Hypothesis HBin : forall ds, P (TBin ds).
  Hypothesis HId : forall x, P (TId x).
  Hypothesis HQuoted : forall x, P (TQuoted x).
  Hypothesis HApp : forall op args, Forall P args -> P (TApp op args).
  Hypothesis HQuotedApp : forall op args, P (TQuotedApp op args).
  Hypothesis HUnsupported : P TUnsupported.
  Fixpoint sterm_ind' (t : sterm) : P t :=
    match t with
    | TNum z => HNum z
    | TDec q => HDec q
    | TBin ds => HBin ds
    | TId x => HId x
    | TQuoted x => HQuoted x
    | TApp op args => HApp op args ((fix all (l : list sterm) : Forall P l :=
        match l with
        | [] => Forall_nil_2 P
        | x :: xs => Forall_cons_2 P x xs (sterm_ind' x) (all xs)
        end) args)
    | TQuotedApp op args => HQuotedApp op args
    | TUnsupported => HUnsupported
    end.
End sterm_ind.

(** The value of a declared name. *)
Definition kval (e : env) (x : string) (k : skind) : val :=
  match k with KBool => VB (eb e x) | KNum => VN (er e x) end.

Definition vwf (sg : list (string * skind)) (s : vstate) : Prop :=
  NoDup (map fst sg) /\
  forall x a, dget (v_vars s) x = Some a -> exists o k, v_heap s !! a = Some o /\
    (x, k) ∈ sg /\ agrees o /\ forall e, eval e (o_value o) = Some (kval e x k).

Lemma vwf_hle sg s s' : vwf sg s -> hle s s' -> vwf sg s'.
Proof.
  intros [Hnd Hv] [[h ->] HL]. split; [done|]. intros x a Hx. cbn in Hx.
  destruct (Hv x a Hx) as (o & k & Ho & Hk & HA & He).
  destruct (HL a o Ho) as (o' & Ho' & OL). exists o', k. split_and!; [done|done|by apply OL|].
  intros e. apply OL. done.
Qed.

Lemma kind_unique (sg : list (string * skind)) (x : string) k k' : NoDup (map fst sg) -> (x, k) ∈ sg -> (x, k') ∈ sg -> k = k'.
Proof.
  induction sg as [|[y k0] sg IH]; cbn; intros Hnd H1 H2; [by apply elem_of_nil in H1|].
  inversion Hnd as [|? ? Hni Hnd']; subst.
  assert (forall k1, (x, k1) ∈ sg -> x ∈ map fst sg) as Hin.
  { intros k1 Hk. change x with (fst (x, k1)). by apply elem_of_list_fmap_1. }
  apply elem_of_cons in H1, H2. destruct H1 as [H1|H1], H2 as [H2|H2]; simplify_eq; try done.
  - by destruct Hni; eapply Hin.
  - by destruct Hni; eapply Hin.
  - by apply IH.
Qed.

Section Visit.
  Variable fl : Qc -> Qc.
  Notation V := (visit_term fl).

  (** What is known of the object a term gives. *)
  Definition obj_ok (sg : list (string * skind)) (t : sterm) (o : obj) : Prop :=
    typed (o_value o) /\
    (exact_decimals fl t -> forall e v, meaning sg e t v -> eval e (o_value o) = Some v) /\
    (regular t -> exact_decimals fl t -> agrees o) /\
    (regular t -> exact_decimals fl t -> forall e, exists v, meaning sg e t v).

  Lemma obj_ok_ole sg t o o' : obj_ok sg t o -> ole o o' -> obj_ok sg t o'.
  Proof.
    intros (A & B & C & D) (A' & B' & C' & D'). split_and!; eauto.
  Qed.

  Definition term_ok (sg : list (string * skind)) (t : sterm) : Prop :=
    forall s s' r, vwf sg s -> V s t = Ok (s', r) ->
    hle s s' /\ match r with
    | VSymbol _ => True
    | VExpr a => exists o, v_heap s' !! a = Some o /\ obj_ok sg t o
    end.

  Lemma visit_symbol_ok s x s' r : visit_symbol s x = Ok (s', r) ->
    hle s s' /\
    ((x = "true"%string /\ exists a, r = VExpr a /\ v_heap s' !! a = Some (Obj (BoolC true) GBool)) \/
     (x = "false"%string /\ exists a, r = VExpr a /\ v_heap s' !! a = Some (Obj (BoolC false) GBool)) \/
     (x <> "true"%string /\ x <> "false"%string /\ r = VSymbol x)).
  Proof.
    unfold visit_symbol. intros H.
    destruct (decide (x = "true"%string)) as [->|Ht].
    { destruct (valloc s _) as [s1 a] eqn:E. injection H as <- <-.
      destruct (hle_alloc _ _ _ _ E) as [L Ha]. split; [done|]. left. eauto. }
    destruct (decide (x = "false"%string)) as [->|Hf].
    { destruct (valloc s _) as [s1 a] eqn:E. injection H as <- <-.
      destruct (hle_alloc _ _ _ _ E) as [L Ha]. split; [done|]. right. left. eauto. }
    destruct (decide (x ∈ unsupported_symbols)); [done|]. injection H as <- <-.
    split; [apply hle_refl|]. right. right. done.
  Qed.

  (** The operands: all visited, and still good after the whole loop. *)
  Lemma operands_ok sg op args : Forall (term_ok sg) args -> forall s last s' ts,
    vwf sg s -> (forall b, last = Some b -> is_Some (v_heap s !! b)) ->
    operands V op args s last = Ok (s', ts) ->
    hle s s' /\ Forall2 (fun t a => exists o, v_heap s' !! a = Some o /\ obj_ok sg t o) args ts.
  Proof.
    induction 1 as [|t args Ht HF IH]; intros s last s' ts Hw Hlast H.
    { cbn in H. injection H as <- <-. split; [apply hle_refl|constructor]. }
    cbn [operands] in H. fold (operands V op) in H.
    destruct (V s t) as [[s1 r]|] eqn:Ev; [|done]. cbn [rbind] in H.
    destruct (Ht s s1 r Hw Ev) as [L1 Hr]. destruct r as [a|]; [|done].
    destruct Hr as (o & Ho & Hok).
    match type of H with rbind ?m _ = _ => destruct m as [[s2 last2]|] eqn:Ec; [|done] end.
    cbn [rbind] in H.
    destruct (operands V op args s2 (Some last2)) as [[s3 rest]|] eqn:Er; [|done].
    cbn [rbind] in H. injection H as <- <-.
    assert (hle s1 s2 /\ is_Some (v_heap s2 !! last2)) as [L2 HS].
    { destruct last as [b|].
      - destruct (Hlast b eq_refl) as [ob Hb]. destruct (proj2 L1 b ob Hb) as (ob1 & Hb1 & _).
        destruct (decide (op ∈ same_type_op)).
        + destruct (cast s1 b a) as [[s2' same]|] eqn:Ecast; [|done]. cbn [rbind] in Ec.
          destruct same; [|done]. injection Ec as <- <-.
          destruct (cast_ok _ _ _ _ _ _ _ Hb1 Ho Ecast) as [L2 _]. split; [done|].
          destruct (proj2 L2 a o Ho) as (o2 & -> & _). eauto.
        + injection Ec as <- <-. split; [apply hle_refl|]. rewrite Hb1. eauto.
      - injection Ec as <- <-. split; [apply hle_refl|]. rewrite Ho. eauto. }
    destruct (IH s2 (Some last2) s3 rest) as [L3 HF3]; [|by intros b [= <-]|done|].
    { eapply vwf_hle; [exact Hw|]. by eapply hle_trans. }
    split; [exact (hle_trans _ _ _ L1 (hle_trans _ _ _ L2 L3))|]. constructor; [|done].
    destruct (proj2 (hle_trans _ _ _ L2 L3) a o Ho) as (o' & Ho' & OL). exists o'.
    split; [done|]. by eapply obj_ok_ole.
  Qed.

  Lemma regular_args op args : regular (TApp op args) -> Forall regular args.
  Proof.
    cbn. intros [_ H]. induction args as [|t args IH]; [constructor|]. destruct H as [H1 H2].
    constructor; [done|]. by apply IH.
  Qed.
  Lemma exact_args op args : exact_decimals fl (TApp op args) -> Forall (exact_decimals fl) args.
  Proof.
    cbn. intros H. induction args as [|t args IH]; [constructor|]. destruct H as [H1 H2].
    constructor; [done|]. by apply IH.
  Qed.

  Lemma args_meaning sg e args os vs : Forall (exact_decimals fl) args ->
    Forall2 (obj_ok sg) args os -> Forall2 (meaning sg e) args vs ->
    Forall2 (fun o w => eval e (o_value o) = Some w) os vs.
  Proof.
    intros HE HO. revert vs. induction HO as [|t o args os Ho HO IH]; intros vs HM.
    - inversion HM. constructor.
    - inversion HM as [|? v ? vs' Hv HM']; subst. inversion HE; subst.
      constructor; [by apply Ho|]. by apply IH.
  Qed.

  Lemma args_have_meaning sg e args os : Forall (exact_decimals fl) args -> Forall regular args ->
    Forall2 (obj_ok sg) args os -> exists vs, Forall2 (meaning sg e) args vs.
  Proof.
    intros HE HR HO. induction HO as [|t o args os Ho HO IH]; [by exists []|].
    inversion HE; subst. inversion HR; subst. destruct IH as [vs Hvs]; [done..|].
    destruct Ho as (_ & _ & _ & Hm). destruct (Hm ltac:(done) ltac:(done) e) as [v Hv].
    exists (v :: vs). by constructor.
  Qed.

  Lemma args_agree sg args os : Forall (exact_decimals fl) args -> Forall regular args -> Forall2 (obj_ok sg) args os -> Forall agrees os.
  Proof.
    intros HE HR HO. induction HO as [|t o args os Ho HO IH]; [constructor|].
    inversion HR; subst. inversion HE; subst. constructor; [by apply Ho|]. by apply IH.
  Qed.

  Lemma visit_term_ok sg t : term_ok sg t.
  Proof.
    induction t as [z|q|ds|x|x|op args IH|op args|] using sterm_ind'; intros s s' r Hw H; cbn [visit_term] in H; try done.
    - destruct (valloc s _) as [s1 a] eqn:E. injection H as <- <-.
      destruct (hle_alloc _ _ _ _ E) as [L Ha]. split; [done|]. eexists. split; [exact Ha|].
      split_and!; cbn; [done| |by exists TInt|].
      + intros _ e v Hm. by inversion Hm.
      + intros _ _ e. eexists. constructor.
    - destruct (valloc s _) as [s1 a] eqn:E. injection H as <- <-.
      destruct (hle_alloc _ _ _ _ E) as [L Ha]. split; [done|]. eexists. split; [exact Ha|].
      split_and!; cbn; [done| |by exists TReal|].
      + intros Hq e v Hm. inversion Hm; subst. by rewrite Hq.
      + intros _ _ e. eexists. constructor.
    - destruct (drop 2 ds) as [|d ds']; [done|]. destruct (valloc s _) as [s1 a] eqn:E. injection H as <- <-.
      destruct (hle_alloc _ _ _ _ E) as [L Ha]. split; [done|]. eexists. split; [exact Ha|].
      split_and!; cbn; [done| |done|done]. intros _ e v Hm. inversion Hm.
    - destruct (visit_symbol s x) as [[s1 r1]|] eqn:Es; [|done]. cbn [rbind] in H.
      destruct (visit_symbol_ok _ _ _ _ Es) as [L Hc].
      destruct Hc as [(-> & a & -> & Ha)|[(-> & a & -> & Ha)|(Ht & Hf & ->)]].
      + injection H as <- <-. split; [done|]. eexists. split; [exact Ha|].
        split_and!; [done| |intros _; by exists TBool|].
        * intros _ e v Hm. inversion Hm; subst; done.
        * intros _ _ e. eexists. apply m_true.
      + injection H as <- <-. split; [done|]. eexists. split; [exact Ha|].
        split_and!; [done| |intros _; by exists TBool|].
        * intros _ e v Hm. inversion Hm; subst; done.
        * intros _ _ e. eexists. apply m_false.
      + destruct (dget (v_vars s1) x) as [a|] eqn:Ex; injection H as <- <-; [|done].
        split; [done|]. destruct (vwf_hle _ _ _ Hw L) as [Hnd Hv].
        destruct (Hv x a Ex) as (o & k & Ho & Hk & HA & He). exists o. split; [done|].
        split_and!.
        * destruct HA as (t & Ht' & _). unfold typed. by rewrite Ht'.
        * intros _ e v Hm. rewrite He. inversion Hm; subst; try done.
          -- assert (k = KBool) as -> by (by eapply kind_unique). done.
          -- assert (k = KNum) as -> by (by eapply kind_unique). done.
        * done.
        * intros _ _ e. destruct k; eexists; [by apply m_bool|by apply m_number].
    - destruct (visit_symbol s op) as [[s0 r0]|] eqn:Es; [|done]. cbn [rbind] in H.
      destruct (visit_symbol_ok _ _ _ _ Es) as [L0 _]. clear Es r0.
      destruct (operands V op args s0 None) as [[s1 ts]|] eqn:Eo; [|done]. cbn [rbind] in H.
      destruct (operands_ok sg op args IH s0 None s1 ts) as [L1 HF]; [by eapply vwf_hle|done|done|].
      destruct (decide (op = "ite"%string)) as [->|Hne].
      + destruct (ite_value s1 ts) as [[s2 [v g]]|] eqn:Ei; [|done]. cbn [rbind] in H.
        destruct (valloc s2 _) as [s3 a] eqn:E. injection H as <- <-.
        destruct (hle_alloc _ _ _ _ E) as [L3 Ha].
        unfold ite_value in Ei. destruct ts as [|c [|u [|w [|? ?]]]]; try done.
        inversion HF as [|tc ? ? ? (oc & Hc & Kc) HF1]; subst.
        inversion HF1 as [|tu ? ? ? (ou & Hu & Ku) HF2]; subst.
        inversion HF2 as [|tw ? ? ? (ow & Hw' & Kw) HF3]; subst. inversion HF3; subst.
        rewrite (proj2 (vget_ok _ _ _) Hc) in Ei. cbn [rbind] in Ei.
        destruct (decide (o_type oc = GBool)) as [Hgb|]; [|done].
        destruct (cast s1 u w) as [[s1' same]|] eqn:Ecast; [|done]. cbn [rbind] in Ei.
        destruct (cast_ok _ _ _ _ _ _ _ Hu Hw' Ecast) as [L2 _].
        destruct same; [|done].
        destruct (proj2 L2 c oc Hc) as (oc' & Hc' & OLc).
        destruct (proj2 L2 u ou Hu) as (ou' & Hu' & OLu).
        destruct (proj2 L2 w ow Hw') as (ow' & Hw'' & OLw).
        rewrite (proj2 (vget_ok _ _ _) Hc') in Ei. cbn [rbind] in Ei.
        rewrite (proj2 (vget_ok _ _ _) Hu') in Ei. cbn [rbind] in Ei.
        rewrite (proj2 (vget_ok _ _ _) Hw'') in Ei. cbn [rbind] in Ei.
        res_step Ei. apply chk_ok in Heqr as [-> Ht]. injection Ei as <- <- <-.
        split; [exact (hle_trans _ _ _ L0 (hle_trans _ _ _ L1 (hle_trans _ _ _ L2 L3)))|].
        eexists. split; [exact Ha|]. cbn [o_value o_type].
        assert (Forall2 (obj_ok sg) [tc; tu; tw] [oc'; ou'; ow']) as HO.
        { apply Forall2_cons_2; [by eapply obj_ok_ole|]. apply Forall2_cons_2; [by eapply obj_ok_ole|].
          apply Forall2_cons_2; [by eapply obj_ok_ole|]. constructor. }
        assert (typeof (o_value oc') = Some TBool /\ typeof (o_value ou') = typeof (o_value ow') /\
          typeof (IteN (o_value oc') (o_value ou') (o_value ow')) = typeof (o_value ou')) as (Tc & Tuw & Ti).
        { unfold typed in Ht. cbn [typeof] in Ht |- *.
          destruct (bool_decide (typeof (o_value oc') = Some TBool)) eqn:E1; [|done].
          destruct (bool_decide (typeof (o_value ou') = typeof (o_value ow'))) eqn:E2; [|done].
          by apply bool_decide_eq_true in E1, E2. }
        split_and!; cbn [o_value].
        * done.
        * intros HE e v Hm. inversion Hm as [| | | | | |? ? vs ? HM Hop]; subst.
          pose proof (args_meaning sg e _ _ _ (exact_args _ _ HE) HO HM) as HV.
          inversion Hop; subst; inversion HV as [|? ? ? ? E1 HV1]; subst;
            inversion HV1 as [|? ? ? ? E2 HV2]; subst; inversion HV2 as [|? ? ? ? E3 HV3]; subst;
            cbn [eval]; rewrite E1, E2, E3; done.
        * intros HR HE. apply regular_args in HR. apply exact_args in HE.
          pose proof (args_agree sg _ _ HE HR HO) as HA.
          inversion HA as [|? ? _ HA1]; subst. inversion HA1 as [|? ? (t & Tt & Kt) _]; subst.
          exists t. cbn [o_value o_type]. by rewrite Ti.
        * intros HR HE e. apply regular_args in HR. apply exact_args in HE.
          destruct (args_have_meaning sg e _ _ HE HR HO) as [vs Hvs].
          pose proof (args_meaning sg e _ _ _ HE HO Hvs) as HV.
          inversion HV as [|? v1 ? ? E1 HV1]; subst.
          inversion HV1 as [|? v2 ? ? E2 HV2]; subst. inversion HV2 as [|? v3 ? ? E3 HV3]; subst.
          inversion HV3; subst.
          pose proof (typeof_kind _ _ e v1 Tc E1) as K1. destruct v1 as [b|]; [|done].
          unfold typed in Ht. rewrite Ti in Ht. destruct (typeof (o_value ou')) as [t|] eqn:Tu; [|done].
          pose proof (typeof_kind _ _ e v2 Tu E2) as K2. symmetry in Tuw.
          pose proof (typeof_kind _ _ e v3 Tuw E3) as K3.
          destruct v2, v3; cbn in K2, K3; try congruence.
          -- eexists. eapply m_app; [exact Hvs|]. apply om_ite_bool.
          -- eexists. eapply m_app; [exact Hvs|]. apply om_ite_num.
      + destruct (rmapM (vget s1) ts) as [os|] eqn:Eos; [|done]. cbn [rbind] in H.
        destruct (app_value op os) as [[v g]|] eqn:Ea; [|done]. cbn [rbind] in H.
        destruct (valloc s1 _) as [s2 a] eqn:E. injection H as <- <-.
        destruct (hle_alloc _ _ _ _ E) as [L2 Ha].
        split; [exact (hle_trans _ _ _ L0 (hle_trans _ _ _ L1 L2))|].
        eexists. split; [exact Ha|].
        assert (Forall2 (obj_ok sg) args os) as HO.
        { apply rmapM_Forall2 in Eos. clear -HF Eos. revert os Eos.
          induction HF as [|t a args ts (o & Ho & Hok) HF IH]; intros os Eos.
          - inversion Eos. constructor.
          - inversion Eos as [|? o' ? os' Hget Eos']; subst. apply vget_ok in Hget. simplify_eq.
            constructor; [done|]. by apply IH. }
        split_and!; cbn [o_value].
        * by eapply app_value_typed.
        * intros HE e w Hm. inversion Hm as [| | | | | |? ? vs ? HM Hop]; subst.
          pose proof (args_meaning sg e _ _ _ (exact_args _ _ HE) HO HM) as HV.
          by eapply app_value_meaning.
        * intros HR HE. pose proof (regular_args _ _ HR) as HR'.
          apply exact_args in HE. pose (e := Env (fun _ => true) (fun _ => 0%Qc)).
          destruct (args_have_meaning sg e _ _ HE HR' HO) as [vs Hvs].
          pose proof (args_meaning sg e _ _ _ HE HO Hvs) as HV.
          pose proof (args_agree sg _ _ HE HR' HO) as HA.
          destruct (app_value_regular e op os vs v g) as [HA' _]; [|done..].
          intros Hop. rewrite <- (Forall2_length _ _ _ HO). apply HR. done.
        * intros HR HE e. pose proof (regular_args _ _ HR) as HR'.
          apply exact_args in HE.
          destruct (args_have_meaning sg e _ _ HE HR' HO) as [vs Hvs].
          pose proof (args_meaning sg e _ _ _ HE HO Hvs) as HV.
          pose proof (args_agree sg _ _ HE HR' HO) as HA.
          destruct (app_value_regular e op os vs v g) as [_ [w Hop]]; [|done..|].
          { intros Hop. rewrite <- (Forall2_length _ _ _ HO). apply HR. done. }
          exists w. by eapply m_app.
  Qed.
End Visit.

(** * Commands *)

Section Commands.
  Variable fl : Qc -> Qc.

  (** The names of the signature are entered. *)
  Definition vdom (sg : list (string * skind)) (s : vstate) : Prop :=
    forall x, x ∈ map fst sg <-> is_Some (dget (v_vars s) x).

  Lemma vwf_mono sg SG s : vwf sg s -> NoDup (map fst SG) -> (forall p, p ∈ sg -> p ∈ SG) -> vwf SG s.
  Proof.
    intros [_ Hv] Hnd Hsub. split; [done|]. intros x a Hx.
    destruct (Hv x a Hx) as (o & k & Ho & Hk & HA & He). exists o, k. eauto.
  Qed.

  (** What is known of the formula stored for a term. *)
  Definition good (SG : list (string * skind)) (t : sterm) (f : fm) : Prop :=
    typed f /\
    (exact_decimals fl t -> forall e v, meaning SG e t v -> eval e f = Some v) /\
    (regular t -> exact_decimals fl t -> forall e, exists v, meaning SG e t v).

  (** The formula is of the kind [k]. *)
  Definition of_kind (t : sterm) (f : fm) (k : bool) : Prop :=
    regular t -> exact_decimals fl t -> exists ty, typeof f = Some ty /\ ty_num ty = k.

  Lemma good_obj SG t o o' : obj_ok fl SG t o -> ole o o' ->
    good SG t (o_value o') /\ of_kind t (o_value o') (gk (o_type o)).
  Proof.
    intros Hok OL. destruct (obj_ok_ole fl SG t o o' Hok OL) as (A & B & C & D).
    split; [by split_and!|]. intros HR HE. destruct (C HR HE) as (ty & Ht & Hk). exists ty.
    destruct OL as (_ & _ & _ & Hg). split; [done|congruence].
  Qed.

  Definition upto (sg SG : list (string * skind)) : Prop :=
    NoDup (map fst SG) /\ forall p, p ∈ sg -> p ∈ SG.

  (** The effect of one accepted command. *)
  Definition effect (sg : list (string * skind)) (c : command) (s s' : vstate) : Prop :=
    v_bools s' = v_bools s ++ declared_bools [c] /\
    v_reals s' = v_reals s ++ declared_numbers [c] /\
    (exists fs, v_support s' = v_support s ++ fs /\
       Forall2 (fun t f => (forall SG, upto sg SG -> good SG t f) /\ of_kind t f false) (asserted [c]) fs) /\
    (exists fs, v_queries s' = v_queries s ++ fs /\
       Forall2 (fun t f => forall SG, upto sg SG -> good SG t f) (queried [c]) fs) /\
    ((weights [c] = [] /\ v_weight s' = v_weight s) \/
     exists t f, weights [c] = [t] /\ v_weight s = None /\ v_weight s' = Some f /\
       (forall SG, upto sg SG -> good SG t f) /\ of_kind t f true).

  Lemma fields_hle s s' : hle s s' -> v_vars s' = v_vars s /\ v_bools s' = v_bools s /\
    v_reals s' = v_reals s /\ v_support s' = v_support s /\ v_weight s' = v_weight s /\
    v_queries s' = v_queries s.
  Proof. intros [[h ->] _]. done. Qed.

  Lemma vwf_fields sg s s' : vwf sg s -> v_heap s' = v_heap s -> v_vars s' = v_vars s -> vwf sg s'.
  Proof. intros [Hnd Hv] Hh Hvars. split; [done|]. by rewrite Hh, Hvars. Qed.

  Lemma declare_ok sg s x sort s' : vwf sg s -> vdom sg s -> declare s x sort = Ok s' ->
    vwf (sg ++ [(x, kind_of_sort sort)]) s' /\ vdom (sg ++ [(x, kind_of_sort sort)]) s' /\
    v_bools s' = v_bools s ++ (if decide (sort = "Bool"%string) then [Sym x TBool] else []) /\
    v_reals s' = v_reals s ++ (if decide (sort = "Bool"%string) then []
        else [Sym x (if decide (sort = "Int"%string) then TInt else TReal)]) /\
    v_support s' = v_support s /\ v_queries s' = v_queries s /\ v_weight s' = v_weight s.
  Proof.
    intros Hw Hd H. unfold declare in H.
    destruct (decide (x ∈ unsupported_symbols)); [done|].
    destruct (decide (x = "true"%string \/ x = "false"%string)); [done|].
    destruct (dget (v_vars s) x) eqn:Hx; [done|].
    assert (forall t g bs rs, agrees (Obj (Sym x t) g) ->
      (forall e, eval e (Sym x t) = Some (kval e x (kind_of_sort sort))) ->
      s' = VS (v_heap s ++ [Obj (Sym x t) g]) (dset (v_vars s) x (length (v_heap s))) bs rs
        (v_support s) (v_weight s) (v_queries s) ->
      vwf (sg ++ [(x, kind_of_sort sort)]) s' /\ vdom (sg ++ [(x, kind_of_sort sort)]) s') as HG.
    { intros t g bs rs HA He ->. split.
      - destruct Hw as [Hnd Hv]. split.
        + rewrite map_app. cbn [map fst]. apply NoDup_app. split_and!; [done| |apply NoDup_singleton].
          intros y Hy Hy'. apply elem_of_list_singleton in Hy' as ->. apply Hd in Hy as [? Hy]. congruence.
        + intros y a Hy. cbn in Hy. rewrite dget_dset in Hy. cbn [v_heap].
          destruct (decide (x = y)) as [<-|Hne].
          * injection Hy as <-. eexists _, _. rewrite lookup_app_r by lia. rewrite Nat.sub_diag.
            split; [done|]. split_and!; [|done|exact He]. apply elem_of_app. right. by left.
          * destruct (Hv y a Hy) as (o & k & Ho & Hk & HA' & He'). exists o, k.
            split_and!; [by apply lookup_app_l_Some|apply elem_of_app; by left|done..].
      - intros y. cbn [v_vars]. rewrite dget_dset, map_app, elem_of_app. cbn [map fst].
        rewrite elem_of_list_singleton, (Hd y). destruct (decide (x = y)) as [->|]; split; try by eauto.
        intros [?|?]; [done|congruence]. }
    destruct (decide (sort = "Int"%string)) as [->|Hi].
    { cbn in H. injection H as <-. cbn [v_bools v_reals v_support v_queries v_weight].
      rewrite (decide_False (P := "Int"%string = "Bool"%string)) by discriminate.
      rewrite app_nil_r.
      destruct (HG TInt GInt (v_bools s) (v_reals s ++ [Sym x TInt])) as [G1 G2]; [by exists TInt|done|reflexivity|]. done. }
    destruct (decide (sort = "Real"%string)) as [->|Hr].
    { cbn in H. injection H as <-. cbn [v_bools v_reals v_support v_queries v_weight].
      rewrite (decide_False (P := "Real"%string = "Bool"%string)) by discriminate.
      rewrite app_nil_r.
      destruct (HG TReal GFloat (v_bools s) (v_reals s ++ [Sym x TReal])) as [G1 G2]; [by exists TReal|done|reflexivity|]. done. }
    destruct (decide (sort = "Bool"%string)) as [->|Hb]; [|done].
    cbn in H. injection H as <-. cbn [v_bools v_reals v_support v_queries v_weight].
    rewrite app_nil_r.
    destruct (HG TBool GBool (v_bools s ++ [Sym x TBool]) (v_reals s)) as [G1 G2]; [by exists TBool|done|reflexivity|].
    done.
  Qed.

  Lemma vdom_hle sg s s' : vdom sg s -> hle s s' -> vdom sg s'.
  Proof. intros Hd [[h ->] _]. exact Hd. Qed.

  Lemma command_ok sg c s s' : vwf sg s -> vdom sg s -> visit_command fl s c = Ok s' ->
    vwf (sg ++ declares c) s' /\ vdom (sg ++ declares c) s' /\ effect sg c s s'.
  Proof.
    intros Hw Hd H.
    assert (forall t s1 r, visit_term fl s t = Ok (s1, r) -> hle s s1 /\
      forall a, expr_of r = Ok a -> exists o, v_heap s1 !! a = Some o /\
        forall SG, upto sg SG -> obj_ok fl SG t o) as HT.
    { intros t s1 r E. destruct (visit_term_ok fl sg t s s1 r Hw E) as [L Hr]. split; [done|].
      intros a Ea. destruct r; [|done]. injection Ea as ->. destruct Hr as (o & Ho & _). exists o.
      split; [done|]. intros SG [Hnd Hsub].
      destruct (visit_term_ok fl SG t s s1 (VExpr a)) as [_ (o' & Ho' & Hok)];
        [by eapply vwf_mono|done|]. by simplify_eq. }
    assert (forall SG, upto sg SG -> upto sg SG) as _ by done.
    assert (upto sg sg) as Hself by (split; [apply Hw|done]).
    assert (forall t (o o' : obj), (forall SG, upto sg SG -> obj_ok fl SG t o) -> ole o o' ->
      (forall SG, upto sg SG -> good SG t (o_value o')) /\ of_kind t (o_value o') (gk (o_type o))) as HGood.
    { intros t o o' Ho OL. split.
      - intros SG HU. by destruct (good_obj SG t o o' (Ho SG HU) OL).
      - by destruct (good_obj sg t o o' (Ho sg Hself) OL). }
    destruct c as [t|x sort|x n sort|t|t|]; cbn [visit_command declares] in *; rewrite ?app_nil_r.
    - (* assert *)
      destruct (visit_term fl s t) as [[s1 r]|] eqn:E; [|done]. cbn [rbind] in H.
      destruct (HT _ _ _ E) as [L Hr]. res_step H. destruct (Hr _ eq_refl) as (o & Ho & Hok).
      rewrite (proj2 (vget_ok _ _ _) Ho) in H. cbn [rbind] in H.
      destruct (decide (o_type o = GBool)) as [Hg|]; [|done]. injection H as <-.
      destruct (fields_hle _ _ L) as (F1 & F2 & F3 & F4 & F5 & F6).
      destruct (HGood t o o Hok (ole_refl o)) as [G1 G2].
      split; [by eapply vwf_fields; [eapply vwf_hle; [exact Hw|exact L]|..]|].
      split; [exact (vdom_hle _ _ _ Hd L)|]. split_and!.
      + cbn. by rewrite app_nil_r.
      + cbn. by rewrite app_nil_r.
      + eexists. cbn [v_support]. rewrite F4. split; [done|]. cbn. constructor; [|constructor].
        split; [done|]. by rewrite Hg in G2.
      + exists []. cbn. rewrite app_nil_r. split; [done|constructor].
      + left. done.
    - (* declare-const *)
      destruct (declare_ok sg s x sort s' Hw Hd H) as (A & B & C1 & C2 & C3 & C4 & C5).
      split; [done|]. split; [done|].
      split_and!; [cbn; by rewrite app_nil_r|cbn; by rewrite app_nil_r| | |by left].
      + exists []. rewrite app_nil_r. split; [done|constructor].
      + exists []. rewrite app_nil_r. split; [done|constructor].
    - (* declare-fun *)
      destruct (decide (x ∈ unsupported_symbols)); [done|].
      destruct (dget (v_vars s) x) eqn:Hx; [done|].
      destruct (decide (0 < n)%nat); [done|].
      destruct (declare_ok sg s x sort s' Hw Hd H) as (A & B & C1 & C2 & C3 & C4 & C5).
      split; [done|]. split; [done|].
      split_and!; [cbn; by rewrite app_nil_r|cbn; by rewrite app_nil_r| | |by left].
      + exists []. rewrite app_nil_r. split; [done|constructor].
      + exists []. rewrite app_nil_r. split; [done|constructor].
    - (* weight *)
      destruct (visit_term fl s t) as [[s1 r]|] eqn:E; [|done]. cbn [rbind] in H.
      destruct (HT _ _ _ E) as [L Hr].
      destruct (fields_hle _ _ L) as (F1 & F2 & F3 & F4 & F5 & F6).
      destruct (v_weight s1) eqn:Hwt; [done|].
      res_step H. destruct (Hr _ eq_refl) as (o & Ho & Hok).
      rewrite (proj2 (vget_ok _ _ _) Ho) in H. cbn [rbind] in H.
      match type of H with rbind ?m _ = _ => destruct m as [s2|] eqn:E2; [|done] end. cbn [rbind] in H.
      assert (gk (o_type o) = true /\ exists o', v_heap s2 !! a = Some o' /\ ole o o' /\ hle s1 s2) as (Hk & o' & Ho' & OL & L2).
      { destruct (o_type o) eqn:Hg; [done| |].
        - res_step E2. injection E2 as <-. split; [done|].
          assert (ole o (Obj a0 GInt)) as OL by (apply to_real_ole; [done|by rewrite Hg|done]).
          pose proof (hle_set s1 a o _ Ho OL) as L2. exists (Obj a0 GInt). split_and!; [|done|done].
          cbn. apply list_lookup_insert. by eapply lookup_lt_Some.
        - injection E2 as <-. split; [done|]. exists o. split_and!; [done|apply ole_refl|apply hle_refl]. }
      rewrite (proj2 (vget_ok _ _ _) Ho') in H. cbn [rbind] in H. injection H as <-.
      destruct (fields_hle _ _ L2) as (F1' & F2' & F3' & F4' & F5' & F6').
      destruct (HGood t o o' Hok OL) as [G1 G2]. pose proof (hle_trans _ _ _ L L2) as LL.
      split; [by eapply vwf_fields; [eapply vwf_hle; [exact Hw|exact LL]|..]|].
      split; [exact (vdom_hle _ _ _ Hd LL)|]. split_and!.
      + cbn. rewrite app_nil_r. congruence.
      + cbn. rewrite app_nil_r. congruence.
      + exists []. cbn. rewrite app_nil_r. split; [congruence|constructor].
      + exists []. cbn. rewrite app_nil_r. split; [congruence|constructor].
      + right. exists t, (o_value o'). rewrite Hk in G2. split_and!; [done|congruence|done..].
    - (* query *)
      destruct (visit_term fl s t) as [[s1 r]|] eqn:E; [|done]. cbn [rbind] in H.
      destruct (HT _ _ _ E) as [L Hr].
      destruct (fields_hle _ _ L) as (F1 & F2 & F3 & F4 & F5 & F6).
      res_step H. destruct (Hr _ eq_refl) as (o & Ho & Hok).
      rewrite (proj2 (vget_ok _ _ _) Ho) in H. cbn [rbind] in H.
      match type of H with rbind ?m _ = _ => destruct m as [s2|] eqn:E2; [|done] end. cbn [rbind] in H.
      assert (exists o', v_heap s2 !! a = Some o' /\ ole o o' /\ hle s1 s2) as (o' & Ho' & OL & L2).
      { destruct (o_type o) eqn:Hg; [| |done].
        - injection E2 as <-. exists o. split_and!; [done|apply ole_refl|apply hle_refl].
        - res_step E2. injection E2 as <-.
          assert (ole o (Obj a0 GInt)) as OL by (apply to_real_ole; [done|by rewrite Hg|done]).
          pose proof (hle_set s1 a o _ Ho OL) as L2. exists (Obj a0 GInt). split_and!; [|done|done].
          cbn. apply list_lookup_insert. by eapply lookup_lt_Some. }
      rewrite (proj2 (vget_ok _ _ _) Ho') in H. cbn [rbind] in H. injection H as <-.
      destruct (fields_hle _ _ L2) as (F1' & F2' & F3' & F4' & F5' & F6').
      destruct (HGood t o o' Hok OL) as [G1 G2]. pose proof (hle_trans _ _ _ L L2) as LL.
      split; [by eapply vwf_fields; [eapply vwf_hle; [exact Hw|exact LL]|..]|].
      split; [exact (vdom_hle _ _ _ Hd LL)|]. split_and!.
      + cbn. rewrite app_nil_r. congruence.
      + cbn. rewrite app_nil_r. congruence.
      + exists []. cbn. rewrite app_nil_r. split; [congruence|constructor].
      + eexists. cbn [v_queries]. rewrite F6', F6. split; [done|]. cbn. constructor; [done|constructor].
      + left. cbn. split; [done|congruence].
    - done.
  Qed.

  Lemma concat_map_cons {A B} (f : A -> list B) x l :
    concat (map f (x :: l)) = concat (map f [x]) ++ concat (map f l).
  Proof. cbn. by rewrite app_nil_r. Qed.

  Lemma effect_mono_upto sg sg' SG : upto (sg ++ sg') SG -> upto sg SG.
  Proof. intros [A B]. split; [done|]. intros p Hp. apply B, elem_of_app. by left. Qed.

  Definition effects (SG : list (string * skind)) (cs : list command) (s s' : vstate) : Prop :=
    v_bools s' = v_bools s ++ declared_bools cs /\
    v_reals s' = v_reals s ++ declared_numbers cs /\
    (exists fs, v_support s' = v_support s ++ fs /\
       Forall2 (fun t f => good SG t f /\ of_kind t f false) (asserted cs) fs) /\
    (exists fs, v_queries s' = v_queries s ++ fs /\ Forall2 (good SG) (queried cs) fs) /\
    ((weights cs = [] /\ v_weight s' = v_weight s) \/
     exists t f, weights cs = [t] /\ v_weight s = None /\ v_weight s' = Some f /\
       good SG t f /\ of_kind t f true).

  Lemma commands_ok cs : forall sg s s', vwf sg s -> vdom sg s -> visit_commands fl s cs = Ok s' ->
    vwf (sg ++ concat (map declares cs)) s' /\ vdom (sg ++ concat (map declares cs)) s' /\
    effects (sg ++ concat (map declares cs)) cs s s'.
  Proof.
    induction cs as [|c cs IH]; intros sg s s' Hw Hd H.
    { cbn in H. injection H as <-. cbn [map concat]. rewrite app_nil_r.
      split; [done|]. split; [done|]. split_and!.
      - cbn. by rewrite app_nil_r.
      - cbn. by rewrite app_nil_r.
      - exists []. rewrite app_nil_r. split; [done|constructor].
      - exists []. rewrite app_nil_r. split; [done|constructor].
      - left. done. }
    cbn [visit_commands] in H. destruct (visit_command fl s c) as [s1|] eqn:E; [|done]. cbn [rbind] in H.
    destruct (command_ok sg c s s1 Hw Hd E) as (Hw1 & Hd1 & B1 & R1 & (fs1 & S1 & SF1) & (qs1 & Q1 & QF1) & W1).
    destruct (IH _ s1 s' Hw1 Hd1 H) as (Hw2 & Hd2 & B2 & R2 & (fs2 & S2 & SF2) & (qs2 & Q2 & QF2) & W2).
    cbn [map concat]. rewrite (app_assoc sg).
    assert (upto sg ((sg ++ declares c) ++ concat (map declares cs))) as HU.
    { split; [apply Hw2|]. intros p Hp. rewrite !elem_of_app. tauto. }
    split; [done|]. split; [done|]. split_and!.
    - unfold declared_bools in *. rewrite concat_map_cons, B2, B1. by rewrite app_assoc.
    - unfold declared_numbers in *. rewrite concat_map_cons, R2, R1. by rewrite app_assoc.
    - exists (fs1 ++ fs2). rewrite S2, S1, app_assoc. split; [done|]. unfold asserted in *.
      rewrite concat_map_cons. apply Forall2_app; [|done].
      eapply Forall2_impl; [exact SF1|]. intros t f [G K]. split; [by apply G|done].
    - exists (qs1 ++ qs2). rewrite Q2, Q1, app_assoc. split; [done|]. unfold queried in *.
      rewrite concat_map_cons. apply Forall2_app; [|done].
      eapply Forall2_impl; [exact QF1|]. intros t f G. by apply G.
    - assert (weights (c :: cs) = weights [c] ++ weights cs) as -> by apply concat_map_cons.
      destruct W1 as [[-> W1]|(t & f & -> & W0 & W1 & G & K)].
      + cbn [app]. rewrite <- W1. exact W2.
      + destruct W2 as [[-> W2]|(t' & f' & _ & W2 & _)]; [|congruence].
        right. exists t, f. rewrite W2. split_and!; [done|done|done|by apply G|done].
  Qed.

  (** The visitor's initial state. *)
  Lemma enter_ok sg s x t g k : vwf sg s -> vdom sg s -> x ∉ map fst sg ->
    agrees (Obj (Sym x t) g) -> (forall e, eval e (Sym x t) = Some (kval e x k)) ->
    let s' := enter s x (Obj (Sym x t) g) in
    vwf (sg ++ [(x, k)]) s' /\ vdom (sg ++ [(x, k)]) s' /\
    v_bools s' = v_bools s /\ v_reals s' = v_reals s /\ v_support s' = v_support s /\
    v_weight s' = v_weight s /\ v_queries s' = v_queries s.
  Proof.
    intros [Hnd Hv] Hd Hx HA He. cbn zeta. split; [|split; [|done]].
    - split.
      + rewrite map_app. cbn [map fst]. apply NoDup_app. split_and!; [done| |apply NoDup_singleton].
        intros y Hy Hy'. by apply elem_of_list_singleton in Hy' as ->.
      + intros y a Hy. cbn in Hy. rewrite dget_dset in Hy. cbn [v_heap enter valloc set_heap].
        destruct (decide (x = y)) as [<-|Hne].
        * injection Hy as <-. eexists _, _. rewrite lookup_app_r by lia. rewrite Nat.sub_diag.
          split; [done|]. split_and!; [|done|exact He]. apply elem_of_app. right. by left.
        * destruct (Hv y a Hy) as (o & k' & Ho & Hk & HA' & He'). exists o, k'.
          split_and!; [by apply lookup_app_l_Some|apply elem_of_app; by left|done..].
    - intros y. cbn. rewrite dget_dset, map_app, elem_of_app. cbn [map fst].
      rewrite elem_of_list_singleton, (Hd y). destruct (decide (x = y)) as [->|]; split; try by eauto.
      intros [?|?]; [done|congruence].
  Qed.

  Lemma vinit_ok domA domX :
    NoDup (domA ++ map fst domX) -> Forall (fun '(_, t) => t <> TBool) domX ->
    let sg := signature domA domX [] in let s := vinit domA domX in
    vwf sg s /\ vdom sg s /\ v_bools s = map (fun x => Sym x TBool) domA /\
    v_reals s = map (fun '(x, t) => Sym x t) domX /\ v_support s = [] /\ v_weight s = None /\
    v_queries s = [].
  Proof.
    intros Hnd HT. cbn zeta. unfold signature, vinit. cbn [map concat]. rewrite app_nil_r.
    set (s0 := VS [] [] _ _ [] None []).
    assert (forall l sg s, vwf sg s -> vdom sg s -> NoDup (map fst sg ++ l) ->
      let s' := fold_left (fun s x => enter s x (Obj (Sym x TBool) GBool)) l s in
      vwf (sg ++ map (fun x => (x, KBool)) l) s' /\ vdom (sg ++ map (fun x => (x, KBool)) l) s' /\
      v_bools s' = v_bools s /\ v_reals s' = v_reals s /\ v_support s' = v_support s /\
      v_weight s' = v_weight s /\ v_queries s' = v_queries s) as HA.
    { induction l as [|x l IH]; intros sg s Hw Hd HN; cbn zeta; cbn [fold_left map].
      { rewrite app_nil_r. done. }
      assert (x ∉ map fst sg) as Hx.
      { apply NoDup_app in HN as (_ & HN & _). intros Hx. by apply (HN x Hx); left. }
      destruct (enter_ok sg s x TBool GBool KBool Hw Hd Hx) as (W & D & F1 & F2 & F3 & F4 & F5);
        [by exists TBool|done|].
      destruct (IH _ _ W D) as (W' & D' & F1' & F2' & F3' & F4' & F5').
      { rewrite map_app. cbn [map fst]. by rewrite <- app_assoc. }
      rewrite <- app_assoc in W', D'. split; [done|]. split; [done|]. split_and!; congruence. }
    assert (forall l sg s, vwf sg s -> vdom sg s -> NoDup (map fst sg ++ map fst l) ->
      Forall (fun '(_, t) => t <> TBool) l ->
      let s' := fold_left (fun s '(x, t) => enter s x (Obj (Sym x t) GFloat)) l s in
      vwf (sg ++ map (fun '(x, _) => (x, KNum)) l) s' /\ vdom (sg ++ map (fun '(x, _) => (x, KNum)) l) s' /\
      v_bools s' = v_bools s /\ v_reals s' = v_reals s /\ v_support s' = v_support s /\
      v_weight s' = v_weight s /\ v_queries s' = v_queries s) as HX.
    { induction l as [|[x t] l IH]; intros sg s Hw Hd HN HF; cbn zeta; cbn [fold_left map].
      { rewrite app_nil_r. done. }
      inversion HF as [|? ? Ht HF']; subst. cbn [map fst] in HN.
      assert (x ∉ map fst sg) as Hx.
      { apply NoDup_app in HN as (_ & HN & _). intros Hx. by apply (HN x Hx); left. }
      destruct (enter_ok sg s x t GFloat KNum Hw Hd Hx) as (W & D & F1 & F2 & F3 & F4 & F5).
      { exists t. by destruct t. }
      { by destruct t. }
      destruct (IH _ _ W D) as (W' & D' & F1' & F2' & F3' & F4' & F5'); [|done|].
      { rewrite map_app. cbn [map fst]. by rewrite <- app_assoc. }
      rewrite <- app_assoc in W', D'. split; [done|]. split; [done|]. split_and!; congruence. }
    destruct (HA domA [] s0) as (W & D & F1 & F2 & F3 & F4 & F5).
    { split; [constructor|]. intros x a Hx. done. }
    { intros x. cbn. split; [intros Hx; by apply elem_of_nil in Hx|by intros [? ?]]. }
    { cbn. by apply NoDup_app in Hnd as [? _]. }
    destruct (HX domX _ _ W D) as (W' & D' & F1' & F2' & F3' & F4' & F5'); [|done|].
    { cbn [app]. rewrite map_map. cbn [fst]. by rewrite map_id. }
    split; [done|]. split; [done|].
    split_and!; [by rewrite F1', F1|by rewrite F2', F2|by rewrite F3', F3|by rewrite F4', F4|by rewrite F5', F5].
  Qed.
End Commands.

(** * Acceptance *)

Definition tag_ty (g : stag) : ty := match g with GBool => TBool | GInt => TInt | GFloat => TReal end.
(** The tag is the type of the formula. *)
Definition texact (o : obj) : Prop := typeof (o_value o) = Some (tag_ty (o_type o)).

Lemma texact_kind o e v : texact o -> eval e (o_value o) = Some v -> vk v = gk (o_type o).
Proof. intros H He. rewrite (typeof_kind _ _ e v H He). by destruct (o_type o). Qed.

Lemma to_real_exact o : texact o -> gk (o_type o) = true ->
  exists v, to_real (o_value o) = Ok v /\ typeof v = Some TReal /\
    (is_const (o_value o) = true -> is_const v = true).
Proof.
  unfold texact, to_real. intros Ht Hg. rewrite Ht. destruct (o_type o); [done| |]; cbn [tag_ty] in *.
  - assert (typeof (ToRealN (o_value o)) = Some TReal) as HR by (cbn [typeof]; by rewrite Ht).
    destruct (o_value o); eexists; (split; [reflexivity|]); (split; [first [exact HR|done]|done]).
  - by exists (o_value o).
Qed.

Lemma texact_insert h a o : Forall texact h -> texact o -> Forall texact (<[a := o]> h).
Proof. intros H Ho. by apply Forall_insert. Qed.

Lemma texact_lookup h a o : Forall texact h -> h !! a = Some o -> texact o.
Proof. intros H Ho. by eapply Forall_lookup_1. Qed.

Lemma lookup_set s a o : is_Some (v_heap s !! a) -> v_heap (vset s a o) !! a = Some o.
Proof. intros [? H]. cbn. apply list_lookup_insert. by eapply lookup_lt_Some. Qed.
Lemma lookup_set_ne s a b o : a <> b -> v_heap (vset s a o) !! b = v_heap s !! b.
Proof. intros H. cbn. by apply list_lookup_insert_ne. Qed.

Lemma cast_exact s a b oa ob : Forall texact (v_heap s) ->
  v_heap s !! a = Some oa -> v_heap s !! b = Some ob -> gk (o_type oa) = gk (o_type ob) ->
  exists s' oa' ob', cast s a b = Ok (s', true) /\ v_heap s' !! a = Some oa' /\
    v_heap s' !! b = Some ob' /\ o_type oa' = o_type ob' /\ Forall texact (v_heap s') /\
    (is_const (o_value ob) = true -> is_const (o_value ob') = true).
Proof.
  intros HT Ha Hb Hk. unfold cast. rewrite (proj2 (vget_ok _ _ _) Ha). cbn [rbind].
  rewrite (proj2 (vget_ok _ _ _) Hb). cbn [rbind].
  destruct (decide (o_type oa = o_type ob)) as [E|E]; [by exists s, oa, ob|].
  assert (a <> b) as Hne by (intros ->; simplify_eq; done).
  pose proof (texact_lookup _ _ _ HT Ha) as Ta. pose proof (texact_lookup _ _ _ HT Hb) as Tb.
  assert (gk (o_type oa) = true /\ gk (o_type ob) = true) as [Ka Kb].
  { destruct (o_type oa), (o_type ob); done. }
  destruct (to_real_exact oa Ta Ka) as (va & Ea & Tva & _).
  destruct (to_real_exact ob Tb Kb) as (vb & Eb & Tvb & Cb).
  set (s1 := vset s a (Obj va (o_type oa))).
  assert (v_heap s1 !! b = Some ob) as Hb1 by (unfold s1; rewrite lookup_set_ne by done; done).
  set (s2 := vset s1 b (Obj vb (o_type ob))).
  assert (v_heap s2 !! a = Some (Obj va (o_type oa))) as Ha2.
  { unfold s2. rewrite lookup_set_ne by done. unfold s1. apply lookup_set. rewrite Ha. eauto. }
  set (s3 := vset s2 a (Obj va GFloat)).
  assert (v_heap s3 !! b = Some (Obj vb (o_type ob))) as Hb3.
  { unfold s3. rewrite lookup_set_ne by done. unfold s2. apply lookup_set. rewrite Hb1. eauto. }
  set (s4 := vset s3 b (Obj vb GFloat)).
  assert (exists s' oa' ob', (let! va := to_real (o_value oa) in
      let s1 := vset s a (Obj va (o_type oa)) in
      let! ob1 := vget s1 b in
      let! vb := to_real (o_value ob1) in
      let s2 := vset s1 b (Obj vb (o_type ob1)) in
      let! oa2 := vget s2 a in
      let s3 := vset s2 a (Obj (o_value oa2) GFloat) in
      let! ob3 := vget s3 b in
      Ok (vset s3 b (Obj (o_value ob3) GFloat), true)) = Ok (s', true) /\ v_heap s' !! a = Some oa' /\
    v_heap s' !! b = Some ob' /\ o_type oa' = o_type ob' /\ Forall texact (v_heap s') /\
    (is_const (o_value ob) = true -> is_const (o_value ob') = true)) as HR.
  { exists s4, (Obj va GFloat), (Obj vb GFloat).
    rewrite Ea. cbn [rbind]. cbn zeta. fold s1. rewrite (proj2 (vget_ok _ _ _) Hb1). cbn [rbind].
    rewrite Eb. cbn [rbind]. fold s2. rewrite (proj2 (vget_ok _ _ _) Ha2). cbn [rbind o_value].
    fold s3. rewrite (proj2 (vget_ok _ _ _) Hb3). cbn [rbind o_value]. fold s4.
    split_and!; [done| | |done| |done].
    - unfold s4. rewrite lookup_set_ne by done. unfold s3. apply lookup_set. rewrite Ha2. eauto.
    - unfold s4. apply lookup_set. rewrite Hb3. eauto.
    - apply Forall_lookup. intros i x Hx.
      destruct (decide (b = i)) as [<-|Hb'].
      { unfold s4 in Hx. rewrite lookup_set in Hx by (rewrite Hb3; eauto). by injection Hx as <-. }
      unfold s4 in Hx. rewrite lookup_set_ne in Hx by done.
      destruct (decide (a = i)) as [<-|Ha'].
      { unfold s3 in Hx. rewrite lookup_set in Hx by (rewrite Ha2; eauto). by injection Hx as <-. }
      unfold s3 in Hx. rewrite lookup_set_ne in Hx by done.
      unfold s2 in Hx. rewrite lookup_set_ne in Hx by done.
      unfold s1 in Hx. rewrite lookup_set_ne in Hx by done. by eapply texact_lookup. }
  destruct (o_type oa) eqn:Ga, (o_type ob) eqn:Gb; try done; exact HR.
Qed.

Section Accept.
  Variable fl : Qc -> Qc.
  Notation V := (visit_term fl).
  Variable sg : list (string * skind).

  Definition inv (s : vstate) : Prop :=
    vwf sg s /\ vdom sg s /\ Forall texact (v_heap s) /\
    Forall (fun x => x ∉ unsupported_symbols) (map fst sg).

  Lemma inv_hle s s' : inv s -> hle s s' -> Forall texact (v_heap s') -> inv s'.
  Proof.
    intros (A & B & C & D) L HT. split; [by eapply vwf_hle|]. split; [by eapply vdom_hle|]. done.
  Qed.

  Definition accepts (t : sterm) : Prop :=
    forall s e v, inv s -> pairwise t -> exact_decimals fl t -> meaning sg e t v ->
    exists s' a o, V s t = Ok (s', VExpr a) /\ v_heap s' !! a = Some o /\ gk (o_type o) = vk v /\
      eval e (o_value o) = Some v /\ Forall texact (v_heap s') /\
      (literal t -> is_const (o_value o) = true).

  Lemma accepts_inv t s e v : accepts t -> inv s -> pairwise t -> exact_decimals fl t -> meaning sg e t v ->
    exists s' a o, V s t = Ok (s', VExpr a) /\ v_heap s' !! a = Some o /\ gk (o_type o) = vk v /\
      eval e (o_value o) = Some v /\ inv s' /\ hle s s' /\ (literal t -> is_const (o_value o) = true).
  Proof.
    intros HA Hi Hp He Hm. destruct (HA s e v Hi Hp He Hm) as (s' & a & o & E & Ho & Hk & Hev & HT & HL).
    destruct (visit_term_ok fl sg t s s' (VExpr a) (proj1 Hi) E) as [L _].
    exists s', a, o. split_and!; try done. by eapply inv_hle.
  Qed.

  Lemma alloc_inv s o s' a : inv s -> texact o -> valloc s o = (s', a) -> inv s' /\ hle s s' /\ v_heap s' !! a = Some o.
  Proof.
    intros Hi Ho E. destruct (hle_alloc _ _ _ _ E) as [L Ha]. split_and!; [|done|done].
    eapply inv_hle; [done|done|]. injection E as <- <-. cbn. apply Forall_app. split; [apply Hi|].
    by constructor.
  Qed.

  (** Operands that are not cast: those of and, or, not and ite. *)
  Lemma operands_accept op args : Forall accepts args -> forall vs s last e, inv s ->
    Forall pairwise args -> Forall (exact_decimals fl) args -> Forall2 (meaning sg e) args vs ->
    (op ∈ same_type_op -> Forall (fun v => vk v = false) vs /\
      forall b, last = Some b -> exists o, v_heap s !! b = Some o /\ o_type o = GBool) ->
    exists s' ts, operands V op args s last = Ok (s', ts) /\ inv s' /\ hle s s' /\
      Forall2 (fun a v => exists o, v_heap s' !! a = Some o /\ gk (o_type o) = vk v /\
        eval e (o_value o) = Some v) ts vs.
  Proof.
    induction 1 as [|t args Ht HF IH]; intros vs s last e Hi HP HE HM Hop.
    { inversion HM; subst. exists s, []. split_and!; [done|done|apply hle_refl|constructor]. }
    inversion HM as [|? v ? vs' Hv HM']; subst. inversion HP; subst. inversion HE; subst.
    destruct (accepts_inv t s e v) as (s1 & a & o & E & Ho & Hk & Hev & Hi1 & L1 & _); [done..|].
    cbn [operands]. fold (operands V op). rewrite E. cbn [rbind].
    assert (exists last2, match last with
        | None => Ok (s1, a)
        | Some b => if decide (op ∈ same_type_op) then
              let! (s2, same) := cast s1 b a in if same : bool then Ok (s2, a) else Err ParsingError
            else Ok (s1, b)
        end = Ok (s1, last2) /\ (op ∈ same_type_op -> last2 = a)) as (last2 & -> & Hl2).
    { destruct last as [b|]; [|by exists a]. destruct (decide (op ∈ same_type_op)) as [Hin|]; [|by exists b].
      destruct (Hop Hin) as [HB Hb]. destruct (Hb b eq_refl) as (ob & Hob & Gb).
      destruct (proj2 L1 b ob Hob) as (ob' & Hob' & (_ & _ & _ & Hg)).
      exists a. split; [|done]. unfold cast. rewrite (proj2 (vget_ok _ _ _) Hob'). cbn [rbind].
      rewrite (proj2 (vget_ok _ _ _) Ho). cbn [rbind]. rewrite decide_True; [done|].
      inversion HB as [|? ? Hvk _]; subst. rewrite Gb in Hg. rewrite Hvk in Hk.
      destruct (o_type ob'), (o_type o); done. }
    cbn [rbind].
    destruct (IH vs' s1 (Some last2) e) as (s2 & ts & -> & Hi2 & L2 & HF2); [done..| |].
    { intros Hin. destruct (Hop Hin) as [HB _]. inversion HB as [|? ? Hvk HB']; subst. split; [done|].
      intros b [= <-]. rewrite (Hl2 Hin). exists o. split; [done|]. rewrite Hvk in Hk.
      by destruct (o_type o). }
    exists s2, (a :: ts). cbn [rbind]. split_and!; [done|done|by eapply hle_trans|].
    constructor; [|done]. destruct (proj2 L2 a o Ho) as (o' & Ho' & (A & _ & _ & D)). exists o'.
    split_and!; [done|congruence|by apply A].
  Qed.

  (** Two operands that are cast to each other. *)
  Lemma two_operands op t1 t2 s e v1 v2 : op ∈ same_type_op -> accepts t1 -> accepts t2 -> inv s ->
    pairwise t1 -> pairwise t2 -> exact_decimals fl t1 -> exact_decimals fl t2 ->
    meaning sg e t1 v1 -> meaning sg e t2 v2 -> vk v1 = vk v2 ->
    exists s' a b oa ob, operands V op [t1; t2] s None = Ok (s', [a; b]) /\ inv s' /\
      v_heap s' !! a = Some oa /\ v_heap s' !! b = Some ob /\ o_type oa = o_type ob /\
      gk (o_type oa) = vk v1 /\
      eval e (o_value oa) = Some v1 /\ eval e (o_value ob) = Some v2 /\
      (literal t2 -> is_const (o_value ob) = true).
  Proof.
    intros Hop A1 A2 Hi P1 P2 E1 E2 M1 M2 Hvk.
    destruct (accepts_inv t1 s e v1) as (s1 & a & o1 & X1 & Ho1 & Hk1 & Hev1 & Hi1 & L1 & _); [done..|].
    destruct (accepts_inv t2 s1 e v2) as (s2 & b & o2 & X2 & Ho2 & Hk2 & Hev2 & Hi2 & L2 & C2); [done..|].
    destruct (proj2 L2 a o1 Ho1) as (o1' & Ho1' & (EV1 & _ & _ & Hg1)).
    destruct (cast_exact s2 a b o1' o2) as (s3 & oa & ob & EC & Ha & Hb & Hty & HT & HC);
      [apply Hi2|done|done|congruence|].
    destruct (cast_ok _ _ _ _ _ _ _ Ho1' Ho2 EC) as [L3 _].
    destruct (proj2 L3 a o1' Ho1') as (oa' & Ha' & (EVa & _ & _ & Hga)).
    destruct (proj2 L3 b o2 Ho2) as (ob' & Hb' & (EVb & _ & _ & Hgb)). simplify_eq.
    exists s3, a, b, oa, ob. cbn [operands]. rewrite X1. cbn [rbind]. rewrite X2. cbn [rbind].
    rewrite decide_True by done. rewrite EC. cbn [rbind].
    split_and!; try done; [by eapply inv_hle|congruence|by apply EVa, EV1|by apply EVb|auto].
  Qed.

  Lemma nary2 a b t : typeof a = Some t -> typeof b = Some t -> ty_num t = true ->
    nary_num [typeof a; typeof b] = Some t.
  Proof.
    intros Ha Hb Ht. apply (nary_num_intro [a; b] t Ht); [done|].
    apply Forall_cons_2; [done|]. apply Forall_cons_2; [done|]. constructor.
  Qed.

  Lemma pairwise_args op args : pairwise (TApp op args) -> Forall pairwise args.
  Proof.
    cbn. intros (_ & _ & H). induction args as [|t args IH]; [constructor|]. destruct H as [H1 H2].
    constructor; [done|]. by apply IH.
  Qed.

  Lemma chk_typed f t : typeof f = Some t -> chk f = Ok f.
  Proof. intros H. unfold chk. by rewrite H. Qed.

  (** From the operands' objects to the object of the application. *)
  Lemma finish op args s s1 ts os e vs v f g :
    visit_symbol s op = Ok (s, VSymbol op) -> operands V op args s None = Ok (s1, ts) -> inv s1 ->
    Forall2 (fun a o => v_heap s1 !! a = Some o) ts os ->
    Forall2 (fun o w => eval e (o_value o) = Some w) os vs ->
    op <> "ite"%string -> op_meaning op vs v -> app_value op os = Ok (f, g) -> texact (Obj f g) ->
    exists s' a o, V s (TApp op args) = Ok (s', VExpr a) /\ v_heap s' !! a = Some o /\
      gk (o_type o) = vk v /\ eval e (o_value o) = Some v /\ Forall texact (v_heap s') /\
      (literal (TApp op args) -> is_const (o_value o) = true).
  Proof.
    intros Hs Ho Hi HF HV Hne Hop Ha Ht.
    pose proof (app_value_meaning e op os vs v f g Hne Hop HV Ha) as Hev.
    cbn [visit_term]. rewrite Hs. cbn [rbind]. rewrite Ho. cbn [rbind]. rewrite decide_False by done.
    assert (rmapM (vget s1) ts = Ok os) as ->.
    { apply rmapM_Forall2. eapply Forall2_impl; [exact HF|]. intros a o H. by apply vget_ok. }
    cbn [rbind]. rewrite Ha. cbn [rbind].
    destruct (valloc s1 (Obj f g)) as [s2 a] eqn:E.
    destruct (alloc_inv _ _ _ _ Hi Ht E) as (Hi2 & L2 & Ha2).
    exists s2, a, (Obj f g). split_and!; [done|done| |done|apply Hi2|done].
    symmetry. by apply (texact_kind (Obj f g) e v Ht).
  Qed.

  Lemma objs_of s1 ts vs e : inv s1 ->
    Forall2 (fun a v => exists o, v_heap s1 !! a = Some o /\ gk (o_type o) = vk v /\
      eval e (o_value o) = Some v) ts vs ->
    exists os, Forall2 (fun a o => v_heap s1 !! a = Some o) ts os /\
      Forall2 (fun o w => eval e (o_value o) = Some w) os vs /\
      (forall bs, vs = map VB bs -> Forall (fun f => typeof f = Some TBool) (map o_value os)).
  Proof.
    intros Hi HF. induction HF as [|a v ts vs (o & Ho & Hk & Hev) HF IH].
    { exists []. split_and!; constructor. }
    destruct IH as (os & HO & HV & HB). exists (o :: os). split_and!; [by constructor..|].
    intros [|b bs] Hbs; [done|]. cbn in Hbs. injection Hbs as -> ->. cbn [map].
    constructor; [|by eapply HB].
    pose proof (texact_lookup _ _ _ (proj1 (proj2 (proj2 Hi))) Ho) as To. unfold texact in To.
    cbn in Hk. by destruct (o_type o).
  Qed.

  (** ite, for branches of the same kind. *)
  Lemma ite_accept args s e vs v : Forall accepts args -> inv s -> Forall pairwise args ->
    Forall (exact_decimals fl) args -> Forall2 (meaning sg e) args vs ->
    (exists (b : bool) w1 w2, vs = [VB b; w1; w2] /\ vk w1 = vk w2 /\ vite b w1 w2 = Some v) ->
    exists s' a o, V s (TApp "ite" args) = Ok (s', VExpr a) /\ v_heap s' !! a = Some o /\
      gk (o_type o) = vk v /\ eval e (o_value o) = Some v /\ Forall texact (v_heap s') /\
      (literal (TApp "ite" args) -> is_const (o_value o) = true).
  Proof.
    intros HA Hi HP HE HM (b & w1 & w2 & -> & Hvk & Hv).
    destruct (operands_accept "ite" args HA _ s None e Hi HP HE HM) as (s1 & ts & EO & Hi1 & L1 & HF1).
    { intros Hin. exfalso. revert Hin. apply (bool_decide_unpack (~ _)). vm_compute. exact I. }
    inversion HF1 as [|c ? ? ? (oc & Hc & Kc & Vc) HF2]; subst.
    inversion HF2 as [|u ? ? ? (ou & Hu & Ku & Vu) HF3]; subst.
    inversion HF3 as [|w ? ? ? (ow & Hw & Kw & Vw) HF4]; subst. inversion HF4; subst.
    cbn [visit_term]. assert (visit_symbol s "ite" = Ok (s, VSymbol "ite")) as -> by done. cbn [rbind].
    rewrite EO. cbn [rbind]. rewrite decide_True by done. unfold ite_value.
    rewrite (proj2 (vget_ok _ _ _) Hc). cbn [rbind]. cbn in Kc.
    rewrite decide_True by (by destruct (o_type oc)).
    destruct (cast_exact s1 u w ou ow) as (s2 & ou' & ow' & EC & Hu' & Hw' & Hty & HT & _);
      [apply Hi1|done|done|congruence|].
    destruct (cast_ok _ _ _ _ _ _ _ Hu Hw EC) as [L2 _].
    destruct (proj2 L2 c oc Hc) as (oc' & Hc' & (EVc & _ & _ & Gc)).
    destruct (proj2 L2 u ou Hu) as (ou2 & Hu2 & (EVu & _ & _ & Gu)).
    destruct (proj2 L2 w ow Hw) as (ow2 & Hw2 & (EVw & _ & _ & Gw)).
    rewrite Hu' in Hu2. injection Hu2 as <-. rewrite Hw' in Hw2. injection Hw2 as <-.
    rewrite EC. cbn [rbind].
    rewrite (proj2 (vget_ok _ _ _) Hc'). cbn [rbind].
    rewrite (proj2 (vget_ok _ _ _) Hu'). cbn [rbind].
    rewrite (proj2 (vget_ok _ _ _) Hw'). cbn [rbind].
    pose proof (texact_lookup _ _ _ HT Hc') as Tc. pose proof (texact_lookup _ _ _ HT Hu') as Tu.
    pose proof (texact_lookup _ _ _ HT Hw') as Tw. unfold texact in Tc, Tu, Tw.
    assert (o_type oc' = GBool) as Gc' by (rewrite Kc in Gc; by destruct (o_type oc')).
    rewrite Gc' in Tc. rewrite <- Hty in Tw. cbn [tag_ty] in Tc.
    assert (typeof (IteN (o_value oc') (o_value ou') (o_value ow')) = Some (tag_ty (o_type ou'))) as HTI.
    { cbn [typeof]. rewrite Tc, Tu, Tw. by rewrite !bool_decide_true. }
    rewrite (chk_typed _ _ HTI). cbn [rbind].
    destruct (valloc s2 _) as [s3 a] eqn:E.
    assert (inv s2) as Hi2 by (by eapply inv_hle).
    destruct (alloc_inv _ (Obj (IteN (o_value oc') (o_value ou') (o_value ow')) (o_type ou')) _ _ Hi2 HTI E)
      as (Hi3 & L3 & Ha3).
    assert (eval e (IteN (o_value oc') (o_value ou') (o_value ow')) = Some v) as Hev.
    { cbn [eval]. rewrite (EVc e _ Vc), (EVu e _ Vu), (EVw e _ Vw). exact Hv. }
    eexists s3, a, _. split_and!; [done|exact Ha3| |exact Hev|apply Hi3|done].
    symmetry. exact (texact_kind (Obj _ (o_type ou')) e v HTI Hev).
  Qed.

  (** A binary operator on numbers. *)
  Lemma binary op (P : fm -> fm -> fm) (g : stag -> stag) t1 t2 s e x1 x2 v :
    op ∈ same_type_op -> op <> "ite"%string -> visit_symbol s op = Ok (s, VSymbol op) ->
    (forall o1 o2, gk (o_type o1) = true -> gk (o_type o2) = true -> texact o1 -> texact o2 ->
       app_value op [o1; o2] = let! v := chk (P (o_value o1) (o_value o2)) in Ok (v, g (o_type o1))) ->
    (forall a b h, gk h = true -> typeof a = Some (tag_ty h) -> typeof b = Some (tag_ty h) ->
       typeof (P a b) = Some (tag_ty (g h))) ->
    accepts t1 -> accepts t2 -> inv s ->
    pairwise t1 -> pairwise t2 -> exact_decimals fl t1 -> exact_decimals fl t2 ->
    meaning sg e t1 (VN x1) -> meaning sg e t2 (VN x2) -> op_meaning op [VN x1; VN x2] v ->
    exists s' a o, V s (TApp op [t1; t2]) = Ok (s', VExpr a) /\ v_heap s' !! a = Some o /\
      gk (o_type o) = vk v /\ eval e (o_value o) = Some v /\ Forall texact (v_heap s') /\
      (literal (TApp op [t1; t2]) -> is_const (o_value o) = true).
  Proof.
    intros Hop Hne Hs Happ HP A1 A2 Hi P1 P2 E1 E2 M1 M2 Hm.
    destruct (two_operands op t1 t2 s e _ _ Hop A1 A2 Hi P1 P2 E1 E2 M1 M2 eq_refl)
      as (s1 & a & b & oa & ob & EO & Hi1 & Ha & Hb & Hty & Hk & Va & Vb & _).
    pose proof (texact_lookup _ _ _ (proj1 (proj2 (proj2 Hi1))) Ha) as Ta.
    pose proof (texact_lookup _ _ _ (proj1 (proj2 (proj2 Hi1))) Hb) as Tb.
    cbn in Hk. assert (typeof (P (o_value oa) (o_value ob)) = Some (tag_ty (g (o_type oa)))) as HT.
    { apply HP; [done|done|]. rewrite Hty. exact Tb. }
    eapply (finish op [t1; t2] s s1 [a; b] [oa; ob] e [VN x1; VN x2] v); try done.
    - apply Forall2_cons_2; [done|]. by apply Forall2_cons_2.
    - apply Forall2_cons_2; [done|]. by apply Forall2_cons_2.
    - rewrite Happ by (done || congruence). rewrite (chk_typed _ _ HT). cbn [rbind]. reflexivity.
  Qed.

  Lemma visit_accepts t : accepts t.
  Proof.
    induction t as [z|q|ds|x|x|op args IH|op args|] using sterm_ind'; intros s e v Hi HP HE Hm;
      try (by inversion Hm).
    - inversion Hm; subst. cbn [visit_term]. destruct (valloc s _) as [s1 a] eqn:E.
      destruct (alloc_inv _ (Obj (IntC z) GInt) _ _ Hi eq_refl E) as (Hi1 & L1 & Ha1).
      eexists s1, a, _. split_and!; [done|exact Ha1|done..|apply Hi1|done].
    - inversion Hm; subst. cbn [visit_term]. destruct (valloc s _) as [s1 a] eqn:E.
      destruct (alloc_inv _ (Obj (RealC (fl q)) GFloat) _ _ Hi eq_refl E) as (Hi1 & L1 & Ha1).
      eexists s1, a, _. split_and!; [done|exact Ha1|done| |apply Hi1|done]. cbn. cbn in HE. by rewrite HE.
    - cbn [visit_term]. unfold visit_symbol.
      destruct (decide (x = "true"%string)) as [->|Ht].
      { destruct (valloc s _) as [s1 a] eqn:E.
        destruct (alloc_inv _ (Obj (BoolC true) GBool) _ _ Hi eq_refl E) as (Hi1 & L1 & Ha1).
        assert (v = VB true) as -> by (inversion Hm; subst; done).
        eexists s1, a, _. split_and!; [done|exact Ha1|done..|apply Hi1|done]. }
      destruct (decide (x = "false"%string)) as [->|Hf].
      { destruct (valloc s _) as [s1 a] eqn:E.
        destruct (alloc_inv _ (Obj (BoolC false) GBool) _ _ Hi eq_refl E) as (Hi1 & L1 & Ha1).
        assert (v = VB false) as -> by (inversion Hm; subst; done).
        eexists s1, a, _. split_and!; [done|exact Ha1|done..|apply Hi1|done]. }
      assert (exists k, (x, k) ∈ sg /\ v = kval e x k) as (k & Hk & ->).
      { inversion Hm; subst; try done; [by exists KBool|by exists KNum]. }
      destruct Hi as ([Hnd Hv] & Hd & HT & Hbad).
      assert (x ∈ map fst sg) as Hx by (change x with (fst (x, k)); by apply elem_of_list_fmap_1).
      rewrite decide_False by (rewrite Forall_forall in Hbad; by apply Hbad). cbn [rbind].
      apply Hd in Hx as [a Ha]. rewrite Ha. destruct (Hv x a Ha) as (o & k' & Ho & Hk' & HA & He).
      assert (k' = k) as -> by (by eapply kind_unique).
      exists s, a, o. split_and!; [done|done| |done|done|done].
      symmetry. apply (texact_kind o e); [by eapply texact_lookup|done].
    - inversion Hm as [| | | | | |? ? vs ? HM Hop]; subst.
      pose proof (pairwise_args _ _ HP) as HP'. pose proof (exact_args _ _ _ HE) as HE'.
      destruct HP as (Hlen & Hdiv & _).
      assert (forall P Q R : sterm -> Prop, forall w1 w2, vs = [w1; w2] ->
        Forall P args -> Forall Q args -> Forall R args -> exists t1 t2, args = [t1; t2] /\ P t1 /\ P t2 /\ Q t1 /\ Q t2 /\
        R t1 /\ R t2 /\ meaning sg e t1 w1 /\ meaning sg e t2 w2) as H2.
      { intros P Q R w1 w2 -> FP FQ FR. destruct (two_inv _ _ _ _ HM) as (t1 & t2 & -> & M1 & M2).
        exists t1, t2. inversion FP as [|? ? ? FP']; subst. inversion FP'; subst.
        inversion FQ as [|? ? ? FQ']; subst. inversion FQ'; subst.
        inversion FR as [|? ? ? FR']; subst. by inversion FR'; subst. }
      assert (forall h : stag, gk h = true -> ty_num (tag_ty h) = true) as Hnum by (by intros []).
      destruct Hop.
      + destruct (H2 accepts pairwise (exact_decimals fl) _ _ eq_refl IH HP' HE')
          as (t1 & t2 & -> & A1 & A2 & P1 & P2 & E1 & E2 & M1 & M2).
        apply (binary "=" EqN (fun _ => GBool) t1 t2 s e x y); try done; [dec| | |constructor].
        * intros o1 o2 K1 K2 T1 T2. 
          assert (app_value "=" [o1; o2] = let! v := chk (mkEqOrIff (o_value o1) (o_value o2)) in Ok (v, GBool)) as -> by done.
          unfold mkEqOrIff. unfold texact in T1. rewrite T1. by destruct (o_type o1).
        * intros a b h Hh Ha Hb. cbn [typeof]. by rewrite (nary2 a b (tag_ty h)) by auto.
      + destruct (H2 accepts pairwise (exact_decimals fl) _ _ eq_refl IH HP' HE')
          as (t1 & t2 & -> & A1 & A2 & P1 & P2 & E1 & E2 & M1 & M2).
        destruct (two_operands "=" t1 t2 s e _ _ ltac:(dec) A1 A2 Hi P1 P2 E1 E2 M1 M2 eq_refl)
          as (s1 & p & r & oa & ob & EO & Hi1 & Ha & Hb & Hty & Hk & Va & Vb & _).
        pose proof (texact_lookup _ _ _ (proj1 (proj2 (proj2 Hi1))) Ha) as Ta.
        pose proof (texact_lookup _ _ _ (proj1 (proj2 (proj2 Hi1))) Hb) as Tb.
        unfold texact in Ta, Tb. rewrite <- Hty in Tb. cbn in Hk. destruct (o_type oa) eqn:Goa; try done.
        cbn [tag_ty] in Ta, Tb.
        assert (typeof (IffN (o_value oa) (o_value ob)) = Some TBool) as HT.
        { cbn [typeof]. by rewrite Ta, Tb. }
        eapply (finish "=" [t1; t2] s s1 [p; r] [oa; ob] e [VB a; VB b]); try done.
        * apply Forall2_cons_2; [done|]. by apply Forall2_cons_2.
        * apply Forall2_cons_2; [done|]. by apply Forall2_cons_2.
        * constructor.
        * assert (app_value "=" [oa; ob] = let! v := chk (mkEqOrIff (o_value oa) (o_value ob)) in Ok (v, GBool)) as -> by done.
          unfold mkEqOrIff. rewrite Ta.
          rewrite (chk_typed _ _ HT). cbn [rbind]. reflexivity.
        * exact HT.
      + destruct (H2 accepts pairwise (exact_decimals fl) _ _ eq_refl IH HP' HE')
          as (t1 & t2 & -> & A1 & A2 & P1 & P2 & E1 & E2 & M1 & M2).
        apply (binary ">" (fun a b => LtN b a) (fun _ => GBool) t1 t2 s e x y); try done; [dec| |constructor].
        intros a b h Hh Ha Hb. cbn [typeof]. by rewrite (nary2 b a (tag_ty h)) by auto.
      + destruct (H2 accepts pairwise (exact_decimals fl) _ _ eq_refl IH HP' HE')
          as (t1 & t2 & -> & A1 & A2 & P1 & P2 & E1 & E2 & M1 & M2).
        apply (binary ">=" (fun a b => LeN b a) (fun _ => GBool) t1 t2 s e x y); try done; [dec| |constructor].
        intros a b h Hh Ha Hb. cbn [typeof]. by rewrite (nary2 b a (tag_ty h)) by auto.
      + destruct (H2 accepts pairwise (exact_decimals fl) _ _ eq_refl IH HP' HE')
          as (t1 & t2 & -> & A1 & A2 & P1 & P2 & E1 & E2 & M1 & M2).
        apply (binary "<" LtN (fun _ => GBool) t1 t2 s e x y); try done; [dec| |constructor].
        intros a b h Hh Ha Hb. cbn [typeof]. by rewrite (nary2 a b (tag_ty h)) by auto.
      + destruct (H2 accepts pairwise (exact_decimals fl) _ _ eq_refl IH HP' HE')
          as (t1 & t2 & -> & A1 & A2 & P1 & P2 & E1 & E2 & M1 & M2).
        apply (binary "<=" LeN (fun _ => GBool) t1 t2 s e x y); try done; [dec| |constructor].
        intros a b h Hh Ha Hb. cbn [typeof]. by rewrite (nary2 a b (tag_ty h)) by auto.
      + (* => *)
        destruct (H2 accepts pairwise (exact_decimals fl) _ _ eq_refl IH HP' HE')
          as (t1 & t2 & -> & A1 & A2 & P1 & P2 & E1 & E2 & M1 & M2).
        destruct (two_operands "=>" t1 t2 s e _ _ ltac:(dec) A1 A2 Hi P1 P2 E1 E2 M1 M2 eq_refl)
          as (s1 & p & r & oa & ob & EO & Hi1 & Ha & Hb & Hty & Hk & Va & Vb & _).
        pose proof (texact_lookup _ _ _ (proj1 (proj2 (proj2 Hi1))) Ha) as Ta.
        pose proof (texact_lookup _ _ _ (proj1 (proj2 (proj2 Hi1))) Hb) as Tb.
        unfold texact in Ta, Tb. rewrite <- Hty in Tb. cbn in Hk. destruct (o_type oa) eqn:Goa; try done.
        cbn [tag_ty] in Ta, Tb.
        assert (typeof (ImpN (o_value oa) (o_value ob)) = Some TBool) as HT.
        { cbn [typeof]. by rewrite Ta, Tb. }
        eapply (finish "=>" [t1; t2] s s1 [p; r] [oa; ob] e [VB a; VB b]); try done.
        * apply Forall2_cons_2; [done|]. by apply Forall2_cons_2.
        * apply Forall2_cons_2; [done|]. by apply Forall2_cons_2.
        * constructor.
        * assert (app_value "=>" [oa; ob] = let! v := chk (ImpN (o_value oa) (o_value ob)) in Ok (v, GBool)) as -> by done.
          rewrite (chk_typed _ _ HT). cbn [rbind]. reflexivity.
        * exact HT.
      + (* + *)
        assert (length args = 2%nat) as Hl by (apply Hlen; dec).
        assert (exists y, qs = [y]) as [y ->].
        { apply Forall2_length in HM. cbn in HM. rewrite map_length in HM.
          destruct qs as [|y [|? ?]]; cbn in HM; try lia. by exists y. }
        destruct (H2 accepts pairwise (exact_decimals fl) _ _ eq_refl IH HP' HE')
          as (t1 & t2 & -> & A1 & A2 & P1 & P2 & E1 & E2 & M1 & M2).
        apply (binary "+" (fun a b => PlusN [a; b]) (fun h => h) t1 t2 s e q y); try done; [dec| |].
        * intros a b h Hh Ha Hb. cbn [typeof map]. by rewrite (nary2 a b (tag_ty h)) by auto.
        * exact (om_plus q [y]).
      + (* - *)
        destruct (H2 accepts pairwise (exact_decimals fl) _ _ eq_refl IH HP' HE')
          as (t1 & t2 & -> & A1 & A2 & P1 & P2 & E1 & E2 & M1 & M2).
        apply (binary "-" MinusN (fun h => h) t1 t2 s e x y); try done; [dec| |constructor].
        intros a b h Hh Ha Hb. cbn [typeof]. by rewrite (nary2 a b (tag_ty h)) by auto.
      + (* unary - *)
        destruct args as [|t1 [|? ?]]; [by inversion HM| |by inversion HM as [|? ? ? ? _ HM']; inversion HM'].
        inversion HM as [|? ? ? ? M1 _]; subst. inversion IH as [|? ? A1 _]; subst.
        inversion HP' as [|? ? P1 _]; subst. inversion HE' as [|? ? E1 _]; subst.
        destruct (accepts_inv t1 s e (VN x)) as (s1 & a & o & X1 & Ho & Hk & Hev & Hi1 & L1 & _); [done..|].
        pose proof (texact_lookup _ _ _ (proj1 (proj2 (proj2 Hi1))) Ho) as To. unfold texact in To.
        assert (exists f, app_value "-" [o] = Ok (f, o_type o) /\ texact (Obj f (o_type o))) as (f & Hf & Tf).
        { cbn in Hk. clear -To Hk. destruct o as [fo go]. cbn [o_value o_type] in *. destruct go; [done| |]; cbn [tag_ty] in To.
          - assert (typeof (TimesN [fo; IntC (-1)]) = Some TInt) as HT.
            { exact (nary2 fo (IntC (-1)) TInt To eq_refl eq_refl). }
            exists (TimesN [fo; IntC (-1)]). split; [|exact HT].
            assert (app_value "-" [Obj fo GInt] = let! v := chk (TimesN [fo; IntC (-1)]) in Ok (v, GInt)) as ->.
            { done. }
            by rewrite (chk_typed _ _ HT).
          - assert (typeof (TimesN [fo; RealC (- (1))]) = Some TReal) as HT.
            { exact (nary2 fo (RealC (- (1))) TReal To eq_refl eq_refl). }
            exists (TimesN [fo; RealC (- (1))]). split; [|exact HT].
            assert (app_value "-" [Obj fo GFloat] = let! v := chk (TimesN [fo; RealC (- (1))]) in Ok (v, GFloat)) as ->.
            { done. }
            by rewrite (chk_typed _ _ HT). }
        eapply (finish "-" [t1] s s1 [a] [o] e [VN x]); try done.
        * cbn [operands]. rewrite X1. reflexivity.
        * by apply Forall2_cons_2.
        * by apply Forall2_cons_2.
        * constructor.
      + (* * *)
        assert (length args = 2%nat) as Hl by (apply Hlen; dec).
        assert (exists y, qs = [y]) as [y ->].
        { apply Forall2_length in HM. cbn in HM. rewrite map_length in HM.
          destruct qs as [|y [|? ?]]; cbn in HM; try lia. by exists y. }
        destruct (H2 accepts pairwise (exact_decimals fl) _ _ eq_refl IH HP' HE')
          as (t1 & t2 & -> & A1 & A2 & P1 & P2 & E1 & E2 & M1 & M2).
        apply (binary "*" (fun a b => TimesN [a; b]) (fun h => h) t1 t2 s e q y); try done; [dec| |].
        * intros a b h Hh Ha Hb. cbn [typeof map]. by rewrite (nary2 a b (tag_ty h)) by auto.
        * exact (om_times q [y]).
      + (* / *)
        destruct (H2 accepts pairwise (exact_decimals fl) _ _ eq_refl IH HP' HE')
          as (t1 & t2 & -> & A1 & A2 & P1 & P2 & E1 & E2 & M1 & M2).
        specialize (Hdiv eq_refl). cbn in Hdiv.
        destruct (two_operands "/" t1 t2 s e _ _ ltac:(dec) A1 A2 Hi P1 P2 E1 E2 M1 M2 eq_refl)
          as (s1 & p & r & oa & ob & EO & Hi1 & Ha & Hb & Hty & Hk & Va & Vb & HC).
        pose proof (texact_lookup _ _ _ (proj1 (proj2 (proj2 Hi1))) Ha) as Ta.
        pose proof (texact_lookup _ _ _ (proj1 (proj2 (proj2 Hi1))) Hb) as Tb.
        cbn in Hk. destruct (to_real_exact oa Ta Hk) as (va & Ea & Tva & _).
        assert (gk (o_type ob) = true) as Hkb by congruence.
        destruct (to_real_exact ob Tb Hkb) as (vb & Eb & Tvb & Cb).
        specialize (Cb (HC Hdiv)). destruct (to_real_num _ _ Eb) as (_ & _ & _ & _ & Evb).
        apply Evb in Vb as Vb'. assert (vb = RealC y) as ->.
        { destruct vb; try done. cbn in Vb'. by injection Vb' as ->. }
        assert (typeof (TimesN [va; RealC (1 / y)]) = Some TReal) as HT.
        { exact (nary2 va (RealC (1 / y)) TReal Tva eq_refl eq_refl). }
        eapply (finish "/" [t1; t2] s s1 [p; r] [oa; ob] e [VN x; VN y] _ (TimesN [va; RealC (1 / y)]) GFloat); try done.
        * apply Forall2_cons_2; [done|]. by apply Forall2_cons_2.
        * apply Forall2_cons_2; [done|]. by apply Forall2_cons_2.
        * by constructor.
        * assert (app_value "/" [oa; ob] = let! x := to_real (o_value oa) in let! y := to_real (o_value ob) in
            let! v := mkDiv x y in Ok (v, GFloat)) as -> by done.
          rewrite Ea, Eb. cbn [rbind mkDiv]. rewrite (proj2 (qeq_false y 0)) by done.
          rewrite (chk_typed _ _ HT). cbn [rbind]. reflexivity.
      + (* and *)
        destruct (operands_accept "and" args IH _ s None e Hi HP' HE' HM) as (s1 & ts & EO & Hi1 & L1 & HF1).
        { intros _. split; [|done]. apply Forall_fmap, Forall_true. done. }
        destruct (objs_of s1 ts _ e Hi1 HF1) as (os & HO & HV & HB).
        assert (Forall (fun f => typeof f = Some TBool) (map o_value os)) as HTs by (by eapply HB).
        assert (typeof (mkAnd (map o_value os)) = Some TBool) as HT.
        { destruct (map o_value os) as [|f1 [|f2 l]]; [done|by inversion HTs|].
          cbn [mkAnd typeof]. by rewrite (proj2 (all_ty_Forall TBool (f1 :: f2 :: l)) HTs). }
        eapply (finish "and" args s s1 ts os e); try done.
        * constructor.
        * assert (app_value "and" os = let! v := chk (mkAnd (map o_value os)) in Ok (v, GBool)) as -> by done.
          rewrite (chk_typed _ _ HT). cbn [rbind]. reflexivity.
        * exact HT.
      + (* or *)
        destruct (operands_accept "or" args IH _ s None e Hi HP' HE' HM) as (s1 & ts & EO & Hi1 & L1 & HF1).
        { intros _. split; [|done]. apply Forall_fmap, Forall_true. done. }
        destruct (objs_of s1 ts _ e Hi1 HF1) as (os & HO & HV & HB).
        assert (Forall (fun f => typeof f = Some TBool) (map o_value os)) as HTs by (by eapply HB).
        assert (typeof (mkOr (map o_value os)) = Some TBool) as HT.
        { destruct (map o_value os) as [|f1 [|f2 l]]; [done|by inversion HTs|].
          cbn [mkOr typeof]. by rewrite (proj2 (all_ty_Forall TBool (f1 :: f2 :: l)) HTs). }
        eapply (finish "or" args s s1 ts os e); try done.
        * constructor.
        * assert (app_value "or" os = let! v := chk (mkOr (map o_value os)) in Ok (v, GBool)) as -> by done.
          rewrite (chk_typed _ _ HT). cbn [rbind]. reflexivity.
        * exact HT.
      + (* not *)
        destruct args as [|t1 [|? ?]]; [by inversion HM| |by inversion HM as [|? ? ? ? _ HM']; inversion HM'].
        inversion HM as [|? ? ? ? M1 _]; subst. inversion IH as [|? ? A1 _]; subst.
        inversion HP' as [|? ? P1 _]; subst. inversion HE' as [|? ? E1 _]; subst.
        destruct (accepts_inv t1 s e (VB b)) as (s1 & a & o & X1 & Ho & Hk & Hev & Hi1 & L1 & _); [done..|].
        pose proof (texact_lookup _ _ _ (proj1 (proj2 (proj2 Hi1))) Ho) as To. unfold texact in To.
        cbn in Hk. destruct (o_type o) eqn:Go; try done. cbn [tag_ty] in To.
        pose proof (typeof_mkNot _ To) as HT.
        eapply (finish "not" [t1] s s1 [a] [o] e [VB b]); try done.
        * cbn [operands]. rewrite X1. reflexivity.
        * by apply Forall2_cons_2.
        * by apply Forall2_cons_2.
        * constructor.
        * assert (app_value "not" [o] = let! v := chk (mkNot (o_value o)) in Ok (v, GBool)) as -> by done.
          rewrite (chk_typed _ _ HT). cbn [rbind]. reflexivity.
        * exact HT.
      + eapply ite_accept; try done. eexists _, _, _. split_and!; [done|done|]. done.
      + eapply ite_accept; try done. eexists _, _, _. split_and!; [done|done|]. done.
  Qed.
End Accept.

Lemma declare_accept sg s x sort : inv sg s -> x ∉ map fst sg -> x ∉ unsupported_symbols ->
  x <> "true"%string -> x <> "false"%string -> sort ∈ ["Int"; "Real"; "Bool"]%string ->
  dget (v_vars s) x = None /\ exists s', declare s x sort = Ok s' /\ Forall texact (v_heap s').
Proof.
  intros (Hw & Hd & HT & _) Hx Hu Ht Hf Hs.
  assert (dget (v_vars s) x = None) as Hn.
  { destruct (dget (v_vars s) x) eqn:E; [|done]. destruct Hx. apply Hd. eauto. }
  split; [done|]. unfold declare. rewrite decide_False by done. rewrite decide_False by tauto. rewrite Hn.
  assert (forall o, texact o -> Forall texact (v_heap s ++ [o])) as HA.
  { intros o Ho. apply Forall_app. split; [done|]. by constructor. }
  repeat (apply elem_of_cons in Hs as [->|Hs]); [..|by apply elem_of_nil in Hs].
  - eexists. split; [reflexivity|]. by apply HA.
  - eexists. split; [reflexivity|]. by apply HA.
  - eexists. split; [reflexivity|]. by apply HA.
Qed.

Notation bools := (Forall (fun f => typeof f = Some TBool)).

Lemma file_accepted fl cs : forall sg s, inv sg s -> well_typed_file fl sg cs -> bools (v_support s) ->
  exists s', visit_commands fl s cs = Ok s' /\ inv (sg ++ concat (map declares cs)) s' /\
    bools (v_support s').
Proof.
  induction cs as [|c cs IH]; intros sg s Hi HW Hsup.
  { exists s. cbn. by rewrite app_nil_r. }
  cbn [well_typed_file] in HW. destruct HW as [Hc HW].
  assert (exists s1, visit_command fl s c = Ok s1 /\ Forall texact (v_heap s1) /\
    Forall (fun x => x ∉ unsupported_symbols) (map fst (declares c)) /\ bools (v_support s1))
    as (s1 & E & HT & Hn & Hsup1).
  { assert (forall s1, visit_command fl s c = Ok s1 -> asserted [c] = [] -> v_support s1 = v_support s) as Hsame.
    { intros s1 E Ha. destruct (command_ok fl sg c s s1 (proj1 Hi) (proj1 (proj2 Hi)) E)
        as (_ & _ & _ & _ & (fs & S1 & SF) & _).
      rewrite Ha in SF. inversion SF; subst. by rewrite S1, app_nil_r. }
    destruct c as [t|x sort|x n sort|t|t|]; try done.
    - destruct Hc as (HP & HE & e & b & Hm).
      destruct (visit_accepts fl sg t s e _ Hi HP HE Hm) as (s1 & a & o & E & Ho & Hk & _ & HT & _).
      cbn [visit_command]. rewrite E. cbn [rbind expr_of]. rewrite (proj2 (vget_ok _ _ _) Ho). cbn [rbind].
      cbn in Hk. destruct (o_type o) eqn:Go; try done. rewrite decide_True by done.
      eexists. split; [reflexivity|]. split; [done|]. split; [constructor|]. cbn [v_support].
      destruct (visit_term_ok fl sg t s s1 (VExpr a) (proj1 Hi) E) as [L _].
      destruct (fields_hle _ _ L) as (_ & _ & _ & -> & _). apply Forall_app. split; [done|].
      constructor; [|constructor]. pose proof (texact_lookup _ _ _ HT Ho) as To. unfold texact in To.
      by rewrite Go in To.
    - destruct Hc as (H1 & H2 & H3 & H4 & H5).
      destruct (declare_accept sg s x sort) as (_ & s1 & E & HT); [done..|]. exists s1. split; [exact E|].
      split; [done|]. split; [cbn; by constructor|]. by rewrite (Hsame s1 E).
    - destruct n as [|n]; [|done]. destruct Hc as (H1 & H2 & H3 & H4 & H5).
      destruct (declare_accept sg s x sort) as (Hn & s1 & E & HT); [done..|]. exists s1.
      assert (visit_command fl s (CDeclareFun x 0 sort) = Ok s1) as E'.
      { cbn [visit_command]. rewrite decide_False by done. rewrite Hn. by rewrite decide_False by lia. }
      split; [exact E'|]. split; [done|]. split; [cbn; by constructor|]. by rewrite (Hsame s1 E').
    - destruct Hc as (HP & HE & e & b & Hm).
      destruct (visit_accepts fl sg t s e _ Hi HP HE Hm) as (s1 & a & o & E & Ho & Hk & _ & HT & _).
      assert (exists s2, visit_command fl s (CQuery t) = Ok s2 /\ v_heap s2 = v_heap s1) as (s2 & E2 & Hh).
      { cbn [visit_command]. rewrite E. cbn [rbind expr_of]. rewrite (proj2 (vget_ok _ _ _) Ho). cbn [rbind].
        cbn in Hk. destruct (o_type o); try done. cbn [rbind]. rewrite (proj2 (vget_ok _ _ _) Ho). cbn [rbind].
        eexists. split; [reflexivity|]. done. }
      exists s2. split; [exact E2|]. rewrite Hh. split; [done|]. split; [constructor|].
      by rewrite (Hsame s2 E2). }
  destruct Hi as (Hw & Hd & _ & Hbad).
  destruct (command_ok fl sg c s s1 Hw Hd E) as (Hw1 & Hd1 & _).
  destruct (IH (sg ++ declares c) s1) as (s' & E' & Hi' & Hs'); [|done|done|].
  { split; [done|]. split; [done|]. split; [done|]. rewrite map_app. by apply Forall_app. }
  exists s'. cbn [visit_commands]. rewrite E. cbn [rbind]. split; [done|].
  cbn [map concat]. rewrite app_assoc. done.
Qed.

Lemma vinit_inv domA domX : NoDup (domA ++ map fst domX) -> Forall (fun '(_, t) => t = TReal) domX ->
  Forall (fun x => x ∉ unsupported_symbols) (domA ++ map fst domX) ->
  inv (signature domA domX []) (vinit domA domX).
Proof.
  intros Hnd HX Hbad.
  destruct (vinit_ok domA domX Hnd) as (Hw & Hd & _).
  { eapply Forall_impl; [exact HX|]. intros [x t] ->. done. }
  split; [done|]. split; [done|]. split.
  - unfold vinit. set (s0 := VS [] [] _ _ [] None []).
    assert (forall l s, Forall texact (v_heap s) ->
      Forall texact (v_heap (fold_left (fun s x => enter s x (Obj (Sym x TBool) GBool)) l s))) as H1.
    { induction l as [|x l IH]; intros s Hs; [done|]. cbn [fold_left]. apply IH. cbn.
      apply Forall_app. split; [done|]. by constructor. }
    assert (forall l s, Forall (fun '(_, t) => t = TReal) l -> Forall texact (v_heap s) ->
      Forall texact (v_heap (fold_left (fun s '(x, t) => enter s x (Obj (Sym x t) GFloat)) l s))) as H2.
    { induction l as [|[x t] l IH]; intros s HF Hs; [done|]. inversion HF as [|? ? Ht HF']; subst.
      cbn [fold_left]. apply IH; [done|]. cbn. apply Forall_app. split; [done|]. by constructor. }
    apply H2; [done|]. apply H1. constructor.
  - unfold signature. cbn [map concat]. rewrite app_nil_r, map_app, !map_map. cbn [fst]. rewrite map_id.
    replace (map (fun x : string * ty => (let '(x0, _) := x in (x0, KNum)).1) domX) with (map fst domX); [done|].
    apply map_ext. by intros [].
Qed.

(** * Meanings are unique *)

Lemma map_VN_inj qs qs' : map VN qs = map VN qs' -> qs = qs'.
Proof. revert qs'. induction qs as [|x qs IH]; intros [|y qs'] H; try done. injection H as -> H. f_equal. by apply IH. Qed.
Lemma map_VB_inj qs qs' : map VB qs = map VB qs' -> qs = qs'.
Proof. revert qs'. induction qs as [|x qs IH]; intros [|y qs'] H; try done. injection H as -> H. f_equal. by apply IH. Qed.

Lemma op_meaning_unique op vs v v' : op_meaning op vs v -> op_meaning op vs v' -> v = v'.
Proof.
  intros H1 H2. destruct H1; inversion H2; subst; try done.
  all: match goal with
    | H : map VN _ = map VN _ |- _ => apply map_VN_inj in H as ->; done
    | H : map VB _ = map VB _ |- _ => apply map_VB_inj in H as ->; done
    end.
Qed.

Lemma meaning_unique_all sg e t : NoDup (map fst sg) -> forall v v', meaning sg e t v -> meaning sg e t v' -> v = v'.
Proof.
  intros Hnd. induction t as [z|q|ds|x|x|op args IH|op args|] using sterm_ind'; intros v v' H1 H2.
  4: { inversion H1; subst; inversion H2; subst; try done.
       - by pose proof (kind_unique sg x KBool KNum Hnd ltac:(done) ltac:(done)).
       - by pose proof (kind_unique sg x KBool KNum Hnd ltac:(done) ltac:(done)). }
  5: { inversion H1 as [| | | | | |? ? vs ? HM Hop]; subst. inversion H2 as [| | | | | |? ? vs' ? HM' Hop']; subst.
       assert (vs = vs') as ->; [|by eapply op_meaning_unique].
       clear -IH HM HM'. revert vs vs' HM HM'. induction IH as [|t args Ht IH IH']; intros vs vs' HM HM'.
       - inversion HM; inversion HM'; subst. done.
       - inversion HM as [|? v ? l]; inversion HM' as [|? v' ? l']; subst. f_equal; [by apply Ht|by apply IH']. }
  all: inversion H1; subst; inversion H2; subst; done.
Qed.
