(** Integration one variable at a time, for C37. *)

From Verif Require Import Base Dict Smt Smt_Facts Math_Model Math_Spec Poly_Proofs Sdd_Model Sdd_Proofs Factor_Spec.

Lemma qmin_max (a b c d x : Qc) : ((a <= x /\ x <= b) \/ (c <= x /\ x <= d) ->
  (if qlt a c then a else c) <= x /\ x <= (if qlt b d then d else b))%Qc.
Proof.
  intros H. split.
  - destruct (qlt a c) eqn:E; [apply qlt_spec in E|apply qlt_false in E]; destruct H as [[H _]|[H _]]; try done.
    + apply Qclt_le_weak in E. by apply (Qcle_trans _ c).
    + by apply (Qcle_trans _ a).
  - destruct (qlt b d) eqn:E; [apply qlt_spec in E|apply qlt_false in E]; destruct H as [[_ H]|[_ H]]; try done.
    + apply Qclt_le_weak in E. by apply (Qcle_trans _ b).
    + by apply (Qcle_trans _ d).
Qed.

Section integral.
  Context (generic : (string -> Qc) -> Prop) (fine : rfn -> Prop) (ae : rfn -> rfn -> Prop) (J : string -> rfn -> rfn).
  Hypothesis HJ : integration generic fine ae J.

  Lemma ae_refl f : ae f f. Proof. apply (ig_refl _ _ _ _ HJ). Qed.
  Lemma ae_sym f g : ae f g -> ae g f. Proof. apply (ig_sym _ _ _ _ HJ). Qed.
  Lemma ae_trans f g h : ae f g -> ae g h -> ae f h. Proof. apply (ig_trans _ _ _ _ HJ). Qed.
  Lemma ae_point (f g : rfn) : (forall r, f r = g r) -> ae f g.
  Proof. intros H. apply (ig_null _ _ _ _ HJ). auto. Qed.
  Lemma ae_mul_l h f g : ae f g -> ae (fun r => h r * f r)%Qc (fun r => h r * g r)%Qc.
  Proof. intros H. apply (ig_times _ _ _ _ HJ); [apply ae_refl|done]. Qed.
  Lemma ae_mul_r h f g : ae f g -> ae (fun r => f r * h r)%Qc (fun r => g r * h r)%Qc.
  Proof. intros H. apply (ig_times _ _ _ _ HJ); [done|apply ae_refl]. Qed.

  Lemma within_zero v (f g : rfn) : (forall r, f r = 0%Qc -> g r = 0%Qc) -> within v f -> within v g.
  Proof. intros H (lo & hi & Hf). exists lo, hi. intros r Hr. apply Hf. intros H0. by apply Hr, H. Qed.
  Lemma within_mul_l v (f g : rfn) : within v f -> within v (fun r => f r * g r)%Qc.
  Proof. apply within_zero. intros r ->. ring. Qed.
  Lemma within_mul_r v (f g : rfn) : within v g -> within v (fun r => f r * g r)%Qc.
  Proof. apply within_zero. intros r ->. ring. Qed.
  Lemma within_plus v (f g : rfn) : within v f -> within v g -> within v (fun r => f r + g r)%Qc.
  Proof.
    intros (lo & hi & Hf) (lo' & hi' & Hg). eexists _, _. intros r Hr. apply qmin_max.
    destruct (decide (f r = 0%Qc)) as [E|E]; [|left; by apply Hf]. right. apply Hg. intros E'. apply Hr. rewrite E, E'. ring.
  Qed.
  Lemma within_0 v : within v (fun _ => 0%Qc).
  Proof. exists 0%Qc, 0%Qc. intros r H. done. Qed.

  (** [f] vanishes where the value of [v] is not allowed. *)
  Definition keeps (v : string) (P : Qc -> bool) (f : rfn) : Prop := forall r, f r <> 0%Qc -> P (r v) = true.
  Lemma J_keeps u v P f : u <> v -> keeps v P f -> keeps v P (J u f).
  Proof.
    intros Hne Hf r Hr. destruct (P (r v)) eqn:E; [done|]. destruct Hr. rewrite <- (in_zero _ _ _ _ HJ u r).
    apply (in_local _ _ _ _ HJ). intros q q' Hq _ _. destruct (decide (f q = 0%Qc)) as [|Hz]; [done|].
    pose proof (Hf q Hz) as H. rewrite (Hq v) in H by congruence. congruence.
  Qed.
  Lemma keeps_mul_l v P (f g : rfn) : keeps v P f -> keeps v P (fun r => f r * g r)%Qc.
  Proof. intros H r Hr. apply H. intros E. apply Hr. rewrite E. ring. Qed.
  Lemma keeps_mul_r v P (f g : rfn) : keeps v P g -> keeps v P (fun r => f r * g r)%Qc.
  Proof. intros H r Hr. apply H. intros E. apply Hr. rewrite E. ring. Qed.
  Lemma keeps_within v lo hi f : keeps v (qle lo) f -> keeps v (fun x => qle x hi) f -> within v f.
  Proof. intros H1 H2. exists lo, hi. intros r Hr. split; apply qle_spec; [by apply H1|by apply (H2 r)]. Qed.

  Lemma J_within u v f : u <> v -> within v f -> within v (J u f).
  Proof.
    intros Hne (lo & hi & Hf). exists lo, hi. intros r Hr.
    destruct (qle lo (r v)) eqn:E1, (qle (r v) hi) eqn:E2; try (apply qle_spec in E1, E2; done);
      destruct Hr; rewrite <- (in_zero _ _ _ _ HJ u r); apply (in_local _ _ _ _ HJ); intros q q' Hq _ _;
      (destruct (decide (f q = 0%Qc)) as [|Hz]; [done|]; destruct (Hf q Hz) as [H1 H2]; rewrite (Hq v) in H1, H2 by congruence;
       apply qle_spec in H1, H2; congruence).
  Qed.
  Lemma J_free u v f : u <> v -> free_of v f -> free_of v (J u f).
  Proof.
    intros Hne Hf r r' Hr. apply (in_local _ _ _ _ HJ). intros q q' Hq Hq' Hu. apply Hf. intros x Hx.
    destruct (decide (x = u)) as [->|]; [done|]. rewrite Hq, Hq' by done. by apply Hr.
  Qed.
  Lemma J_free_self v f : fine f -> free_of v (J v f).
  Proof.
    intros Hf r r' Hr. apply (in_local _ _ _ _ HJ). intros q q' Hq Hq' Hv. apply (fi_point _ _ _ _ HJ); [done|]. intros x.
    destruct (decide (x = v)) as [->|]; [done|]. rewrite Hq, Hq' by done. by apply Hr.
  Qed.
  Lemma free_mul v (f g : rfn) : free_of v f -> free_of v g -> free_of v (fun r => f r * g r)%Qc.
  Proof. intros Hf Hg r r' Hr. by rewrite (Hf r r' Hr), (Hg r r' Hr). Qed.

  Definition fit (vs : list string) (f : rfn) : Prop := fine f /\ forall v, v ∈ vs -> within v f.

  Lemma fit_sub vs us f : (forall v, v ∈ us -> v ∈ vs) -> fit vs f -> fit us f.
  Proof. intros H [F W]. split; auto. Qed.
  Lemma fit_mul_l vs f g : fit vs f -> fine g -> fit vs (fun r => f r * g r)%Qc.
  Proof. intros [F W] G. split; [by apply (fi_times _ _ _ _ HJ)|]. intros v Hv. by apply within_mul_l, W. Qed.
  Lemma fit_mul_r vs f g : fine f -> fit vs g -> fit vs (fun r => f r * g r)%Qc.
  Proof. intros F [G W]. split; [by apply (fi_times _ _ _ _ HJ)|]. intros v Hv. by apply within_mul_r, W. Qed.
  Lemma fit_plus vs f g : fit vs f -> fit vs g -> fit vs (fun r => f r + g r)%Qc.
  Proof. intros [F W] [G W']. split; [by apply (fi_plus _ _ _ _ HJ)|]. intros v Hv. apply within_plus; auto. Qed.
  Lemma fit_same vs (f g : rfn) : (forall r, f r = g r) -> fit vs f -> fit vs g.
  Proof.
    intros H [F W]. split; [by apply (fi_same _ _ _ _ HJ f)|]. intros v Hv. apply (within_zero v f g); [|by apply W].
    intros r. by rewrite H.
  Qed.
  Lemma fit_0 vs : fit vs (fun _ => 0%Qc).
  Proof. split; [apply (fi_number _ _ _ _ HJ)|]. intros v _. apply within_0. Qed.

  Notation joint := (joint J).

  Lemma joint_within vs u f : u ∉ vs -> within u f -> within u (joint vs f).
  Proof.
    induction vs as [|v vs IH]; intros Hu Hf; [done|]. apply not_elem_of_cons in Hu as [H1 H2]. cbn.
    apply J_within; [congruence|]. by apply IH.
  Qed.
  Lemma joint_keeps vs u P f : u ∉ vs -> keeps u P f -> keeps u P (joint vs f).
  Proof.
    induction vs as [|v vs IH]; intros Hu Hf; [done|]. apply not_elem_of_cons in Hu as [H1 H2]. cbn.
    apply J_keeps; [congruence|]. by apply IH.
  Qed.
  Lemma joint_free vs u f : u ∉ vs -> free_of u f -> free_of u (joint vs f).
  Proof.
    induction vs as [|v vs IH]; intros Hu Hf; [done|]. apply not_elem_of_cons in Hu as [H1 H2]. cbn.
    apply J_free; [congruence|]. by apply IH.
  Qed.
  Lemma joint_fine vs f : NoDup vs -> fit vs f -> fine (joint vs f).
  Proof.
    induction vs as [|v vs IH]; intros Hnd Hf; [apply Hf|]. apply NoDup_cons in Hnd as [Hv Hnd]. cbn.
    apply (fi_integral _ _ _ _ HJ).
    - apply IH; [done|]. apply (fit_sub (v :: vs)); [|done]. intros u Hu. by right.
    - apply joint_within; [done|]. apply Hf. by left.
  Qed.
  Lemma joint_fit vs us f : NoDup vs -> (forall v, v ∈ us -> v ∉ vs) -> fit (us ++ vs) f -> fit us (joint vs f).
  Proof.
    intros Hnd Hd Hf. split.
    - apply joint_fine; [done|]. apply (fit_sub (us ++ vs)); [|done]. intros v Hv. apply elem_of_app. by right.
    - intros v Hv. apply joint_within; [by apply Hd|]. apply Hf, elem_of_app. by left.
  Qed.
  Lemma joint_app us vs f : joint (us ++ vs) f = joint us (joint vs f).
  Proof. apply fold_right_app. Qed.
  Lemma joint_free_self vs u f : NoDup vs -> fit vs f -> u ∈ vs -> free_of u (joint vs f).
  Proof.
    induction vs as [|v vs IH]; intros Hnd Hf Hu; [by apply elem_of_nil in Hu|]. apply NoDup_cons in Hnd as [Hv Hnd]. cbn.
    assert (fit vs f) as Hf' by (apply (fit_sub (v :: vs)); [intros; by right|done]).
    destruct (decide (u = v)) as [->|Hne]; [apply J_free_self; by apply joint_fine|].
    apply elem_of_cons in Hu as [?|Hu]; [done|]. apply J_free; [congruence|]. by apply IH.
  Qed.

  Lemma joint_ae vs f g : NoDup vs -> fit vs f -> fit vs g -> ae f g -> ae (joint vs f) (joint vs g).
  Proof.
    induction vs as [|v vs IH]; intros Hnd Hf Hg H; [done|]. apply NoDup_cons in Hnd as [Hv Hnd]. cbn.
    assert (fit vs f) as Hf' by (apply (fit_sub (v :: vs)); [intros; by right|done]).
    assert (fit vs g) as Hg' by (apply (fit_sub (v :: vs)); [intros; by right|done]).
    apply (in_ae _ _ _ _ HJ); [by apply joint_fine|by apply joint_fine| | |by apply IH].
    - apply joint_within; [done|]. apply Hf. by left.
    - apply joint_within; [done|]. apply Hg. by left.
  Qed.
  Lemma joint_plus vs f g : NoDup vs -> fit vs f -> fit vs g ->
    ae (joint vs (fun r => f r + g r)%Qc) (fun r => joint vs f r + joint vs g r)%Qc.
  Proof.
    induction vs as [|v vs IH]; intros Hnd Hf Hg; [apply ae_refl|]. apply NoDup_cons in Hnd as [Hv Hnd]. cbn.
    assert (fit vs f) as Hf' by (apply (fit_sub (v :: vs)); [intros; by right|done]).
    assert (fit vs g) as Hg' by (apply (fit_sub (v :: vs)); [intros; by right|done]).
    assert (within v (joint vs f)) as Wf by (apply joint_within; [done|]; apply Hf; by left).
    assert (within v (joint vs g)) as Wg by (apply joint_within; [done|]; apply Hg; by left).
    pose proof (joint_fine vs f Hnd Hf') as Ff. pose proof (joint_fine vs g Hnd Hg') as Fg.
    eapply ae_trans; [|by apply (in_plus _ _ _ _ HJ)]. apply (in_ae _ _ _ _ HJ).
    - apply joint_fine; [done|]. by apply fit_plus.
    - by apply (fi_plus _ _ _ _ HJ).
    - apply joint_within; [done|]. apply within_plus; [apply Hf|apply Hg]; by left.
    - by apply within_plus.
    - by apply IH.
  Qed.
  Lemma joint_factor vs f g : NoDup vs -> fine f -> fit vs g -> (forall v, v ∈ vs -> free_of v f) ->
    ae (joint vs (fun r => f r * g r)%Qc) (fun r => f r * joint vs g r)%Qc.
  Proof.
    induction vs as [|v vs IH]; intros Hnd Hf Hg Hfree; [apply ae_refl|]. apply NoDup_cons in Hnd as [Hv Hnd]. cbn.
    assert (fit vs g) as Hg' by (apply (fit_sub (v :: vs)); [intros; by right|done]).
    assert (within v (joint vs g)) as Wg by (apply joint_within; [done|]; apply Hg; by left).
    pose proof (joint_fine vs g Hnd Hg') as Fg.
    eapply ae_trans; [|apply (in_factor _ _ _ _ HJ); [done|done|done|apply Hfree; by left]].
    apply (in_ae _ _ _ _ HJ).
    - apply joint_fine; [done|]. by apply fit_mul_r.
    - by apply (fi_times _ _ _ _ HJ).
    - apply joint_within; [done|]. apply within_mul_r, Hg. by left.
    - by apply within_mul_r.
    - apply IH; try done. intros u Hu. apply Hfree. by right.
  Qed.
  Lemma joint_scale vs c g : NoDup vs -> fit vs g -> ae (joint vs (fun r => c * g r)%Qc) (fun r => c * joint vs g r)%Qc.
  Proof.
    intros Hnd Hg. apply (joint_factor vs (fun _ => c) g); try done. apply (fi_number _ _ _ _ HJ).
  Qed.
  Lemma joint_zero vs f r : (forall r, f r = 0%Qc) -> joint vs f r = 0%Qc.
  Proof.
    intros Hf. revert r. induction vs as [|v vs IH]; intros r; [apply Hf|]. cbn. rewrite <- (in_zero _ _ _ _ HJ v r).
    apply (in_local _ _ _ _ HJ). intros q q' _ _ _. apply IH.
  Qed.

  Lemma joint_point vs f g r r' : fine f -> (forall r, f r = g r) -> (forall x, r x = r' x) -> joint vs f r = joint vs g r'.
  Proof.
    intros Hf H. revert r r'. induction vs as [|v vs IH]; intros r r' Hr.
    - cbn. rewrite <- H. by apply (fi_point _ _ _ _ HJ).
    - cbn. apply (in_local _ _ _ _ HJ). intros q q' Hq Hq' Hv. apply IH. intros x.
      destruct (decide (x = v)) as [->|]; [done|]. by rewrite Hq, Hq'.
  Qed.

  Lemma joint_swap2 u v vs f : u <> v -> u ∉ vs -> v ∉ vs -> NoDup vs -> fit (u :: v :: vs) f ->
    ae (joint (u :: v :: vs) f) (joint (v :: u :: vs) f).
  Proof.
    intros Hne Hu Hv Hnd Hf. cbn. apply (in_swap _ _ _ _ HJ).
    - apply joint_fine; [done|]. apply (fit_sub (u :: v :: vs)); [intros; by do 2 right|done].
    - apply joint_within; [done|]. apply Hf. by left.
    - apply joint_within; [done|]. apply Hf. by right; left.
  Qed.
  Lemma joint_perm vs us f : vs ≡ₚ us -> NoDup vs -> fit vs f -> ae (joint vs f) (joint us f).
  Proof.
    induction 1 as [|v vs us Hp IH|u v vs|vs us ws H1 IH1 H2 IH2]; intros Hnd Hf.
    - apply ae_refl.
    - apply NoDup_cons in Hnd as [Hv Hnd]. cbn.
      assert (fit vs f) as Hf' by (apply (fit_sub (v :: vs)); [intros; by right|done]).
      assert (NoDup us) as Hnu by by rewrite <- Hp.
      assert (fit us f) as Hfu by (apply (fit_sub vs); [intros w Hw; by rewrite Hp|done]).
      apply (in_ae _ _ _ _ HJ); [by apply joint_fine|by apply joint_fine| | |by apply IH].
      + apply joint_within; [done|]. apply Hf. by left.
      + apply joint_within; [by rewrite <- Hp|]. apply Hf. by left.
    - apply NoDup_cons in Hnd as [Hu Hnd]. apply NoDup_cons in Hnd as [Hv Hnd]. apply not_elem_of_cons in Hu as [Hne Hu].
      apply joint_swap2; try done.
    - eapply ae_trans; [by apply IH1|]. apply IH2; [by rewrite <- H1|]. apply (fit_sub vs); [intros w Hw; by rewrite H1|done].
  Qed.

  (** ** Groups of variables *)

  Notation group := (list string * pdict)%type.
  Context (groups : list group).
  Definition gr (g : nat) : group := default ([], []) (groups !! g).
  Definition pval (p : pdict) : rfn := fun r => poly_val (Env (fun _ => false) r) p.
  Definition tvars (ts : list nat) : list string := concat (map (fun g => (gr g).1) ts).
  Definition tpol (ts : list nat) : rfn := fun r => fold_right (fun g a => pval (gr g).2 r * a)%Qc 1%Qc ts.
  (** The integral over the groups [ts] of [f] times their factors. *)
  Definition NT (ts : list nat) (f : rfn) : rfn := joint (tvars ts) (fun r => f r * tpol ts r)%Qc.

  Definition grouped : Prop :=
    (forall g, NoDup (gr g).1) /\
    (forall g h v, v ∈ (gr g).1 -> v ∈ (gr h).1 -> g = h) /\
    (forall g v, v ∉ (gr g).1 -> free_of v (pval (gr g).2)) /\
    (forall g, fine (pval (gr g).2)).
  Hypothesis HG : grouped.

  Lemma tvars_in ts v : v ∈ tvars ts <-> exists g, g ∈ ts /\ v ∈ (gr g).1.
  Proof.
    unfold tvars. induction ts as [|g ts IH]; cbn.
    - split; [intros H; by apply elem_of_nil in H|]. intros (g & H & _). by apply elem_of_nil in H.
    - rewrite elem_of_app, IH. split.
      + intros [H|(h & H1 & H2)]; [exists g; split; [left|]; done|exists h; split; [right|]; done].
      + intros (h & H1 & H2). apply elem_of_cons in H1 as [->|H1]; [by left|right; by exists h].
  Qed.
  Lemma tvars_app a b : tvars (a ++ b) = tvars a ++ tvars b.
  Proof. unfold tvars. by rewrite map_app, concat_app. Qed.
  Lemma tvars_nodup ts : NoDup ts -> NoDup (tvars ts).
  Proof.
    destruct HG as (H1 & H2 & _ & _). induction ts as [|g ts IH]; intros Hnd; [constructor|].
    apply NoDup_cons in Hnd as [Hg Hnd]. change (tvars (g :: ts)) with ((gr g).1 ++ tvars ts). apply NoDup_app. split_and!.
    - apply H1.
    - intros v Hv Hv'. apply tvars_in in Hv' as (h & Hh & Hv'). rewrite (H2 g h v) in Hg; done.
    - by apply IH.
  Qed.
  Lemma tvars_perm a b : a ≡ₚ b -> tvars a ≡ₚ tvars b.
  Proof.
    induction 1 as [|g a b _ IH|g h a|a b c _ IH1 _ IH2]; unfold tvars in *; cbn.
    - done.
    - by rewrite IH.
    - rewrite !app_assoc. apply Permutation_app_tail. apply Permutation_app_comm.
    - by rewrite IH1.
  Qed.
  Lemma tpol_app a b r : (tpol (a ++ b) r = tpol a r * tpol b r)%Qc.
  Proof. unfold tpol. induction a as [|g a IH]; cbn; [ring|]. rewrite IH. ring. Qed.
  Lemma tpol_perm a b r : a ≡ₚ b -> tpol a r = tpol b r.
  Proof. unfold tpol. induction 1 as [|g a b _ IH|g h a|a b c _ IH1 _ IH2]; cbn; [done|by rewrite IH|ring|congruence]. Qed.
  Lemma tpol_fine ts : fine (tpol ts).
  Proof.
    destruct HG as (_ & _ & _ & H). induction ts as [|g ts IH].
    - apply (fi_number _ _ _ _ HJ 1%Qc).
    - apply (fi_same _ _ _ _ HJ (fun r => pval (gr g).2 r * tpol ts r)%Qc); [done|]. by apply (fi_times _ _ _ _ HJ).
  Qed.
  Lemma tpol_free ts v : v ∉ tvars ts -> free_of v (tpol ts).
  Proof.
    destruct HG as (_ & _ & H & _). intros Hv. induction ts as [|g ts IH]; [done|].
    change (tvars (g :: ts)) with ((gr g).1 ++ tvars ts) in Hv. apply not_elem_of_app in Hv as [H1 H2].
    intros r r' Hr. unfold tpol. cbn. f_equal; [by apply (H g v)|]. by apply (IH H2).
  Qed.
  Lemma tvars_disj a b v : (forall g, g ∈ a -> g ∉ b) -> v ∈ tvars a -> v ∉ tvars b.
  Proof.
    destruct HG as (_ & H & _ & _). intros Hd (g & Hg & Hv)%tvars_in (h & Hh & Hv')%tvars_in.
    rewrite (H h g v) in Hh by done. by apply (Hd g).
  Qed.
  Lemma tvars_mono a b v : (forall g, g ∈ a -> g ∈ b) -> v ∈ tvars a -> v ∈ tvars b.
  Proof. intros H (g & Hg & Hv)%tvars_in. apply tvars_in. exists g. auto. Qed.

  Lemma NT_fine ts f : NoDup ts -> fit (tvars ts) f -> fine (NT ts f).
  Proof. intros Hnd Hf. apply joint_fine; [by apply tvars_nodup|]. apply fit_mul_l; [done|apply tpol_fine]. Qed.
  Lemma NT_fit ts us f : NoDup ts -> (forall v, v ∈ us -> v ∉ tvars ts) -> fit (us ++ tvars ts) f -> fit us (NT ts f).
  Proof. intros Hnd Hd Hf. apply joint_fit; [by apply tvars_nodup|done|]. apply fit_mul_l; [done|apply tpol_fine]. Qed.
  Lemma NT_within ts f v : v ∉ tvars ts -> within v f -> within v (NT ts f).
  Proof. intros Hv Hf. apply joint_within; [done|]. by apply within_mul_l. Qed.
  Lemma NT_keeps ts f v P : v ∉ tvars ts -> keeps v P f -> keeps v P (NT ts f).
  Proof. intros Hv Hf. apply joint_keeps; [done|]. by apply keeps_mul_l. Qed.
  Lemma NT_free ts f v : NoDup ts -> fit (tvars ts) f -> free_of v f -> free_of v (NT ts f).
  Proof.
    intros Hnd Hf Hv. destruct (decide (v ∈ tvars ts)) as [Hin|Hn].
    - apply joint_free_self; [by apply tvars_nodup| |done]. apply fit_mul_l; [done|apply tpol_fine].
    - apply joint_free; [done|]. apply free_mul; [done|]. by apply tpol_free.
  Qed.
  Lemma NT_ae ts f g : NoDup ts -> fit (tvars ts) f -> fit (tvars ts) g -> ae f g -> ae (NT ts f) (NT ts g).
  Proof.
    intros Hnd Hf Hg H. apply joint_ae; [by apply tvars_nodup| | |by apply ae_mul_r]; apply fit_mul_l; try done; apply tpol_fine.
  Qed.
  Lemma NT_perm a b f : a ≡ₚ b -> NoDup a -> fit (tvars a) f -> ae (NT a f) (NT b f).
  Proof.
    intros Hp Hnd Hf. pose proof (tvars_nodup a Hnd) as Hna. pose proof (tvars_perm a b Hp) as Hpv. unfold NT.
    assert (fit (tvars a) (fun r => f r * tpol a r)%Qc) as Hfa by (apply fit_mul_l; [done|apply tpol_fine]).
    eapply ae_trans; [by apply joint_perm|]. apply joint_ae; [by rewrite <- Hpv| | |].
    - apply (fit_sub (tvars a)); [intros v Hv; by rewrite Hpv|done].
    - apply (fit_sub (tvars a)); [intros v Hv; by rewrite Hpv|]. apply fit_mul_l; [done|apply tpol_fine].
    - apply ae_point. intros r. by rewrite (tpol_perm a b r Hp).
  Qed.
  Lemma NT_zero ts f r : (forall r, f r = 0%Qc) -> NT ts f r = 0%Qc.
  Proof. intros Hf. apply joint_zero. intros q. rewrite Hf. ring. Qed.
  Lemma NT_plus ts f g : NoDup ts -> fit (tvars ts) f -> fit (tvars ts) g ->
    ae (NT ts (fun r => f r + g r)%Qc) (fun r => NT ts f r + NT ts g r)%Qc.
  Proof.
    intros Hnd Hf Hg. pose proof (tvars_nodup ts Hnd) as Hn.
    assert (fit (tvars ts) (fun r => f r * tpol ts r)%Qc) as Hf' by (apply fit_mul_l; [done|apply tpol_fine]).
    assert (fit (tvars ts) (fun r => g r * tpol ts r)%Qc) as Hg' by (apply fit_mul_l; [done|apply tpol_fine]).
    eapply ae_trans; [|by apply joint_plus]. apply joint_ae; [done| |by apply fit_plus|].
    - apply fit_mul_l; [by apply fit_plus|apply tpol_fine].
    - apply ae_point. intros r. ring.
  Qed.
  Lemma NT_scale ts c f : NoDup ts -> fit (tvars ts) f -> ae (NT ts (fun r => c * f r)%Qc) (fun r => c * NT ts f r)%Qc.
  Proof.
    intros Hnd Hf. pose proof (tvars_nodup ts Hnd) as Hn.
    assert (fit (tvars ts) (fun r => f r * tpol ts r)%Qc) as Hf' by (apply fit_mul_l; [done|apply tpol_fine]).
    eapply ae_trans; [|by apply joint_scale]. apply joint_ae; [done| | |].
    - apply fit_mul_l; [apply fit_mul_r; [apply (fi_number _ _ _ _ HJ)|done]|apply tpol_fine].
    - apply fit_mul_r; [apply (fi_number _ _ _ _ HJ)|done].
    - apply ae_point. intros r. ring.
  Qed.

  (** Integrating the groups [a ++ b] at once or one list after the other. *)
  Lemma NT_app a b f : NoDup (a ++ b) -> fit (tvars (a ++ b)) f -> ae (NT a (NT b f)) (NT (a ++ b) f).
  Proof.
    intros Hnd Hf. pose proof (tvars_nodup _ Hnd) as Hn. apply NoDup_app in Hnd as (Ha & Hab & Hb).
    assert (forall v, v ∈ tvars b -> v ∉ tvars a) as Hd.
    { intros v. apply tvars_disj. intros g Hg Hg'. by apply (Hab g). }
    assert (forall v, v ∈ tvars a -> v ∉ tvars b) as Hd' by (intros v; by apply tvars_disj).
    unfold NT. rewrite tvars_app, joint_app in *.
    apply NoDup_app in Hn as (Hna & _ & Hnb).
    assert (fit (tvars a ++ tvars b) (fun r => f r * tpol b r)%Qc) as H1 by (apply fit_mul_l; [done|apply tpol_fine]).
    assert (fit (tvars b) (fun r => f r * tpol b r)%Qc) as H1b.
    { apply (fit_sub (tvars a ++ tvars b)); [|done]. intros v Hv. apply elem_of_app. by right. }
    apply joint_ae; [done| | |].
    - apply fit_mul_l; [by apply joint_fit|apply tpol_fine].
    - apply joint_fit; try done. apply fit_mul_l; [done|apply tpol_fine].
    - apply (ae_trans _ (fun r => tpol a r * joint (tvars b) (fun r => f r * tpol b r)%Qc r)%Qc); [apply ae_point; intros r; ring|].
      apply ae_sym. eapply ae_trans; [|apply joint_factor]; [|done|apply tpol_fine|done|intros v Hv; apply tpol_free; by apply Hd].
      apply joint_ae; [done| | |apply ae_point; intros r; rewrite tpol_app; ring].
      + apply (fit_sub (tvars a ++ tvars b)); [intros v Hv; apply elem_of_app; by right|]. apply fit_mul_l; [done|apply tpol_fine].
      + apply fit_mul_r; [apply tpol_fine|done].
  Qed.

  (** Two factors that do not share the groups integrated so far. *)
  Lemma NT_split a b c f g : NoDup (c ++ a ++ b) -> fit (tvars a) f -> fit (tvars b) g ->
    fit (tvars (c ++ a ++ b)) (fun r => f r * g r)%Qc ->
    (forall v, v ∈ tvars a -> free_of v g) -> (forall v, v ∈ tvars b -> free_of v f) ->
    fit (tvars c) (fun r => NT a f r * NT b g r)%Qc ->
    ae (NT c (fun r => NT a f r * NT b g r)%Qc) (NT (c ++ a ++ b) (fun r => f r * g r)%Qc).
  Proof.
    intros Hnd Hf Hg Hfg Fa Fb Hw.
    assert (NoDup (a ++ b)) as Hab by (apply NoDup_app in Hnd; apply Hnd).
    assert (NoDup c) as Hc by (apply NoDup_app in Hnd; apply Hnd).
    assert (NoDup a) as Ha by (apply NoDup_app in Hab; apply Hab).
    assert (NoDup b) as Hb by (apply NoDup_app in Hab; apply Hab).
    assert (forall h, h ∈ c -> h ∉ a ++ b) as Dc by (apply NoDup_app in Hnd; apply Hnd).
    assert (forall h, h ∈ a -> h ∉ b) as Dab by (apply NoDup_app in Hab; apply Hab).
    assert (forall v, v ∈ tvars a -> v ∉ tvars b) as Vab by (intros v; by apply tvars_disj).
    assert (forall v, v ∈ tvars c -> v ∉ tvars (a ++ b)) as Vc by (intros v; by apply tvars_disj).
    assert (fit (tvars (a ++ b)) (fun r => f r * g r)%Qc) as Hfg'.
    { apply (fit_sub (tvars (c ++ a ++ b))); [|done]. intros v. rewrite (tvars_app c). intros Hv. apply elem_of_app. by right. }
    assert (fit (tvars b) (fun r => f r * g r)%Qc) as Hfgb by (apply fit_mul_r; [apply Hf|done]).
    (* the inner product, one list at a time *)
    assert (ae (fun r => NT a f r * NT b g r)%Qc (NT (a ++ b) (fun r => f r * g r)%Qc)) as Hin.
    { eapply ae_trans; [|by apply NT_app].
      apply (ae_trans _ (fun r => NT b g r * NT a f r)%Qc); [apply ae_point; intros r; ring|].
      assert (forall v, v ∈ tvars a -> free_of v (NT b g)) as Fa' by (intros v Hv; apply NT_free; [done|done|by apply Fa]).
      assert (fit (tvars a) (fun r => f r * tpol a r)%Qc) as Hfa by (apply fit_mul_l; [done|apply tpol_fine]).
      assert (fine (NT b g)) as Hfb by by apply NT_fine.
      apply ae_sym. eapply ae_trans; [|apply joint_factor; [by apply tvars_nodup|done|done|done]].
      unfold NT at 1. apply joint_ae; [by apply tvars_nodup| | |].
      - apply fit_mul_l; [|apply tpol_fine]. apply NT_fit; [done|done|]. by rewrite tvars_app in Hfg'.
      - apply fit_mul_r; done.
      - apply (ae_trans _ (fun r => NT b (fun r => f r * g r)%Qc r * tpol a r)%Qc); [apply ae_refl|].
        apply (ae_trans _ (fun r => (f r * NT b g r) * tpol a r)%Qc); [|apply ae_point; intros r; ring].
        apply ae_mul_r. unfold NT.
        eapply ae_trans; [|apply joint_factor; [by apply tvars_nodup|apply Hf|apply fit_mul_l; [done|apply tpol_fine]|done]].
        apply joint_ae; [by apply tvars_nodup| | |apply ae_point; intros r; ring].
        + apply fit_mul_l; [done|apply tpol_fine].
        + apply fit_mul_r; [apply Hf|apply fit_mul_l; [done|apply tpol_fine]]. }
    assert (fit (tvars c) (NT (a ++ b) (fun r => f r * g r)%Qc)) as Hout.
    { apply NT_fit; [done|done|]. by rewrite tvars_app in Hfg. }
    eapply ae_trans; [|by apply NT_app]. by apply NT_ae.
  Qed.
End integral.
