(** SmtBatchChecker: no aliasing damage (C04) and correctness (C03). *)

From Verif Require Import Base Smt Walk_Model Walk_Proofs Check_Model Check_Spec Check_Proofs.

(** * Frames *)

Definition safe (lo hi : nat) (evs : list event) : Prop :=
  (forall r, Wr r ∈ evs -> lo <= r) /\ (forall r, Ret r ∈ evs -> r < hi) /\
  no_write_after_return evs.

Definition step_ok (s s' : st) : Prop :=
  unchanged s s' /\ length (heap s) <= length (heap s') /\
  exists evs, events s s' evs /\ safe (length (heap s)) (length (heap s')) evs.

Lemma safe_nil lo hi : safe lo hi [].
Proof.
  split; [|split].
  - intros r H. by apply elem_of_nil in H.
  - intros r H. by apply elem_of_nil in H.
  - intros b r a H. by destruct b.
Qed.

Lemma step_refl s : step_ok s s.
Proof.
  split; [by intros r a H|]. split; [done|]. exists [].
  split; [unfold events; by rewrite app_nil_r|apply safe_nil].
Qed.

Lemma nwar_app a b :
  no_write_after_return a -> no_write_after_return b ->
  (forall r, Ret r ∈ a -> Wr r ∉ b) -> no_write_after_return (a ++ b).
Proof.
  intros Ha Hb Hab before r after H.
  apply app_eq_app in H as [k [[Hk1 Hk2]|[Hk1 Hk2]]].
  - destruct k as [|x k].
    + simpl in Hk2. subst. apply (Hb [] r after). done.
    + simpl in Hk2. injection Hk2 as <- Hk2. subst. rewrite elem_of_app. intros [H|H].
      * by eapply Ha.
      * eapply Hab; [|exact H]. apply elem_of_app. right. by left.
  - by eapply Hb.
Qed.

Lemma step_trans s1 s2 s3 : step_ok s1 s2 -> step_ok s2 s3 -> step_ok s1 s3.
Proof.
  intros (U1 & L1 & e1 & E1 & W1 & R1 & N1) (U2 & L2 & e2 & E2 & W2 & R2 & N2).
  split; [intros r a H; auto|]. split; [lia|]. exists (e1 ++ e2). split.
  { unfold events in *. by rewrite E2, E1, app_assoc. }
  split; [|split].
  - intros r H. apply elem_of_app in H as [H|H]; [by apply W1|]. apply W2 in H. lia.
  - intros r H. apply elem_of_app in H as [H|H]; [|by apply R2]. apply R1 in H. lia.
  - apply nwar_app; [done|done|]. intros r Hr Hw. apply R1 in Hr. apply W2 in Hw. lia.
Qed.

Definition T {A} (s : st) (m : M A) (Q : st -> A -> Prop) : Prop :=
  cache_valid s ->
  cache_valid (fst (m s)) /\ step_ok s (fst (m s)) /\
  (forall a, snd (m s) = Ok a -> Q (fst (m s)) a).

Lemma T_bind {A B} s (m : M A) (k : A -> M B) Q R :
  T s m Q -> (forall s1 a, step_ok s s1 -> Q s1 a -> T s1 (k a) R) -> T s (mbind m k) R.
Proof.
  intros Hm Hk Hv. destruct (Hm Hv) as (V1 & S1 & Q1). unfold mbind.
  destruct (m s) as [s1 [a|e]]; cbn [fst snd] in *.
  - destruct (Hk s1 a S1 (Q1 a eq_refl) V1) as (V2 & S2 & Q2).
    split; [done|]. split; [by eapply step_trans|]. done.
  - split; [done|]. split; [done|]. intros a Ha. discriminate.
Qed.

Lemma T_ret {A} s (a : A) (Q : st -> A -> Prop) : Q s a -> T s (mret a) Q.
Proof.
  intros HQ Hv. cbn. split; [done|]. split; [apply step_refl|]. by intros ? [= <-].
Qed.
Lemma T_err {A} s e (Q : st -> A -> Prop) : T s (merr e) Q.
Proof. intros Hv. cbn. split; [done|]. split; [apply step_refl|]. done. Qed.
Lemma T_lift {A} s (r : Res A) : T s (lift r) (fun _ _ => True).
Proof. intros Hv. cbn. split; [done|]. split; [apply step_refl|]. done. Qed.
Lemma T_read s r : T s (read r) (fun _ _ => True).
Proof.
  intros Hv. unfold read. destruct (heap s !! r); cbn; (split; [done|]; split; [apply step_refl|done]).
Qed.

Definition vref (s : st) (r : ref) : Prop := r < length (heap s).

Lemma T_alloc s a : T s (alloc a) vref.
Proof.
  intros Hv. cbn. split; [|split].
  - intros f r H. cbn in *. rewrite app_length. apply Hv in H. simpl. lia.
  - split; [|split].
    + intros r x H. cbn. by apply lookup_app_l_Some.
    + cbn. rewrite app_length. lia.
    + exists []. split; [unfold events; cbn; by rewrite app_nil_r|apply safe_nil].
  - intros r [= <-]. unfold vref. cbn. rewrite app_length. simpl. lia.
Qed.

(** Accumulation writes one array only. *)
Lemma accumulate_frame op acc rs s :
  let s' := fst (accumulate op acc rs s) in
  cache s' = cache s /\ length (heap s') = length (heap s) /\
  (forall r, r <> acc -> heap s' !! r = heap s !! r) /\
  exists evs, trace s' = trace s ++ evs /\ forall ev, ev ∈ evs -> ev = Wr acc.
Proof.
  revert s. induction rs as [|r rs IH]; intros s; cbn.
  { repeat split; try done. exists []. rewrite app_nil_r. split; [done|].
    intros ev H. by apply elem_of_nil in H. }
  unfold mbind, nbin_ip, mbind, read, lift, write.
  destruct (heap s !! acc) as [x|]; cbn.
  2:{ repeat split; try done. exists []. rewrite app_nil_r. split; [done|].
      intros ev H. by apply elem_of_nil in H. }
  destruct (heap s !! r) as [y|]; cbn.
  2:{ repeat split; try done. exists []. rewrite app_nil_r. split; [done|].
      intros ev H. by apply elem_of_nil in H. }
  destruct (zipM op x y) as [z|e]; cbn.
  2:{ repeat split; try done. exists []. rewrite app_nil_r. split; [done|].
      intros ev H. by apply elem_of_nil in H. }
  destruct (IH (St (<[acc:=z]> (heap s)) (cache s) (trace s ++ [Wr acc]))) as (H1 & H2 & H3 & evs & H4 & H5).
  cbn in *. repeat split.
  - done.
  - by rewrite H2, insert_length.
  - intros r' Hr'. rewrite H3 by done. by apply list_lookup_insert_ne.
  - exists (Wr acc :: evs). rewrite H4, <- app_assoc. split; [done|].
    intros ev H. apply elem_of_cons in H as [->|H]; auto.
Qed.

Lemma T_alloc_acc s op a rs :
  T s (do! acc := alloc a in do! _ := accumulate op acc rs in mret acc) vref.
Proof.
  intros Hv. unfold mbind at 1. cbn.
  set (s1 := St (heap s ++ [a]) (cache s) (trace s)). set (acc := length (heap s)).
  destruct (accumulate_frame op acc rs s1) as (H1 & H2 & H3 & evs & H4 & H5).
  unfold mbind. destruct (accumulate op acc rs s1) as [s2 [u|e]] eqn:E; cbn [fst snd] in *.
  all: assert (length (heap s2) = S (length (heap s))) as HL by (rewrite H2; subst s1; cbn; rewrite app_length; simpl; lia).
  all: assert (cache_valid s2) as Hv2
    by (intros f r H; rewrite H1 in H; cbn in H; apply Hv in H; lia).
  all: assert (step_ok s s2) as Hst.
  all: try (split; [|split; [lia|]];
    [intros r x H; rewrite H3 by (apply lookup_lt_Some in H; subst acc; lia);
     subst s1; cbn; by apply lookup_app_l_Some|
     exists evs; split; [done|]; split; [|split];
     [intros r H; apply H5 in H; injection H as ->; subst acc; lia
     |intros r H; apply H5 in H; discriminate
     |intros b r f' H; exfalso; assert (Ret r ∈ evs) as Hr by (rewrite H; apply elem_of_app; right; by left);
      apply H5 in Hr; discriminate]]).
  - cbn. split; [done|]. split; [done|]. intros r [= <-]. unfold vref. rewrite HL. subst acc. lia.
  - split; [done|]. split; [done|]. done.
Qed.

Lemma T_weaken {A} s (m : M A) (Q R : st -> A -> Prop) :
  T s m Q -> (forall s' a, Q s' a -> R s' a) -> T s m R.
Proof. intros H HQ Hv. destruct (H Hv) as (? & ? & ?). split; [done|]. split; [done|]. auto. Qed.

Lemma T_mmapM {A B} (f : A -> M B) l s :
  (forall s x, T s (f x) (fun _ _ => True)) -> T s (mmapM f l) (fun _ _ => True).
Proof.
  intros Hf. revert s. induction l as [|x l IH]; intros s; [by apply T_ret|].
  change (mmapM f (x :: l)) with (do! y := f x in do! ys := mmapM f l in mret (y :: ys)).
  eapply T_bind; [apply Hf|]. intros s1 y _ _. eapply T_bind; [apply IH|].
  intros s2 ys _ _. by apply T_ret.
Qed.

Lemma T_nbin s op a b : T s (nbin op a b) vref.
Proof.
  unfold nbin. eapply T_bind; [apply T_read|]. intros s1 x _ _.
  eapply T_bind; [apply T_read|]. intros s2 y _ _.
  eapply T_bind; [apply T_lift|]. intros s3 z _ _. apply T_alloc.
Qed.

Lemma T_nsum s acc rs : vref s acc -> T s (nsum acc rs) vref.
Proof.
  revert s acc. induction rs as [|r rs IH]; intros s acc Hacc; [by apply T_ret|].
  cbn [nsum]. eapply T_bind; [apply T_nbin|]. intros s1 x _ Hx. by apply IH.
Qed.

Section Frame.
  Variable vars : list string.
  Variable len : nat.
  Variable two_d : bool.

  Lemma T_cached s f m : T s m vref -> T s (cached f m) vref.
  Proof.
    intros Hm Hv. unfold cached. destruct (lookup_cache (cache s) f) as [r|] eqn:E.
    - assert (exists g, (g, r) ∈ cache s) as [g Hg].
      { clear -E. induction (cache s) as [|[g r'] c IH]; [done|]. cbn in E.
        destruct (decide (f = g)).
        - injection E as ->. exists g. by left.
        - destruct (IH E) as [g' ?]. exists g'. by right. }
      cbn. split; [done|]. split; [|by intros ? [= <-]; eapply Hv].
      split; [by intros r' a' H'|]. split; [done|]. exists [Ret r]. split; [done|]. split; [|split].
      + intros r' H. apply elem_of_list_singleton in H. discriminate.
      + intros r' H. apply elem_of_list_singleton in H. injection H as ->. by eapply Hv.
      + intros b r' a H. destruct b as [|? [|]]; try done. injection H as _ <-. apply not_elem_of_nil.
    - destruct (Hm Hv) as (V1 & S1 & Q1). destruct (m s) as [s1 [r|e]] eqn:Em; cbn [fst snd] in *.
      + specialize (Q1 r eq_refl). unfold vref in Q1. cbn. split; [|split].
        * intros g r' H. cbn in *. apply elem_of_cons in H as [H|H]; [injection H as -> ->; done|].
          by eapply V1.
        * destruct S1 as (U1 & L1 & evs & E1 & W1 & R1 & N1). split; [done|]. split; [done|].
          exists (evs ++ [Ret r]). split; [unfold events in *; cbn; rewrite E1; by rewrite <- app_assoc|]. split; [|split].
          -- intros r' H. apply elem_of_app in H as [H|H]; [by apply W1|].
             apply elem_of_list_singleton in H. discriminate.
          -- intros r' H. apply elem_of_app in H as [H|H]; [by apply R1|].
             apply elem_of_list_singleton in H. injection H as ->. done.
          -- apply nwar_app; [done| |].
             ++ intros b r' a H. destruct b as [|? [|]]; try done. injection H as _ <-. apply not_elem_of_nil.
             ++ intros r' _ H. apply elem_of_list_singleton in H. discriminate.
        * by intros ? [= <-].
      + split; [done|]. split; [done|]. done.
  Qed.

  Lemma T_batch n f s : T s (batch vars len two_d n f) vref.
  Proof.
    revert f s. induction n as [|n IH]; intros f s; [apply T_err|].
    assert (IH' : forall s x, T s (batch vars len two_d n x) (fun _ _ => True)).
    { intros s' x. eapply T_weaken; [apply IH|done]. }
    cbn [batch]. apply T_cached.
    assert (Hacc : forall op l,
      T s (do! rs := mmapM (batch vars len two_d n) l in
           match rs with
           | [] => merr IndexError
           | r0 :: rs => do! a := read r0 in do! acc := alloc a in
                         do! _ := accumulate op acc rs in mret acc
           end) vref).
    { intros op l. eapply T_bind; [by apply T_mmapM|]. intros s1 [|r0 rs] _ _; [apply T_err|].
      eapply T_bind; [apply T_read|]. intros s2 a _ _. apply T_alloc_acc. }
    assert (Hbin : forall op a b,
      T s (do! x := batch vars len two_d n a in do! y := batch vars len two_d n b in nbin op x y) vref).
    { intros op a b. eapply T_bind; [apply IH|]. intros s1 x _ _.
      eapply T_bind; [apply IH|]. intros s2 y _ _. apply T_nbin. }
    destruct f as [x t|b|q|z|l|l|a|a b|a b|c a b|l|a b|l|a b|a b|a b|a b|a|a];
      cbn [dispatch batch_walker w_and w_or w_plus w_minus w_times w_not w_ite w_pow w_lte w_lt
           w_equals w_symbol w_const w_cannot]; try apply Hacc; try apply Hbin; try apply T_err;
      try apply T_alloc.
    - destruct (index_of vars x) as [i|]; [|apply T_err]. destruct (negb two_d); [apply T_err|].
      eapply T_bind; [apply T_read|]. intros s1 col _ _.
      eapply T_bind; [apply T_alloc|]. intros s2 r _ Hr.
      assert (T s2 (do! v := read r in alloc (map (fun v => VB (truth v)) v)) vref).
      { eapply T_bind; [apply T_read|]. intros s3 v _ _. apply T_alloc. }
      destruct t; [done|by apply T_ret|by apply T_ret].
    - eapply T_bind; [apply IH|]. intros s1 r _ _.
      eapply T_bind; [apply T_read|]. intros s2 v _ _. apply T_alloc.
    - apply IH.
    - eapply T_bind; [apply IH|]. intros s1 r1 _ _. eapply T_bind; [apply IH|]. intros s2 r2 _ _.
      eapply T_bind; [apply IH|]. intros s3 r3 _ _.
      eapply T_bind; [apply T_read|]. intros s4 v1 _ _. eapply T_bind; [apply T_read|]. intros s5 v2 _ _.
      eapply T_bind; [apply T_read|]. intros s6 v3 _ _. eapply T_bind; [apply T_lift|].
      intros s7 v _ _. apply T_alloc.
    - eapply T_bind; [by apply T_mmapM|]. intros s1 [|r0 rs] _ _; [apply T_err|].
      eapply T_bind; [apply T_read|]. intros s2 a _ _.
      eapply T_bind; [apply T_alloc|]. intros s3 r _ Hr. by apply T_nsum.
    - destruct l as [|g l]; [apply T_err|].
      eapply T_bind; [by apply T_mmapM|]. intros s1 [|r0 rs] _ _; [apply T_err|].
      eapply T_bind; [apply T_read|]. intros s2 a _ _. apply T_alloc_acc.
  Qed.

  (** C04 *)
  Lemma batch_no_damage n f s s' res :
    cache_valid s -> batch vars len two_d n f s = (s', res) ->
    unchanged s s' /\
    exists evs, events s s' evs /\ no_write_after_return evs /\
      (forall r, Wr r ∈ evs -> length (heap s) <= r) /\ cache_valid s'.
  Proof.
    intros Hv H. destruct (T_batch n f s Hv) as (V & (U & L & evs & E & W & R & N) & _).
    rewrite H in *. cbn [fst] in *. split; [done|]. exists evs. done.
  Qed.
End Frame.

(** * Correctness of values *)

Lemma zipM_map (op : val -> val -> Res val) (f g h : env -> val) es :
  (forall e, e ∈ es -> op (f e) (g e) = Ok (h e)) ->
  zipM op (map f es) (map g es) = Ok (map h es).
Proof.
  induction es as [|e es IH]; intros H; [done|]. cbn. rewrite H by by left. cbn.
  rewrite IH; [done|]. intros e' He'. apply H. by right.
Qed.

Lemma npwhere_map (c f g h : env -> val) es :
  (forall e, e ∈ es -> (if truth (c e) then f e else g e) = h e) ->
  npwhere (map c es) (map f es) (map g es) = Ok (map h es).
Proof.
  induction es as [|e es IH]; intros H; [done|]. cbn. rewrite IH.
  - cbn. rewrite H by by left. done.
  - intros e' He'. apply H. by right.
Qed.

Section Values.
  Variable vars : list string.
  Variable cols : list (list Qc).
  Variable es : list env.
  Notation B := (batch vars (length es) true).

  Hypothesis Hnd : NoDup vars.
  Hypothesis Hcols : forall k col, cols !! k = Some col -> length col = length es.
  Hypothesis Hrows : forall i e, es !! i = Some e -> agrees_row vars cols i e.
  Hypothesis Hlen : length cols = length vars.

  (** The value of [g] at [e]. *)
  Definition F (g : fm) (e : env) : val := default (VB false) (eval e g).
  Definition defined (g : fm) : Prop := forall e, e ∈ es -> eval e g = Some (F g e).
  Definition den (g : fm) (r : ref) (s : st) : Prop := heap s !! r = Some (map (F g) es).

  Definition inv (s : st) : Prop :=
    (forall g r, (g, r) ∈ cache s -> den g r s) /\
    (forall k col, cols !! k = Some col -> heap s !! k = Some (map VN col)).

  Lemma inv_valid s : inv s -> cache_valid s.
  Proof. intros [H _] g r Hgr. apply H in Hgr. by apply lookup_lt_Some in Hgr. Qed.

  Lemma den_step g r s s' : step_ok s s' -> den g r s -> den g r s'.
  Proof. intros (U & _) H. by apply U. Qed.

  (** Total correctness with the invariant. *)
  Definition TV {A} (s : st) (m : M A) (Q : st -> A -> Prop) : Prop :=
    exists s' a, m s = (s', Ok a) /\ inv s' /\ step_ok s s' /\ Q s' a.

  Lemma TV_bind {A B'} s (m : M A) (k : A -> M B') Q R :
    TV s m Q -> (forall s1 a, inv s1 -> step_ok s s1 -> Q s1 a -> TV s1 (k a) R) ->
    TV s (mbind m k) R.
  Proof.
    intros (s1 & a & Hm & I1 & S1 & Q1) Hk.
    destruct (Hk s1 a I1 S1 Q1) as (s2 & b & Hk2 & I2 & S2 & R2).
    exists s2, b. unfold mbind. rewrite Hm. split; [done|]. split; [done|].
    split; [by eapply step_trans|done].
  Qed.

  Lemma TV_ret {A} s (a : A) (Q : st -> A -> Prop) : inv s -> Q s a -> TV s (mret a) Q.
  Proof. intros. exists s, a. split; [done|]. split; [done|]. split; [apply step_refl|done]. Qed.

  Lemma TV_read s r a (Q : st -> list val -> Prop) :
    inv s -> heap s !! r = Some a -> Q s a -> TV s (read r) Q.
  Proof.
    intros. exists s, a. unfold read. rewrite H0. split; [done|]. split; [done|].
    split; [apply step_refl|done].
  Qed.

  Lemma TV_read_den s r g :
    inv s -> den g r s -> TV s (read r) (fun s' x => s' = s /\ x = map (F g) es).
  Proof. intros HI D. by eapply TV_read. Qed.

  Lemma TV_lift {A} s (x : Res A) a (Q : st -> A -> Prop) :
    inv s -> x = Ok a -> Q s a -> TV s (lift x) Q.
  Proof. intros H -> HQ. exists s, a. split; [done|]. split; [done|]. split; [apply step_refl|done]. Qed.

  Lemma inv_step s s' :
    inv s -> cache s' = cache s -> step_ok s s' -> inv s'.
  Proof.
    intros [I1 I2] Hc (U & _). split.
    - intros g r H. rewrite Hc in H. by apply U, I1.
    - intros k col H. by apply U, I2.
  Qed.

  Lemma TV_alloc s a (Q : st -> ref -> Prop) :
    inv s -> (forall s', step_ok s s' -> inv s' -> heap s' !! length (heap s) = Some a ->
              Q s' (length (heap s))) -> TV s (alloc a) Q.
  Proof.
    intros HI HQ. destruct (T_alloc s a (inv_valid s HI)) as (V & S & _).
    exists (fst (alloc a s)), (length (heap s)). split; [done|].
    assert (inv (fst (alloc a s))) as HI' by (by eapply inv_step).
    split; [done|]. split; [done|]. apply HQ; [done|done|]. cbn.
    rewrite lookup_app_r by lia. by rewrite Nat.sub_diag.
  Qed.

  Lemma TV_mmapM (f : fm -> M ref) l s :
    inv s ->
    (forall s x, x ∈ l -> inv s -> TV s (f x) (fun s' r => den x r s')) ->
    TV s (mmapM f l) (fun s' rs => Forall2 (fun x r => den x r s') l rs).
  Proof.
    revert s. induction l as [|x l IH]; intros s HI Hf; [by apply TV_ret|].
    change (mmapM f (x :: l)) with (do! y := f x in do! ys := mmapM f l in mret (y :: ys)).
    eapply TV_bind; [apply Hf; [by left|done]|]. intros s1 r I1 S1 D1.
    eapply TV_bind; [apply IH; [done|]|].
    - intros s' y Hy. apply Hf. by right.
    - intros s2 rs I2 S2 D2. apply TV_ret; [done|]. constructor; [by eapply den_step|done].
  Qed.

  Lemma TV_nbin s op a b f g (h : env -> val) :
    inv s -> den f a s -> den g b s ->
    (forall e, e ∈ es -> op (F f e) (F g e) = Ok (h e)) ->
    TV s (nbin op a b) (fun s' r => heap s' !! r = Some (map h es)).
  Proof.
    intros HI Ha Hb Hop. unfold nbin.
    eapply TV_bind; [apply (TV_read_den s _ f); assumption|].
    intros ? ? _ _ [-> ->].
    eapply TV_bind; [apply (TV_read_den s _ g); assumption|].
    intros ? ? _ _ [-> ->].
    eapply TV_bind; [eapply (TV_lift _ _ (map h es) (fun s' x => s' = s /\ x = map h es)); [done| |done]|].
    { by apply zipM_map. }
    intros ? ? _ _ [-> ->]. apply TV_alloc; [done|]. done.
  Qed.

  (** Pure meaning of accumulation. *)
  Fixpoint foldzip (op : val -> val -> Res val) (a : list val) (bs : list (list val)) : Res (list val) :=
    match bs with [] => Ok a | b :: bs => let! z := zipM op a b in foldzip op z bs end.

  Lemma accumulate_ok op acc rs s a bs c :
    heap s !! acc = Some a -> Forall2 (fun r b => r <> acc /\ heap s !! r = Some b) rs bs ->
    foldzip op a bs = Ok c ->
    exists s', accumulate op acc rs s = (s', Ok ()) /\ heap s' = <[acc := c]> (heap s).
  Proof.
    intros Ha H2. revert s a Ha H2. revert bs. induction rs as [|r rs IH]; intros bs s a Ha H2 Hf.
    - inversion H2; subst. cbn in Hf. injection Hf as <-. exists s. split; [done|].
      by rewrite list_insert_id.
    - inversion H2 as [|? b ? bs' [Hne Hb] H2']; subst. cbn in Hf.
      destruct (zipM op a b) as [z|] eqn:Ez; [|done]. cbn in Hf.
      cbn [accumulate]. unfold mbind at 1. unfold nbin_ip, mbind at 1, read. rewrite Ha.
      unfold mbind at 1. rewrite Hb. unfold mbind at 1, lift. rewrite Ez. unfold write.
      destruct (IH bs' (St (<[acc:=z]> (heap s)) (cache s) (trace s ++ [Wr acc])) z) as (s' & Hs & Hh).
      + cbn. apply list_lookup_insert. by eapply lookup_lt_Some.
      + eapply Forall2_impl; [exact H2'|]. cbn. intros r' b' [? ?]. split; [done|].
        by rewrite list_lookup_insert_ne.
      + done.
      + exists s'. split; [done|]. rewrite Hh. cbn. by rewrite list_insert_insert.
  Qed.

  Lemma TV_acc s op (f0 : env -> val) (l : list fm) rs (h : env -> val) :
    inv s -> Forall2 (fun x r => den x r s) l rs ->
    foldzip op (map f0 es) (map (fun g => map (F g) es) l) = Ok (map h es) ->
    TV s (do! acc := alloc (map f0 es) in do! _ := accumulate op acc rs in mret acc)
      (fun s' r => heap s' !! r = Some (map h es)).
  Proof.
    intros HI H2 Hf.
    destruct (T_alloc_acc s op (map f0 es) rs (inv_valid s HI)) as (V & S & _).
    unfold TV. unfold mbind in *. cbn in *.
    set (s1 := St (heap s ++ [map f0 es]) (cache s) (trace s)) in *.
    destruct (accumulate_ok op (length (heap s)) rs s1 (map f0 es)
      (map (fun g => map (F g) es) l) (map h es)) as (s2 & E & Hh).
    - subst s1. cbn. rewrite lookup_app_r by lia. by rewrite Nat.sub_diag.
    - clear -H2. induction H2 as [|x r l rs Hx H2 IH]; [constructor|]. constructor; [|done].
      pose proof (lookup_lt_Some _ _ _ Hx). split; [lia|]. subst s1. cbn. by apply lookup_app_l_Some.
    - done.
    - pose proof (accumulate_frame op (length (heap s)) rs s1) as (Hc & _).
      rewrite E in *. cbn in *. exists s2, (length (heap s)). split; [done|].
      split; [by eapply inv_step|]. split; [done|]. rewrite Hh. apply list_lookup_insert.
      subst s1. cbn. rewrite app_length. simpl. lia.
  Qed.

  (** Per-operator accumulation. *)
  Lemma foldzip_map op (f0 : env -> val) l (step : val -> val -> val) :
    (forall (p : env -> val) g, g ∈ l ->
       (forall e, e ∈ es -> exists l1, l1 ⊆ l /\ p e = fold_left step (map (fun g => F g e) l1) (f0 e)) ->
       forall e, e ∈ es -> op (p e) (F g e) = Ok (step (p e) (F g e))) ->
    foldzip op (map f0 es) (map (fun g => map (F g) es) l) =
    Ok (map (fun e => fold_left step (map (fun g => F g e) l) (f0 e)) es).
  Proof.
    intros Hop.
    enough (forall l2 l1, l1 ++ l2 = l ->
      foldzip op (map (fun e => fold_left step (map (fun g => F g e) l1) (f0 e)) es)
        (map (fun g => map (F g) es) l2) =
      Ok (map (fun e => fold_left step (map (fun g => F g e) l) (f0 e)) es)) as H.
    { by apply (H l []). }
    induction l2 as [|g l2 IH]; intros l1 Hl.
    - rewrite app_nil_r in Hl. by subst.
    - cbn [map foldzip]. rewrite (zipM_map op _ _
        (fun e => step (fold_left step (map (fun g => F g e) l1) (f0 e)) (F g e))).
      + cbn [rbind]. rewrite <- (IH (l1 ++ [g])) by (by rewrite <- app_assoc). f_equal.
        apply map_ext. intros e. by rewrite map_app, fold_left_app.
      + intros e He. apply (Hop (fun e => fold_left step (map (fun g => F g e) l1) (f0 e)) g);
          [|intros e' He'; exists l1; split; [|done]|done].
        * subst. apply elem_of_app. right. by left.
        * subst. intros x Hx. apply elem_of_app. by left.
  Qed.

  Lemma defined_sub_b l g : defined (AndN l) -> g ∈ l ->
    defined g /\ forall e, e ∈ es -> exists b, F g e = VB b.
  Proof.
    intros Hd Hg.
    assert (forall e, e ∈ es -> exists b, eval e g = Some (VB b)) as H.
    { intros e He. apply Hd, eval_list_b in He as (bs & H2 & _).
      apply elem_of_list_lookup in Hg as [i Hi].
      destruct (Forall2_lookup_l _ _ _ _ _ H2 Hi) as (b & _ & Hb). eauto. }
    split; intros e He; destruct (H e He) as [b Hb]; unfold F; rewrite Hb; eauto.
  Qed.
  Lemma defined_sub_or l g : defined (OrN l) -> g ∈ l ->
    defined g /\ forall e, e ∈ es -> exists b, F g e = VB b.
  Proof.
    intros Hd Hg.
    assert (forall e, e ∈ es -> exists b, eval e g = Some (VB b)) as H.
    { intros e He. apply Hd, eval_list_or in He as (bs & H2 & _).
      apply elem_of_list_lookup in Hg as [i Hi].
      destruct (Forall2_lookup_l _ _ _ _ _ H2 Hi) as (b & _ & Hb). eauto. }
    split; intros e He; destruct (H e He) as [b Hb]; unfold F; rewrite Hb; eauto.
  Qed.
  Lemma defined_sub_plus l g : defined (PlusN l) -> g ∈ l ->
    defined g /\ forall e, e ∈ es -> exists b, F g e = VN b.
  Proof.
    intros Hd Hg.
    assert (forall e, e ∈ es -> exists b, eval e g = Some (VN b)) as H.
    { intros e He. apply Hd, eval_list_plus in He as (bs & H2 & _).
      apply elem_of_list_lookup in Hg as [i Hi].
      destruct (Forall2_lookup_l _ _ _ _ _ H2 Hi) as (b & _ & Hb). eauto. }
    split; intros e He; destruct (H e He) as [b Hb]; unfold F; rewrite Hb; eauto.
  Qed.
  Lemma defined_sub_times l g : defined (TimesN l) -> g ∈ l ->
    defined g /\ forall e, e ∈ es -> exists b, F g e = VN b.
  Proof.
    intros Hd Hg.
    assert (forall e, e ∈ es -> exists b, eval e g = Some (VN b)) as H.
    { intros e He. apply Hd, eval_list_times in He as (bs & H2 & _).
      apply elem_of_list_lookup in Hg as [i Hi].
      destruct (Forall2_lookup_l _ _ _ _ _ H2 Hi) as (b & _ & Hb). eauto. }
    split; intros e He; destruct (H e He) as [b Hb]; unfold F; rewrite Hb; eauto.
  Qed.

  (** The values computed by the accumulations. *)
  Definition vand (x y : val) : val := VB (truth x && truth y).
  Definition vor (x y : val) : val := VB (truth x || truth y).

  Lemma F_list (g : fm -> val -> Prop) : True. Proof. done. Qed.

  Lemma F_map_VB e l bs : Forall2 (fun g b => eval e g = Some (VB b)) l bs ->
    map (fun g => F g e) l = map VB bs.
  Proof.
    induction 1 as [|g b l bs H _ IH]; [done|]. cbn. rewrite IH. unfold F. by rewrite H.
  Qed.
  Lemma F_map_VN e l bs : Forall2 (fun g b => eval e g = Some (VN b)) l bs ->
    map (fun g => F g e) l = map VN bs.
  Proof.
    induction 1 as [|g b l bs H _ IH]; [done|]. cbn. rewrite IH. unfold F. by rewrite H.
  Qed.

  Lemma fold_vand bs b : fold_left vand (map VB bs) (VB b) = VB (b && forallb id bs).
  Proof.
    revert b. induction bs as [|x bs IH]; intros b; cbn; [by rewrite andb_true_r|].
    unfold vand at 2. cbn. rewrite IH. by rewrite andb_assoc.
  Qed.
  Lemma fold_vor bs b : fold_left vor (map VB bs) (VB b) = VB (b || existsb id bs).
  Proof.
    revert b. induction bs as [|x bs IH]; intros b; cbn; [by rewrite orb_false_r|].
    unfold vor at 2. cbn. rewrite IH. by rewrite orb_assoc.
  Qed.

  Lemma col_sym k col x : vars !! k = Some x -> cols !! k = Some col ->
    map VN col = map (fun e => VN (er e x)) es /\
    map (fun v => VB (truth v)) (map VN col) = map (fun e => VB (eb e x)) es.
  Proof.
    intros Hk Hcol.
    assert (forall i, option_map (fun e => (er e x, eb e x)) (es !! i) =
                      option_map (fun q => (q, negb (qeq q 0))) (col !! i)) as H.
    { intros i. destruct (es !! i) as [e|] eqn:Ee.
      - destruct (Hrows i e Ee k x Hk) as (col' & q & Hc & Hq & [G1 G2]).
        assert (col' = col) as -> by congruence. rewrite Hq. cbn. by rewrite G1, G2.
      - apply lookup_ge_None in Ee. rewrite <- (Hcols k col Hcol) in Ee.
        apply lookup_ge_None in Ee. by rewrite Ee. }
    split; apply list_eq; intros i; rewrite ?list_lookup_fmap; specialize (H i);
      destruct (es !! i), (col !! i); cbn in *; try done; injection H as H1 H2; [by rewrite H1|].
    by rewrite H2.
  Qed.

  Lemma F_cst_b b : map (F (BoolC b)) es = replicate (length es) (VB b).
  Proof. clear. induction es as [|e l IH]; [done|]. cbn. by rewrite IH. Qed.
  Lemma F_cst_r q : map (F (RealC q)) es = replicate (length es) (VN q).
  Proof. clear. induction es as [|e l IH]; [done|]. cbn. by rewrite IH. Qed.

  Lemma TV_conv {A} s (m : M A) (Q R : st -> A -> Prop) :
    TV s m Q -> (forall s' a, inv s' -> step_ok s s' -> Q s' a -> R s' a) -> TV s m R.
  Proof. intros (s' & a & H1 & H2 & H3 & H4) H. exists s', a. auto. Qed.

  Lemma den_ext f (h : env -> val) r s :
    heap s !! r = Some (map h es) -> (forall e, e ∈ es -> h e = F f e) -> den f r s.
  Proof.
    intros H He. unfold den. rewrite H. f_equal. apply map_ext_in. intros e Hin.
    apply He. by apply elem_of_list_In.
  Qed.

  Lemma lookup_cache_in c f r : lookup_cache c f = Some r -> (f, r) ∈ c.
  Proof.
    induction c as [|[g r'] c IH]; [done|]. cbn. destruct (decide (f = g)) as [->|].
    - intros [= ->]. by left.
    - intros H. right. auto.
  Qed.

  Lemma TV_cached s f m :
    inv s -> TV s m (fun s' r => den f r s') -> TV s (cached f m) (fun s' r => den f r s').
  Proof.
    intros HI Hm.
    assert (T s m vref) as HT.
    { intros Hv. destruct Hm as (s' & a & -> & I & S & D). cbn.
      split; [by apply inv_valid|]. split; [done|]. intros ? [= <-]. by apply lookup_lt_Some in D. }
    destruct (T_cached s f m HT (inv_valid s HI)) as (_ & S & _).
    destruct Hm as (s' & a & Hm & [I1 I2] & S1 & D). revert S. unfold TV, cached.
    destruct (lookup_cache (cache s) f) as [r|] eqn:E; cbn.
    - intros S. eexists _, r. split; [done|]. split; [|split; [done|]].
      + split; cbn; apply HI.
      + cbn. apply HI. by apply lookup_cache_in.
    - rewrite Hm. cbn. intros S. eexists _, a. split; [done|]. split; [|split; [done|]].
      + split; cbn; [|done]. intros g r H. apply elem_of_cons in H as [H|H].
        * by injection H as -> ->.
        * by apply I1.
      + done.
  Qed.

  Lemma batch_ok n f s :
    msize f <= n -> good f -> over vars f -> defined f -> inv s ->
    TV s (B n f) (fun s' r => den f r s').
  Proof.
    revert f s. induction n as [|n IH]; intros f s Hn Hg Ho Hd HI.
    { pose proof (msize_pos f). lia. }
    cbn [batch]. apply TV_cached; [done|].
    assert (Hin : forall l g, g ∈ l -> (forall x t, (x, t) ∈ concat (map syms l) -> x ∈ vars) -> over vars g).
    { intros l g Hgl H x t Hx. apply (H x t). apply elem_of_list_In, in_concat.
      exists (syms g). split; [|by apply elem_of_list_In]. apply in_map. by apply elem_of_list_In. }
    assert (Ho2 : forall a b, (forall x t, (x, t) ∈ syms a ++ syms b -> x ∈ vars) -> over vars a /\ over vars b).
    { intros a b H. split; intros x t Hx; eapply H; apply elem_of_app; eauto. }
    assert (HAnd : forall l, (forall g, g ∈ l -> msize g <= n /\ good g /\ over vars g) ->
              l <> [] -> defined (AndN l) ->
              TV s (do! rs := mmapM (B n) l in
                    match rs with
                    | [] => merr IndexError
                    | r0 :: rs => do! a := read r0 in do! acc := alloc a in
                                  do! _ := accumulate np_and acc rs in mret acc
                    end) (fun s' r => den (AndN l) r s')).
    { intros l Hl Hne Hdl. eapply TV_bind.
      { apply (TV_mmapM (B n) l s HI). intros s1 g Hgl I1. destruct (Hl g Hgl) as (? & ? & ?).
        apply IH; try done. by apply (defined_sub_b l g). }
      intros s1 rs I1 S1 D1. destruct D1 as [|g0 r0 l rs D0 D1]; [done|].
      eapply TV_bind; [apply (TV_read_den s1 _ g0); assumption|].
      intros ? ? _ _ [-> ->].
      eapply TV_conv; [eapply (TV_acc s1 np_and (F g0) l rs); [done|done|]|].
      { apply (foldzip_map np_and (F g0) l vand). intros p g Hgl Hp e He.
        destruct (defined_sub_b (g0 :: l) g Hdl) as [_ Hb]; [by right|].
        destruct (Hb e He) as [b ->].
        destruct (defined_sub_b (g0 :: l) g0 Hdl) as [_ Hb0]; [by left|].
        destruct (Hb0 e He) as [b0 Hb0'].
        destruct (Hp e He) as (l1 & Hsub & ->). rewrite Hb0'.
        assert (exists bs, map (fun g => F g e) l1 = map VB bs) as [bs ->].
        { clear -Hsub Hdl He. induction l1 as [|g1 l1 IHl]; [by exists []|].
          destruct (defined_sub_b (g0 :: l) g1 Hdl) as [_ Hb]; [right; apply Hsub; by left|].
          destruct (Hb e He) as [b Hb']. destruct IHl as [bs Hbs].
          { intros x Hx. apply Hsub. by right. }
          exists (b :: bs). cbn. by rewrite Hb', Hbs. }
        rewrite fold_vand. done. }
      intros s' r I2 S2 Hr. eapply den_ext; [exact Hr|]. intros e He. cbn beta.
      pose proof (Hdl e He) as Hev. apply eval_list_b in Hev as (bs & H2 & Hv). rewrite Hv.
      inversion H2 as [|? b0 ? bs' E0 H2']; subst. rewrite (F_map_VB _ _ _ H2').
      unfold F at 1. rewrite E0. cbn. by rewrite fold_vand. }
    assert (HL : forall l t, S (list_sum (map msize l)) <= S n ->
              Forall (fun f => good f /\ typeof f = Some t) l ->
              (forall x u, (x, u) ∈ concat (map syms l) -> x ∈ vars) ->
              forall g, g ∈ l -> msize g <= n /\ good g /\ over vars g).
    { intros l t Hsz Hl Hov g Hgl. pose proof (msize_in g l Hgl). split; [lia|].
      rewrite Forall_forall in Hl. split; [by apply Hl|by eapply Hin]. }
    assert (Hbin : forall a b op (h : val -> val -> val),
              msize a <= n -> msize b <= n -> good a -> good b -> over vars a -> over vars b ->
              defined a -> defined b ->
              (forall e, e ∈ es -> op (F a e) (F b e) = Ok (h (F a e) (F b e))) ->
              TV s (do! x := B n a in do! y := B n b in nbin op x y)
                (fun s' r => heap s' !! r = Some (map (fun e => h (F a e) (F b e)) es))).
    { intros a b op h Sa Sb Ga Gb Oa Ob Da Db Hop.
      eapply TV_bind; [by apply IH|]. intros s1 ra I1 S1 D1.
      eapply TV_bind; [by apply IH|]. intros s2 rb I2 S2 D2.
      apply (TV_nbin s2 op ra rb a b (fun e => h (F a e) (F b e)));
        [done|by apply (den_step a ra s1 s2)|exact D2|exact Hop]. }
    destruct f as [x t|b|q|z|l|l|a|a b|a b|c a b|l|a b|l|a b|a b|a b|a b|a|a];
      cbn [dispatch batch_walker w_and w_or w_plus w_minus w_times w_not w_ite w_pow w_lte w_lt
           w_equals w_symbol w_const w_cannot] in *; cbn [msize] in Hn.
    - destruct (index_of_spec vars x Hnd) as (k & Hk & ->).
      { eapply Ho. by left. }
      cbn [negb]. assert (exists col, cols !! k = Some col) as [col Hcol].
      { apply lookup_lt_is_Some. rewrite Hlen. by eapply lookup_lt_Some. }
      destruct (col_sym k col x Hk Hcol) as [C1 C2].
      eapply TV_bind; [eapply (TV_read _ _ (map VN col) (fun s' x => s' = s /\ x = map VN col)); [done| |done]|].
      { by apply (proj2 HI). }
      intros ? ? _ _ [-> ->].
      eapply TV_bind; [apply (TV_alloc s _ (fun s' r => heap s' !! r = Some (map VN col))); [done|done]|].
      intros s1 r I1 S1 Hr.
      pose proof (Ho x t ltac:(by left)). destruct t.
      + eapply TV_bind; [by eapply (TV_read _ _ (map VN col) (fun s' x => s' = s1 /\ x = map VN col))|].
        intros ? ? _ _ [-> ->]. apply TV_alloc; [done|]. intros s2 S2 I2 H2.
        rewrite C2 in H2. by eapply den_ext.
      + apply TV_ret; [done|]. rewrite C1 in Hr. by eapply den_ext.
      + by destruct Hg as (_ & ? & _).
    - apply TV_alloc; [done|]. intros s' S' I' H'. unfold den. by rewrite F_cst_b.
    - apply TV_alloc; [done|]. intros s' S' I' H'. unfold den. by rewrite F_cst_r.
    - by destruct Hg as (_ & ? & _).
    - destruct (good_and _ Hg) as [Hlen' Hl]. apply HAnd; [by eapply HL| |done].
      intros ->. simpl in Hlen'. lia.
    - destruct (good_or _ Hg) as [Hlen' Hl]. pose proof (HL l _ Hn Hl Ho) as Hl'.
      eapply TV_bind.
      { apply (TV_mmapM (B n) l s HI). intros s1 g Hgl I1. destruct (Hl' g Hgl) as (? & ? & ?).
        apply IH; try done. by apply (defined_sub_or l g). }
      intros s1 rs I1 S1 D1. destruct D1 as [|g0 r0 l rs D0 D1]; [simpl in Hlen'; lia|].
      eapply TV_bind; [apply (TV_read_den s1 _ g0); assumption|].
      intros ? ? _ _ [-> ->].
      eapply TV_conv; [eapply (TV_acc s1 np_or (F g0) l rs); [done|done|]|].
      { apply (foldzip_map np_or (F g0) l vor). intros p g Hgl Hp e He.
        destruct (defined_sub_or (g0 :: l) g Hd) as [_ Hb]; [by right|].
        destruct (Hb e He) as [b ->].
        destruct (defined_sub_or (g0 :: l) g0 Hd) as [_ Hb0]; [by left|].
        destruct (Hb0 e He) as [b0 Hb0'].
        destruct (Hp e He) as (l1 & Hsub & ->). rewrite Hb0'.
        assert (exists bs, map (fun g => F g e) l1 = map VB bs) as [bs ->].
        { clear -Hsub Hd He. induction l1 as [|g1 l1 IHl]; [by exists []|].
          destruct (defined_sub_or (g0 :: l) g1 Hd) as [_ Hb]; [right; apply Hsub; by left|].
          destruct (Hb e He) as [b Hb']. destruct IHl as [bs Hbs].
          { intros x Hx. apply Hsub. by right. }
          exists (b :: bs). cbn. by rewrite Hb', Hbs. }
        rewrite fold_vor. done. }
      intros s' r I2 S2 Hr. eapply den_ext; [exact Hr|]. intros e He. cbn beta.
      pose proof (Hd e He) as Hev. apply eval_list_or in Hev as (bs & H2 & Hv). rewrite Hv.
      inversion H2 as [|? b0 ? bs' E0 H2']; subst. rewrite (F_map_VB _ _ _ H2').
      unfold F at 1. rewrite E0. cbn. by rewrite fold_vor.
    - destruct (good_not _ Hg) as [Ha Ta].
      assert (defined a /\ forall e, e ∈ es -> F (NotN a) e = VB (negb (truth (F a e)))) as [Da Fa].
      { split; intros e He; pose proof (Hd e He) as Hev; cbn [eval] in Hev;
          destruct (vbool (eval e a)) as [b|] eqn:E; try done; apply vbool_some in E;
          unfold F; cbn [eval]; rewrite E; done. }
      eapply TV_bind; [apply IH; [lia|done|done|done|done]|]. intros s1 r I1 S1 D1.
      eapply TV_bind; [apply (TV_read_den s1 _ a); assumption|].
      intros ? ? _ _ [-> ->]. apply TV_alloc; [done|]. intros s2 S2 I2 H2. rewrite map_map in H2.
      eapply den_ext; [exact H2|]. intros e He. cbn beta. by rewrite Fa.
    - pose proof Hg as (_ & _ & Ht).
      eapply TV_conv; [apply (IH (imp_expand a b) s)|].
      + pose proof (msize_imp a b) as H. cbn [msize] in H. lia.
      + by apply good_imp_expand.
      + unfold over. by rewrite syms_imp_expand.
      + intros e He. unfold F. rewrite eval_imp_expand by done. by apply Hd.
      + done.
      + intros s' r _ _ D. eapply den_ext; [exact D|]. intros e He. unfold F.
        by rewrite eval_imp_expand.
    - destruct (good_iff_args _ _ Hg) as [G1 G2].
      eapply TV_conv; [apply (HAnd [ImpN a b; ImpN b a])|].
      + intros g Hgl. apply elem_of_cons in Hgl as [->|Hgl].
        * split; [cbn [msize]; lia|]. split; [done|]. exact Ho.
        * apply elem_of_list_singleton in Hgl as ->.
          split; [cbn [msize]; lia|]. split; [done|]. intros x t Hx. apply (Ho x t).
          cbn [syms] in *. apply elem_of_app in Hx. apply elem_of_app. tauto.
      + done.
      + intros e He. unfold F. rewrite eval_iff_expand. by apply Hd.
      + intros s' r _ _ D. eapply den_ext; [exact D|]. intros e He. unfold F.
        by rewrite eval_iff_expand.
    - destruct (good_ite _ _ _ Hg) as ([Hc Tc] & Ha & Hb & Hty).
      assert (Hde : forall e, e ∈ es -> exists x va vb, eval e c = Some (VB x) /\ eval e a = Some va /\
                eval e b = Some vb /\ F (IteN c a b) e = if x then va else vb).
      { intros e He. pose proof (Hd e He) as Hev. remember (F (IteN c a b) e) as r eqn:Er. clear Er.
        cbn [eval] in Hev. destruct (vbool (eval e c)) as [x|] eqn:Ec; [|done].
        destruct (eval e a) as [va|] eqn:Ea; [|done]. cbn in Hev.
        destruct (eval e b) as [vb|] eqn:Eb; [|done]. cbn in Hev. apply vbool_some in Ec.
        exists x, va, vb. repeat split; try done. destruct va, vb, x; cbn in Hev; congruence. }
      assert (defined c /\ defined a /\ defined b) as (Dc & Da & Db).
      { split; [|split]; intros e He; destruct (Hde e He) as (x & va & vb & E1 & E2 & E3 & _);
          unfold F; rewrite ?E1, ?E2, ?E3; done. }
      assert (over vars c /\ over vars a /\ over vars b) as (Oc & Oa & Ob).
      { split; [|split]; intros y u Hy; eapply Ho; cbn [syms]; rewrite !elem_of_app; eauto. }
      eapply TV_bind; [apply (IH c s); [lia|done..]|]. intros s1 rc I1 S1 D1.
      eapply TV_bind; [apply (IH a s1); [lia|done..]|]. intros s2 ra I2 S2 D2.
      eapply TV_bind; [apply (IH b s2); [lia|done..]|]. intros s3 rb I3 S3 D3.
      apply (den_step _ _ _ _ S2) in D1. apply (den_step _ _ _ _ S3) in D1, D2.
      eapply TV_bind; [apply (TV_read_den s3 _ c); assumption|].
      intros ? ? _ _ [-> ->].
      eapply TV_bind; [apply (TV_read_den s3 _ a); assumption|].
      intros ? ? _ _ [-> ->].
      eapply TV_bind; [apply (TV_read_den s3 _ b); assumption|].
      intros ? ? _ _ [-> ->].
      eapply TV_bind; [eapply (TV_lift _ _ (map (F (IteN c a b)) es)
        (fun s' x => s' = s3 /\ x = map (F (IteN c a b)) es)); [done| |done]|].
      { apply npwhere_map. intros e He. destruct (Hde e He) as (x & va & vb & E1 & E2 & E3 & ->).
        unfold F. by rewrite E1, E2, E3. }
      intros ? ? _ _ [-> ->]. apply TV_alloc; [done|]. done.
    - destruct (good_plus _ Hg) as [Hlen' (t & Hnt & Hl)]. pose proof (HL l _ Hn Hl Ho) as Hl'.
      eapply TV_bind.
      { apply (TV_mmapM (B n) l s HI). intros s1 g Hgl I1. destruct (Hl' g Hgl) as (? & ? & ?).
        apply IH; try done. by apply (defined_sub_plus l g). }
      intros s1 rs I1 S1 D1.
      assert (Hsum : forall l rs, Forall2 (fun x r => den x r s1) l rs -> forall s2 acc h,
                inv s2 -> step_ok s1 s2 -> heap s2 !! acc = Some (map h es) ->
                TV s2 (nsum acc rs) (fun s' r => heap s' !! r =
                  Some (map (fun e => fold_left pyadd (map (fun g => F g e) l) (h e)) es))).
      { induction 1 as [|g r l' rs' D D2 IHl]; intros s2 acc h I2 S2 Hacc.
        - by apply TV_ret.
        - cbn [nsum]. eapply TV_bind.
          { unfold nbin.
            eapply TV_bind; [by eapply (TV_read _ _ _ (fun s' x => s' = s2 /\ x = map h es))|].
            intros ? ? _ _ [-> ->].
            eapply TV_bind; [eapply (TV_read _ _ _ (fun s' x => s' = s2 /\ x = map (F g) es)); [done| |done]|].
            { by eapply den_step. }
            intros ? ? _ _ [-> ->].
            eapply TV_bind; [eapply (TV_lift _ _ (map (fun e => pyadd (h e) (F g e)) es)
               (fun s' x => s' = s2 /\ x = _)); [done| |done]|].
            { by apply zipM_map. }
            intros ? ? _ _ [-> ->].
            apply (TV_alloc s2 _ (fun s' r => heap s' !! r = Some (map (fun e => pyadd (h e) (F g e)) es)));
              [done|]. done. }
          intros s3 r3 I3 S3 H3. cbn beta in H3. eapply IHl; [done|by eapply step_trans|done]. }
      destruct D1 as [|g0 r0 l rs D0 D1]; [simpl in Hlen'; lia|].
      eapply TV_bind; [apply (TV_read_den s1 _ g0); assumption|].
      intros ? ? _ _ [-> ->]. rewrite map_map.
      eapply TV_bind; [apply (TV_alloc s1 _ (fun s' r => heap s' !! r = Some (map (fun e => pyadd (VN 0%Qc) (F g0 e)) es)));
              [done|done]|].
      intros s2 r2 I2 S2 H2. eapply TV_conv; [apply (Hsum l rs D1 s2 r2 (fun e => pyadd (VN 0%Qc) (F g0 e)) I2 S2 H2)|].
      intros s' r _ _ Hr. eapply den_ext; [exact Hr|]. intros e He. cbn beta.
      pose proof (Hd e He) as Hev. apply eval_list_plus in Hev as (qs & H3 & Hv). rewrite Hv.
      inversion H3 as [|? q0 ? qs' E0 H3']; subst. rewrite (F_map_VN _ _ _ H3').
      unfold F. rewrite E0. change (default (VB false) (Some (VN q0))) with (VN q0).
      change (pyadd (VN 0%Qc) (VN q0)) with (VN (0 + q0)%Qc). rewrite fold_pyadd.
      change (qsum (q0 :: qs')) with (q0 + qsum qs')%Qc. f_equal. ring.
    - destruct (good_minus _ _ Hg) as (t & Hnt & [Ha _] & [Hb _]). destruct (Ho2 _ _ Ho) as [Oa Ob].
      assert (Hde : forall e, e ∈ es -> exists x y, eval e a = Some (VN x) /\ eval e b = Some (VN y) /\
                F (MinusN a b) e = VN (x - y)%Qc).
      { intros e He. pose proof (Hd e He) as Hev. remember (F (MinusN a b) e) as r eqn:Er. clear Er.
        cbn [eval] in Hev. destruct (vnum (eval e a)) as [x|] eqn:Ea; [|done].
        destruct (vnum (eval e b)) as [y|] eqn:Eb; [|done]. cbn in Hev. injection Hev as <-.
        apply vnum_some in Ea, Eb. eauto. }
      eapply TV_conv; [apply (Hbin a b _ (fun x y => VN (pynum x - pynum y)%Qc)); try done; try lia|].
      + intros e He. destruct (Hde e He) as (x & y & E1 & _). unfold F. by rewrite E1.
      + intros e He. destruct (Hde e He) as (x & y & _ & E1 & _). unfold F. by rewrite E1.
      + intros s' r _ _ D. eapply den_ext; [exact D|]. intros e He. cbn beta.
        destruct (Hde e He) as (x & y & E1 & E2 & ->). unfold F. by rewrite E1, E2.
    - destruct (good_times _ Hg) as [Hlen' (t & Hnt & Hl)]. pose proof (HL l _ Hn Hl Ho) as Hl'.
      destruct l as [|g0 l]; [simpl in Hlen'; lia|].
      eapply TV_bind.
      { apply (TV_mmapM (B n) (g0 :: l) s HI). intros s1 g Hgl I1. destruct (Hl' g Hgl) as (? & ? & ?).
        apply IH; try done. by apply (defined_sub_times (g0 :: l) g). }
      intros s1 rs I1 S1 D1. inversion D1 as [|? r0 ? rs' D0 D1']; subst.
      eapply TV_bind; [apply (TV_read_den s1 _ g0); assumption|].
      intros ? ? _ _ [-> ->]. rewrite map_map.
      eapply TV_conv; [eapply (TV_acc s1 _ (fun e => pymul (VN 1%Qc) (F g0 e)) l rs'); [done|done|]|].
      { by apply (foldzip_map _ (fun e => pymul (VN 1%Qc) (F g0 e)) l pymul). }
      intros s' r I2 S2 Hr. eapply den_ext; [exact Hr|]. intros e He. cbn beta.
      pose proof (Hd e He) as Hev. apply eval_list_times in Hev as (bs & H2 & Hv). rewrite Hv.
      inversion H2 as [|? b0 ? bs' E0 H2']; subst. rewrite (F_map_VN _ _ _ H2').
      unfold F. rewrite E0. change (default (VB false) (Some (VN b0))) with (VN b0).
      change (pymul (VN 1%Qc) (VN b0)) with (VN (1 * b0)%Qc). rewrite fold_pymul.
      change (qprod (b0 :: bs')) with (b0 * qprod bs')%Qc. f_equal. ring.
    - destruct (good_pow _ _ Hg) as (t & Hnt & [Ha Ta] & [Hb Tb] & _). destruct (Ho2 _ _ Ho) as [Oa Ob].
      assert (Hde : forall e, e ∈ es -> exists x y k, eval e a = Some (VN x) /\ eval e b = Some (VN y) /\
                nat_of_qc y = Some k /\ F (PowN a b) e = VN (qpow x k)).
      { intros e He. pose proof (Hd e He) as Hev. remember (F (PowN a b) e) as r eqn:Er. clear Er.
        cbn [eval] in Hev. destruct (vnum (eval e a)) as [x|] eqn:Ea; [|done].
        destruct (vnum (eval e b)) as [y|] eqn:Eb; [|done]. cbn in Hev.
        destruct (nat_of_qc y) as [k|] eqn:Ek; [|done]. cbn in Hev. injection Hev as <-.
        apply vnum_some in Ea, Eb. exists x, y, k. done. }
      eapply TV_conv; [apply (Hbin a b _ (fun x y => match pypow x y with Ok v => v | Err _ => VB false end)); try done; try lia|].
      + intros e He. destruct (Hde e He) as (x & y & k & E1 & _). unfold F. by rewrite E1.
      + intros e He. destruct (Hde e He) as (x & y & k & _ & E1 & _). unfold F. by rewrite E1.
      + intros e He. destruct (Hde e He) as (x & y & k & E1 & E2 & E3 & _). unfold F. rewrite E1, E2.
        cbn. by rewrite (pypow_nat _ _ _ E3).
      + intros s' r _ _ D. eapply den_ext; [exact D|]. intros e He. cbn beta.
        destruct (Hde e He) as (x & y & k & E1 & E2 & E3 & ->). unfold F. rewrite E1, E2.
        cbn. by rewrite (pypow_nat _ _ _ E3).
    - destruct (good_le _ _ Hg) as (t & Hnt & [Ha _] & [Hb _]). destruct (Ho2 _ _ Ho) as [Oa Ob].
      assert (Hde : forall e, e ∈ es -> exists x y, eval e a = Some (VN x) /\ eval e b = Some (VN y) /\
                F (LeN a b) e = VB (qle x y)).
      { intros e He. pose proof (Hd e He) as Hev. remember (F (LeN a b) e) as r eqn:Er. clear Er.
        cbn [eval] in Hev. destruct (vnum (eval e a)) as [x|] eqn:Ea; [|done].
        destruct (vnum (eval e b)) as [y|] eqn:Eb; [|done]. cbn in Hev. injection Hev as <-.
        apply vnum_some in Ea, Eb. eauto. }
      eapply TV_conv; [apply (Hbin a b _ (fun x y => VB (qle (pynum x) (pynum y)))); try done; try lia|].
      + intros e He. destruct (Hde e He) as (x & y & E1 & _). unfold F. by rewrite E1.
      + intros e He. destruct (Hde e He) as (x & y & _ & E1 & _). unfold F. by rewrite E1.
      + intros s' r _ _ D. eapply den_ext; [exact D|]. intros e He. cbn beta.
        destruct (Hde e He) as (x & y & E1 & E2 & ->). unfold F. by rewrite E1, E2.
    - destruct (good_le a b Hg) as (t & Hnt & [Ha _] & [Hb _]). destruct (Ho2 _ _ Ho) as [Oa Ob].
      assert (Hde : forall e, e ∈ es -> exists x y, eval e a = Some (VN x) /\ eval e b = Some (VN y) /\
                F (LtN a b) e = VB (qlt x y)).
      { intros e He. pose proof (Hd e He) as Hev. remember (F (LtN a b) e) as r eqn:Er. clear Er.
        cbn [eval] in Hev. destruct (vnum (eval e a)) as [x|] eqn:Ea; [|done].
        destruct (vnum (eval e b)) as [y|] eqn:Eb; [|done]. cbn in Hev. injection Hev as <-.
        apply vnum_some in Ea, Eb. eauto. }
      eapply TV_conv; [apply (Hbin a b _ (fun x y => VB (qlt (pynum x) (pynum y)))); try done; try lia|].
      + intros e He. destruct (Hde e He) as (x & y & E1 & _). unfold F. by rewrite E1.
      + intros e He. destruct (Hde e He) as (x & y & _ & E1 & _). unfold F. by rewrite E1.
      + intros s' r _ _ D. eapply den_ext; [exact D|]. intros e He. cbn beta.
        destruct (Hde e He) as (x & y & E1 & E2 & ->). unfold F. by rewrite E1, E2.
    - destruct (good_le a b Hg) as (t & Hnt & [Ha _] & [Hb _]). destruct (Ho2 _ _ Ho) as [Oa Ob].
      assert (Hde : forall e, e ∈ es -> exists x y, eval e a = Some (VN x) /\ eval e b = Some (VN y) /\
                F (EqN a b) e = VB (qeq x y)).
      { intros e He. pose proof (Hd e He) as Hev. remember (F (EqN a b) e) as r eqn:Er. clear Er.
        cbn [eval] in Hev. destruct (vnum (eval e a)) as [x|] eqn:Ea; [|done].
        destruct (vnum (eval e b)) as [y|] eqn:Eb; [|done]. cbn in Hev. injection Hev as <-.
        apply vnum_some in Ea, Eb. eauto. }
      eapply TV_conv; [apply (Hbin a b _ (fun x y => VB (qeq (pynum x) (pynum y)))); try done; try lia|].
      + intros e He. destruct (Hde e He) as (x & y & E1 & _). unfold F. by rewrite E1.
      + intros e He. destruct (Hde e He) as (x & y & _ & E1 & _). unfold F. by rewrite E1.
      + intros s' r _ _ D. eapply den_ext; [exact D|]. intros e He. cbn beta.
        destruct (Hde e He) as (x & y & E1 & E2 & ->). unfold F. by rewrite E1, E2.
    - by destruct Hg as (_ & ? & _).
    - by destruct Hg as (_ & ? & _).
  Qed.
End Values.

(** C03 for tables. *)
Lemma evaluate_table vars cols es f vs :
  NoDup vars -> length cols = length vars ->
  (forall k col, cols !! k = Some col -> length col = length es) ->
  (forall i e, es !! i = Some e -> agrees_row vars cols i e) ->
  over vars f -> wf_fm f = true -> plain f = true -> typeof f <> None ->
  Forall2 (fun e v => eval e f = Some v) es vs ->
  evaluate vars f (Arr2 (length es) cols) = Ok (Array vs).
Proof.
  intros Hnd Hl Hc Hr Ho H1 H2 H3 Hv. cbn [evaluate]. unfold check_batch.
  assert (vs = map (F f) es) as ->.
  { clear -Hv. induction Hv as [|e v es vs H _ IH]; [done|]. cbn. rewrite <- IH.
    unfold F. by rewrite H. }
  destruct (batch_ok vars cols es Hnd Hc Hr Hl (msize f) f (batch_init cols)) as (s' & r & E & _ & _ & D).
  - done.
  - done.
  - done.
  - intros e He. apply elem_of_list_lookup in He as [i Hi].
    destruct (Forall2_lookup_l _ _ _ _ _ Hv Hi) as (v & _ & Hv'). unfold F. by rewrite Hv'.
  - split; cbn.
    + intros g r H. by apply elem_of_nil in H.
    + intros k col H. by rewrite list_lookup_fmap, H.
  - rewrite E. unfold den in D. by rewrite D.
Qed.

Lemma evaluate_single vars sample e f v :
  1 < length vars -> NoDup vars -> agrees vars sample e -> over vars f ->
  wf_fm f = true -> plain f = true -> typeof f <> None ->
  eval e f = Some v -> evaluate vars f (Arr1 sample) = Ok (Scalar v).
Proof.
  intros. cbn [evaluate]. apply Nat.ltb_lt in H as ->. by rewrite (single_ok vars sample e f v).
Qed.

Lemma walks_step vars len two_d fs s :
  cache_valid s ->
  cache_valid (walks vars len two_d fs s) /\ step_ok s (walks vars len two_d fs s).
Proof.
  revert s. induction fs as [|f fs IH]; intros s Hv; cbn [walks].
  { split; [done|apply step_refl]. }
  destruct (T_batch vars len two_d (msize f) f s Hv) as (V & S & _).
  destruct (IH _ V) as [V2 S2]. split; [done|]. by eapply step_trans.
Qed.

Lemma init_cache_valid cols : cache_valid (batch_init cols).
Proof. intros f r H. by apply elem_of_nil in H. Qed.

Lemma walks_no_damage vars len two_d cols fs :
  let s' := walks vars len two_d fs (batch_init cols) in
  (forall k col, cols !! k = Some col -> heap s' !! k = Some (map VN col)) /\
  no_write_after_return (trace s').
Proof.
  destruct (walks_step vars len two_d fs (batch_init cols) (init_cache_valid cols))
    as [V (U & L & evs & E & W & R & N)]. split.
  - intros k col H. apply U. cbn. by rewrite list_lookup_fmap, H.
  - unfold events in E. cbn in E. by rewrite E.
Qed.

(** A result handed out for one formula keeps its contents while the checker is
    asked for other formulas. *)
Lemma walks_result_kept vars len two_d cols fs f s r a more :
  s = walks vars len two_d fs (batch_init cols) ->
  batch vars len two_d (msize f) f s = (fst (batch vars len two_d (msize f) f s), Ok r) ->
  heap (fst (batch vars len two_d (msize f) f s)) !! r = Some a ->
  heap (walks vars len two_d more (fst (batch vars len two_d (msize f) f s))) !! r = Some a.
Proof.
  intros -> H Ha.
  destruct (walks_step vars len two_d fs (batch_init cols) (init_cache_valid cols)) as [V _].
  destruct (T_batch vars len two_d (msize f) f _ V) as (V2 & _ & _).
  destruct (walks_step vars len two_d more _ V2) as [_ (U & _)]. by apply U.
Qed.

Lemma over_check vars f :
  forallb (fun p => bool_decide (p.1 ∈ vars)) (syms f) = true -> over vars f.
Proof.
  intros H x t Hx. rewrite forallb_forall in H.
  specialize (H (x, t) ltac:(by apply elem_of_list_In)). by apply bool_decide_eq_true in H.
Qed.
