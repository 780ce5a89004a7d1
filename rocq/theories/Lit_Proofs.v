(** Proofs for C28, C29 and C62. *)

From Verif Require Import Base Dict Smt Smt_Facts Walk_Model Math_Model Math_Spec Poly_Proofs Linear_Proofs Arith_Proofs.
From Verif Require Import Lit_Model Lit_Spec.

(** * The literal names *)

Definition bname (n : nat) : string := ("b" +:+ pretty n)%string.
Definition aname (n : nat) : string := ("a" +:+ pretty n)%string.

Lemma bname_inj m n : bname m = bname n -> m = n.
Proof. unfold bname. intros H. by injection H as H%(inj pretty). Qed.
Lemma aname_inj m n : aname m = aname n -> m = n.
Proof. unfold aname. intros H. by injection H as H%(inj pretty). Qed.
Lemma aname_bname m n : aname m <> bname n.
Proof. unfold aname, bname. intros H. discriminate H. Qed.

Lemma NoDup_names (g : nat -> string) (Hg : forall m n, g m = g n -> m = n) n : NoDup (map g (seq 0 n)).
Proof.
  assert (forall k, NoDup (map g (seq k n))) as H; [|apply H].
  induction n as [|n IH]; intros k; cbn; [constructor|]. constructor; [|apply IH].
  intros Hin. apply elem_of_list_In, in_map_iff in Hin as (m & He & Hin).
  apply Hg in He as ->. apply in_seq in Hin. lia.
Qed.

(** * The state of the extraction *)

Record sinv (s : lst) : Prop := {
  si_b : dwf (s_bools s);
  si_a : dwf (s_abs s);
  si_bv : map snd (s_bools s) = map bname (seq 0 (length (s_bools s)));
  si_av : map snd (s_abs s) = map aname (seq 0 (length (s_abs s))) }.

Definition sext (s s' : lst) : Prop :=
  (forall x l, dget (s_bools s) x = Some l -> dget (s_bools s') x = Some l) /\
  (forall f l, dget (s_abs s) f = Some l -> dget (s_abs s') f = Some l).

Lemma sext_refl s : sext s s.
Proof. done. Qed.
Lemma sext_trans s1 s2 s3 : sext s1 s2 -> sext s2 s3 -> sext s1 s3.
Proof. intros [A1 A2] [B1 B2]. split; auto. Qed.

(** The literals of [s] have their meaning at [e] in the assignment [e']. *)
Definition good (e e' : env) (s : lst) : Prop :=
  (forall x l, dget (s_bools s) x = Some l -> eb e' l = eb e x) /\
  (forall f l, dget (s_abs s) f = Some l -> eb e' l = meaning_true e (MTest f)).

Lemma good_ext e e' s s' : sext s s' -> good e e' s' -> good e e' s.
Proof. intros [A1 A2] [B1 B2]. split; eauto. Qed.

(** Symbols of a translated formula are literals of the tables. *)
Definition lits_in (s : lst) (g : fm) : Prop :=
  forall y t, (y, t) ∈ syms g -> t = TBool /\
    ((exists x, dget (s_bools s) x = Some y) \/ (exists f, dget (s_abs s) f = Some y)).

Lemma lits_in_ext s s' g : sext s s' -> lits_in s g -> lits_in s' g.
Proof.
  intros [A1 A2] H y t Hy. destruct (H y t Hy) as [-> [[x Hx]|[f Hf]]]; split; try done.
  - left. exists x. by apply A1.
  - right. exists f. by apply A2.
Qed.

Lemma dset_app {K V} `{EqDecision K} (d : list (K * V)) k v : dget d k = None -> dset d k v = d ++ [(k, v)].
Proof.
  induction d as [|[k0 v0] d IH]; cbn; [done|]. destruct (decide (k0 = k)); [done|].
  intros H. by rewrite IH.
Qed.

Lemma dset_ext {K V} `{EqDecision K} (d : list (K * V)) k v k' v' :
  dget d k = None -> dget d k' = Some v' -> dget (dset d k v) k' = Some v'.
Proof.
  intros H1 H2. rewrite dget_dset. destruct (decide (k = k')) as [->|]; [congruence|done].
Qed.

Lemma sinv_bool s x : sinv s -> dget (s_bools s) x = None ->
  sinv (LSt (s_abs s) (dset (s_bools s) x (bname (length (s_bools s))))).
Proof.
  intros [H1 H2 H3 H4] Hx. split; cbn [s_bools s_abs]; try done.
  - by apply dwf_dset.
  - rewrite dset_app by done. rewrite map_app, H3, app_length. cbn [length map snd].
    by rewrite Nat.add_1_r, seq_S, map_app.
Qed.
Lemma sinv_abs s f : sinv s -> dget (s_abs s) f = None ->
  sinv (LSt (dset (s_abs s) f (aname (length (s_abs s)))) (s_bools s)).
Proof.
  intros [H1 H2 H3 H4] Hx. split; cbn [s_bools s_abs]; try done.
  - by apply dwf_dset.
  - rewrite dset_app by done. rewrite map_app, H4, app_length. cbn [length map snd].
    by rewrite Nat.add_1_r, seq_S, map_app.
Qed.

(** What every successful step does. *)
Definition step_ok (s : lst) (g : fm) (s' : lst) : Prop := sinv s' /\ sext s s' /\ lits_in s' g.

Lemma rec_symbol_ok x t s g s' : sinv s -> rec_symbol x t s = Ok (g, s') ->
  t = TBool /\ step_ok s g s' /\ exists l, g = Sym l TBool /\ dget (s_bools s') x = Some l.
Proof.
  intros Hi. unfold rec_symbol. case_bool_decide as Ht; [|done]. subst t.
  destruct (dget (s_bools s) x) as [l|] eqn:E; intros [= <- <-].
  - split; [done|]. split; [split; [done|]|].
    + split; [done|]. intros y t [= -> ->]%elem_of_list_singleton. split; [done|]. left. by exists x.
    + by exists l.
  - fold (bname (length (s_bools s))). split; [done|]. split; [split|].
    + by apply sinv_bool.
    + split.
      * split; cbn [s_bools s_abs]; intros y l Hy; [by apply dset_ext|done].
      * intros y t [= -> ->]%elem_of_list_singleton. split; [done|]. left. exists x.
        cbn [s_bools]. rewrite dget_dset. by rewrite decide_True.
    + eexists. split; [done|]. cbn [s_bools]. rewrite dget_dset. by rewrite decide_True.
Qed.

Lemma rec_test_ok f a b s g s' : sinv s -> rec_test f a b s = Ok (g, s') ->
  step_ok s g s' /\ exists c l, to_canonical f = Ok c /\ g = Sym l TBool /\ dget (s_abs s') c = Some l.
Proof.
  intros Hi. unfold rec_test. destruct (is_all_real a && is_all_real b); [|done].
  destruct (to_canonical f) as [c|]; [|done]. cbn [rbind].
  destruct (dget (s_abs s) c) as [l|] eqn:E; intros [= <- <-].
  - split; [split; [done|]|].
    + split; [done|]. intros y t [= -> ->]%elem_of_list_singleton. split; [done|]. right. by exists c.
    + by exists c, l.
  - fold (aname (length (s_abs s))). split; [split|].
    + by apply sinv_abs.
    + split.
      * split; cbn [s_bools s_abs]; intros y l Hy; [done|by apply dset_ext].
      * intros y t [= -> ->]%elem_of_list_singleton. split; [done|]. right. exists c.
        cbn [s_abs]. rewrite dget_dset. by rewrite decide_True.
    + eexists c, _. split; [done|]. split; [done|]. cbn [s_abs]. rewrite dget_dset. by rewrite decide_True.
Qed.

Lemma lits_list s l : Forall (lits_in s) l ->
  forall y t, (y, t) ∈ concat (map syms l) -> t = TBool /\
    ((exists x, dget (s_bools s) x = Some y) \/ (exists f, dget (s_abs s) f = Some y)).
Proof.
  intros H y t Hy. apply elem_of_list_In, in_concat in Hy as (k & Hk & Hy).
  apply in_map_iff in Hk as (g & <- & Hg). rewrite Forall_forall in H.
  apply (H g); by apply elem_of_list_In.
Qed.
Lemma lits_mkAnd s l : Forall (lits_in s) l -> lits_in s (mkAnd l).
Proof.
  intros H. destruct l as [|f [|g l]].
  - intros y t Hy. by apply elem_of_nil in Hy.
  - by inversion H.
  - exact (lits_list s (f :: g :: l) H).
Qed.
Lemma lits_mkOr s l : Forall (lits_in s) l -> lits_in s (mkOr l).
Proof.
  intros H. destruct l as [|f [|g l]].
  - intros y t Hy. by apply elem_of_nil in Hy.
  - by inversion H.
  - exact (lits_list s (f :: g :: l) H).
Qed.
Lemma lits_mkNot s g : lits_in s g -> lits_in s (mkNot g).
Proof. intros H. by destruct g. Qed.
Lemma lits_app2 s a b (Ha : lits_in s a) (Hb : lits_in s b) :
  forall y t, (y, t) ∈ syms a ++ syms b -> t = TBool /\
    ((exists x, dget (s_bools s) x = Some y) \/ (exists f, dget (s_abs s) f = Some y)).
Proof. intros y t [H|H]%elem_of_app; auto. Qed.

Lemma smapM_inv l :
  Forall (fun f => forall s g s', sinv s -> recurse f s = Ok (g, s') -> step_ok s g s') l ->
  forall s gs s', sinv s -> smapM recurse l s = Ok (gs, s') ->
  sinv s' /\ sext s s' /\ Forall (lits_in s') gs.
Proof.
  induction 1 as [|f l Hf _ IH]; intros s gs s' Hi; cbn [smapM].
  - intros [= <- <-]. split; [done|]. split; [done|constructor].
  - destruct (recurse f s) as [[g s1]|] eqn:E1; [|done]. cbn [rbind].
    destruct (smapM recurse l s1) as [[gs' s2]|] eqn:E2; [|done]. cbn [rbind]. intros [= <- <-].
    destruct (Hf _ _ _ Hi E1) as (I1 & X1 & L1). destruct (IH _ _ _ I1 E2) as (I2 & X2 & L2).
    split; [done|]. split; [by eapply sext_trans|]. constructor; [by eapply lits_in_ext|done].
Qed.

Lemma recurse_inv f : forall s g s', sinv s -> recurse f s = Ok (g, s') -> step_ok s g s'.
Proof.
  induction f using fm_ind'; intros s g' s' Hi; cbn [recurse]; try done.
  - intros E. by apply rec_symbol_ok in E as (_ & E & _).
  - intros [= <- <-]. split; [done|]. split; [done|]. intros y t Hy. by apply elem_of_nil in Hy.
  - destruct (smapM recurse l s) as [[gs s1]|] eqn:E; [|done]. cbn [rbind]. intros [= <- <-].
    destruct (smapM_inv l H _ _ _ Hi E) as (I & X & L). split; [done|]. split; [done|]. by apply lits_mkAnd.
  - destruct (smapM recurse l s) as [[gs s1]|] eqn:E; [|done]. cbn [rbind]. intros [= <- <-].
    destruct (smapM_inv l H _ _ _ Hi E) as (I & X & L). split; [done|]. split; [done|]. by apply lits_mkOr.
  - destruct (recurse f s) as [[g s1]|] eqn:E; [|done]. cbn [rbind]. intros [= <- <-].
    destruct (IHf _ _ _ Hi E) as (I & X & L). split; [done|]. split; [done|]. by apply lits_mkNot.
  - destruct (recurse f1 s) as [[g1 s1]|] eqn:E1; [|done]. cbn [rbind].
    destruct (recurse f2 s1) as [[g2 s2]|] eqn:E2; [|done]. cbn [rbind]. intros [= <- <-].
    destruct (IHf1 _ _ _ Hi E1) as (I & X & L). destruct (IHf2 _ _ _ I E2) as (I2 & X2 & L2).
    split; [done|]. split; [by eapply sext_trans|]. refine (lits_app2 s2 g1 g2 _ L2). by eapply lits_in_ext.
  - destruct (recurse f1 s) as [[g1 s1]|] eqn:E1; [|done]. cbn [rbind].
    destruct (recurse f2 s1) as [[g2 s2]|] eqn:E2; [|done]. cbn [rbind]. intros [= <- <-].
    destruct (IHf1 _ _ _ Hi E1) as (I & X & L). destruct (IHf2 _ _ _ I E2) as (I2 & X2 & L2).
    split; [done|]. split; [by eapply sext_trans|]. refine (lits_app2 s2 g1 g2 _ L2). by eapply lits_in_ext.
  - destruct (recurse f1 s) as [[g1 s1]|] eqn:E1; [|done]. cbn [rbind].
    destruct (recurse f2 s1) as [[g2 s2]|] eqn:E2; [|done]. cbn [rbind].
    destruct (recurse f3 s2) as [[g3 s3]|] eqn:E3; [|done]. cbn [rbind]. intros [= <- <-].
    destruct (IHf1 _ _ _ Hi E1) as (I & X & L). destruct (IHf2 _ _ _ I E2) as (I2 & X2 & L2).
    destruct (IHf3 _ _ _ I2 E3) as (I3 & X3 & L3).
    split; [done|]. split; [by eapply sext_trans, sext_trans|].
    intros y t [H|[H|H]%elem_of_app]%elem_of_app.
    + by eapply (lits_in_ext s1); [by eapply sext_trans| |].
    + by eapply (lits_in_ext s2).
    + by apply L3.
  - intros E. by apply rec_test_ok in E as [E _].
  - intros E. by apply rec_test_ok in E as [E _].
  - intros E. by apply rec_test_ok in E as [E _].
Qed.

(** ** The cache is invisible *)

Lemma smapM_again l :
  Forall (fun f => forall s g s', recurse f s = Ok (g, s') ->
    sext s s' /\ forall s2, sext s' s2 -> recurse f s2 = Ok (g, s2)) l ->
  forall s gs s', smapM recurse l s = Ok (gs, s') ->
  sext s s' /\ forall s2, sext s' s2 -> smapM recurse l s2 = Ok (gs, s2).
Proof.
  induction 1 as [|f l Hf _ IH]; intros s gs s'; cbn [smapM].
  - intros [= <- <-]. done.
  - destruct (recurse f s) as [[g s1]|] eqn:E1; [|done]. cbn [rbind].
    destruct (smapM recurse l s1) as [[gs' s2]|] eqn:E2; [|done]. cbn [rbind]. intros [= <- <-].
    destruct (Hf _ _ _ E1) as [X1 A1]. destruct (IH _ _ _ E2) as [X2 A2].
    split; [by eapply sext_trans|]. intros s3 X3. rewrite (A1 s3) by (by eapply sext_trans). cbn [rbind].
    by rewrite (A2 s3).
Qed.

Lemma rec_test_again f a b s g s' : rec_test f a b s = Ok (g, s') ->
  sext s s' /\ forall s2, sext s' s2 -> rec_test f a b s2 = Ok (g, s2).
Proof.
  unfold rec_test. destruct (is_all_real a && is_all_real b); [|done].
  destruct (to_canonical f) as [c|]; [|done]. cbn [rbind].
  destruct (dget (s_abs s) c) as [l|] eqn:E; intros [= <- <-].
  - split; [done|]. intros s2 [_ X]. by rewrite (X c l E).
  - split.
    + split; cbn [s_bools s_abs]; intros y l Hy; [done|by apply dset_ext].
    + intros s2 [_ X]. erewrite (X c); [done|]. cbn [s_abs]. rewrite dget_dset. by rewrite decide_True.
Qed.

Lemma recurse_again f : forall s g s', recurse f s = Ok (g, s') ->
  sext s s' /\ forall s2, sext s' s2 -> recurse f s2 = Ok (g, s2).
Proof.
  induction f using fm_ind'; intros s g' s'; cbn [recurse]; try done.
  - unfold rec_symbol. case_bool_decide; [|done].
    destruct (dget (s_bools s) n) as [l|] eqn:E; intros [= <- <-].
    + split; [done|]. intros s2 [X _]. by rewrite (X n l E).
    + split.
      * split; cbn [s_bools s_abs]; intros y l Hy; [by apply dset_ext|done].
      * intros s2 [X _]. erewrite (X n); [done|]. cbn [s_bools]. rewrite dget_dset. by rewrite decide_True.
  - by intros [= <- <-].
  - destruct (smapM recurse l s) as [[gs s1]|] eqn:E; [|done]. cbn [rbind]. intros [= <- <-].
    destruct (smapM_again l H _ _ _ E) as [X A]. split; [done|]. intros s2 X2. by rewrite (A s2 X2).
  - destruct (smapM recurse l s) as [[gs s1]|] eqn:E; [|done]. cbn [rbind]. intros [= <- <-].
    destruct (smapM_again l H _ _ _ E) as [X A]. split; [done|]. intros s2 X2. by rewrite (A s2 X2).
  - destruct (recurse f s) as [[g s1]|] eqn:E; [|done]. cbn [rbind]. intros [= <- <-].
    destruct (IHf _ _ _ E) as [X A]. split; [done|]. intros s2 X2. by rewrite (A s2 X2).
  - destruct (recurse f1 s) as [[g1 s1]|] eqn:E1; [|done]. cbn [rbind].
    destruct (recurse f2 s1) as [[g2 s2]|] eqn:E2; [|done]. cbn [rbind]. intros [= <- <-].
    destruct (IHf1 _ _ _ E1) as [X A]. destruct (IHf2 _ _ _ E2) as [X2 A2].
    split; [by eapply sext_trans|]. intros s4 X4. rewrite (A s4) by (by eapply sext_trans). cbn [rbind].
    by rewrite (A2 s4).
  - destruct (recurse f1 s) as [[g1 s1]|] eqn:E1; [|done]. cbn [rbind].
    destruct (recurse f2 s1) as [[g2 s2]|] eqn:E2; [|done]. cbn [rbind]. intros [= <- <-].
    destruct (IHf1 _ _ _ E1) as [X A]. destruct (IHf2 _ _ _ E2) as [X2 A2].
    split; [by eapply sext_trans|]. intros s4 X4. rewrite (A s4) by (by eapply sext_trans). cbn [rbind].
    by rewrite (A2 s4).
  - destruct (recurse f1 s) as [[g1 s1]|] eqn:E1; [|done]. cbn [rbind].
    destruct (recurse f2 s1) as [[g2 s2]|] eqn:E2; [|done]. cbn [rbind].
    destruct (recurse f3 s2) as [[g3 s3]|] eqn:E3; [|done]. cbn [rbind]. intros [= <- <-].
    destruct (IHf1 _ _ _ E1) as [X A]. destruct (IHf2 _ _ _ E2) as [X2 A2].
    destruct (IHf3 _ _ _ E3) as [X3 A3].
    split; [by eapply sext_trans, sext_trans|]. intros s4 X4.
    rewrite (A s4) by (by eapply sext_trans, sext_trans). cbn [rbind].
    rewrite (A2 s4) by (by eapply sext_trans). cbn [rbind]. by rewrite (A3 s4).
  - apply rec_test_again.
  - apply rec_test_again.
  - apply rec_test_again.
Qed.

(** * Meaning *)

Lemma linear_all_real a : linear_expr a -> is_all_real a = true.
Proof.
  assert (forall a, const_expr a -> is_all_real a = true) as Hc.
  { induction a0 using fm_ind'; intros Hc; inversion Hc; subst; cbn [is_all_real]; try done.
    - apply forallb_forall. intros g Hg%elem_of_list_In. rewrite Forall_forall in *. auto.
    - rewrite IHa0_1, IHa0_2; done.
    - apply forallb_forall. intros g Hg%elem_of_list_In. rewrite Forall_forall in *. auto. }
  induction a using fm_ind'; intros Ha; inversion Ha; subst; try (by apply Hc); cbn [is_all_real].
  - by rewrite bool_decide_true.
  - apply forallb_forall. intros g Hg%elem_of_list_In. rewrite Forall_forall in *. auto.
  - rewrite IHa1, IHa2; done.
  - rewrite forallb_app. cbn [forallb]. rewrite !andb_true_iff. rewrite !forallb_forall.
    rewrite Forall_app, Forall_cons in H. destruct H as (_ & H & _).
    split; [|split].
    + intros g Hg%elem_of_list_In. apply Hc. rewrite Forall_forall in *. auto.
    + auto.
    + intros g Hg%elem_of_list_In. apply Hc. rewrite Forall_forall in *. auto.
  - rewrite IHa1; done.
Qed.

Lemma canonical_same f a b : compares f a b -> linear_expr a -> linear_expr b ->
  exists c, to_canonical f = Ok c /\ forall e, off e a b -> eval e c = eval e f.
Proof.
  intros Hc Ha Hb. destruct (li_from_smt_ok f a b Hc Ha Hb) as [d Hd].
  destruct (li_half_space f a b d Hc (linear_expr_real _ Ha) (linear_expr_real _ Hb) Hd) as (g & h & Hg & _ & V).
  assert (dwf d) as Wd.
  { unfold li_from_smt, math_walk in Hd. destruct (walk _ _ f) as [d'|] eqn:E; [|done].
    injection Hd as <-. apply dwf_lfilter.
    apply (walk_compares _ _ _ _ _ Hc E (linear_expr_real _ Ha) (linear_expr_real _ Hb)). }
  destruct (li_normalize_same d g Wd) as (c & Hn & Hq); [|done|].
  { intros k v Hin. exact (proj2 (li_linear f d Hd k v Hin)). }
  exists c. unfold to_canonical. rewrite Hd. cbn [rbind]. split; [done|].
  intros e Ho. rewrite (Hq e). by apply V.
Qed.

Lemma eval_mkAnd_eq e l : Forall (fun g => exists b, eval e g = Some (VB b)) l ->
  eval e (mkAnd l) = eval e (AndN l).
Proof.
  intros H. destruct l as [|f [|g l]]; try done. apply Forall_cons_1 in H as [[b Hb] _].
  cbn. rewrite Hb. cbn. by rewrite andb_true_r.
Qed.
Lemma eval_mkOr_eq e l : Forall (fun g => exists b, eval e g = Some (VB b)) l ->
  eval e (mkOr l) = eval e (OrN l).
Proof.
  intros H. destruct l as [|f [|g l]]; try done. apply Forall_cons_1 in H as [[b Hb] _].
  cbn. rewrite Hb. cbn. by rewrite orb_false_r.
Qed.
Lemma eval_mkNot_eq e g b : eval e g = Some (VB b) -> eval e (mkNot g) = eval e (NotN g).
Proof.
  intros H. destruct g; try done. cbn [mkNot]. cbn [eval] in *.
  destruct (vbool (eval e g)) as [c|] eqn:E; [|done]. cbn in *.
  destruct (eval e g) as [[c'|]|]; try done. cbn in E. injection E as ->. by rewrite negb_involutive.
Qed.

Definition same_at (e e' : env) (g f : fm) : Prop :=
  exists b, eval e f = Some (VB b) /\ eval e' g = Some (VB b).

Lemma same_list e e' gs l : Forall2 (same_at e e') gs l ->
  mapM (fun g => vbool (eval e' g)) gs = mapM (fun g => vbool (eval e g)) l /\
  (exists bs, mapM (fun g => vbool (eval e g)) l = Some bs) /\
  Forall (fun g => exists b, eval e' g = Some (VB b)) gs.
Proof.
  induction 1 as [|g f gs l (b & Hf & Hg) _ (E & [bs B] & F)]; cbn [mapM].
  - split; [done|]. split; [by exists []|constructor].
  - rewrite Hf, Hg, E, B. split; [done|]. split; [by exists (b :: bs)|]. constructor; [by exists b|done].
Qed.

Definition spec_ok (f : fm) : Prop := forall s, sinv s -> logic_formula f ->
  exists g s', recurse f s = Ok (g, s') /\
    forall e e', off_tests e f -> good e e' s' -> same_at e e' g f.

Lemma smapM_sem l : Forall spec_ok l -> Forall logic_formula l ->
  forall s, sinv s -> exists gs s', smapM recurse l s = Ok (gs, s') /\
    forall e e', fold_right (fun g P => off_tests e g /\ P) True l -> good e e' s' ->
      Forall2 (same_at e e') gs l.
Proof.
  induction 1 as [|f l Hf Hall IH]; intros Hl s Hi; cbn [smapM].
  - exists [], s. split; [done|]. constructor.
  - apply Forall_cons_1 in Hl as [Lf Ll]. destruct (Hf s Hi Lf) as (g & s1 & E1 & V1).
    destruct (recurse_inv f _ _ _ Hi E1) as (I1 & X1 & _).
    destruct (IH Ll s1 I1) as (gs & s2 & E2 & V2).
    assert (Forall (fun f => forall s g s', sinv s -> recurse f s = Ok (g, s') -> step_ok s g s') l) as Hst.
    { apply Forall_forall. intros k _. apply recurse_inv. }
    destruct (smapM_inv l Hst _ _ _ I1 E2) as (I2 & X2 & _).
    rewrite E1. cbn [rbind]. rewrite E2. cbn [rbind]. eexists _, _. split; [done|].
    cbn [fold_right]. intros e e' [O1 O2] G. constructor; [|by apply V2].
    apply V1; [done|]. by eapply good_ext.
Qed.

Lemma test_sem f a b s : compares f a b -> linear_expr a -> linear_expr b -> sinv s ->
  exists g s', rec_test f a b s = Ok (g, s') /\
    forall e e', off e a b -> good e e' s' -> eval e f <> None -> same_at e e' g f.
Proof.
  intros Hc Ha Hb Hi. destruct (canonical_same f a b Hc Ha Hb) as (c & Ec & Vc).
  assert (exists g s', rec_test f a b s = Ok (g, s')) as (g & s' & E).
  { unfold rec_test. rewrite !linear_all_real by done. cbn [andb]. rewrite Ec. cbn [rbind].
    destruct (dget (s_abs s) c); eauto. }
  exists g, s'. split; [done|]. intros e e' Ho Hg Hn.
  destruct (rec_test_ok _ _ _ _ _ _ Hi E) as (_ & c' & l & Ec' & -> & Hl).
  rewrite Ec in Ec'. injection Ec' as <-.
  destruct Hg as [_ G]. specialize (G c l Hl). cbn in G.
  assert (exists b, eval e f = Some (VB b)) as [v Hv].
  { destruct Ho as (x & y & Hx & Hy & _). clear -Hc Hx Hy.
    induction Hc; cbn [eval]; [rewrite Hx, Hy; cbn; eauto..|].
    destruct (IHHc Hx Hy) as [v ->]. cbn. eauto. }
  exists v. split; [done|]. cbn [eval]. rewrite G, (Vc e Ho), Hv. destruct v.
  - by rewrite bool_decide_true.
  - by rewrite bool_decide_false.
Qed.

Lemma recurse_sem f : spec_ok f.
Proof.
  unfold spec_ok. induction f using fm_ind'; intros s Hi Hl; inversion Hl; subst; cbn [recurse].
  - unfold rec_symbol. rewrite bool_decide_true by done.
    assert (exists g s', rec_symbol n TBool s = Ok (g, s')) as (g & s' & E).
    { unfold rec_symbol. rewrite bool_decide_true by done. destruct (dget (s_bools s) n); eauto. }
    exists g, s'. split.
    { unfold rec_symbol in E. by rewrite bool_decide_true in E. }
    intros e e' _ [G _]. destruct (rec_symbol_ok _ _ _ _ _ Hi E) as (_ & _ & l & -> & Hl').
    exists (eb e n). split; [done|]. cbn. by rewrite (G n l Hl').
  - eexists _, _. split; [done|]. intros e e' _ _. by exists b.
  - destruct (smapM_sem l H H1 s Hi) as (gs & s' & E & V). rewrite E. cbn [rbind].
    eexists _, _. split; [done|]. intros e e' O G. specialize (V e e' O G).
    destruct (same_list _ _ _ _ V) as (Eq & [bs B] & F). unfold same_at.
    rewrite eval_mkAnd_eq by done. cbn [eval]. rewrite Eq, B. cbn. eauto.
  - destruct (smapM_sem l H H1 s Hi) as (gs & s' & E & V). rewrite E. cbn [rbind].
    eexists _, _. split; [done|]. intros e e' O G. specialize (V e e' O G).
    destruct (same_list _ _ _ _ V) as (Eq & [bs B] & F). unfold same_at.
    rewrite eval_mkOr_eq by done. cbn [eval]. rewrite Eq, B. cbn. eauto.
  - destruct (IHf s Hi H0) as (g & s' & E & V). rewrite E. cbn [rbind].
    eexists _, _. split; [done|]. intros e e' O G. destruct (V e e' O G) as (b & B1 & B2).
    exists (negb b). rewrite (eval_mkNot_eq _ _ _ B2). cbn [eval]. by rewrite B1, B2.
  - destruct (IHf1 s Hi H1) as (g1 & s1 & E1 & V1). destruct (recurse_inv _ _ _ _ Hi E1) as (I1 & X1 & _).
    destruct (IHf2 s1 I1 H2) as (g2 & s2 & E2 & V2). destruct (recurse_inv _ _ _ _ I1 E2) as (I2 & X2 & _).
    rewrite E1. cbn [rbind]. rewrite E2. cbn [rbind].
    eexists _, _. split; [done|]. intros e e' [O1 O2] G.
    destruct (V1 e e' O1 (good_ext _ _ _ _ X2 G)) as (b1 & B1 & B1').
    destruct (V2 e e' O2 G) as (b2 & B2 & B2').
    eexists. cbn [eval]. by rewrite B1, B2, B1', B2'.
  - destruct (IHf1 s Hi H1) as (g1 & s1 & E1 & V1). destruct (recurse_inv _ _ _ _ Hi E1) as (I1 & X1 & _).
    destruct (IHf2 s1 I1 H2) as (g2 & s2 & E2 & V2). destruct (recurse_inv _ _ _ _ I1 E2) as (I2 & X2 & _).
    rewrite E1. cbn [rbind]. rewrite E2. cbn [rbind].
    eexists _, _. split; [done|]. intros e e' [O1 O2] G.
    destruct (V1 e e' O1 (good_ext _ _ _ _ X2 G)) as (b1 & B1 & B1').
    destruct (V2 e e' O2 G) as (b2 & B2 & B2').
    eexists. cbn [eval]. by rewrite B1, B2, B1', B2'.
  - destruct (IHf1 s Hi H2) as (g1 & s1 & E1 & V1). destruct (recurse_inv _ _ _ _ Hi E1) as (I1 & X1 & _).
    destruct (IHf2 s1 I1 H3) as (g2 & s2 & E2 & V2). destruct (recurse_inv _ _ _ _ I1 E2) as (I2 & X2 & _).
    destruct (IHf3 s2 I2 H4) as (g3 & s3 & E3 & V3). destruct (recurse_inv _ _ _ _ I2 E3) as (I3 & X3 & _).
    rewrite E1. cbn [rbind]. rewrite E2. cbn [rbind]. rewrite E3. cbn [rbind].
    eexists _, _. split; [done|]. intros e e' (O1 & O2 & O3) G.
    destruct (V1 e e' O1 (good_ext _ _ _ _ (sext_trans _ _ _ X2 X3) G)) as (b1 & B1 & B1').
    destruct (V2 e e' O2 (good_ext _ _ _ _ X3 G)) as (b2 & B2 & B2').
    destruct (V3 e e' O3 G) as (b3 & B3 & B3').
    eexists. cbn [eval]. by rewrite B1, B2, B1', B2', B3, B3'.
  - destruct (test_sem (LeN f1 f2) f1 f2 s) as (g & s' & E & V); [constructor|done..|].
    exists g, s'. split; [done|]. intros e e' O G. apply V; [done|done|].
    destruct O as (x & y & Hx & Hy & _). cbn [eval]. by rewrite Hx, Hy.
  - destruct (test_sem (LtN f1 f2) f1 f2 s) as (g & s' & E & V); [constructor|done..|].
    exists g, s'. split; [done|]. intros e e' O G. apply V; [done|done|].
    destruct O as (x & y & Hx & Hy & _). cbn [eval]. by rewrite Hx, Hy.
Qed.

(** * The literal table *)

Definition swap_b (kv : string * string) : string * meaning := (kv.2, MBool kv.1).
Definition swap_a (kv : fm * string) : string * meaning := (kv.2, MTest kv.1).

Lemma fold_dset_fresh {X} (g : X -> string * meaning) (l : list X) : forall (m : list (string * meaning)),
  NoDup (dkeys m ++ map (fun x => (g x).1) l) ->
  fold_left (fun m x => dset m (g x).1 (g x).2) l m = m ++ map g l.
Proof.
  induction l as [|x l IH]; intros m H; cbn [fold_left map]; [by rewrite app_nil_r|].
  cbn [map] in H. rewrite dset_app.
  2:{ apply dget_None. intros Hin. apply NoDup_app in H as (_ & H & _). apply (H _ Hin). by left. }
  rewrite IH.
  - rewrite <- app_assoc. cbn. by destruct (g x).
  - unfold dkeys in *. rewrite map_app. cbn [map fst]. rewrite <- app_assoc. exact H.
Qed.

Lemma linfo_make_ok s : sinv s -> linfo_make (s_abs s) (s_bools s) =
    Ok (LInfo (s_abs s) (s_bools s) (map swap_b (s_bools s) ++ map swap_a (s_abs s))) /\
  NoDup (dkeys (map swap_b (s_bools s) ++ map swap_a (s_abs s))).
Proof.
  intros [_ _ Hb Ha].
  assert (dkeys (map swap_b (s_bools s) ++ map swap_a (s_abs s)) =
    map bname (seq 0 (length (s_bools s))) ++ map aname (seq 0 (length (s_abs s)))) as Hk.
  { unfold dkeys. rewrite map_app, !map_map. cbn [swap_a swap_b fst]. rewrite <- Hb, <- Ha. done. }
  assert (NoDup (dkeys (map swap_b (s_bools s) ++ map swap_a (s_abs s)))) as Hnd.
  { rewrite Hk. apply NoDup_app. split; [apply NoDup_names, bname_inj|]. split; [|apply NoDup_names, aname_inj].
    intros x H1 H2. apply elem_of_list_In, in_map_iff in H1 as (m & <- & _).
    apply elem_of_list_In, in_map_iff in H2 as (n & H & _). by apply aname_bname in H. }
  split; [|done]. unfold linfo_make.
  destruct (existsb _ _) eqn:E.
  { apply existsb_exists in E as (kv & Hin & H). apply bool_decide_eq_true in H.
    rewrite Ha in H. apply elem_of_list_In, in_map_iff in H as (n & Hn & _).
    assert (kv.2 ∈ map snd (s_bools s)) as H2 by (apply elem_of_list_In; by apply in_map).
    rewrite Hb in H2. apply elem_of_list_In, in_map_iff in H2 as (m & Hm & _).
    rewrite <- Hm in Hn. by apply aname_bname in Hn. }
  do 2 f_equal.
  unfold dkeys in Hnd. rewrite map_app in Hnd.
  assert (forall (b : list (string * string)) m, fold_left (fun m (kv : string * string) => dset m kv.2 (MBool kv.1)) b m =
    fold_left (fun m x => dset m (swap_b x).1 (swap_b x).2) b m) as Hf1 by done.
  assert (forall (a : list (fm * string)) m, fold_left (fun m (kv : fm * string) => dset m kv.2 (MTest kv.1)) a m =
    fold_left (fun m x => dset m (swap_a x).1 (swap_a x).2) a m) as Hf2 by done.
  rewrite Hf1, Hf2. rewrite (fold_dset_fresh swap_b _ []).
  - rewrite (fold_dset_fresh swap_a); [done|]. cbn [app]. unfold dkeys. by rewrite !map_map in *.
  - apply NoDup_app in Hnd as [H _]. cbn. by rewrite map_map in H.
Qed.

Lemma extract_inv f g i : extract_literals f = Ok (g, i) -> exists s,
  recurse f (LSt [] []) = Ok (g, s) /\ sinv s /\ lits_in s g /\
  i = LInfo (s_abs s) (s_bools s) (map swap_b (s_bools s) ++ map swap_a (s_abs s)) /\
  NoDup (dkeys (map swap_b (s_bools s) ++ map swap_a (s_abs s))).
Proof.
  unfold extract_literals. destruct (recurse f (LSt [] [])) as [[g' s]|] eqn:E; [|done]. cbn [rbind].
  assert (sinv (LSt [] [])) as H0 by (split; cbn; try done; apply dwf_nil).
  destruct (recurse_inv f _ _ _ H0 E) as (I & _ & L). destruct (linfo_make_ok s I) as [-> Hnd].
  cbn [rbind]. intros [= <- <-]. by exists s.
Qed.

Lemma table_two_way s : sinv s ->
  two_way (LInfo (s_abs s) (s_bools s) (map swap_b (s_bools s) ++ map swap_a (s_abs s))).
Proof.
  intros I. destruct (linfo_make_ok s I) as [_ Hnd]. destruct I as [Wb Wa _ _]. split; cbn.
  - intros x l. split; intros H.
    + apply In_dget; [done|]. apply elem_of_app. left. apply dget_In in H.
      apply elem_of_list_In. apply in_map_iff. exists (x, l). split; [done|]. by apply elem_of_list_In.
    + apply dget_In in H. apply elem_of_app in H as [H|H]; apply elem_of_list_In, in_map_iff in H as ([k v] & [= -> ->] & H).
      apply In_dget; [done|]. by apply elem_of_list_In.
  - intros x l. split; intros H.
    + apply In_dget; [done|]. apply elem_of_app. right. apply dget_In in H.
      apply elem_of_list_In. apply in_map_iff. exists (x, l). split; [done|]. by apply elem_of_list_In.
    + apply dget_In in H. apply elem_of_app in H as [H|H]; apply elem_of_list_In, in_map_iff in H as ([k v] & [= -> ->] & H).
      apply In_dget; [done|]. by apply elem_of_list_In.
Qed.

Lemma extract_sem f : logic_formula f -> exists g i, extract_literals f = Ok (g, i) /\
  (forall e, off_tests e f -> eval (literal_env e (literals i)) g = eval e f) /\
  (forall lit t, (lit, t) ∈ syms g -> t = TBool /\ is_Some (dget (literals i) lit)).
Proof.
  intros Hl. assert (sinv (LSt [] [])) as H0 by (split; cbn; try done; apply dwf_nil).
  destruct (recurse_sem f _ H0 Hl) as (g & s & E & V).
  destruct (recurse_inv f _ _ _ H0 E) as (I & _ & L). destruct (linfo_make_ok s I) as [Hm Hnd].
  exists g. eexists. unfold extract_literals. rewrite E. cbn [rbind]. rewrite Hm. cbn [rbind].
  split; [done|]. destruct (table_two_way s I) as [T1 T2]. cbn [literals booleans abstractions] in *.
  split.
  - intros e O. destruct (V e (literal_env e (map swap_b (s_bools s) ++ map swap_a (s_abs s))) O) as (b & B1 & B2).
    + split.
      * intros x l Hx. cbn. apply T1 in Hx. by rewrite Hx.
      * intros k l Hx. cbn. apply T2 in Hx. by rewrite Hx.
    + by rewrite B1, B2.
  - intros l t Hin. destruct (L l t Hin) as [-> [[x Hx]|[k Hk]]]; split; try done.
    + apply T1 in Hx. by rewrite Hx.
    + apply T2 in Hk. by rewrite Hk.
Qed.

(** ** Numbers *)

Lemma dget_imap_num (l : list (string * meaning)) lit n : NoDup (dkeys l) -> forall k,
  dget (imap (fun i (kv : string * meaning) => (kv.1, k + i)) l) lit = Some n <->
  k <= n /\ dkeys l !! (n - k) = Some lit.
Proof.
  induction l as [|[x m] l IH]; intros Hnd k; cbn [imap dget dkeys map fst].
  { split; [done|]. by intros [_ H]. }
  inversion Hnd as [|? ? Hni Hnd']; subst.
  destruct (decide (x = lit)) as [->|Hx].
  - rewrite Nat.add_0_r. split.
    + intros [= <-]. split; [lia|]. by rewrite Nat.sub_diag.
    + intros [Hle H]. destruct (n - k) as [|j] eqn:Ej; [f_equal; lia|]. cbn in H.
      exfalso. apply Hni. by apply elem_of_list_lookup_2 in H.
  - assert (imap ((fun i (kv : string * meaning) => (kv.1, k + i)) ∘ S) l =
      imap (fun i (kv : string * meaning) => (kv.1, S k + i)) l) as ->.
    { apply imap_ext. intros i y _. cbn. f_equal. lia. }
    rewrite (IH Hnd' (S k)). split.
    + intros [Hle H]. split; [lia|]. replace (n - k) with (S (n - S k)) by lia. done.
    + intros [Hle H]. destruct (n - k) as [|j] eqn:Ej; [cbn in H; congruence|].
      split; [lia|]. replace (n - S k) with j by lia. done.
Qed.

Lemma dget_imap_inv (l : list (string * meaning)) n : forall k,
  dget (imap (fun i (kv : string * meaning) => (k + i, kv.1)) l) n =
  (if decide (k <= n) then dkeys l !! (n - k) else None).
Proof.
  induction l as [|[x m] l IH]; intros k; cbn [imap dget dkeys map fst].
  { by destruct (decide _). }
  destruct (decide (k + 0 = n)) as [<-|Hx].
  - rewrite decide_True by lia. replace (k + 0 - k) with 0 by lia. done.
  - assert (imap ((fun i (kv : string * meaning) => (k + i, kv.1)) ∘ S) l =
      imap (fun i (kv : string * meaning) => (S k + i, kv.1)) l) as ->.
    { apply imap_ext. intros i y _. cbn. f_equal. lia. }
    rewrite IH. destruct (decide (S k <= n)).
    + rewrite decide_True by lia. replace (n - k) with (S (n - S k)) by lia. done.
    + rewrite decide_False by lia. done.
Qed.

Lemma numbered_iff i lit n : NoDup (dkeys (literals i)) ->
  dget (numbered i) lit = Some n <-> 1 <= n /\ dkeys (literals i) !! (n - 1) = Some lit.
Proof.
  intros H. rewrite <- (dget_imap_num (literals i) lit n H 1). unfold numbered.
  erewrite imap_ext; [reflexivity|]. intros. cbn. f_equal. lia.
Qed.
Lemma inv_numbered_eq i n :
  dget (inv_numbered i) n = if decide (1 <= n) then dkeys (literals i) !! (n - 1) else None.
Proof.
  rewrite <- (dget_imap_inv (literals i) n 1). unfold inv_numbered. f_equal. apply imap_ext.
  intros. cbn. f_equal. lia.
Qed.

Lemma numbers_facts i : NoDup (dkeys (literals i)) ->
  (forall lit, is_Some (dget (numbered i) lit) <-> is_Some (dget (literals i) lit)) /\
  (forall lit n, dget (numbered i) lit = Some n <-> number_to_lit i (Z.of_nat n) = Ok lit) /\
  (forall n, (exists lit, dget (numbered i) lit = Some n) <-> 1 <= n <= length (literals i)) /\
  (forall z, number_to_lit i (- z) = number_to_lit i z).
Proof.
  intros H. repeat split.
  - intros [n Hn]. apply numbered_iff in Hn as [_ Hn]; [|done]. apply dget_is_Some.
    by apply elem_of_list_lookup_2 in Hn.
  - intros Hs. apply dget_is_Some, elem_of_list_lookup in Hs as [k Hk]. exists (S k).
    apply numbered_iff; [done|]. split; [lia|]. by replace (S k - 1) with k by lia.
  - intros Hn. apply numbered_iff in Hn as [H1 Hn]; [|done]. unfold number_to_lit.
    rewrite Zabs2Nat.id, inv_numbered_eq, decide_True by done. by rewrite Hn.
  - unfold number_to_lit. rewrite Zabs2Nat.id, inv_numbered_eq. destruct (decide (1 <= n)) as [H1|]; [|done].
    destruct (dkeys (literals i) !! (n - 1)) as [l|] eqn:E; [|done]. intros [= ->]. by apply numbered_iff.
  - destruct H0 as [lit Hn]. apply numbered_iff in Hn as [H1 Hn]; done.
  - destruct H0 as [lit Hn]. apply numbered_iff in Hn as [H1 Hn]; [|done].
    apply lookup_lt_Some in Hn. unfold dkeys in Hn. rewrite map_length in Hn. lia.
  - intros [H1 H2]. destruct (lookup_lt_is_Some_2 (dkeys (literals i)) (n - 1)) as [l Hl].
    + unfold dkeys. rewrite map_length. lia.
    + exists l. by apply numbered_iff.
  - intros z. unfold number_to_lit. by replace (Z.abs_nat (- z)) with (Z.abs_nat z) by lia.
Qed.

Lemma booleans_first_lemma bs abs (i := LInfo abs bs (map swap_b bs ++ map swap_a abs)) l1 l2 x f n1 n2 :
  NoDup (dkeys (literals i)) ->
  dget (literals i) l1 = Some (MBool x) -> dget (literals i) l2 = Some (MTest f) ->
  dget (numbered i) l1 = Some n1 -> dget (numbered i) l2 = Some n2 -> n1 < n2.
Proof.
  intros Hnd H1 H2 N1 N2. apply numbered_iff in N1 as [G1 N1]; [|done]. apply numbered_iff in N2 as [G2 N2]; [|done].
  assert (forall n l m, dkeys (literals i) !! n = Some l -> dget (literals i) l = Some m -> literals i !! n = Some (l, m)) as HL.
  { intros n l m Hn Hg. unfold dkeys in Hn. rewrite list_lookup_fmap in Hn.
    destruct (literals i !! n) as [[l' m']|] eqn:E; [|done]. cbn in Hn. injection Hn as ->.
    apply elem_of_list_lookup_2 in E as E'. apply In_dget in E'; [|done]. congruence. }
  pose proof (HL _ _ _ N1 H1) as L1. pose proof (HL _ _ _ N2 H2) as L2. cbn [i literals] in L1, L2.
  assert (n1 - 1 < length bs).
  { destruct (decide (n1 - 1 < length bs)); [done|]. rewrite lookup_app_r in L1 by (rewrite map_length; lia).
    apply elem_of_list_lookup_2, elem_of_list_In, in_map_iff in L1 as (? & H & _). done. }
  assert (length bs <= n2 - 1).
  { destruct (decide (length bs <= n2 - 1)); [done|]. rewrite lookup_app_l in L2 by (rewrite map_length; lia).
    apply elem_of_list_lookup_2, elem_of_list_In, in_map_iff in L2 as (? & H' & _). done. }
  lia.
Qed.

(** * C29 *)

Lemma step_two_way s o : two_way s -> fresh_insert s o -> two_way (lstep s o).1.
Proof.
  intros [T1 T2] Hf. destruct o as [x l|f l| | | |]; cbn [fresh_insert] in Hf; try done; cbn [lstep].
  - unfold delegate_set. rewrite Hf. rewrite bool_decide_false by (by intros []).
    cbn [orb]. case_bool_decide as Hl; cbn [negb fst]; [done|].
    assert (dget (literals s) l = None) as Hn by (by apply eq_None_not_Some).
    split; cbn [booleans abstractions literals].
    + intros y k. rewrite !dget_dset. destruct (decide (x = y)) as [->|Hx].
      * split.
        { intros [= <-]. by rewrite decide_True. }
        destruct (decide (l = k)) as [->|]; [done|]. intros H%T1. congruence.
      * rewrite T1. destruct (decide (l = k)) as [->|]; [|done]. split; congruence.
    + intros y k. rewrite !dget_dset, T2. destruct (decide (l = k)) as [->|]; [|done]. split; congruence.
  - unfold delegate_set. rewrite Hf. rewrite bool_decide_false by (by intros []).
    cbn [orb]. case_bool_decide as Hl; cbn [negb fst]; [done|].
    assert (dget (literals s) l = None) as Hn by (by apply eq_None_not_Some).
    split; cbn [booleans abstractions literals].
    + intros y k. rewrite !dget_dset, T1. destruct (decide (l = k)) as [->|]; [|done]. split; congruence.
    + intros y k. rewrite !dget_dset. destruct (decide (f = y)) as [->|Hx].
      * split.
        { intros [= <-]. by rewrite decide_True. }
        destruct (decide (l = k)) as [->|]; [done|]. intros H%T2. congruence.
      * rewrite T2. destruct (decide (l = k)) as [->|]; [|done]. split; congruence.
Qed.

Lemma history_two_way os : forall s, two_way s -> fresh_history s os -> two_way (lrun s os).
Proof.
  induction os as [|o os IH]; intros s T H; cbn; [done|]. destruct H as [H1 H2].
  apply IH; [by apply step_two_way|done].
Qed.

(** A fresh insertion fails exactly when the literal is in use. *)
Lemma fresh_insert_result s x l : dget (booleans s) x = None ->
  (lstep s (SetBool x l)).2 = match dget (literals s) l with Some _ => Err AssertionError | None => Ok tt end.
Proof.
  intros H. cbn. unfold delegate_set. rewrite H, bool_decide_false by (by intros []).
  cbn [orb]. by destruct (dget (literals s) l).
Qed.

Lemma del_raises s x : dwf (booleans s) -> (lstep s (DelBool x)).2 = Err KeyError.
Proof.
  intros H. cbn. unfold delegate_del. destruct (dget (booleans s) x) as [l|]; [|done].
  rewrite dget_ddel by done. by rewrite decide_True.
Qed.

(** * The constructor of the literal table *)

Lemma make_disjoint abs bools :
  dwf abs -> dwf bools -> NoDup (map snd abs) -> NoDup (map snd bools) ->
  (forall l, l ∈ map snd bools -> l ∉ map snd abs) ->
  exists i, linfo_make abs bools = Ok i /\ abstractions i = abs /\ booleans i = bools /\ two_way i.
Proof.
  intros Wa Wb Na Nb Hd.
  assert (Hnd : NoDup (dkeys (map swap_b bools ++ map swap_a abs))).
  { unfold dkeys. rewrite map_app, !map_map. apply NoDup_app. split; [exact Nb|]. split; [exact Hd|exact Na]. }
  exists (LInfo abs bools (map swap_b bools ++ map swap_a abs)). split; [|split; [done|split; [done|]]].
  - unfold linfo_make. destruct (existsb _ _) eqn:E.
    { apply existsb_exists in E as (kv & Hin & H). apply bool_decide_eq_true in H.
      destruct (Hd kv.2); [|done]. apply elem_of_list_In. by apply in_map. }
    do 2 f_equal.
    unfold dkeys in Hnd. rewrite map_app in Hnd.
    assert (forall (b : list (string * string)) m, fold_left (fun m (kv : string * string) => dset m kv.2 (MBool kv.1)) b m =
      fold_left (fun m x => dset m (swap_b x).1 (swap_b x).2) b m) as Hf1 by done.
    assert (forall (a : list (fm * string)) m, fold_left (fun m (kv : fm * string) => dset m kv.2 (MTest kv.1)) a m =
      fold_left (fun m x => dset m (swap_a x).1 (swap_a x).2) a m) as Hf2 by done.
    rewrite Hf1, Hf2. rewrite (fold_dset_fresh swap_b _ []).
    + rewrite (fold_dset_fresh swap_a); [done|]. cbn [app]. unfold dkeys. by rewrite !map_map in *.
    + apply NoDup_app in Hnd as [H _]. cbn. by rewrite map_map in H.
  - split; cbn.
    + intros x l. split; intros H.
      * apply In_dget; [done|]. apply elem_of_app. left. apply dget_In in H.
        apply elem_of_list_In. apply in_map_iff. exists (x, l). split; [done|]. by apply elem_of_list_In.
      * apply dget_In in H. apply elem_of_app in H as [H|H]; apply elem_of_list_In, in_map_iff in H as ([k v] & [= -> ->] & H).
        apply In_dget; [done|]. by apply elem_of_list_In.
    + intros x l. split; intros H.
      * apply In_dget; [done|]. apply elem_of_app. right. apply dget_In in H.
        apply elem_of_list_In. apply in_map_iff. exists (x, l). split; [done|]. by apply elem_of_list_In.
      * apply dget_In in H. apply elem_of_app in H as [H|H]; apply elem_of_list_In, in_map_iff in H as ([k v] & [= -> ->] & H).
        apply In_dget; [done|]. by apply elem_of_list_In.
Qed.

Lemma make_clash abs bools l :
  l ∈ map snd bools -> l ∈ map snd abs -> linfo_make abs bools = Err AssertionError.
Proof.
  intros Hb Ha. unfold linfo_make. destruct (existsb _ _) eqn:E; [done|].
  apply elem_of_list_In, in_map_iff in Hb as (kv & <- & Hin).
  assert (existsb (fun kv : string * string => bool_decide (kv.2 ∈ map snd abs)) bools = true) as E2.
  { apply existsb_exists. exists kv. split; [done|]. by apply bool_decide_eq_true. }
  congruence.
Qed.
