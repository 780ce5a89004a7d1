(** Bounds of convex formulas: C11. *)

From Verif Require Import Base Dict Smt Walk_Model Walk_Proofs Check_Proofs Math_Model Math_Spec
  Poly_Proofs Linear_Proofs.

Lemma elem_set_union l k x : x ∈ set_union l k <-> x ∈ l \/ x ∈ k.
Proof.
  unfold set_union. rewrite elem_of_app. split.
  - intros [H|H]; [by left|right]. apply elem_of_list_In, filter_In in H as [H _]. by apply elem_of_list_In.
  - intros [H|H]; [by left|]. destruct (decide (x ∈ l)); [by left|right].
    apply elem_of_list_In, filter_In. split; [by apply elem_of_list_In|]. by rewrite bool_decide_false.
Qed.

Lemma elem_fold_union ls l x : x ∈ fold_left set_union ls l <-> x ∈ l \/ exists k, k ∈ ls /\ x ∈ k.
Proof.
  revert l. induction ls as [|k ls IH]; intros l; cbn [fold_left].
  - split; [by left|]. intros [H|(k & H & _)]; [done|]. by apply elem_of_nil in H.
  - rewrite IH, elem_set_union. split.
    + intros [[H|H]|(k' & H & Hx)]; [by left|right; exists k; split; [by left|done]|].
      right. exists k'. split; [by right|done].
    + intros [H|(k' & H & Hx)]; [by left; left|]. apply elem_of_cons in H as [->|H]; [by left; right|].
      right. by exists k'.
Qed.

Lemma compares_fun f a b a' b' : compares f a b -> compares f a' b' -> a = a' /\ b = b'.
Proof.
  intros H. revert a' b'. induction H as [a b|a b|f a b H IH]; intros a' b' H'; inversion H'; subst; auto.
Qed.

Lemma compares_mkNot f a b : compares f a b -> compares (mkNot f) a b.
Proof. intros H. destruct H as [a b|a b|f a b H]; cbn [mkNot]; [by repeat constructor|by repeat constructor|done]. Qed.

Lemma eval_compares_some e f a b : compares f a b -> off e a b -> exists v, eval e f = Some (VB v).
Proof. intros H (x & y & Hx & Hy & Hne). eexists. by eapply eval_compares. Qed.

Lemma bounds_compares n f a b : compares f a b -> msize f <= n ->
  exists g, walk (bounds_walker false) n f = Ok [g] /\ compares g a b /\
    forall e, off e a b -> eval e g = eval e f.
Proof.
  intros Hc. revert n. induction Hc as [a b|a b|f a b Hc IH]; intros n Hn;
    (destruct n as [|n]; [cbn [msize] in Hn; lia|]);
    cbn [walk dispatch bounds_walker w_lte w_lt w_not].
  - eexists. split; [done|]. split; [constructor|]. intros e (x & y & Hx & Hy & Hne).
    rewrite (eval_compares e (LtN a b) a b x y), (eval_compares e (LeN a b) a b x y); try done; constructor.
  - eexists. split; [done|]. split; [constructor|]. done.
  - cbn [msize] in Hn. destruct (IH n) as (g & -> & Hg & Ev); [lia|]. cbn [rbind].
    exists (mkNot g). split; [done|]. split; [by apply compares_mkNot|]. intros e Ho.
    destruct (eval_compares_some e g a b Hg Ho) as [v Hv].
    cbn [eval]. rewrite <- (Ev e Ho), Hv. cbn.
    destruct g as [| | | | | |g'| | | | | | | | | | | |]; cbn [mkNot]; try (cbn [eval] in *; rewrite Hv; done).
    cbn [eval] in Hv. destruct (eval e g') as [[w|]|]; cbn in Hv; try done. injection Hv as <-.
    by rewrite negb_involutive.
Qed.

Definition is_true (e : env) (g : fm) : Prop := eval e g = Some (VB true).

Definition bounds_spec (f : fm) (gs : list fm) : Prop :=
  (forall g, g ∈ gs -> exists a b, compares g a b /\ linear_expr a /\ linear_expr b) /\
  forall e, off_all e f ->
    (forall g a b, g ∈ gs -> compares g a b -> off e a b) /\
    (exists v, eval e f = Some (VB v)) /\ (is_true e f <-> forall g, g ∈ gs -> is_true e g).

Lemma eval_and_true e l : (forall g, g ∈ l -> exists v, eval e g = Some (VB v)) ->
  (exists v, eval e (AndN l) = Some (VB v)) /\ (is_true e (AndN l) <-> forall g, g ∈ l -> is_true e g).
Proof.
  intros H. unfold is_true. cbn [eval].
  enough (exists bs, mapM (fun g => vbool (eval e g)) l = Some bs /\
    (forallb id bs = true <-> forall g, g ∈ l -> eval e g = Some (VB true))) as (bs & -> & Hb).
  { cbn. split; [eauto|]. rewrite <- Hb. split; [congruence|]. by intros ->. }
  induction l as [|g l IH].
  - exists []. split; [done|]. split; [|done]. intros _ g Hg. by apply elem_of_nil in Hg.
  - destruct IH as (bs & Hm & Hb).
    { intros g' Hg'. apply H. by right. }
    destruct (H g) as [v Hv]; [by left|]. exists (v :: bs). cbn [mapM]. rewrite Hv. cbn.
    rewrite Hm. split; [done|]. rewrite andb_true_iff, Hb. unfold id. split.
    + intros [-> Hl] g' Hg'. apply elem_of_cons in Hg' as [->|Hg']; [done|by apply Hl].
    + intros Hl. split.
      * specialize (Hl g ltac:(by left)). congruence.
      * intros g' Hg'. apply Hl. by right.
Qed.

Lemma off_all_and e l : off_all e (AndN l) -> Forall (off_all e) l.
Proof. intros H. inversion H as [f a b Hc|]; subst; [inversion Hc|done]. Qed.

Lemma bounds_ok n f : conj_of_bounds f -> msize f <= n ->
  exists gs, walk (bounds_walker false) n f = Ok gs /\ bounds_spec f gs.
Proof.
  revert f. induction n as [|n IH]; intros f Hf Hn; [pose proof (msize_pos f); lia|].
  destruct Hf as [f a b Hc Ha Hb|l Hne Hl].
  - destruct (bounds_compares (S n) f a b Hc Hn) as (g & Hg & Hcg & Ev). exists [g]. split; [done|]. split.
    + intros g' Hg'. apply elem_of_list_singleton in Hg' as ->. eauto.
    + intros e Ho.
      assert (off e a b) as Hab.
      { inversion Ho as [? a' b' Hc' Ho'|]; subst; [|inversion Hc].
        by destruct (compares_fun _ _ _ _ _ Hc Hc') as [-> ->]. }
      split; [|split].
      * intros g' a' b' Hg' Hc'. apply elem_of_list_singleton in Hg' as ->.
        by destruct (compares_fun _ _ _ _ _ Hcg Hc') as [<- <-].
      * by eapply eval_compares_some.
      * unfold is_true. rewrite <- (Ev e Hab). split.
        -- intros H g' Hg'. by apply elem_of_list_singleton in Hg' as ->.
        -- intros H. apply H. by left.
  - cbn [walk dispatch bounds_walker w_and]. unfold collect. cbn [msize] in Hn.
    assert (exists gss, rmapM (walk (bounds_walker false) n) l = Ok gss /\ Forall2 bounds_spec l gss) as (gss & Hg & HF).
    { assert (forall g, g ∈ l -> msize g <= n) as Hs by (intros g Hg; pose proof (msize_in g l Hg); lia).
      clear Hne Hn. induction Hl as [|g l Hg Hl IHl]; [by exists []|].
      destruct (IH g Hg) as (gs & Egs & Hgs); [apply Hs; by left|].
      destruct IHl as (gss & Egss & Hgss); [intros g' Hg'; apply Hs; by right|].
      exists (gs :: gss). rewrite rmapM_cons, Egs. cbn [rbind]. rewrite Egss. split; [done|]. by constructor. }
    rewrite Hg. cbn [rbind]. destruct gss as [|gs gss]; [inversion HF; by subst|].
    eexists. split; [done|].
    assert (forall x, x ∈ fold_left set_union gss gs <-> exists k, k ∈ gs :: gss /\ x ∈ k) as Hin.
    { intros x. rewrite elem_fold_union. split.
      - intros [H|(k & Hk & H)]; [exists gs; split; [by left|done]|exists k; split; [by right|done]].
      - intros (k & Hk & H). apply elem_of_cons in Hk as [->|Hk]; [by left|right; eauto]. }
    assert (forall k, k ∈ gs :: gss -> exists g, g ∈ l /\ bounds_spec g k) as Hback.
    { intros k Hk. apply elem_of_list_lookup in Hk as [i Hi].
      destruct (Forall2_lookup_r _ _ _ _ _ HF Hi) as (g & Hgi & Hs). exists g. split; [|done].
      by eapply elem_of_list_lookup_2. }
    assert (forall g, g ∈ l -> exists k, k ∈ gs :: gss /\ bounds_spec g k) as Hforth.
    { intros g Hgl. apply elem_of_list_lookup in Hgl as [i Hi].
      destruct (Forall2_lookup_l _ _ _ _ _ HF Hi) as (k & Hki & Hs). exists k. split; [|done].
      by eapply elem_of_list_lookup_2. }
    split.
    + intros g Hgi. apply Hin in Hgi as (k & Hk & Hgk). destruct (Hback k Hk) as (h & _ & Hs).
      by apply (proj1 Hs).
    + intros e Ho. apply off_all_and in Ho. rewrite Forall_forall in Ho.
      destruct (eval_and_true e l) as [Hv Ht].
      { intros h Hh. destruct (Hforth h Hh) as (k & _ & Hs). apply (proj2 Hs). by apply Ho. }
      split; [|split].
      * intros g a b Hgi Hc. apply Hin in Hgi as (k & Hk & Hgk). destruct (Hback k Hk) as (h & Hh & Hs).
        destruct (proj2 Hs e (Ho h Hh)) as (H1 & _). by apply (H1 g).
      * done.
      * rewrite Ht. split.
        -- intros H g Hgi. apply Hin in Hgi as (k & Hk & Hgk). destruct (Hback k Hk) as (h & Hh & Hs).
           destruct (proj2 Hs e (Ho h Hh)) as (_ & _ & H3). by apply H3; [apply H|].
        -- intros H h Hh. destruct (Hforth h Hh) as (k & Hk & Hs).
           destruct (proj2 Hs e (Ho h Hh)) as (_ & _ & H3). apply H3. intros g Hgk. apply H.
           apply Hin. eauto.
Qed.

Lemma inequalities_equivalent f : conj_of_bounds f ->
  exists ds, get_inequalities f = Ok ds /\
    forall e, off_all e f ->
      (exists v, eval e f = Some (VB v)) /\
      (eval e f = Some (VB true) <->
       forall d, d ∈ ds -> exists g, li_to_smt d = Ok g /\ eval e g = Some (VB true)).
Proof.
  intros Hf. destruct (bounds_ok (msize f) f Hf) as (gs & Hgs & H1 & H2); [done|].
  unfold get_inequalities, bounds_of. rewrite Hgs. cbn [rbind].
  destruct (rmapM_ok li_from_smt gs) as [ds Hds].
  { apply Forall_forall. intros g Hg. destruct (H1 g Hg) as (a & b & Hc & Ha & Hb).
    by eapply li_from_smt_ok. }
  exists ds. split; [done|]. intros e Ho. destruct (H2 e Ho) as (H3 & H4 & H5). split; [done|].
  unfold is_true in H5. rewrite H5. apply rmapM_Forall2 in Hds.
  assert (forall g d, g ∈ gs -> li_from_smt g = Ok d ->
    exists h, li_to_smt d = Ok h /\ eval e h = eval e g) as Hone.
  { intros g d Hg Hd. destruct (H1 g Hg) as (a & b & Hc & Ha & Hb).
    destruct (li_half_space g a b d Hc) as (h & h2 & Hh & _ & Hev); [by apply linear_expr_real|by apply linear_expr_real|done|].
    exists h. split; [done|]. apply Hev. by eapply H3. }
  split.
  - intros H d Hd. apply elem_of_list_lookup in Hd as [i Hi].
    destruct (Forall2_lookup_r _ _ _ _ _ Hds Hi) as (g & Hgi & Hgd). apply elem_of_list_lookup_2 in Hgi.
    destruct (Hone g d Hgi Hgd) as (h & Hh & Ev). exists h. split; [done|]. rewrite Ev. by apply H.
  - intros H g Hg. pose proof Hg as Hg'. apply elem_of_list_lookup in Hg as [i Hi].
    destruct (Forall2_lookup_l _ _ _ _ _ Hds Hi) as (d & Hdi & Hgd). apply elem_of_list_lookup_2 in Hdi.
    destruct (Hone g d Hg' Hgd) as (h & Hh & Ev). destruct (H d Hdi) as (h' & Hh' & Ev').
    congruence.
Qed.

(** Which formulas are accepted. *)
Lemma bounds_accepts_only n f s : walk (bounds_walker false) n f = Ok s -> literals_only f.
Proof.
  revert f s. induction n as [|n IH]; intros f s Hw; [done|]. cbn [walk] in Hw.
  destruct f as [x t|b|q|z|l|l|a|a b|a b|c a b|l|a b|l|a b|a b|a b|a b|a|a];
    cbn [dispatch bounds_walker w_and w_or w_plus w_minus w_times w_not w_ite w_pow w_lte w_lt
         w_equals w_symbol w_const w_cannot] in Hw; try done; try by constructor.
  - destruct t; try done. constructor.
  - unfold collect in Hw. destruct (rmapM _ l) as [ls|] eqn:E; [|done]. constructor.
    + intros ->. injection E as <-. done.
    + apply rmapM_Forall2 in E. clear Hw. induction E; constructor; [by eapply IH|done].
  - destruct (walk _ n a) as [s'|] eqn:E; [|done]. constructor. by eapply IH.
  - destruct n as [|n]; [done|]. done.
  - unfold collect in Hw. cbn [rmapM] in Hw. destruct n as [|[|n]]; done.
Qed.

Lemma bounds_accepts n f : literals_only f -> msize f <= n -> exists s, walk (bounds_walker false) n f = Ok s.
Proof.
  revert f. induction n as [|n IH]; intros f Hf Hn; [pose proof (msize_pos f); lia|].
  destruct Hf as [a b|a b|x|b|f Hf|l Hne Hl]; try by eexists.
  - cbn [walk dispatch bounds_walker w_not]. cbn [msize] in Hn. destruct (IH f Hf) as [s ->]; [lia|].
    by eexists.
  - cbn [walk dispatch bounds_walker w_and]. unfold collect. cbn [msize] in Hn.
    destruct (rmapM_ok (walk (bounds_walker false) n) l) as [ls Hls].
    { rewrite Forall_forall in *. intros g Hg. apply IH; [by apply Hl|]. pose proof (msize_in g l Hg). lia. }
    rewrite Hls. cbn [rbind]. apply rmapM_ok_length in Hls. destruct l, ls; try done. by eexists.
Qed.
