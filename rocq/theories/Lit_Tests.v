(** More facts about extracted literals: the tests of the table are linear
    inequalities whose hyperplanes are those of the formula, and its boolean
    variables are those of the formula. *)

From Verif Require Import Base Dict Smt Smt_Facts Walk_Model Math_Model Math_Spec Poly_Proofs Linear_Proofs Arith_Proofs.
From Verif Require Import Lit_Model Lit_Spec Lit_Proofs.

Lemma mkPlus_linear ts s : mkPlus ts = Ok s -> Forall linear_expr ts -> linear_expr s.
Proof.
  destruct ts as [|t [|t' ts]]; [done| |]; intros [= <-] H.
  - by apply Forall_cons_1 in H as [H _].
  - by apply le_plus.
Qed.

Lemma li_term_linear kv t : length kv.1 <= 1 -> kv.1 <> [] -> li_term kv = Ok t -> linear_expr t.
Proof.
  destruct kv as [[|x [|y k]] v]; cbn; try done; try lia. intros _ _. unfold li_term. cbn.
  destruct (qeq v 1); intros [= <-]; [apply le_sym|].
  apply (le_times [] (Sym x TReal) [RealC v]); [constructor|apply le_sym|].
  apply Forall_cons. split; [constructor|constructor].
Qed.

(** The inequality written for [d] compares two linear expressions, which differ
    where the linear form is not zero. *)
Lemma li_to_smt_compares d g : dwf d -> (forall k v, (k, v) ∈ d -> length k <= 1) -> li_to_smt d = Ok g ->
  exists a b, compares g a b /\ linear_expr a /\ linear_expr b /\
    forall e, poly_val e d <> 0%Qc -> off e a b.
Proof.
  intros Hwf Hk Hg. destruct (only_const d) eqn:Ho.
  - destruct d as [|[[|] v] [|]]; try done.
    + injection Hg as <-. eexists _, _. split; [constructor|]. split; [apply le_const; constructor|].
      split; [apply le_const; constructor|]. intros e H. by rewrite pv_nil in H.
    + injection Hg as <-. eexists _, _. split; [constructor|]. split; [apply le_const; constructor|].
      split; [apply le_const; constructor|]. intros e H. eexists _, _. split; [done|]. split; [done|].
      rewrite pv_cons, pv_nil in H. unfold mono_val in H. cbn [map qprod fold_right] in H.
      intros H'. apply H. qclra.
  - assert (li_to_smt d =
      let! ts := rmapM li_term (List.filter (fun kv => negb (bool_decide (kv.1 = CONST_KEY))) d) in
      let! s := mkPlus ts in Ok (LtN s (RealC (li_b d)))) as Heq.
    { destruct d as [|[[|] v] [|]]; done. }
    rewrite Heq in Hg. clear Heq.
    pose proof (fun e => pv_const_split e d Hwf) as Hs.
    assert (forall kv, kv ∈ List.filter (fun kv => negb (bool_decide (kv.1 = CONST_KEY))) d -> length kv.1 <= 1 /\ kv.1 <> []) as Hf.
    { intros [k v] Hin. apply elem_of_list_In, filter_In in Hin as [Hin Hb].
      apply negb_true_iff, bool_decide_eq_false in Hb. split; [|done]. apply (Hk k v). by apply elem_of_list_In. }
    set (d' := List.filter _ d) in *. clearbody d'.
    destruct (rmapM li_term d') as [ts|] eqn:Hts; [|done]. cbn [rbind] in Hg.
    destruct (mkPlus ts) as [s|] eqn:Hsum; [|done]. cbn [rbind] in Hg. injection Hg as <-.
    apply rmapM_Forall2 in Hts.
    exists s, (RealC (li_b d)). split; [constructor|]. split; [|split; [apply le_const; constructor|]].
    + apply (mkPlus_linear ts); [done|]. clear Hsum Hs. induction Hts as [|kv t d1 ts Ht Hts IH]; [constructor|].
      apply Forall_cons. split.
      * destruct (Hf kv) as [F1 F2]; [by left|]. by apply (li_term_linear kv).
      * apply IH. intros kv' Hin. apply Hf. by right.
    + intros e Hne. assert (eval e s = Some (VN (poly_val e d'))) as Hv.
      { apply (mkPlus_sound e ts); [done|]. clear Hsum Hs Hf. induction Hts as [|kv t d1 ts Ht Hts IH]; [constructor|].
        constructor; [by apply li_term_sound|done]. }
      exists (poly_val e d'), (li_b d). split; [done|]. split; [done|]. rewrite Hs in Hne.
      unfold li_b, li_coefficient. set (c := default 0%Qc (dget d CONST_KEY)) in *. clearbody c.
      set (u := poly_val e d') in *. clearbody u. intros ->. apply Hne. ring.
Qed.

Lemma canonical_compares f a b c : compares f a b -> linear_expr a -> linear_expr b -> to_canonical f = Ok c ->
  exists a' b', compares c a' b' /\ linear_expr a' /\ linear_expr b' /\ forall e, off e a b -> off e a' b'.
Proof.
  intros Hc Ha Hb. unfold to_canonical. destruct (li_from_smt f) as [d|] eqn:Hd; [|done]. cbn [rbind]. intros Hn.
  pose proof (li_linear f d Hd) as Hlin.
  unfold li_from_smt, math_walk in Hd. destruct (walk _ _ f) as [d'|] eqn:E; [|done]. injection Hd as <-.
  pose proof (walk_compares _ _ _ _ _ Hc E (linear_expr_real _ Ha) (linear_expr_real _ Hb)) as Hdiff.
  assert (dwf (li_make d')) as Wd by (apply dwf_lfilter; apply Hdiff).
  assert (forall e, off e a b -> poly_val e (li_make d') <> 0%Qc) as Hoff.
  { intros e (x & y & Hx & Hy & Hne). destruct (diff_holds _ _ _ _ _ _ _ Hdiff Hx Hy Hne) as [Hnz _].
    unfold li_make. by rewrite pv_filter. }
  set (d := li_make d') in *. clearbody d. clear E Hdiff d'.
  assert (all_nonzero d) as Hnz by (intros k v Hin; exact (proj2 (Hlin k v Hin))).
  assert (exists q, (0 < q)%Qc /\ li_normalize d = scaled q d) as (q & Hq & Hnd).
  { destruct d as [|kv d]; [by exists 1%Qc|].
    assert (0 < max_abs (kv :: d))%Qc as Hm by by apply max_abs_pos.
    exists (/ max_abs (kv :: d))%Qc. split; [by apply qinv_pos|].
    unfold li_normalize. assert (qeq (max_abs (kv :: d)) 0 = false) as ->.
    { apply qeq_false. intros H. rewrite H in Hm. done. }
    rewrite scale_is_scaled, li_make_id; [done|].
    apply scaled_nonzero; [|done]. pose proof (qinv_pos _ Hm) as H. intros H0. rewrite H0 in H. done. }
  rewrite Hnd in Hn. destruct (li_to_smt_compares (scaled q d) c) as (a' & b' & C1 & C2 & C3 & C4).
  - unfold dwf, dkeys, scaled in *. by rewrite map_map.
  - intros k v Hin. unfold scaled in Hin. apply elem_of_list_In, in_map_iff in Hin as ([k' v'] & [= <- <-] & Hin).
    apply elem_of_list_In in Hin. by apply (Hlin k' v').
  - done.
  - exists a', b'. split; [done|]. split; [done|]. split; [done|]. intros e He. apply C4.
    rewrite pv_scaled. pose proof (Hoff e He) as Hne. set (u := poly_val e d) in *. clearbody u.
    intros H. apply Qcmult_integral in H as [H|H]; [|done]. rewrite H in Hq. done.
Qed.

(** A test of the table. *)
Definition test_of (f c : fm) : Prop :=
  exists a b, compares c a b /\ linear_expr a /\ linear_expr b /\ forall e, off_tests e f -> off e a b.

(** What one translation adds to the tables. *)
Definition adds (f : fm) (s s' : lst) : Prop :=
  (forall c l, dget (s_abs s') c = Some l -> is_Some (dget (s_abs s) c) \/ test_of f c) /\
  (forall x l, dget (s_bools s') x = Some l -> is_Some (dget (s_bools s) x) \/ (x, TBool) ∈ syms f).

Lemma adds_seq f1 f2 f s s1 s2 : adds f1 s s1 -> adds f2 s1 s2 ->
  (forall e, off_tests e f -> off_tests e f1 /\ off_tests e f2) ->
  (forall y, y ∈ syms f1 -> y ∈ syms f) -> (forall y, y ∈ syms f2 -> y ∈ syms f) -> adds f s s2.
Proof.
  intros [A1 A2] [B1 B2] HO S1 S2.
  assert (forall g c, (forall e, off_tests e f -> off_tests e g) -> test_of g c -> test_of f c) as Hm.
  { intros g c Hg (a & b & H1 & H2 & H3 & H4). exists a, b. split; [done|]. split; [done|]. split; [done|]. auto. }
  split.
  - intros c l H. destruct (B1 c l H) as [[l' H']|H'].
    + destruct (A1 c l' H') as [?|H'']; [by left|right]. apply (Hm f1); [|done]. intros e He. by apply HO.
    + right. apply (Hm f2); [|done]. intros e He. by apply HO.
  - intros x l H. destruct (B2 x l H) as [[l' H']|H'].
    + destruct (A2 x l' H') as [?|H'']; [by left|right; auto].
    + right; auto.
Qed.

Lemma adds_mono f g s s' : adds f s s' -> (forall e, off_tests e g -> off_tests e f) ->
  (forall y, y ∈ syms f -> y ∈ syms g) -> adds g s s'.
Proof.
  intros H Ho Hs. eapply (adds_seq f f g s s' s' H); auto.
  split; intros ? ? ?; left; eauto.
Qed.

Lemma smapM_adds l (F : fm) : Forall (fun f => forall s g s', logic_formula f -> recurse f s = Ok (g, s') -> adds f s s') l ->
  Forall logic_formula l ->
  (forall e, off_tests e F -> fold_right (fun g P => off_tests e g /\ P) True l) ->
  (forall g y, g ∈ l -> y ∈ syms g -> y ∈ syms F) ->
  forall s gs s', smapM recurse l s = Ok (gs, s') -> adds F s s'.
Proof.
  induction 1 as [|f l Hf _ IH]; intros Hl HO HS s gs s'; cbn [smapM].
  - intros [= <- <-]. split; intros ? ? ?; left; eauto.
  - apply Forall_cons_1 in Hl as [L1 L2].
    destruct (recurse f s) as [[g s1]|] eqn:E1; [|done]. cbn [rbind].
    destruct (smapM recurse l s1) as [[gs' s2]|] eqn:E2; [|done]. cbn [rbind]. intros [= <- <-].
    eapply (adds_seq f F F s s1 s2).
    + exact (Hf s g s1 L1 E1).
    + eapply IH; [done| | |done].
      * intros e He. by apply HO in He as [_ He].
      * intros g' y Hg. apply (HS g'). by right.
    + intros e He. split; [by apply HO in He as [He _]|done].
    + intros y Hy. apply (HS f); [by left|done].
    + done.
Qed.

Lemma in_concat_syms (l : list fm) g y : g ∈ l -> y ∈ syms g -> y ∈ concat (map syms l).
Proof.
  intros Hg Hy. apply elem_of_list_In, in_concat. exists (syms g).
  split; [|by apply elem_of_list_In]. apply in_map. by apply elem_of_list_In.
Qed.

Lemma test_adds f a b s g s' : compares f a b -> linear_expr a -> linear_expr b ->
  (forall e, off_tests e f -> off e a b) -> rec_test f a b s = Ok (g, s') -> adds f s s'.
Proof.
  intros Hc Ha Hb HO. unfold rec_test. destruct (is_all_real a && is_all_real b); [|done].
  destruct (to_canonical f) as [c|] eqn:Ec; [|done]. cbn [rbind].
  destruct (dget (s_abs s) c) as [l|] eqn:E; intros [= <- <-].
  - split; intros ? ? ?; left; eauto.
  - split; cbn [s_abs s_bools]; [|intros ? ? ?; left; eauto].
    intros c' l. rewrite dget_dset. destruct (decide (c = c')) as [<-|]; [|left; eauto].
    intros _. right. destruct (canonical_compares f a b c Hc Ha Hb Ec) as (a' & b' & C1 & C2 & C3 & C4).
    exists a', b'. eauto 10.
Qed.

Lemma recurse_adds f : forall s g s', logic_formula f -> recurse f s = Ok (g, s') -> adds f s s'.
Proof.
  induction f using fm_ind'; intros s g' s' Hl; inversion Hl; subst; cbn [recurse].
  - unfold rec_symbol. rewrite bool_decide_true by done.
    destruct (dget (s_bools s) n) as [l|] eqn:E; intros [= <- <-].
    + split; intros ? ? ?; left; eauto.
    + split; cbn [s_abs s_bools]; [intros ? ? ?; left; eauto|].
      intros x l. rewrite dget_dset. destruct (decide (n = x)) as [<-|]; [|left; eauto].
      intros _. right. by left.
  - intros [= <- <-]. split; intros ? ? ?; left; eauto.
  - destruct (smapM recurse l s) as [[gs s1]|] eqn:E; [|done]. cbn [rbind]. intros [= <- <-].
    refine (smapM_adds l _ H H1 _ _ s gs s1 E); [done|]. intros g y. apply in_concat_syms.
  - destruct (smapM recurse l s) as [[gs s1]|] eqn:E; [|done]. cbn [rbind]. intros [= <- <-].
    refine (smapM_adds l _ H H1 _ _ s gs s1 E); [done|]. intros g y. apply in_concat_syms.
  - destruct (recurse f s) as [[g s1]|] eqn:E; [|done]. cbn [rbind]. intros [= <- <-].
    eapply adds_mono; [by eapply IHf|done|done].
  - destruct (recurse f1 s) as [[g1 s1]|] eqn:E1; [|done]. cbn [rbind].
    destruct (recurse f2 s1) as [[g2 s2]|] eqn:E2; [|done]. cbn [rbind]. intros [= <- <-].
    eapply (adds_seq f1 f2 _ s s1 s2); eauto; intros y Hy; cbn [syms]; rewrite elem_of_app; auto.
  - destruct (recurse f1 s) as [[g1 s1]|] eqn:E1; [|done]. cbn [rbind].
    destruct (recurse f2 s1) as [[g2 s2]|] eqn:E2; [|done]. cbn [rbind]. intros [= <- <-].
    eapply (adds_seq f1 f2 _ s s1 s2); eauto; intros y Hy; cbn [syms]; rewrite elem_of_app; auto.
  - destruct (recurse f1 s) as [[g1 s1]|] eqn:E1; [|done]. cbn [rbind].
    destruct (recurse f2 s1) as [[g2 s2]|] eqn:E2; [|done]. cbn [rbind].
    destruct (recurse f3 s2) as [[g3 s3]|] eqn:E3; [|done]. cbn [rbind]. intros [= <- <-].
    assert (adds (IteN f1 f2 f3) s s1) as HA.
    { eapply adds_mono; [by eapply IHf1| |].
      - by intros e (? & ? & ?).
      - intros y Hy; cbn [syms]; rewrite !elem_of_app; auto. }
    assert (adds (IteN f1 f2 f3) s1 s2) as HB.
    { eapply adds_mono; [by eapply IHf2| |].
      - by intros e (? & ? & ?).
      - intros y Hy; cbn [syms]; rewrite !elem_of_app; auto. }
    assert (adds (IteN f1 f2 f3) s2 s3) as HC.
    { eapply adds_mono; [by eapply IHf3| |].
      - by intros e (? & ? & ?).
      - intros y Hy; cbn [syms]; rewrite !elem_of_app; auto. }
    set (F := IteN f1 f2 f3) in *. clearbody F.
    refine (adds_seq F F F s s2 s3 (adds_seq F F F s s1 s2 HA HB _ _ _) HC _ _ _); auto.
  - by apply test_adds; [constructor|..].
  - by apply test_adds; [constructor|..].
Qed.

(** The table of an extraction. *)
Record table_ok (f : fm) (i : linfo) : Prop := {
  to_nodup : NoDup (dkeys (literals i));
  to_two : two_way i;
  to_test : forall lit c, dget (literals i) lit = Some (MTest c) -> test_of f c;
  to_bool : forall lit x, dget (literals i) lit = Some (MBool x) -> (x, TBool) ∈ syms f }.

Lemma extract_table f g i : logic_formula f -> extract_literals f = Ok (g, i) -> table_ok f i.
Proof.
  intros Hl H. destruct (extract_inv f g i H) as (s & E & I & _ & -> & Hnd).
  destruct (recurse_adds f _ _ _ Hl E) as [A1 A2]. pose proof (table_two_way s I) as T.
  split; [done|done|..]; destruct T as [T1 T2]; cbn [abstractions booleans literals] in *.
  - intros lit c Hc. apply T2 in Hc. destruct (A1 c lit Hc) as [[? ?]|]; done.
  - intros lit x Hx. apply T1 in Hx. destruct (A2 x lit Hx) as [[? ?]|]; done.
Qed.

(** Linear expressions have a value everywhere, and it does not depend on the
    boolean variables. *)
Lemma mapM_num e l : Forall (fun g => exists q, eval e g = Some (VN q)) l ->
  exists qs, mapM (fun g => vnum (eval e g)) l = Some qs.
Proof.
  induction 1 as [|g l [q Hq] _ [qs IH]]; [by exists []|]. exists (q :: qs). cbn. rewrite Hq. cbn. cbn in IH. by rewrite IH.
Qed.

Lemma const_value a e : const_expr a -> exists q, eval e a = Some (VN q).
Proof.
  induction a using fm_ind'; intros Hc; inversion Hc; subst; cbn [eval]; try by eexists.
  - destruct (mapM_num e l) as [qs ->]; [|by eexists]. rewrite Forall_forall in *. auto.
  - destruct IHa1 as [x ->]; [done|]. destruct IHa2 as [y ->]; [done|]. by eexists.
  - destruct (mapM_num e l) as [qs ->]; [|by eexists]. rewrite Forall_forall in *. auto.
Qed.
Lemma linear_value a e : linear_expr a -> exists q, eval e a = Some (VN q).
Proof.
  induction a using fm_ind'; intros Hc; (inversion Hc; subst; [by apply const_value|..]); try (cbn [eval]; by eexists).
  - cbn [eval]. destruct (mapM_num e l) as [qs ->]; [|by eexists]. rewrite Forall_forall in *. auto.
  - cbn [eval]. destruct IHa1 as [x ->]; [done|]. destruct IHa2 as [y ->]; [done|]. by eexists.
  - cbn [eval]. destruct (mapM_num e (l1 ++ a :: l2)) as [qs ->]; [|by eexists].
    apply Forall_app in H as [_ H]. apply Forall_cons_1 in H as [H _].
    apply Forall_app. split; [|apply Forall_cons; split; [auto|]].
    + rewrite Forall_forall in *. intros g Hg. apply const_value. auto.
    + rewrite Forall_forall in *. intros g Hg. apply const_value. auto.
  - cbn [eval]. destruct IHa1 as [x ->]; [done|]. cbn. rewrite nat_of_qn. cbn. by eexists.
Qed.

Lemma const_syms a : const_expr a -> forall y, y ∉ syms a.
Proof.
  induction a using fm_ind'; intros Hc; inversion Hc; subst; cbn [syms]; intros y Hy; try by apply elem_of_nil in Hy.
  - apply elem_of_list_In, in_concat in Hy as (k & Hk & Hy). apply in_map_iff in Hk as (g & <- & Hg).
    rewrite Forall_forall in *. apply elem_of_list_In in Hg, Hy. apply (H g Hg (H2 g Hg) y Hy).
  - apply elem_of_app in Hy as [Hy|Hy]; [by apply (IHa1 H1 y)|by apply (IHa2 H2 y)].
  - apply elem_of_list_In, in_concat in Hy as (k & Hk & Hy). apply in_map_iff in Hk as (g & <- & Hg).
    rewrite Forall_forall in *. apply elem_of_list_In in Hg, Hy. apply (H g Hg (H2 g Hg) y Hy).
Qed.
Lemma linear_syms a : linear_expr a -> forall x t, (x, t) ∈ syms a -> t = TReal.
Proof.
  induction a using fm_ind'; intros Hc; (inversion Hc; subst; [intros x0 t0 Hx; by apply const_syms in Hx|..]);
    cbn [syms]; intros x0 t0 Hx.
  - by apply elem_of_list_singleton in Hx as [= -> ->].
  - apply elem_of_list_In, in_concat in Hx as (k & Hk & Hy). apply in_map_iff in Hk as (g & <- & Hg).
    rewrite Forall_forall in *. apply elem_of_list_In in Hg, Hy. apply (H g Hg (H2 g Hg) _ _ Hy).
  - apply elem_of_app in Hx as [Hy|Hy]; [by apply (IHa1 H1 x0)|by apply (IHa2 H2 x0)].
  - apply elem_of_list_In, in_concat in Hx as (k & Hk & Hy). apply in_map_iff in Hk as (g & <- & Hg).
    apply elem_of_list_In in Hg, Hy. apply Forall_app in H as [_ H]. apply Forall_cons_1 in H as [H _].
    apply elem_of_app in Hg as [Hg|Hg].
    + match goal with HH : Forall const_expr l1 |- _ => rewrite Forall_forall in HH; by apply (const_syms g (HH g Hg)) in Hy end.
    + apply elem_of_cons in Hg as [->|Hg]; [match goal with HH : linear_expr a |- _ => by apply (H HH x0) end|].
      match goal with HH : Forall const_expr l2 |- _ => rewrite Forall_forall in HH; by apply (const_syms g (HH g Hg)) in Hy end.
  - apply elem_of_app in Hx as [Hy|Hy]; [match goal with HH : linear_expr a1 |- _ => by apply (IHa1 HH x0) end|].
    by apply elem_of_nil in Hy.
Qed.

Lemma compares_value c a b e : compares c a b -> linear_expr a -> linear_expr b -> exists v, eval e c = Some (VB v).
Proof.
  intros Hc Ha Hb. induction Hc as [a b|a b|f a b Hc IH]; cbn [eval].
  - destruct (linear_value a e Ha) as [x ->], (linear_value b e Hb) as [y ->]. by eexists.
  - destruct (linear_value a e Ha) as [x ->], (linear_value b e Hb) as [y ->]. by eexists.
  - destruct IH as [v ->]; [done|done|]. by eexists.
Qed.
Lemma compares_reals c a b e e' : compares c a b -> linear_expr a -> linear_expr b -> (forall x, er e x = er e' x) ->
  eval e c = eval e' c.
Proof.
  intros Hc Ha Hb He. apply eval_agree. intros x t Hx.
  assert (t = TReal) as ->; [|apply He]. induction Hc as [a b|a b|f a b Hc IH]; cbn [syms] in Hx.
  - apply elem_of_app in Hx as [Hx|Hx]; [by apply (linear_syms a Ha x)|by apply (linear_syms b Hb x)].
  - apply elem_of_app in Hx as [Hx|Hx]; [by apply (linear_syms a Ha x)|by apply (linear_syms b Hb x)].
  - auto.
Qed.

Lemma test_value f c e : test_of f c -> exists v, eval e c = Some (VB v).
Proof. intros (a & b & H1 & H2 & H3 & _). by apply (compares_value c a b). Qed.
Lemma test_reals f c e e' : test_of f c -> (forall x, er e x = er e' x) -> eval e c = eval e' c.
Proof. intros (a & b & H1 & H2 & H3 & _). by apply (compares_reals c a b). Qed.

(** Which side of the tests a point lies on depends on the reals only. *)
Lemma off_tests_reals f : logic_formula f -> forall e b, off_tests e f -> off_tests (Env b (er e)) f.
Proof.
  assert (forall a b e c, linear_expr a -> linear_expr b -> off e a b -> off (Env c (er e)) a b) as HO.
  { intros a b e c Ha Hb (x & y & Hx & Hy & Hne). exists x, y.
    rewrite (eval_agree _ e a), (eval_agree _ e b); [done| |]; intros z t Hz.
    - apply (linear_syms b Hb) in Hz as ->. done.
    - apply (linear_syms a Ha) in Hz as ->. done. }
  assert (forall l e c, Forall (fun g => logic_formula g -> forall e b, off_tests e g -> off_tests (Env b (er e)) g) l ->
    Forall logic_formula l -> fold_right (fun g P => off_tests e g /\ P) True l ->
    fold_right (fun g P => off_tests (Env c (er e)) g /\ P) True l) as HL.
  { intros l e c H. induction H as [|g l Hg _ IH]; intros Hl; [done|]. cbn. apply Forall_cons_1 in Hl as [L1 L2].
    intros [O1 O2]. auto. }
  induction f using fm_ind'; intros Hl e c Ho; inversion Hl; subst; cbn [off_tests] in *; try done.
  - by apply HL.
  - by apply HL.
  - auto.
  - destruct Ho; auto.
  - destruct Ho; auto.
  - destruct Ho as (? & ? & ?); auto.
  - by apply HO.
  - by apply HO.
Qed.
