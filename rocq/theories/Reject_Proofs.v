(** Proofs for C64. *)

From Verif Require Import Base Dict Smt Smt_Facts Walk_Model Check_Model Math_Model Math_Spec Poly_Proofs Linear_Proofs
  Arith_Proofs Domain_Model Domain_Spec Domain_Proofs Engine_Spec Engine_Proofs Sample_Model Sample_Spec Sample_Proofs
  Reject_Model Reject_Spec.

(** * The formulas handed to the engine *)

Definition tidy (d : domain) (t : ty) (f : fm) : Prop :=
  typeof f = Some t /\ wf_fm f = true /\ plain f = true /\ forall x u, (x, u) ∈ syms f -> x ∈ d_vars d.

Lemma tidy_real d q : tidy d TReal (RealC q).
Proof. repeat split; try done. by intros ? ? ?%elem_of_nil. Qed.
Lemma tidy_sym d v : v ∈ names d TReal -> tidy d TReal (Sym v TReal).
Proof.
  intros H. apply elem_of_list_filter in H as [_ H]. repeat split; try done.
  intros x u [= -> ->]%elem_of_list_singleton. done.
Qed.

Lemma tidy_list d t l : Forall (tidy d t) l ->
  Forall (fun f => typeof f = Some t) l /\ forallb wf_fm l = true /\ forallb plain l = true /\
  forall x u, (x, u) ∈ concat (map syms l) -> x ∈ d_vars d.
Proof.
  induction 1 as [|f l (H1 & H2 & H3 & H4) _ (I1 & I2 & I3 & I4)]; [repeat split; try done; by intros ? ? ?%elem_of_nil|].
  repeat split; [by constructor|by cbn; rewrite H2, I2|by cbn; rewrite H3, I3|].
  intros x u. cbn [map concat]. intros [H|H]%elem_of_app; eauto.
Qed.

Lemma nary_real (l : list fm) : l <> [] -> Forall (fun f => typeof f = Some TReal) l -> nary_num (map typeof l) = Some TReal.
Proof.
  intros Hne HF. by apply nary_num_intro.
Qed.

Lemma tidy_plus d l f : mkPlus l = Ok f -> Forall (tidy d TReal) l -> tidy d TReal f.
Proof.
  destruct l as [|a [|b l]]; intros E HF; [done|injection E as <-; by inversion HF|]. injection E as <-.
  destruct (tidy_list d TReal _ HF) as (H1 & H2 & H3 & H4).
  split; [apply (nary_real (a :: b :: l)); done|]. split; [exact H2|]. split; [exact H3|exact H4].
Qed.
Lemma tidy_times d l f : mkTimes l = Ok f -> Forall (tidy d TReal) l -> tidy d TReal f.
Proof.
  destruct l as [|a [|b l]]; intros E HF; [done|injection E as <-; by inversion HF|]. injection E as <-.
  destruct (tidy_list d TReal _ HF) as (H1 & H2 & H3 & H4).
  split; [apply (nary_real (a :: b :: l)); done|]. split; [exact H2|]. split; [exact H3|exact H4].
Qed.
Lemma tidy_syms d (k : mono) : (forall v, v ∈ k -> v ∈ names d TReal) -> Forall (tidy d TReal) (map (fun n => Sym n TReal) k).
Proof. intros H. apply Forall_map, Forall_forall. intros v Hv. apply tidy_sym. by apply H. Qed.
Lemma tidy_cmp d a b : tidy d TReal a -> tidy d TReal b -> tidy d TBool (LeN a b) /\ tidy d TBool (LtN a b).
Proof.
  intros (A1 & A2 & A3 & A4) (B1 & B2 & B3 & B4).
  split; (split; [cbn [typeof]; rewrite A1, B1; done|]; split; [cbn; by rewrite A2, B2|]; split; [cbn; by rewrite A3, B3|];
    intros x u [H|H]%elem_of_app; eauto).
Qed.
Lemma tidy_and d l : Forall (tidy d TBool) l -> tidy d TBool (mkAnd l).
Proof.
  destruct l as [|a [|b l]]; intros HF; [repeat split; try done; by intros ? ? ?%elem_of_nil|by inversion HF|].
  destruct (tidy_list d TBool _ HF) as (H1 & H2 & H3 & H4). cbn [mkAnd].
  split; [|split; [exact H2|split; [exact H3|exact H4]]].
  cbn [typeof]. assert (all_ty TBool (map typeof (a :: b :: l)) = true) as ->; [|done].
  by apply all_ty_Forall.
Qed.
Lemma tidy_query d t f : tidy d t f -> query d f.
Proof. intros (H1 & H2 & H3 & H4). split; try done. by rewrite H1. Qed.

Lemma forallb_const (b : pdict) : dwf b -> forallb (fun kc => bool_decide (kc.1 = [])) b = only_const b.
Proof.
  intros Hwf. destruct b as [|[[|x k] v] b]; [done| |done]. destruct b as [|[k' v'] b]; [done|]. cbn.
  destruct k' as [|y k']; [|done]. unfold dwf in Hwf. cbn in Hwf. inversion Hwf as [|? ? Hni _]; subst. exfalso. apply Hni. by left.
Qed.
Lemma meets_holds e b : dwf b -> meets e b = li_holds e b.
Proof. intros H. unfold meets, li_holds. by rewrite forallb_const. Qed.

Lemma li_term_tidy d k c t : k = [] \/ (exists v, k = [v] /\ v ∈ names d TReal) -> li_term (k, c) = Ok t -> tidy d TReal t.
Proof.
  intros [->|(v & -> & Hv)]; [done|]. unfold li_term. cbn [fst snd map mkTimes rbind].
  destruct (qeq c 1); [intros [= <-]; by apply tidy_sym|]. intros Ht. apply (tidy_times d [Sym v TReal; RealC c] t Ht).
  repeat constructor; [by apply tidy_sym|apply tidy_real].
Qed.

Lemma li_to_smt_tidy d b f : inequality_over d b -> li_to_smt b = Ok f -> tidy d TBool f.
Proof.
  intros [Hn Hb] E. destruct (only_const b) eqn:Ho.
  - destruct b as [|[[|] v] [|]]; try done; injection E as <-; apply tidy_cmp; apply tidy_real.
  - assert (li_to_smt b =
      let! ts := rmapM li_term (List.filter (fun kv => negb (bool_decide (kv.1 = CONST_KEY))) b) in
      let! s := mkPlus ts in Ok (LtN s (RealC (li_b b)))) as Eb by (destruct b as [|[[|] v] [|]]; done).
    rewrite Eb in E. destruct (rmapM li_term _) as [ts|] eqn:Et; [|done]. cbn [rbind] in E.
    destruct (mkPlus ts) as [s|] eqn:Es; [|done]. injection E as <-. apply tidy_cmp; [|apply tidy_real].
    apply (tidy_plus d ts); [done|]. apply rmapM_Forall2 in Et.
    assert (forall kv, kv ∈ List.filter (fun kv => negb (bool_decide (kv.1 = CONST_KEY))) b -> kv ∈ b) as Hin.
    { intros kv Hk. apply elem_of_list_In, filter_In in Hk as [Hk _]. by apply elem_of_list_In. }
    clear -Et Hb Hin. induction Et as [|[k c] t l ts Ht _ IH]; constructor.
    + eapply li_term_tidy; [|exact Ht]. apply (Hb k c). apply Hin. by left.
    + apply IH. intros kv Hk. apply Hin. by right.
Qed.

Lemma bounds_formula_ok d bs : Forall (inequality_over d) bs -> exists f, bounds_formula bs = Ok f /\ bool_query d f /\
  forall e, eval e f = Some (VB (region bs e)).
Proof.
  intros HF. assert (exists fs, rmapM li_to_smt bs = Ok fs /\ Forall (tidy d TBool) fs /\
    forall e, Forall2 (fun f b => eval e f = Some (VB (meets e b))) fs bs) as (fs & Efs & HT & HV).
  { induction HF as [|b bs Hb _ (fs & E & HT & HV)]; [exists []; repeat split; try done; constructor|].
    destruct (li_to_smt_sound b) as (f & Ef & Vf); [apply Hb|]. exists (f :: fs). rewrite rmapM_cons, Ef. cbn [rbind]. rewrite E. cbn [rbind].
    split; [done|]. split; [constructor; [by eapply li_to_smt_tidy|done]|]. intros e. constructor; [|apply HV].
    rewrite Vf. rewrite meets_holds by apply Hb. done. }
  unfold bounds_formula. rewrite Efs. cbn [rbind]. eexists. split; [done|].
  assert (forall e, eval e (mkAnd fs) = Some (VB (region bs e))) as HE.
  { intros e. specialize (HV e). unfold region.
    destruct fs as [|f [|f' fs]]; [inversion HV; subst; done| |].
    - inversion HV as [|? b ? ? Hb H0]; subst. inversion H0; subst. cbn [mkAnd forallb]. by rewrite andb_true_r.
    - cbn [mkAnd eval]. rewrite (proj2 (mapM_Forall2_vbool e (f :: f' :: fs) (map (meets e) bs))).
      + cbn. do 2 f_equal. clear. induction bs as [|b bs IH]; [done|]. cbn. by rewrite IH.
      + clear -HV. induction HV; cbn; constructor; done. }
  split; [|done]. split; [apply (tidy_query d TBool); by apply tidy_and|]. intros e. eexists. apply HE.
Qed.

Lemma poly_to_smt_ok d p : polynomial_over d p -> exists w, poly_to_smt p = Ok w /\ num_query d w /\
  forall e, eval e w = Some (VN (poly_val e p)).
Proof.
  intros [Hne Hp]. destruct (poly_to_smt_sound p Hne) as (w & Ew & Vw). exists w. split; [done|]. split; [|done].
  split; [|by intros e; eexists; apply Vw]. apply (tidy_query d TReal).
  unfold poly_to_smt in Ew. destruct (rmapM poly_term p) as [ts|] eqn:Et; [|done]. cbn [rbind] in Ew.
  apply (tidy_plus d ts); [done|]. apply rmapM_Forall2 in Et. clear -Et Hp.
  induction Et as [|[k c] t l ts Ht _ IH]; constructor; [|apply IH; intros k' c' H; apply (Hp k' c'); by right].
  assert (forall v, v ∈ k -> v ∈ names d TReal) as Hk by (apply (Hp k c); by left).
  unfold poly_term in Ht. cbn [fst snd] in Ht. destruct (poly_key k) as [u|] eqn:Eu; [|done]. cbn [rbind] in Ht.
  assert (tidy d TReal u) as Hu.
  { destruct k as [|x k]; [injection Eu as <-; apply tidy_real|]. apply (tidy_times d _ _ Eu). by apply tidy_syms. }
  destruct (qeq c 1); [by injection Ht as <-|]. apply (tidy_times d [u; RealC c] t Ht). constructor; [done|]. constructor; [apply tidy_real|constructor].
Qed.

(** * The estimate *)

Lemma engine_estimate d lens bs p f w n g : wf_domain d -> finite_box d lens -> bool_query d f -> num_query d w ->
  (forall e, eval e f = Some (VB (region bs e))) -> (forall e, eval e w = Some (VN (poly_val e p))) -> fair g -> 0 < n ->
  exists rows, uniform d n None g = Ok (rows, adv (n * length (d_vars d)) g) /\ length rows = n /\ Forall (in_domain d) rows /\
    compute_volume d f (Some w) n None g = Ok (estimate d lens bs p rows, adv (n * length (d_vars d)) g).
Proof.
  intros W HB Hf Hw Vf Vw Hg Hn. destruct (uniform_in d lens n g W HB Hg) as (rows & HU & HL & HI). exists rows.
  split; [done|]. split; [done|]. split; [done|].
  rewrite (volume_formula d f (Some w) W Hf Hw None n g _ rows _ HU HI HL Hn (bound_none d lens W (proj1 HB))).
  do 2 f_equal. unfold estimate. rewrite HL. do 2 f_equal. unfold weight_where. f_equal.
  clear -Vf Vw. induction rows as [|r rows IH]; [done|]. cbn [map]. f_equal; [|done].
  unfold holds, weight_of. by rewrite Vf, Vw.
Qed.

(** * The box found by linear programming *)

Lemma dot_cons a x b y : dot (a :: x) (b :: y) = (a * b + dot x y)%Qc.
Proof. unfold dot. cbn [zip_with]. apply qsum_cons. Qed.
Lemma dot_zeros m x : dot (replicate m 0%Qc) x = 0%Qc.
Proof. revert x. induction m as [|m IH]; intros [|q x]; try done. cbn [replicate]. rewrite dot_cons, IH. ring. Qed.
Lemma dot_unit m j x q : x !! j = Some q -> j < m -> dot (unit_vec m j) x = q.
Proof.
  unfold unit_vec. revert m x. induction j as [|j IH]; intros [|m] [|y x] Hx Hj; try lia; try done.
  - cbn in Hx. injection Hx as ->. cbn [replicate insert list_insert]. rewrite dot_cons, dot_zeros. ring.
  - cbn [replicate]. change (<[S j:=1%Qc]> (0%Qc :: replicate m 0%Qc)) with (0%Qc :: <[j:=1%Qc]> (replicate m 0%Qc)).
    rewrite dot_cons. rewrite (IH m x); [ring|done|lia].
Qed.
Lemma dot_opp x y : dot (map Qcopp x) y = (- dot x y)%Qc.
Proof. revert y. induction x as [|a x IH]; intros [|b y]; try done. cbn [map]. rewrite !dot_cons, IH. ring. Qed.

Lemma unit_length m j : length (unit_vec m j) = m.
Proof. unfold unit_vec. rewrite insert_length. by rewrite replicate_length. Qed.

(** A point of the region without negative coordinates is a feasible vector. *)
Lemma li_value rs e b : NoDup rs -> NoDup (map fst b) -> (forall k c, (k, c) ∈ b -> k = [] \/ exists v, k = [v] /\ v ∈ rs) ->
  poly_val e b = (dot (map (fun v => li_coefficient b [v]) rs) (map (er e) rs) - li_b b)%Qc.
Proof.
  intros Hrs. induction b as [|[k c] b IH]; intros Hn Hk.
  - assert (dot (map (fun v => li_coefficient [] [v]) rs) (map (er e) rs) = 0%Qc) as ->.
    { clear. induction rs as [|r rs IH]; [done|]. cbn [map]. rewrite dot_cons, IH. unfold li_coefficient. cbn. ring. }
    done.
  - cbn [map fst] in Hn. apply NoDup_cons in Hn as [Hni Hn]. rewrite pv_cons, IH; [|done|intros k' c' H; apply (Hk k' c'); by right].
    assert (dget b k = None) as Hnone.
    { by apply dget_None. }
    assert (forall k', li_coefficient ((k, c) :: b) k' = if decide (k = k') then c else li_coefficient b k') as HC.
    { intros k'. unfold li_coefficient. cbn [dget]. by destruct (decide (k = k')). }
    destruct (Hk k c) as [->|(v & -> & Hv)]; [by left| |].
    + assert (map (fun v => li_coefficient (([], c) :: b) [v]) rs = map (fun v => li_coefficient b [v]) rs) as ->.
      { apply map_ext. intros v. by rewrite HC, decide_False. }
      assert (li_coefficient b [] = 0%Qc) as H0 by (unfold li_coefficient; by rewrite Hnone).
      unfold li_b. change CONST_KEY with (@nil string). rewrite HC, decide_True by done. rewrite H0. unfold mono_val. cbn. ring.
    + assert (dot (map (fun v' => li_coefficient (([v], c) :: b) [v']) rs) (map (er e) rs) =
              c * er e v + dot (map (fun v' => li_coefficient b [v']) rs) (map (er e) rs))%Qc as ->.
      { clear -Hv HC Hrs Hnone. induction rs as [|r rs IH]; [by apply elem_of_nil in Hv|]. cbn [map]. rewrite !dot_cons.
        apply NoDup_cons in Hrs as [Hr Hrs]. rewrite HC. apply elem_of_cons in Hv as [->|Hv].
        - assert (li_coefficient b [r] = 0%Qc) as H0 by (unfold li_coefficient; by rewrite Hnone).
          rewrite decide_True by done. rewrite H0.
          assert (map (fun v' => li_coefficient (([r], c) :: b) [v']) rs = map (fun v' => li_coefficient b [v']) rs) as ->; [|cbn; ring].
          clear -Hr HC. induction rs as [|s rs IH]; [done|]. apply not_elem_of_cons in Hr as [H1 H2]. cbn [map]. rewrite HC, decide_False by congruence.
          by rewrite IH.
        - rewrite decide_False by congruence. rewrite IH by done. ring. }
      assert (li_b (([v], c) :: b) = li_b b) as -> by (unfold li_b; by rewrite HC, decide_False).
      unfold mono_val. cbn. ring.
Qed.

Lemma region_feasible rs e bs : NoDup rs -> Forall (fun b => NoDup (map fst b) /\ forall k c, (k, c) ∈ b -> k = [] \/ exists v, k = [v] /\ v ∈ rs) bs ->
  region bs e = true -> Forall (fun v => 0 <= er e v)%Qc rs ->
  feasible (map (fun bound => map (fun v => li_coefficient bound [v]) rs) bs) (map li_b bs) (map (er e) rs).
Proof.
  intros Hrs HF HR Hp. split; [by apply Forall_map|]. induction HF as [|b bs [H1 H2] _ IH]; cbn [map]; constructor.
  - cbn in HR. apply andb_true_iff in HR as [HR _]. pose proof (li_value rs e b Hrs H1 H2) as Hv.
    assert (poly_val e b <= 0)%Qc as H0.
    { unfold meets in HR. destruct (forallb _ b); [by apply qle_spec|]. apply Qclt_le_weak. by apply qlt_spec. }
    rewrite Hv in H0. qclra.
  - apply IH. cbn in HR. by apply andb_true_iff in HR as [_ HR].
Qed.

Section box.
  Variable linprog : list Qc -> list (list Qc) -> list Qc -> option (list Qc).
  Hypothesis HLP : solver_sound linprog.

  Lemma lp_entry_ok c a b j q : lp_entry linprog c a b j = Ok q -> exists x, length x = length c /\ feasible a b x /\ x !! j = Some q /\
    forall y, length y = length c -> feasible a b y -> (dot c x <= dot c y)%Qc.
  Proof.
    unfold lp_entry. destruct (linprog c a b) as [x|] eqn:E; [|done]. destruct (x !! j) as [r|] eqn:Ex; [|done]. intros [= <-].
    destruct (HLP _ _ _ _ E) as (H1 & H2 & H3). exists x. done.
  Qed.

  Lemma box_linprog_ok d bs doms : wf_domain d -> Forall (inequality_over d) bs -> box_linprog linprog d bs = Ok doms ->
    exists lens, doms = map (fun '(v, l, u) => (v, (Some l, Some u))) lens /\ map (fun '(v, _, _) => v) lens = names d TReal /\
      Forall (fun '(_, l, u) => 0 <= l /\ l <= u)%Qc lens /\
      forall e, region bs e = true -> (forall v, v ∈ names d TReal -> 0 <= er e v)%Qc ->
        Forall (fun '(v, l, u) => l <= er e v /\ er e v <= u)%Qc lens.
  Proof.
    intros W HB. unfold box_linprog, real_vars. rewrite vars_of_type_ok by done. cbn [rbind].
    set (rs := names d TReal). set (a := map _ bs). set (b := map li_b bs).
    assert (NoDup rs) as Hrs by (apply NoDup_filter, W).
    assert (Forall (fun b => NoDup (map fst b) /\ forall k c, (k, c) ∈ b -> k = [] \/ exists v, k = [v] /\ v ∈ rs) bs) as HB' by exact HB.
    assert (forall e, region bs e = true -> (forall v, v ∈ rs -> 0 <= er e v)%Qc -> feasible a b (map (er e) rs)) as Hfe.
    { intros e HR Hp. apply region_feasible; [done..|]. by apply Forall_forall. }
    clearbody a b. clear HB HB'. intros E. apply rmapM_Forall2 in E.
    assert (forall k (rs' : list string), (forall i v, rs' !! i = Some v -> rs !! (k + i) = Some v) ->
      forall doms, Forall2 (fun jv y => (let! lb := lp_entry linprog (unit_vec (length rs) (fst jv)) a b (fst jv) in
         let! ub := lp_entry linprog (map Qcopp (unit_vec (length rs) (fst jv))) a b (fst jv) in
         Ok (snd jv, (Some lb, Some ub))) = Ok y) (zip (seq k (length rs')) rs') doms ->
      exists lens, doms = map (fun '(v, l, u) => (v, (Some l, Some u))) lens /\ map (fun '(v, _, _) => v) lens = rs' /\
      Forall (fun '(_, l, u) => 0 <= l /\ l <= u)%Qc lens /\
      forall e, region bs e = true -> (forall v, v ∈ rs -> 0 <= er e v)%Qc ->
        Forall (fun '(v, l, u) => l <= er e v /\ er e v <= u)%Qc lens) as HG; [|by apply (HG 0 rs)].
    clear E doms. intros k rs'. revert k. induction rs' as [|v rs' IH]; intros k Hlk doms E.
    - inversion E; subst. exists []. split; [done|]. split; [done|]. split; [constructor|]. intros; constructor.
    - cbn in E. inversion E as [|? y ? doms' Ey E']; subst. cbn [fst snd] in Ey.
      destruct (lp_entry linprog (unit_vec (length rs) k) a b k) as [lb|] eqn:El; [|done]. cbn [rbind] in Ey.
      destruct (lp_entry linprog (map Qcopp (unit_vec (length rs) k)) a b k) as [ub|] eqn:Eu; [|done]. injection Ey as <-.
      assert (rs !! k = Some v) as Hk by (rewrite <- (Nat.add_0_r k); by apply Hlk).
      assert (k < length rs) as Hlt by (eapply lookup_lt_Some; exact Hk).
      destruct (IH (S k)) with (doms := doms') as (lens & -> & Hm & Hn & Hi); [|done|].
      { intros i w Hi. replace (S k + i) with (k + S i) by lia. by apply Hlk. }
      apply lp_entry_ok in El as (xl & Ll & Fl & Xl & Ol). apply lp_entry_ok in Eu as (xu & Lu & Fu & Xu & Ou).
      rewrite map_length in Lu, Ou. rewrite unit_length in Ll, Lu, Ol, Ou.
      assert (forall x q, length x = length rs -> feasible a b x -> x !! k = Some q -> lb <= q /\ q <= ub)%Qc as Hbox.
      { intros x q Lx Fx Xx. specialize (Ol x Lx Fx). specialize (Ou x Lx Fx). rewrite !dot_opp in Ou.
        rewrite (dot_unit _ k xl lb) in Ol by done. rewrite (dot_unit _ k xu ub) in Ou by done. rewrite (dot_unit _ k x q) in Ol, Ou by done.
        split; qclra. }
      exists ((v, lb, ub) :: lens). split; [done|]. split; [cbn; by rewrite Hm|]. split.
      + constructor; [|done]. split; [|exact (proj1 (Hbox xu ub Lu Fu Xu))]. destruct Fl as [Fl _]. rewrite Forall_forall in Fl. apply Fl.
        by eapply elem_of_list_lookup_2.
      + intros e HR Hp. constructor; [|by apply Hi]. apply (Hbox (map (er e) rs)); [by rewrite map_length|by apply Hfe|].
        change (map (er e) rs !! k) with ((er e <$> rs) !! k). by rewrite list_lookup_fmap, Hk.
  Qed.
End box.

(** * The box around the samples *)

Lemma insert_sorted_in x l y : y ∈ insert_sorted x l <-> y = x \/ y ∈ l.
Proof.
  induction l as [|z l IH]; cbn; [by rewrite elem_of_list_singleton, elem_of_nil; intuition|].
  destruct (qle x z); rewrite !elem_of_cons; [done|]. rewrite IH. intuition.
Qed.
Lemma sort_column_in l y : y ∈ sort_column l <-> y ∈ l.
Proof. induction l as [|x l IH]; [done|]. cbn. rewrite insert_sorted_in, elem_of_cons. unfold sort_column in IH. by rewrite IH. Qed.
Lemma insert_sorted_length x l : length (insert_sorted x l) = S (length l).
Proof. induction l as [|z l IH]; cbn; [done|]. destruct (qle x z); cbn; [done|]. by rewrite IH. Qed.
Lemma sort_column_length l : length (sort_column l) = length l.
Proof. induction l as [|x l IH]; [done|]. cbn. by rewrite insert_sorted_length, <- IH. Qed.

Inductive ascending : list Qc -> Prop :=
| asc_nil : ascending []
| asc_cons x l : Forall (fun y => x <= y)%Qc l -> ascending l -> ascending (x :: l).

Lemma insert_sorted_asc x l : ascending l -> ascending (insert_sorted x l).
Proof.
  induction 1 as [|z l Hz Hl IH]; cbn; [by repeat constructor|]. destruct (qle x z) eqn:E.
  - apply qle_spec in E. constructor; [|by constructor]. constructor; [done|]. eapply Forall_impl; [exact Hz|]. intros y Hy. cbn in Hy. qclra.
  - assert (z <= x)%Qc as Hx. { destruct (Qclt_le_dec x z) as [H|H]; [|done]. apply Qclt_le_weak, qle_spec in H. congruence. }
    constructor; [|done]. apply Forall_forall. intros y Hy. apply insert_sorted_in in Hy as [->|Hy]; [done|]. rewrite Forall_forall in Hz. by apply Hz.
Qed.
Lemma sort_column_asc l : ascending (sort_column l).
Proof. induction l as [|x l IH]; [constructor|]. by apply insert_sorted_asc. Qed.

Lemma asc_last l hi y : ascending l -> last l = Some hi -> y ∈ l -> (y <= hi)%Qc.
Proof.
  induction 1 as [|z l Hz Hl IH]; [done|]. intros HL Hy. destruct l as [|z' l].
  - cbn in HL. injection HL as ->. apply elem_of_list_singleton in Hy as ->. apply Qcle_refl.
  - change (last (z :: z' :: l)) with (last (z' :: l)) in HL. apply elem_of_cons in Hy as [->|Hy]; [|by apply IH].
    assert (hi ∈ z' :: l) as Hh by (by apply last_Some_elem_of). rewrite Forall_forall in Hz. by apply Hz.
Qed.

Section sampled.
  Variable std : list Qc -> Qc.
  Hypothesis Hstd : forall l, (0 <= std l)%Qc.

  (** An interval made from two or more numbers contains them. *)
  Lemma column_interval_ok col : 2 <= length col -> exists l u, column_interval std col = Ok (Some l, Some u) /\ (l <= u)%Qc /\
    forall x, x ∈ col -> (l <= x /\ x <= u)%Qc.
  Proof.
    intros Hlen. unfold column_interval. pose proof (sort_column_length col) as HL. pose proof (sort_column_asc col) as HA.
    pose proof (sort_column_in col) as HI. destruct (sort_column col) as [|a [|b l]]; cbn in HL; [lia|lia|].
    cbn [head]. destruct (last (a :: b :: l)) as [hi|] eqn:Eh; [|by apply last_None in Eh].
    cbn [gaps]. set (s := std _). pose proof (Hstd (qabs (a - b) :: gaps (b :: l)) : (0 <= s)%Qc) as Hs. clearbody s. eexists _, _. split; [done|].
    assert (forall x, x ∈ col -> (a <= x /\ x <= hi)%Qc) as Hx.
    { intros x Hx. apply HI in Hx. split; [|by eapply asc_last]. inversion HA as [|? ? Ha _]; subst. apply elem_of_cons in Hx as [->|Hx]; [apply Qcle_refl|].
      rewrite Forall_forall in Ha. by apply Ha. }
    split.
    - assert (a ∈ col) as Ha by (apply HI; by left). specialize (Hx a Ha). destruct Hx. qclra.
    - intros x H. specialize (Hx x H). destruct Hx. split; qclra.
  Qed.

  Lemma columns_intervals m rows : 2 <= length rows -> exists ls, rmapM (column_interval std) (columns m rows) = Ok (map (fun '(l, u) => (Some l, Some u)) ls) /\
    length ls = m /\ Forall (fun '(l, u) => l <= u)%Qc ls /\
    forall row j x l u, row ∈ rows -> row !! j = Some x -> ls !! j = Some (l, u) -> (l <= x /\ x <= u)%Qc.
  Proof.
    intros Hlen. unfold columns.
    assert (forall k, exists ls, rmapM (column_interval std) (map (fun j => map (fun row => default 0%Qc (row !! j)) rows) (seq k m)) = Ok (map (fun '(l, u) => (Some l, Some u)) ls) /\
      length ls = m /\ Forall (fun '(l, u) => l <= u)%Qc ls /\
      forall row j x l u, row ∈ rows -> row !! (k + j) = Some x -> ls !! j = Some (l, u) -> (l <= x /\ x <= u)%Qc) as HG; [|exact (HG 0)].
    induction m as [|m IH]; intros k; [exists []; repeat split; try done; constructor|].
    destruct (IH (S k)) as (ls & E & HL & HF & HI). cbn [seq map].
    destruct (column_interval_ok (map (fun row => default 0%Qc (row !! k)) rows)) as (l & u & El & Hlu & Hx); [by rewrite map_length|].
    exists ((l, u) :: ls). rewrite rmapM_cons, El. cbn [rbind]. rewrite E. cbn [rbind]. split; [done|]. split; [cbn; by rewrite HL|].
    split; [by constructor|]. intros row [|j] x l' u' Hr Hj Hl.
    - cbn in Hl. injection Hl as <- <-. apply Hx. apply elem_of_list_In, in_map_iff. exists row. rewrite Nat.add_0_r in Hj. rewrite Hj.
      split; [done|by apply elem_of_list_In].
    - apply (HI row j x l' u'); [done| |done]. by replace (S k + j) with (k + S j) by lia.
  Qed.
End sampled.

(** The domain rebuilt with other intervals. *)
Lemma rebuilt_wf d doms : wf_domain d -> map fst doms = names d TReal -> wf_domain (Dom (d_vars d) (d_types d) doms).
Proof.
  intros W E. destruct W as [W1 W2 W3 W4 W5 W6]. split; cbn [d_vars d_types d_doms]; try done.
  - rewrite E. by apply NoDup_filter.
  - intros v. rewrite E. unfold names. rewrite elem_of_list_filter. split; [by intros []|]. intros H. split; [done|].
    apply W3. apply elem_of_list_fmap. by exists (v, TReal).
Qed.

Lemma no_bools_names d : wf_domain d -> names d TBool = [] -> names d TReal = d_vars d.
Proof.
  intros W E. unfold names in *. destruct W as [_ _ W3 W4 _ _].
  assert (forall v, v ∈ d_vars d -> (v, TReal) ∈ d_types d) as H.
  { intros v Hv. pose proof Hv as Hv'. apply W3 in Hv. apply elem_of_list_fmap in Hv as ([v' t] & -> & Ht). cbn [fst] in *.
    destruct (W4 _ _ Ht) as [->| ->]; [|done]. exfalso.
    assert (v' ∈ filter (fun v => (v, TBool) ∈ d_types d) (d_vars d)) as Hf by (by apply elem_of_list_filter). rewrite E in Hf. by apply elem_of_nil in Hf. }
  clear -H. induction (d_vars d) as [|v l IH]; [done|]. rewrite filter_cons. destruct (decide _) as [_|Hn]; [|exfalso; apply Hn, H; by left]. apply (f_equal (cons v)). apply IH. intros w Hw. apply H. by right.
Qed.
