(** Proofs for C36 and C38. *)

From Verif Require Import Base Dict Smt Smt_Facts Walk_Model Walk_Proofs Math_Model Math_Spec Poly_Proofs Linear_Proofs Arith_Proofs
  Bounds_Proofs Engine_Spec Engine_Model Lit_Model Lit_Spec Lit_Proofs Lit_Tests Sdd_Model Sdd_Spec Sdd_Proofs Sdd_Props Piecewise_Props
  Piecewise_Model Piecewise_Spec Piecewise_Proofs Xsdd_Model Xsdd_Spec.

(** * The conditions of the pieces *)
Section conds.
  Context {E : Type} (A : alg E) (two : E) (simplify : fm -> fm) (strict : bool) (P : fm -> Prop).
  Hypothesis PT : P (BoolC true).
  Hypothesis PAnd : forall a b, P a -> P b -> P (mkAnd [a; b]).
  Hypothesis POr : forall a b, P a -> P b -> P (mkOr [a; b]).
  Hypothesis PNot : forall a, P a -> P (mkNot a).
  Hypothesis PS : forall a, P a -> P (simplify a).
  Notation ok := (Forall (fun kc : E * fm => P kc.2)).

  Lemma kget_cond p e c : ok p -> kget A p e = Some c -> P c.
  Proof.
    unfold kget. destruct (List.find _ p) as [kc|] eqn:F; [|done]. intros Hp [= <-].
    apply find_some in F as [Hin _]. apply elem_of_list_In in Hin. by eapply Forall_forall in Hp; [|exact Hin].
  Qed.
  Lemma kset_cond p e c : ok p -> P c -> ok (kset A p e c).
  Proof.
    intros Hp Hc. unfold kset. destruct (kget A p e).
    - apply Forall_forall. intros kc Hin. apply elem_of_list_In, in_map_iff in Hin as (kc' & <- & Hin).
      destruct (a_eq A kc'.1 e); [done|]. apply elem_of_list_In in Hin. by eapply Forall_forall in Hp; [|exact Hin].
    - apply Forall_app. split; [done|]. by constructor.
  Qed.
  Lemma kpop_cond p e : ok p -> ok (kpop A p e).
  Proof. apply Forall_lfilter. Qed.
  Lemma addpiece_cond p e c p' : ok p -> P c -> addpiece A two simplify strict p e c = Ok p' -> ok p'.
  Proof.
    intros Hp Hc. unfold addpiece. destruct (is_false c); [by intros [= <-]|].
    destruct (kget A p e) as [old|] eqn:G.
    - apply kget_cond in G; [|done]. destruct (strict && _); [done|].
      set (c1 := simplify (mkAnd [mkOr [old; c]; mkNot (mkAnd [old; c])])). set (c2 := simplify (mkAnd [old; c])).
      assert (P c1) by (apply PS, PAnd; [by apply POr|by apply PNot, PAnd]).
      assert (P c2) by (by apply PS, PAnd).
      assert (ok (if is_false c1 then kpop A p e else kset A p e c1)) as H1.
      { destruct (is_false c1); [by apply kpop_cond|by apply kset_cond]. }
      destruct (is_false c2); [intros [= <-]; by apply kpop_cond|]. destruct (kmem A _ _); [done|].
      intros [= <-]. by apply kset_cond.
    - intros [= <-]. apply kset_cond; [done|by apply PS].
  Qed.
  Lemma addall_cond l : forall p p', ok p -> ok l -> addall A two simplify strict p l = Ok p' -> ok p'.
  Proof.
    unfold addall. induction l as [|[e c] l IH]; intros p p' Hp Hl; cbn [fold_left rbind fst snd].
    - by intros [= <-].
    - apply Forall_cons in Hl as [Hc Hl]. destruct (addpiece A two simplify strict p e c) as [p1|x] eqn:E1.
      + intros H. apply (IH p1 p'); [|done|done]. by apply (addpiece_cond p e c).
      + by rewrite addall_err.
  Qed.
  Lemma pw_add_cond p q r : ok p -> ok q -> pw_add A two simplify strict p q = Ok r -> ok r.
  Proof.
    intros Hp Hq. unfold pw_add. destruct p as [|kp p]; [by intros [= <-]|]. destruct q as [|kq q]; [by intros [= <-]|].
    apply addall_cond; [constructor|]. apply Forall_lfilter. by apply Forall_app.
  Qed.
  Lemma pw_mul_cond p q r : ok p -> ok q -> pw_mul A two simplify strict p q = Ok r -> ok r.
  Proof.
    intros Hp Hq. unfold pw_mul. apply addall_cond; [constructor|].
    apply Forall_forall. intros kc Hin. apply elem_of_list_In, in_flat_map in Hin as (k1 & Hk1 & Hin).
    apply in_flat_map in Hin as (k2 & Hk2 & Hin). apply elem_of_list_In in Hk1, Hk2.
    eapply Forall_forall in Hp; [|exact Hk1]. eapply Forall_forall in Hq; [|exact Hk2]. unfold mul_piece in Hin.
    destruct (_ && _) in Hin; [|done]. destruct (negb _) in Hin; [|done]. destruct Hin as [<-|[]]. cbn [snd].
    by apply PS, PAnd.
  Qed.
  Lemma pw_neg_cond p r : ok p -> pw_neg A strict p = Ok r -> ok r.
  Proof.
    unfold pw_neg. intros Hp.
    assert (forall d, ok d -> fold_left (fun r (kc : E * fm) => let! d := r in
      let e := alg_negate A kc.1 in if strict && kmem A d e then Err RuntimeErr else Ok (kset A d e kc.2)) p (Ok d) = Ok r -> ok r) as HG.
    { induction Hp as [|[k c] p Hc Hp IH]; intros d Hd; cbn [fold_left rbind fst snd]; [by intros [= <-]|].
      destruct (strict && _).
      - assert (forall x, fold_left (fun r (kc : E * fm) => let! d := r in
          if strict && kmem A d (alg_negate A kc.1) then Err RuntimeErr else Ok (kset A d (alg_negate A kc.1) kc.2)) p (Err x) = Err x) as Herr.
        { intros x. clear. by induction p. }
        intros H. cbn zeta in H. rewrite Herr in H. done.
      - intros H. apply (IH _ (kset_cond d _ c Hd Hc) H). }
    apply HG. constructor.
  Qed.
  Lemma pw_condition_cond p c : ok p -> P c -> ok (pw_condition p c).
  Proof.
    intros Hp Hc. unfold pw_condition. apply Forall_forall. intros kc Hin.
    apply elem_of_list_In, in_map_iff in Hin as (kc' & <- & Hin). cbn [snd]. apply elem_of_list_In in Hin.
    eapply Forall_forall in Hp; [|exact Hin]. by apply PAnd.
  Qed.
  Lemma reduce_cond (op : list (E * fm) -> list (E * fm) -> Res (list (E * fm))) ps r :
    (forall p q r, ok p -> ok q -> op p q = Ok r -> ok r) -> Forall ok ps -> reduceM op ps = Ok r -> ok r.
  Proof.
    intros Hop HF. destruct ps as [|p ps]; [done|]. cbn [reduceM]. apply Forall_cons in HF as [Hp HF].
    revert p Hp. induction HF as [|q ps Hq _ IH]; intros p Hp; cbn [fold_left rbind]; [by intros [= <-]|].
    destruct (op p q) as [p1|x] eqn:E1.
    - apply IH. by apply (Hop p q).
    - assert (fold_left (fun r y => let! r := r in op r y) ps (Err x) = Err x) as -> by (clear; by induction ps). done.
  Qed.
  Lemma walk_cond n : forall f p, Forall P (conditions f) -> walk (pw_walker A two simplify strict) n f = Ok p -> ok p.
  Proof.
    induction n as [|n IH]; intros f p; [done|]. cbn [walk].
    assert (forall l ps, Forall P (concat (map conditions l)) -> rmapM (walk (pw_walker A two simplify strict) n) l = Ok ps -> Forall ok ps) as HL.
    { induction l as [|g l IHl]; intros ps HF; [intros [= <-]; constructor|]. rewrite rmapM_cons. cbn [map concat] in HF.
      apply Forall_app in HF as [HF1 HF2]. destruct (walk _ n g) as [pg|] eqn:Eg; cbn [rbind]; [|done].
      destruct (rmapM _ l) as [ps'|] eqn:El; cbn [rbind]; [|done]. intros [= <-]. constructor; [by apply (IH g)|by apply IHl]. }
    assert (forall e : E, ok [(e, BoolC true)]) as H1 by (intros e; constructor; [done|constructor]).
    destruct f as [x [] | b | q | z | l | l | g | g h | g h | c g h | l | g h | l | g h | g h | g h | g h | g | g];
      cbn [dispatch conditions]; try done.
    - intros _ [= <-]. apply H1.
    - intros _ [= <-]. apply H1.
    - intros _. apply IH. constructor.
    - cbn [w_ite pw_walker]. intros [Hc [Hg Hh]%Forall_app]%Forall_cons.
      destruct (walk _ n g) as [pg|] eqn:Eg; cbn [rbind]; [|done].
      destruct (walk _ n h) as [ph|] eqn:Eh; cbn [rbind]; [|done]. unfold pw_ite.
      apply pw_add_cond; apply pw_condition_cond; eauto.
    - cbn [w_plus pw_walker]. intros HF. destruct (rmapM _ l) as [ps|] eqn:El; cbn [rbind]; [|done].
      apply reduce_cond; [exact pw_add_cond|by apply (HL l)].
    - cbn [w_minus pw_walker]. intros [Hg Hh]%Forall_app.
      destruct (walk _ n g) as [pg|] eqn:Eg; cbn [rbind]; [|done].
      destruct (walk _ n h) as [ph|] eqn:Eh; cbn [rbind]; [|done].
      destruct (pw_neg A strict ph) as [ph'|] eqn:En; cbn [rbind]; [|done].
      apply pw_add_cond; [eauto|]. apply (pw_neg_cond ph); eauto.
    - cbn [w_times pw_walker]. intros HF. destruct (rmapM _ l) as [ps|] eqn:El; cbn [rbind]; [|done].
      apply reduce_cond; [exact pw_mul_cond|by apply (HL l)].
    - cbn [w_pow pw_walker]. unfold pw_pow. intros Hg. destruct (walk _ n g) as [pg|] eqn:Eg; cbn [rbind]; [|done].
      destruct (const_val h) as [x|]; [|done]. destruct (int_of_qc x) as [z|]; [|done].
      destruct (z =? 0)%Z; [intros [= <-]; apply H1|]. apply reduce_cond; [exact pw_mul_cond|].
      apply Forall_forall. intros p' Hin. apply elem_of_list_In, repeat_spec in Hin as ->. by apply (IH g).
  Qed.
End conds.

(** * Values of formulas and weights *)

Lemma logic_total f e : logic_formula f -> exists b, eval e f = Some (VB b).
Proof.
  assert (forall l, Forall (fun g => logic_formula g -> exists b, eval e g = Some (VB b)) l -> Forall logic_formula l ->
    exists bs, mapM (fun g => vbool (eval e g)) l = Some bs) as HL.
  { intros l H. induction H as [|g l Hg _ IH]; intros HF; [by exists []|]. apply Forall_cons in HF as [H1 H2].
    destruct (Hg H1) as [b Hb], (IH H2) as [bs Hbs]. exists (b :: bs). cbn [mapM]. rewrite Hb. cbn. by rewrite Hbs. }
  induction f using fm_ind'; intros Hl; inversion Hl; subst; cbn [eval]; try by eexists.
  - destruct (HL l) as [bs ->]; [done|done|]. by eexists.
  - destruct (HL l) as [bs ->]; [done|done|]. by eexists.
  - destruct IHf as [b ->]; [done|]. by eexists.
  - destruct IHf1 as [b ->]; [done|]. destruct IHf2 as [c ->]; [done|]. by eexists.
  - destruct IHf1 as [b ->]; [done|]. destruct IHf2 as [c ->]; [done|]. by eexists.
  - destruct IHf1 as [b ->]; [done|]. destruct IHf2 as [c ->]; [done|]. destruct IHf3 as [d ->]; [done|].
    cbn. destruct b; by eexists.
  - destruct (linear_value f1 e) as [x ->]; [done|]. destruct (linear_value f2 e) as [y ->]; [done|]. by eexists.
  - destruct (linear_value f1 e) as [x ->]; [done|]. destruct (linear_value f2 e) as [y ->]; [done|]. by eexists.
Qed.

Lemma weight_total f e : weight_expr f -> Forall logic_formula (conditions f) -> exists v, eval e f = Some (VN v).
Proof.
  assert (forall l, Forall (fun g => weight_expr g -> Forall logic_formula (conditions g) -> exists v, eval e g = Some (VN v)) l ->
    Forall weight_expr l -> Forall logic_formula (concat (map conditions l)) ->
    exists vs, mapM (fun g => vnum (eval e g)) l = Some vs) as HL.
  { intros l H. induction H as [|g l Hg _ IH]; intros HF HC; [by exists []|]. apply Forall_cons in HF as [H1 H2].
    cbn [map concat] in HC. apply Forall_app in HC as [C1 C2].
    destruct (Hg H1 C1) as [b Hb], (IH H2 C2) as [bs Hbs]. exists (b :: bs). cbn [mapM]. rewrite Hb. cbn. by rewrite Hbs. }
  induction f using fm_ind'; intros Hl HC; inversion Hl; subst; cbn [eval conditions] in *; try by eexists.
  - apply Forall_cons in HC as [Hc [HC1 HC2]%Forall_app]. destruct (logic_total f1 e Hc) as [b ->].
    destruct IHf2 as [x ->]; [done|done|]. destruct IHf3 as [y ->]; [done|done|]. cbn. destruct b; by eexists.
  - destruct (HL l) as [bs ->]; [done|done|done|]. by eexists.
  - apply Forall_app in HC as [H1' H2']. destruct IHf1 as [x ->]; [done|done|]. destruct IHf2 as [y ->]; [done|done|]. by eexists.
  - destruct (HL l) as [bs ->]; [done|done|done|]. by eexists.
  - destruct IHf1 as [x ->]; [done|done|]. cbn [vnum mbind option_bind eval]. rewrite nat_of_qn. by eexists.
Qed.

(** * C38 *)

(** What a scan of a formula returns. *)
Definition bound_of (f g : fm) : Prop :=
  exists a b, compares g a b /\ linear_expr a /\ linear_expr b /\ forall e, off_tests e f -> off e a b.

Lemma off_tests_list e l : fold_right (fun g P => off_tests e g /\ P) True l <-> Forall (off_tests e) l.
Proof. induction l as [|g l IH]; cbn; [split; [constructor|done]|]. by rewrite IH, Forall_cons. Qed.
Lemma off_tests_mkNot e f : off_tests e f -> off_tests e (mkNot f).
Proof. by destruct f. Qed.
Lemma logic_mkNot f : logic_formula f -> logic_formula (mkNot f).
Proof. intros H. destruct H; cbn [mkNot]; try done; try (constructor; by constructor). Qed.

Lemma elem_set_map g l x : x ∈ set_map g l <-> exists y, y ∈ l /\ x = g y.
Proof.
  unfold set_map.
  assert (forall r, x ∈ fold_left (fun r y => set_union r [g y]) l r <-> x ∈ r \/ exists y, y ∈ l /\ x = g y) as H.
  { induction l as [|y l IH]; intros r; cbn [fold_left].
    - split; [by left|]. intros [?|(y & Hy & _)]; [done|]. by apply elem_of_nil in Hy.
    - rewrite IH, elem_set_union, elem_of_list_singleton. split.
      + intros [[?|?]|(z & ? & ?)]; [by left|right; exists y; split; [by left|done]|]. right. exists z. split; [by right|done].
      + intros [?|(z & Hz & ->)]; [by left; left|]. apply elem_of_cons in Hz as [->|Hz]; [by left; right|]. right. eauto. }
  rewrite H. split; [|by right]. intros [Hx|?]; [by apply elem_of_nil in Hx|done].
Qed.

Lemma scan_logic n : forall f l, logic_formula f -> walk (bounds_walker true) n f = Ok l -> forall g, g ∈ l -> bound_of f g.
Proof.
  induction n as [|n IH]; intros f l Hf; [done|]. cbn [walk].
  assert (forall fs l g, Forall logic_formula fs -> collect (walk (bounds_walker true) n) fs = Ok l -> g ∈ l ->
    exists h, h ∈ fs /\ bound_of h g) as HC.
  { intros fs l' g HF. unfold collect. destruct (rmapM _ fs) as [ls|] eqn:E; cbn [rbind]; [|done].
    destruct ls as [|l0 ls]; [done|]. intros [= <-] Hg. apply elem_fold_union in Hg.
    assert (exists k, k ∈ l0 :: ls /\ g ∈ k) as (k & Hk & Hg').
    { destruct Hg as [Hg|(k & Hk & Hg)]; [exists l0; split; [by left|done]|exists k; split; [by right|done]]. }
    apply rmapM_Forall2 in E. apply elem_of_list_lookup in Hk as [j Hj].
    destruct (Forall2_lookup_r _ _ _ _ _ E Hj) as (h & Hh & Eh). apply elem_of_list_lookup_2 in Hh. exists h. split; [done|].
    eapply Forall_forall in HF; [|exact Hh]. by apply (IH h k). }
  assert (forall f h g, (forall e, off_tests e f -> off_tests e h) -> bound_of h g -> bound_of f g) as HM.
  { intros f' h g Hoff (a & b & H1 & H2 & H3 & H4). exists a, b. split; [done|]. split; [done|]. split; [done|]. auto. }
  assert (forall a b, logic_formula a -> logic_formula b -> logic_formula (imp_expand a b)) as LI.
  { intros a b Ha Hb. apply lf_or. constructor; [by apply logic_mkNot|]. by constructor. }
  destruct Hf as [b|x|fs Hfs|fs Hfs|f Hf|f h Hf Hh|f h Hf Hh|c f h Hc Hf Hh|a b Ha Hb|a b Ha Hb];
    cbn [dispatch bounds_walker w_and w_or w_not w_ite w_lte w_lt w_symbol w_const negb andb].
  - intros [= <-] g Hg. by apply elem_of_nil in Hg.
  - intros [= <-] g Hg. by apply elem_of_nil in Hg.
  - intros H g Hg. destruct (HC fs l g Hfs H Hg) as (h & Hh & Hb). apply (HM _ h); [|done]. intros e.
    cbn [off_tests]. rewrite off_tests_list, Forall_forall. auto.
  - intros H g Hg. destruct (HC fs l g Hfs H Hg) as (h & Hh & Hb). apply (HM _ h); [|done]. intros e.
    cbn [off_tests]. rewrite off_tests_list, Forall_forall. auto.
  - destruct (walk _ n f) as [s|] eqn:E; cbn [rbind]; [|done]. intros [= <-] g (h & Hh & ->)%elem_set_map.
    destruct (IH f s Hf E h Hh) as (a & b & H1 & H2). exists a, b. split; [by apply Bounds_Proofs.compares_mkNot|done].
  - intros H g Hg. apply (HM _ (imp_expand f h)).
    + intros e [H1 H2]. cbn [imp_expand mkOr off_tests fold_right]. split; [by apply off_tests_mkNot|done].
    + apply (IH _ l); [by apply LI|done|done].
  - intros H g Hg. destruct (HC [ImpN f h; ImpN h f] l g) as (h' & Hh' & Hb); [|done|done|].
    + constructor; [by constructor|]. constructor; [by constructor|constructor].
    + apply (HM _ h'); [|done]. intros e [H1 H2]. apply elem_of_cons in Hh' as [->|Hh']; [done|].
      apply elem_of_list_singleton in Hh' as ->. done.
  - done.
  - intros [= <-] g ->%elem_of_list_singleton. exists a, b. split; [constructor|]. done.
  - intros [= <-] g ->%elem_of_list_singleton. exists a, b. split; [constructor|]. done.
Qed.

Lemma scan_weight n w l : weight_expr w -> walk (bounds_walker true) n w = Ok l -> l = [].
Proof.
  destruct n as [|n]; [done|]. intros Hw. destruct Hw; cbn; try done; by intros [= <-].
Qed.

Lemma bound_value f g e : bound_of f g -> exists b, eval e g = Some (VB b).
Proof. intros (a & b & H1 & H2 & H3 & _). by apply (compares_value g a b). Qed.
Lemma bound_not f g : bound_of f g -> bound_of f (mkNot g).
Proof. intros (a & b & H1 & H2). exists a, b. split; [by apply Bounds_Proofs.compares_mkNot|done]. Qed.
Lemma compares_logic g a b : compares g a b -> linear_expr a -> linear_expr b -> logic_formula g /\ forall e, off e a b -> off_tests e g.
Proof.
  induction 1 as [a b|a b|g a b H IH]; intros Ha Hb.
  - split; [by constructor|done].
  - split; [by constructor|done].
  - destruct IH as [H1 H2]; [done|done|]. split; [by constructor|done].
Qed.
Lemma compares_bools g a b x : compares g a b -> linear_expr a -> linear_expr b -> (x, TBool) ∉ syms g.
Proof.
  induction 1 as [a b|a b|g a b H IH]; intros Ha Hb; cbn [syms].
  - intros [H|H]%elem_of_app; [by apply linear_syms in H|by apply linear_syms in H].
  - intros [H|H]%elem_of_app; [by apply linear_syms in H|by apply linear_syms in H].
  - auto.
Qed.

(** The implications that may be added. *)
Definition added (unsat : fm -> bool) (f c : fm) : Prop :=
  exists p q, bound_of f p /\ bound_of f q /\ implies unsat p q = true /\ c = ImpN p q.

Lemma pair_added unsat f p q c : bound_of f p -> bound_of f q -> c ∈ pair_conflicts unsat p q -> added unsat f c.
Proof.
  intros Hp Hq. unfold pair_conflicts. destruct (same_vars p q); [|by intros ?%elem_of_nil].
  assert (forall a b, bound_of f a -> bound_of f b -> c ∈ (if implies unsat a b then [ImpN a b] else []) -> added unsat f c) as H1.
  { intros a b Ha Hb. destruct (implies unsat a b) eqn:E; [|by intros ?%elem_of_nil]. intros ->%elem_of_list_singleton.
    by exists a, b. }
  rewrite !elem_of_app. intros [H|[H|[H|H]]].
  - by apply (H1 p q).
  - apply (H1 (mkNot p) q); [by apply bound_not|done|done].
  - by apply (H1 q p).
  - apply (H1 (mkNot q) p); [by apply bound_not|done|done].
Qed.
Lemma all_added unsat f l c : (forall g, g ∈ l -> bound_of f g) -> c ∈ all_conflicts unsat l -> added unsat f c.
Proof.
  induction l as [|p l IH]; intros HF; [by intros ?%elem_of_nil|]. cbn [all_conflicts]. intros [H|H]%elem_of_app.
  - apply elem_of_list_In, in_flat_map in H as (q & Hq & H). apply elem_of_list_In in Hq, H.
    apply (pair_added unsat f p q); [apply HF; by left|apply HF; by right|done].
  - apply IH; [|done]. intros g Hg. apply HF. by right.
Qed.
Lemma collect_added unsat s w cs c : logic_formula s -> weight_expr w -> collect_conflicts unsat s w = Ok cs ->
  c ∈ cs -> added unsat s c.
Proof.
  intros Hs Hw. unfold collect_conflicts, bounds_of. destruct (walk _ _ s) as [ls|] eqn:Es; cbn [rbind]; [|done].
  destruct (walk _ _ w) as [lw|] eqn:Ew; cbn [rbind]; [|done]. intros [= <-]. apply all_added.
  intros g Hg. apply elem_set_union in Hg as [Hg|Hg]; [by apply (scan_logic _ s ls Hs Es)|].
  apply scan_weight in Ew as ->; [|done]. by apply elem_of_nil in Hg.
Qed.
Lemma added_valid unsat s c e : sound_solver unsat -> added unsat s c -> eval e c = Some (VB true).
Proof.
  intros HU (p & q & Hp & Hq & Hi & ->). unfold implies in Hi. pose proof (HU _ Hi e) as Hn.
  destruct (bound_value s p e Hp) as [a Ha], (bound_value s q e Hq) as [b Hb].
  cbn [eval] in *. cbn [mapM] in Hn. rewrite Ha in Hn |- *. rewrite (Lit_Proofs.eval_mkNot_eq e q b Hb) in Hn. cbn [eval] in Hn. rewrite Hb in Hn |- *.
  cbn in *. by destruct a, b.
Qed.

Lemma eval_all_true e l : Forall (fun c => eval e c = Some (VB true)) l -> eval e (mkAnd l) = Some (VB true).
Proof.
  intros H. destruct l as [|c [|d l]]; [done|by inversion H|]. cbn [mkAnd eval].
  assert (mapM (fun g => vbool (eval e g)) (c :: d :: l) = Some (map (fun _ => true) (c :: d :: l))) as ->.
  { induction H as [|g k Hg _ IH]; [done|]. cbn [mapM map]. rewrite Hg. cbn. by rewrite IH. }
  cbn. do 2 f_equal. clear. by induction l.
Qed.

Lemma base_same unsat find s w base : sound_solver unsat -> logic_formula s -> weight_expr w ->
  base_support unsat find s w = Ok base ->
  logic_formula base /\ (forall e, eval e base = eval e s) /\ (forall e, off_tests e s -> off_tests e base) /\
  forall x, (x, TBool) ∈ syms base -> (x, TBool) ∈ syms s.
Proof.
  intros HU Hs Hw. unfold base_support. destruct find; [|by intros [= <-]].
  destruct (collect_conflicts unsat s w) as [cs|] eqn:E; cbn [rbind]; [|done]. intros [= <-].
  assert (forall c, c ∈ cs -> added unsat s c) as HA by (intros c; by apply (collect_added unsat s w)).
  assert (forall c, added unsat s c -> logic_formula c /\ (forall e, off_tests e s -> off_tests e c) /\ forall x, (x, TBool) ∉ syms c) as HL.
  { intros c (p & q & (a & b & P1 & P2 & P3 & P4) & (a' & b' & Q1 & Q2 & Q3 & Q4) & _ & ->).
    destruct (compares_logic p a b P1 P2 P3) as [L1 O1], (compares_logic q a' b' Q1 Q2 Q3) as [L2 O2].
    split; [by constructor|]. split; [intros e He; cbn; auto|]. intros x. cbn [syms]. intros [H|H]%elem_of_app.
    - by apply (compares_bools p a b) in H.
    - by apply (compares_bools q a' b') in H. }
  assert (logic_formula (mkAnd cs) /\ (forall e, off_tests e s -> off_tests e (mkAnd cs)) /\ forall x, (x, TBool) ∉ syms (mkAnd cs)) as (M1 & M2 & M3).
  { assert (Forall logic_formula cs /\ (forall e, off_tests e s -> Forall (off_tests e) cs) /\ forall x c, c ∈ cs -> (x, TBool) ∉ syms c) as (F1 & F2 & F3).
    { split; [|split].
      - apply Forall_forall. intros c Hc. by apply HL, HA.
      - intros e He. apply Forall_forall. intros c Hc. by apply (HL c (HA c Hc)).
      - intros x c Hc. by apply (HL c (HA c Hc)). }
    destruct cs as [|c [|d l]]; cbn [mkAnd].
    - split; [constructor|]. split; [done|]. intros x H. by apply elem_of_nil in H.
    - split; [by inversion F1|]. split; [intros e He; specialize (F2 e He); by inversion F2|]. intros x. apply F3. by left.
    - split; [by constructor|]. split; [intros e He; apply off_tests_list; by apply F2|]. intros x H. cbn [syms] in H.
      apply elem_of_list_In, in_concat in H as (k & Hk & Hx). apply in_map_iff in Hk as (g & <- & Hg).
      apply elem_of_list_In in Hg, Hx. by apply (F3 x g). }
  split; [|split; [|split]].
  - apply lf_and. constructor; [done|]. by constructor.
  - intros e. destruct (logic_total s e Hs) as [b Hb]. cbn [eval mapM].
    rewrite eval_all_true; [|apply Forall_forall; intros c Hc; by apply (added_valid unsat s), HA]. cbn. rewrite Hb. cbn. by destruct b.
  - intros e He. cbn. split; [by apply M2|done].
  - intros x. cbn [syms map concat]. rewrite app_nil_r. intros [H|H]%elem_of_app; [|done]. by apply M3 in H.
Qed.

(** Conflict search succeeds exactly on the scannable formulas. *)
Lemma scan_only n : forall f l, walk (bounds_walker true) n f = Ok l -> scannable f.
Proof.
  induction n as [|n IH]; intros f l Hw; [done|]. cbn [walk] in Hw.
  assert (forall fs l, collect (walk (bounds_walker true) n) fs = Ok l -> fs <> [] /\ Forall scannable fs) as HC.
  { intros fs l'. unfold collect. destruct (rmapM _ fs) as [ls|] eqn:E; cbn [rbind]; [|done]. intros H. split.
    - intros ->. injection E as <-. done.
    - apply rmapM_Forall2 in E. clear H. induction E; constructor; [by eapply IH|done]. }
  destruct f as [x t|b|q|z|fs|fs|a|a b|a b|c a b|fs|a b|fs|a b|a b|a b|a b|a|a];
    cbn [dispatch bounds_walker w_and w_or w_plus w_minus w_times w_not w_ite w_pow w_lte w_lt
         w_equals w_symbol w_const w_cannot] in Hw; try done; try by constructor.
  - destruct (HC fs l Hw). by constructor.
  - destruct (HC fs l Hw). by constructor.
  - destruct (walk _ n a) as [s|] eqn:E; [|done]. constructor. by eapply IH.
  - apply IH in Hw. inversion Hw as [| | | | |? _ HF| | | | | | | |]; subst. apply Forall_cons in HF as [H1 H2]. apply Forall_cons in H2 as [H2 _].
    constructor; [|done]. destruct a; try (by inversion H1). by constructor.
  - destruct (HC _ l Hw) as [_ HF]. apply Forall_cons in HF as [H1 _]. inversion H1; subst. by constructor.
Qed.
Lemma scannable_mkNot f : scannable f -> scannable (mkNot f).
Proof. intros H. destruct H; cbn [mkNot]; try done; try (constructor; by constructor). Qed.
Lemma msize_mkNot' f : msize (mkNot f) <= S (msize f).
Proof. destruct f; cbn [mkNot msize]; lia. Qed.
Lemma scan_succeeds n : forall f, scannable f -> msize f <= n -> exists l, walk (bounds_walker true) n f = Ok l.
Proof.
  induction n as [|n IH]; intros f Hf Hn; [pose proof (msize_pos f); lia|].
  assert (forall fs, fs <> [] -> Forall scannable fs -> (forall g, g ∈ fs -> msize g <= n) -> exists l, collect (walk (bounds_walker true) n) fs = Ok l) as HC.
  { intros fs Hne HF Hs. unfold collect. destruct (rmapM_ok (walk (bounds_walker true) n) fs) as [ls Hls].
    { rewrite Forall_forall in *. intros g Hg. apply IH; auto. }
    rewrite Hls. cbn [rbind]. apply rmapM_ok_length in Hls. destruct fs, ls; try done. by eexists. }
  destruct Hf as [x t|b|q|z|l Hne Hl|l Hne Hl|f Hf|f g Hf Hg|f g Hf Hg|a b|a b|l|a b|l]; try by eexists.
  - apply HC; [done|done|]. intros g Hg. pose proof (msize_in g l Hg). cbn [msize] in Hn. lia.
  - apply HC; [done|done|]. intros g Hg. pose proof (msize_in g l Hg). cbn [msize] in Hn. lia.
  - cbn [walk dispatch bounds_walker w_not]. cbn [msize] in Hn. destruct (IH f Hf) as [s ->]; [lia|]. by eexists.
  - cbn [walk dispatch]. cbn [msize] in Hn. apply IH; [|pose proof (msize_mkNot' f); cbn; lia].
    constructor; [done|]. constructor; [by apply scannable_mkNot|]. by constructor.
  - apply HC; [done| |].
    + constructor; [by constructor|]. constructor; [by constructor|constructor].
    + cbn [msize] in Hn. intros h Hh. apply elem_of_cons in Hh as [->|Hh]; [cbn; lia|].
      apply elem_of_list_singleton in Hh as ->. cbn. lia.
Qed.

(** * C36 *)

Lemma eval_and2_true e a b x y : eval e a = Some (VB x) -> eval e b = Some (VB y) -> eval e (AndN [a; b]) = Some (VB (x && y)).
Proof. intros H1 H2. by apply (eval_and2 e a b x y). Qed.

Lemma qsum_swap {X Y} (h : X -> Y -> Qc) xs ys :
  qsum (map (fun x => qsum (map (h x) ys)) xs) = qsum (map (fun y => qsum (map (fun x => h x y) xs)) ys).
Proof.
  induction xs as [|x xs IH]; cbn [map].
  - induction ys as [|y ys IH]; [done|]. cbn [map]. rewrite qsum_cons, <- IH. change (qsum []) with 0%Qc. ring.
  - rewrite qsum_cons, IH. clear IH. induction ys as [|y ys IH]; cbn [map]; rewrite ?qsum_cons; [change (qsum []) with 0%Qc; ring|].
    rewrite <- IH. ring.
Qed.

Section volume.
  Context (gen : (string -> Qc) -> Prop) (I : ((string -> Qc) -> Qc) -> Qc -> Prop).
  Hypothesis HI : integral_on gen I.

  Lemma integral_sum {X} (f : X -> (string -> Qc) -> Qc) (a : X -> Qc) l : (forall x, x ∈ l -> I (f x) (a x)) ->
    I (fun r => qsum (map (fun x => f x r) l)) (qsum (map a l)).
  Proof.
    induction l as [|x l IH]; intros H; [exact (io_zero _ _ HI)|]. cbn [map]. rewrite qsum_cons.
    apply (io_null _ _ HI (fun r => f x r + qsum (map (fun x => f x r) l))%Qc); [intros r _; by rewrite qsum_cons|].
    apply (io_add _ _ HI); [apply H; by left|]. apply IH. intros y Hy. apply H. by right.
  Qed.

  Context {E : Type} (A : alg E) (den : E -> env -> option Qc).
  Hypothesis HA : sound_arith (a_real A) (a_symbol A) (a_eq A) (a_mul A) (a_add A) den.
  Context (mgr : linfo -> manager) (own : linfo -> sdd -> Prop) (bools : list string).
  Hypothesis HM : sound_managers mgr own.
  Hypothesis HN : NoDup bools.

  (** One world and one piece. *)
  Definition part (f : fm) (p : pdict) (b : string -> bool) (r : string -> Qc) : Qc :=
    if bool_decide (eval (Env b r) f = Some (VB true)) then poly_val (Env b r) p else 0%Qc.

  Lemma sum_part f p r : qsum (map (fun b => part f p b r) (worlds bools)) =
    (qsum (map (fun b => if bool_decide (eval (Env b r) f = Some (VB true)) then 1%Qc else 0%Qc) (worlds bools)) *
     poly_val (Env (fun _ => false) r) p)%Qc.
  Proof.
    induction (worlds bools) as [|b l IH]; cbn [map]; [change (qsum []) with 0%Qc; ring|].
    rewrite !qsum_cons, IH. unfold part. change (poly_val (Env b r) p) with (poly_val (Env (fun _ => false) r) p).
    destruct (bool_decide _); ring.
  Qed.

  Section nonconvex.
    Hypothesis HInd : sound_indicator (a_le A) (a_lt A) den.
    Context (integrate : E -> Res E).
    Hypothesis HInt : sound_integrator den gen I integrate.
    Hypothesis HAl : aligned_compilation mgr bools.

    Lemma piece_value_ok base c p a : let f := AndN [c; base] in logic_formula f ->
      (forall x, (x, TBool) ∈ syms f -> x ∈ bools) ->
      (forall r b, gen r -> off_tests (Env b r) f) ->
      I (fun r => qsum (map (fun b => part f p b r) (worlds bools))) a ->
      exists y, piece_volume A mgr integrate bools base (KPoly p, c) = Ok y /\ forall e, den y e = Some a.
    Proof.
      intros f Hl HB Hoff Ha. destruct (extract_sem f Hl) as (g & i & Ex & _).
      destruct (compile_extract f g i (mgr i) (own i) Hl Ex (HM i)) as (node & Ec & Ho & Hsat).
      destruct (sm_own _ _ _ (HM i) node Ho) as [Hs Hv]. pose proof (extract_table f g i Hl Ex) as T.
      pose proof (HAl f g i node Hl HB Ex Ec) as Hal.
      destruct (nonconvex_counts A den HA HInd f i T bools HB node Hs Hv Hal) as (r & Er & R1 & R2 & R3).
      unfold piece_volume. cbn [fst snd]. fold f. rewrite Ex. cbn [rbind]. rewrite Ec. cbn [rbind]. rewrite Er. cbn [rbind].
      destruct r as [x vars]. cbn [fst snd] in *. cbn [key_to_expression rbind].
      assert (length vars <= length bools) as Hle.
      { apply submseteq_length, NoDup_submseteq; [done|]. intros y Hy. apply (names_bools f i T bools HB node); [done|]. by apply R2. }
      set (k := length bools - length vars).
      replace (Z.of_nat (length bools) - Z.of_nat (length vars))%Z with (Z.of_nat k) by lia. fold (qn k).
      set (h := fun r' : string -> Qc => (qpow (qz 2) (length vars) *
        mean (fun _ => half) bools (F i (Env (fun _ => false) r') node) * poly_val (Env (fun _ => false) r') p)%Qc).
      assert (qpow (qz 2) k <> 0)%Qc as Hk0.
      { clear. induction k as [|k IH]; cbn [qpow]; [done|]. intros H. apply Qcmult_integral in H as [H|H]; [done|by apply IH]. }
      destruct (HInt (alg_times A x (to_expression A p)) h (/ qpow (qz 2) k * a)%Qc) as (y & Ey & Dy).
      { intros e He. unfold h. change (poly_val (Env (fun _ => false) (er e)) p) with (poly_val e p).
        apply (alg_times_value A den HA e _ _ _ _); [|apply (to_expression_value A den HA)].
        change (mean (fun _ => half) bools (F i (Env (fun _ => false) (er e)) node)) with (mean (fun _ => half) bools (F i e node)).
        apply R3. destruct e as [eb' er']. by apply (Hoff er' eb'). }
      { eapply (io_null _ _ HI); [|apply (io_scale _ _ HI), Ha]. intros r' Hr'. unfold h. cbn beta. rewrite sum_part.
        assert (qsum (map (fun b => if bool_decide (eval (Env b r') f = Some (VB true)) then 1%Qc else 0%Qc) (worlds bools)) =
          world_count i bools (Env (fun _ => false) r') node) as ->.
        { unfold world_count. f_equal. apply map_ext. intros b. cbn [er]. rewrite (Hsat (Env b r')) by by apply Hoff. by rewrite bd_true. }
        rewrite world_count_mu. replace (length bools) with (k + length vars) by lia. rewrite qpow_add. field. done. }
      rewrite Ey. cbn [rbind].
      assert (forall e, exists z, alg_power A (a_real A (qz 2)) (qn k) = Ok z /\ den z e = Some (qpow (qz 2) k)) as HP.
      { intros e. apply (alg_power_value A den HA). apply (sa_real _ _ _ _ _ _ HA). }
      destruct (HP (Env (fun _ => false) (fun _ => 0%Qc))) as (z & Ez & _). rewrite Ez. cbn [rbind]. eexists. split; [done|].
      intros e. destruct (HP e) as (z' & Ez' & Dz). assert (z' = z) as -> by congruence.
      rewrite (alg_times_value A den HA e _ _ _ _ (Dy e) Dz). f_equal. field. done.
    Qed.

    Lemma pieces_ok base (ps : list (pkey * fm)) (vs : list Qc) :
      Forall2 (fun kc v => exists y, piece_volume A mgr integrate bools base kc = Ok y /\ forall e, den y e = Some v) ps vs ->
      exists y, volume_from_pieces A mgr integrate bools base ps = Ok y /\ forall e, den y e = Some (qsum vs).
    Proof.
      intros HF. unfold volume_from_pieces.
      assert (forall v0 x0, (forall e, den x0 e = Some v0) ->
        exists y, fold_left (fun r kc => let! volume := r in let! vol := piece_volume A mgr integrate bools base kc in
          Ok (alg_plus A volume vol)) ps (Ok x0) = Ok y /\ forall e, den y e = Some (v0 + qsum vs)%Qc) as HG.
      { induction HF as [|kc v ps vs (y & Ey & Dy) _ IH]; intros v0 x0 H0; cbn [fold_left].
        - exists x0. split; [done|]. intros e. rewrite H0. f_equal. change (qsum []) with 0%Qc. ring.
        - cbn [rbind]. rewrite Ey. cbn [rbind].
          destruct (IH (v0 + v)%Qc (alg_plus A x0 y)) as (z & Ez & Dz).
          + intros e. by apply (alg_plus_value A den HA).
          + exists z. split; [done|]. intros e. rewrite Dz, qsum_cons. f_equal. ring. }
      destruct (HG 0%Qc (alg_zero A)) as (y & Ey & Dy); [intros e; apply (sa_real _ _ _ _ _ _ HA)|]. exists y. split; [done|].
      intros e. rewrite Dy. f_equal. ring.
    Qed.
  End nonconvex.

  (** ** Convex backend *)

  Lemma poly_to_smt_expr p g : poly_to_smt p = Ok g -> poly_expr1 g.
  Proof.
    unfold poly_to_smt. destruct (rmapM poly_term p) as [ts|] eqn:Et; cbn [rbind]; [|done]. intros Hg.
    assert (Forall poly_expr1 ts) as HF.
    { apply rmapM_Forall2 in Et. clear Hg. induction Et as [|[k v] t d ts Ht _ IH]; [constructor|]. constructor; [|done].
      unfold poly_term in Ht. cbn [fst snd] in Ht. destruct (poly_key k) as [u|] eqn:Ek; cbn [rbind] in Ht; [|done].
      assert (poly_expr1 u) as Hu.
      { unfold poly_key in Ek. destruct k as [|x k]; [injection Ek as <-; constructor|].
        destruct k as [|y k]; cbn in Ek; injection Ek as <-; [constructor|]. constructor; [done|].
        constructor; [constructor|]. constructor; [constructor|]. clear. induction k; cbn; constructor; [constructor|done]. }
      destruct (qeq v 1); [by injection Ht as <-|]. injection Ht as <-. constructor; [done|].
      constructor; [done|]. constructor; [constructor|constructor]. }
    destruct ts as [|t [|t' ts]]; cbn in Hg; [done|injection Hg as <-; by inversion HF|]. injection Hg as <-. by constructor.
  Qed.

  Lemma conj_bounds f tests g n : (forall c, c ∈ tests -> test_of f c) -> conj_of_tests tests g -> msize g <= n ->
    exists gs, walk (bounds_walker false) n g = Ok gs /\ (forall h, h ∈ gs -> test_of f h) /\
      forall e, off_tests e f -> eval e g = Some (VB (forallb (fun h => bool_decide (eval e h = Some (VB true))) gs)).
  Proof.
    intros HT Hg. revert n. assert (forall c n, test_of f c -> msize c <= n -> exists gs, walk (bounds_walker false) n c = Ok gs /\ (forall h, h ∈ gs -> test_of f h) /\
      forall e, off_tests e f -> eval e c = Some (VB (forallb (fun h => bool_decide (eval e h = Some (VB true))) gs))) as H1.
    { intros c n (a & b & Hc & Ha & Hb & Ho) Hn. destruct (bounds_compares n c a b Hc Hn) as (h & Eh & Hh & Ev). exists [h].
      split; [done|]. split.
      - intros h' ->%elem_of_list_singleton. exists a, b. done.
      - intros e He. cbn [forallb]. rewrite (Ev e (Ho e He)).
        destruct (eval_compares_some e c a b Hc (Ho e He)) as [v ->]. rewrite bd_true. by rewrite andb_true_r. }
    induction Hg as [|c Hc|c Hc|a b Ha IHa Hb IHb]; intros n Hn.
    - destruct n as [|n]; [cbn in Hn; lia|]. exists []. split; [done|]. split; [by intros ? ?%elem_of_nil|done].
    - apply H1; auto.
    - apply H1; [|done]. destruct (HT c Hc) as (a & b & H2 & H3). exists a, b. split; [by apply Bounds_Proofs.compares_mkNot|done].
    - destruct n as [|n]; [cbn in Hn; lia|]. cbn [msize map] in Hn. unfold list_sum in Hn. cbn [fold_right] in Hn.
      destruct (IHa n) as (ga & Ea & Ta & Va); [lia|]. destruct (IHb n) as (gb & Eb & Tb & Vb); [lia|].
      cbn [walk dispatch bounds_walker w_and]. unfold collect. cbn [rmapM]. rewrite Ea. cbn [rbind]. rewrite Eb. cbn [rbind fold_left].
      eexists. split; [done|]. split.
      + intros h Hh. apply elem_set_union in Hh as [?|?]; auto.
      + intros e He. rewrite (eval_and2_true e a b _ _ (Va e He) (Vb e He)). do 2 f_equal.
        apply eq_iff_eq_true. rewrite andb_true_iff, !forallb_forall. split.
        * intros [X Y] h Hh. apply elem_of_list_In, elem_set_union in Hh as [Hh|Hh]; [apply X|apply Y]; by apply elem_of_list_In.
        * intros X. split; intros h Hh; apply X, elem_of_list_In, elem_set_union; [left|right]; by apply elem_of_list_In.
  Qed.

  Lemma region_inequalities f tests g : (forall c, c ∈ tests -> test_of f c) -> conj_of_tests tests g ->
    exists ds, get_inequalities g = Ok ds /\
      forall e, off_tests e f -> eval e g = Some (VB (forallb (fun d => qle (poly_val e d) 0) ds)).
  Proof.
    intros HT Hg. destruct (conj_bounds f tests g (msize g) HT Hg (le_n _)) as (gs & Eg & Tg & Vg).
    unfold get_inequalities, bounds_of. rewrite Eg. cbn [rbind].
    assert (exists ds, rmapM li_from_smt gs = Ok ds /\ forall e, off_tests e f ->
      forallb (fun h => bool_decide (eval e h = Some (VB true))) gs = forallb (fun d => qle (poly_val e d) 0) ds) as (ds & Ed & Vd).
    { clear Eg Vg. induction gs as [|h gs IH]; [by exists []|]. destruct IH as (ds & Ed & Vd); [intros h' ?; apply Tg; by right|].
      destruct (Tg h) as (a & b & H1 & H2 & H3 & H4); [by left|]. destruct (li_value h a b H1 H2 H3) as (d & Eh & _ & Vh).
      exists (d :: ds). rewrite rmapM_cons, Eh. cbn [rbind]. rewrite Ed. split; [done|]. intros e He. cbn [forallb].
      rewrite (Vh e (H4 e He)), bd_true. f_equal. by apply Vd. }
    exists ds. split; [done|]. intros e He. by rewrite (Vg e He), (Vd e He).
  Qed.

  Section convex.
    Context (s : fm) (backend : list pdict -> pdict -> Res Qc).
    Hypothesis HBack : sound_backend gen I s backend.

    Lemma qsum_pos (l : list Qc) x : Forall (fun q => 0 <= q)%Qc l -> x ∈ l -> (0 < x)%Qc -> (0 < qsum l)%Qc.
    Proof.
      intros HF Hx Hp. induction HF as [|y l Hy HF IH]; [by apply elem_of_nil in Hx|]. rewrite qsum_cons.
      assert (0 <= qsum l)%Qc as H0.
      { clear -HF. induction HF as [|z l Hz _ IH]; [apply Qcle_refl|]. rewrite qsum_cons. qclra. }
      apply elem_of_cons in Hx as [->|Hx]; [qclra|]. specialize (IH Hx). qclra.
    Qed.
    Lemma qpow2_pos k : (0 < qpow (qz 2) k)%Qc.
    Proof.
      induction k as [|k IH]; [done|]. cbn [qpow].
      replace (qz 2 * qpow (qz 2) k)%Qc with (qpow (qz 2) k + qpow (qz 2) k)%Qc; [qclra|].
      replace (qz 2) with (1 + 1)%Qc by (apply Qc_is_canon; reflexivity). ring.
    Qed.
    Lemma qsum_zero {X} (l : list X) (f : X -> Qc) : (forall x, x ∈ l -> f x = 0%Qc) -> qsum (map f l) = 0%Qc.
    Proof. induction l as [|x l IH]; intros H; [done|]. cbn [map]. rewrite qsum_cons, IH, H; [ring|by left|]. intros; apply H; by right. Qed.

    Lemma region_ok f p g w : logic_formula f -> (forall r b, gen r -> off_tests (Env b r) f) ->
      forall tests, (forall c, c ∈ tests -> test_of f c) -> conj_of_tests tests g ->
      poly_to_smt p = Ok w ->
      (forall r, gen r -> eval (Env (fun _ => false) r) g = Some (VB true) -> inside s r) ->
      exists a, I (part g p (fun _ => false)) a /\ integrate_convex backend g w = Ok a.
    Proof.
      intros Hl Hoff tests HT Hg Hw Hin. destruct (region_inequalities f tests g HT Hg) as (ds & Ed & Vd).
      pose proof (poly_to_smt_expr p w Hw) as Hpe. destruct (from_smt_value w Hpe) as (p' & Ep & Vp).
      assert (forall e, poly_val e p' = poly_val e p) as Hpp.
      { intros e. specialize (Vp e). destruct p as [|kv p0]; [done|]. destruct (poly_to_smt_sound (kv :: p0)) as (w' & Ew & Vw); [done|].
        assert (w' = w) as -> by congruence. rewrite Vw in Vp. by injection Vp. }
      assert (forall r, gen r -> forallb (fun d => qle (poly_val (Env (fun _ => false) r) d) 0) ds =
        bool_decide (eval (Env (fun _ => false) r) g = Some (VB true))) as Hh.
      { intros r Hr. rewrite (Vd _ (Hoff r (fun _ => false) Hr)). by rewrite bd_true. }
      destruct (HBack ds p') as (a & Ia & Ba).
      { intros r Hr H. apply Hin; [done|]. rewrite Hh in H by done. by apply bool_decide_eq_true in H. }
      exists a. split.
      - eapply (io_null _ _ HI); [|exact Ia]. intros r Hr. cbn beta. rewrite Hh by done. unfold part. by rewrite Hpp.
      - unfold integrate_convex. rewrite Ed. cbn [rbind]. rewrite Ep. cbn [rbind]. by destruct Ba as [->|[-> ->]].
    Qed.

    Lemma piece_convex_ok base c p a v0 x0 : let f := AndN [c; base] in p <> [] -> logic_formula f ->
      (forall e, eval e f = Some (VB true) -> eval e s = Some (VB true)) ->
      (forall x, (x, TBool) ∈ syms f -> x ∈ bools) ->
      (forall r b, gen r -> off_tests (Env b r) f) ->
      I (fun r => qsum (map (fun b => part f p b r) (worlds bools))) a ->
      (forall e, den x0 e = Some v0) ->
      exists y, piece_convex A mgr bools backend base (KPoly p, c) x0 = Ok y /\ forall e, den y e = Some (v0 + a)%Qc.
    Proof.
      intros f Hp Hl Hfs HB Hoff Ha H0. destruct (extract_sem f Hl) as (g & i & Ex & _).
      destruct (compile_extract f g i (mgr i) (own i) Hl Ex (HM i)) as (node & Ec & Ho & Hsat).
      destruct (sm_own _ _ _ (HM i) node Ho) as [Hs Hv]. pose proof (extract_table f g i Hl Ex) as T.
      destruct (C33_regions f g i node bools Hl Ex Hs Hv HN HB) as (l & El & Fl & Vl).
      unfold piece_convex. cbn [fst snd]. fold f. rewrite Ex. cbn [rbind]. rewrite Ec. cbn [rbind]. rewrite El. cbn [rbind].
      destruct (poly_to_smt_sound p Hp) as (w & Ew & _). cbn [key_to_smt]. rewrite Ew.
      assert (forall c', c' ∈ dkeys (abstractions i) -> test_of f c') as HT.
      { intros c' Hc'. apply dget_is_Some in Hc' as [lit Hc']. apply (to_test _ _ T lit). by apply (to_two _ _ T). }
      assert (forall e, gen (er e) -> world_count i bools e node =
        qsum (map (fun b => if bool_decide (eval (Env b (er e)) f = Some (VB true)) then 1%Qc else 0%Qc) (worlds bools))) as HW.
      { intros e He. unfold world_count. f_equal. apply map_ext. intros b. rewrite (Hsat (Env b (er e))) by by apply Hoff. by rewrite bd_true. }
      set (cnt := fun (rg : fm * list string) => qpow (qz 2) (length bools - length rg.2)).
      assert (forall rg, rg ∈ l -> forall r, gen r -> eval (Env (fun _ => false) r) rg.1 = Some (VB true) -> inside s r) as Hins.
      { intros rg Hrg r Hr Hev. destruct (decide (Exists (fun b => eval (Env b r) f = Some (VB true)) (worlds bools))) as [HE|HE].
        - apply Exists_exists in HE as (b & _ & Hb). exists b. by apply Hfs.
        - exfalso. specialize (Vl (Env (fun _ => false) r)). rewrite HW in Vl by done. cbn [er] in Vl.
          rewrite qsum_zero in Vl.
          2:{ intros b Hb. rewrite bool_decide_false; [done|]. intros H. apply HE, Exists_exists. by exists b. }
          assert (0 < region_count bools (Env (fun _ => false) r) l)%Qc as Hpos.
          { unfold region_count. apply (qsum_pos _ (cnt rg)).
            - apply Forall_forall. intros q Hq. apply elem_of_list_In, in_map_iff in Hq as (rg' & <- & _).
              destruct (bool_decide _); [apply Qclt_le_weak, qpow2_pos|apply Qcle_refl].
            - apply elem_of_list_In, in_map_iff. exists rg. split; [|by apply elem_of_list_In]. by rewrite bool_decide_true.
            - apply qpow2_pos. }
          rewrite Vl in Hpos. done. }
      assert (forall rg, rg ∈ l -> exists a', I (part rg.1 p (fun _ => false)) a' /\ integrate_convex backend rg.1 w = Ok a') as Hreg.
      { intros rg Hrg. pose proof Fl as Fl'. eapply Forall_forall in Fl' as (F1 & _); [|exact Hrg].
        apply (region_ok f p rg.1 w Hl Hoff _ HT F1 Ew). by apply Hins. }
      assert (exists al : list Qc, Forall2 (fun rg a' => I (part rg.1 p (fun _ => false)) a' /\ integrate_convex backend rg.1 w = Ok a') l al) as [al Hal].
      { clear -Hreg. induction l as [|rg l IH]; [exists []; constructor|]. destruct (Hreg rg) as [a' Ha']; [by left|].
        destruct IH as [al Hal]; [intros; apply Hreg; by right|]. exists (a' :: al). by constructor. }
      (* the value of the sum *)
      assert (I (fun r => qsum (map (fun rg => cnt rg * part rg.1 p (fun _ => false) r)%Qc l)) (qsum (zip_with (fun rg a' => cnt rg * a')%Qc l al))) as Isum.
      { clear -Hal HI. induction Hal as [|rg a' l al [Ha' _] _ IH]; [exact (io_zero _ _ HI)|]. cbn [map zip_with]. rewrite qsum_cons.
        eapply (io_null _ _ HI); [|apply (io_add _ _ HI); [apply (io_scale _ _ HI (part rg.1 p (fun _ => false)) a' (cnt rg) Ha')|exact IH]].
        intros r _. cbn beta. by rewrite qsum_cons. }
      assert (a = qsum (zip_with (fun rg a' => cnt rg * a')%Qc l al)) as Haa.
      { apply (io_unique _ _ HI _ _ _ Ha). eapply (io_null _ _ HI); [|exact Isum]. intros r Hr. cbn beta. rewrite sum_part.
        pose proof (HW (Env (fun _ => false) r) Hr) as HW'. cbn [er] in HW'. rewrite <- HW', <- Vl. unfold region_count. clear. induction l as [|rg l IH]; cbn [map];
          [change (qsum []) with 0%Qc; ring|]. rewrite !qsum_cons, IH. unfold part, cnt. destruct (bool_decide _); ring. }
      assert (Forall (fun rg : fm * list string => length rg.2 <= length bools) l) as Hlen.
      { apply Forall_forall. intros rg Hrg. eapply Forall_forall in Fl as (_ & F2 & F3); [|exact Hrg].
        apply submseteq_length, NoDup_submseteq; [done|]. exact F3. }
      rewrite Haa. clear -Hal Hlen H0 HA. revert v0 x0 H0. induction Hal as [|rg a' l al [_ Ea'] _ IH]; intros v0 x0 H0.
      - exists x0. split; [done|]. intros e. rewrite H0. f_equal. cbn. change (qsum []) with 0%Qc. ring.
      - apply Forall_cons in Hlen as [Hle Hlen]. cbn [fold_left rbind zip_with]. rewrite Ea'. cbn [rbind].
        assert (pow2 (Z.of_nat (length bools) - Z.of_nat (length rg.2)) = cnt rg) as ->.
        { unfold pow2, cnt. destruct (Z.ltb_spec (Z.of_nat (length bools) - Z.of_nat (length rg.2)) 0); [lia|]. f_equal. lia. }
        destruct (IH Hlen (v0 + a' * cnt rg)%Qc (alg_plus A x0 (a_real A (a' * cnt rg)%Qc))) as (y & Ey & Dy).
        + intros e. apply (alg_plus_value A den HA); [done|apply (sa_real _ _ _ _ _ _ HA)].
        + exists y. split; [done|]. intros e. rewrite Dy, qsum_cons. f_equal. ring.
    Qed.

    Lemma pieces_convex_ok base (ps : list (pkey * fm)) (vs : list Qc) :
      Forall2 (fun kc v => forall v0 x0, (forall e, den x0 e = Some v0) ->
        exists y, piece_convex A mgr bools backend base kc x0 = Ok y /\ forall e, den y e = Some (v0 + v)%Qc) ps vs ->
      exists y, volume_convex A mgr bools backend base ps = Ok y /\ forall e, den y e = Some (qsum vs).
    Proof.
      intros HF. unfold volume_convex.
      assert (forall v0 x0, (forall e, den x0 e = Some v0) ->
        exists y, fold_left (fun r kc => let! volume := r in piece_convex A mgr bools backend base kc volume) ps (Ok x0) = Ok y /\
          forall e, den y e = Some (v0 + qsum vs)%Qc) as HG.
      { induction HF as [|kc v ps vs Hkc _ IH]; intros v0 x0 H0; cbn [fold_left].
        - exists x0. split; [done|]. intros e. rewrite H0. f_equal. change (qsum []) with 0%Qc. ring.
        - destruct (Hkc v0 x0) as (y & Ey & Dy); [done|]. cbn [rbind]. rewrite Ey.
          destruct (IH (v0 + v)%Qc y Dy) as (z & Ez & Dz).
          exists z. split; [done|]. intros e. rewrite Dz, qsum_cons. f_equal. ring. }
      destruct (HG 0%Qc (alg_zero A)) as (y & Ey & Dy); [intros e; apply (sa_real _ _ _ _ _ _ HA)|]. exists y. split; [done|].
      intros e. rewrite Dy. f_equal. ring.
    Qed.
  End convex.

  (** ** Putting the pieces together *)
  Lemma columns {X Y} (h : X -> Y -> (string -> Qc) -> Qc) (ps : list X) (ws : list Y) (rows : list (list Qc)) :
    Forall2 (fun k row => Forall2 (fun b a => I (h k b) a) ws row) ps rows ->
    exists As, Forall2 (fun b a => I (fun r => qsum (map (fun k => h k b r) ps)) a) ws As /\ qsum As = qsum (map qsum rows).
  Proof.
    induction 1 as [|k row ps rows Hrow _ IH].
    - exists (map (fun _ => 0%Qc) ws). split.
      + induction ws; cbn; constructor; [exact (io_zero _ _ HI)|done].
      + rewrite qsum_zero by done. done.
    - destruct IH as (As & HAs & Hq). exists (zip_with Qcplus row As). cbn [map]. rewrite qsum_cons, <- Hq. clear Hq. split.
      + revert As HAs. induction Hrow as [|b a ws row Ha _ IH]; intros As HAs; [inversion HAs; constructor|].
        apply Forall2_cons_inv_l in HAs as (a' & As' & Ha' & HAs' & ->). cbn; constructor; [|by apply IH].
        eapply (io_null _ _ HI); [|apply (io_add _ _ HI); [exact Ha|exact Ha']]. done.
      + revert As HAs. induction Hrow as [|b a ws row Ha _ IH]; intros As HAs.
        * apply Forall2_nil_inv_l in HAs as ->. cbn. change (qsum []) with 0%Qc. ring.
        * apply Forall2_cons_inv_l in HAs as (a' & As' & Ha' & HAs' & ->). cbn [zip_with]. rewrite !qsum_cons, IH by done. ring.
  Qed.

  Lemma row_integral f p ws row : Forall2 (fun b a => I (part f p b) a) ws row ->
    I (fun r => qsum (map (fun b => part f p b r) ws)) (qsum row).
  Proof.
    induction 1 as [|b a ws row Ha _ IH]; [exact (io_zero _ _ HI)|]. rewrite qsum_cons.
    eapply (io_null _ _ HI); [|apply (io_add _ _ HI); [exact Ha|exact IH]]. intros r _. cbn [map]. by rewrite qsum_cons.
  Qed.

  Lemma rows_exist {X Y} (R : X -> Y -> Prop) (l : list X) : (forall x, x ∈ l -> exists y, R x y) -> exists ys, Forall2 R l ys.
  Proof.
    induction l as [|x l IH]; intros H; [exists []; constructor|]. destruct (H x) as [y Hy]; [by left|].
    destruct IH as [ys Hys]; [intros; apply H; by right|]. exists (y :: ys). by constructor.
  Qed.
End volume.

Definition key_poly (k : pkey) : pdict := match k with KPoly p => p | KNum _ => [] end.

Section main.
  Context (s w : fm) (I : ((string -> Qc) -> Qc) -> Qc -> Prop) (bools : list string) (simplify : fm -> fm).
  Hypothesis HI : integral_on (generic s w) I.
  Hypothesis HP : polynomials_integrable I s.
  Hypothesis Hs : logic_formula s.
  Hypothesis Hw : weight_function w.
  Hypothesis HN : NoDup bools.
  Hypothesis HBs : forall x, (x, TBool) ∈ syms s -> x ∈ bools.
  Hypothesis HBw : forall c x, c ∈ conditions w -> (x, TBool) ∈ syms c -> x ∈ bools.
  Hypothesis HS : sound_simplifier simplify.
  Hypothesis HK : keeps_tests simplify.

  Definition good (f : fm) : Prop := logic_formula f /\ (forall r b, generic s w r -> off_tests (Env b r) f) /\
    forall x, (x, TBool) ∈ syms f -> x ∈ bools.

  Lemma good_and a b : good a -> good b -> good (AndN [a; b]).
  Proof.
    intros (A1 & A2 & A3) (B1 & B2 & B3). split; [|split].
    - constructor. constructor; [done|]. constructor; [done|constructor].
    - intros r b' Hr. cbn. split; [by apply A2|]. split; [by apply B2|done].
    - intros x Hx. cbn [syms map concat] in Hx. rewrite app_nil_r in Hx. apply elem_of_app in Hx as [?|?]; auto.
  Qed.
  Lemma good_or a b : good a -> good b -> good (OrN [a; b]).
  Proof.
    intros (A1 & A2 & A3) (B1 & B2 & B3). split; [|split].
    - constructor. constructor; [done|]. constructor; [done|constructor].
    - intros r b' Hr. cbn. split; [by apply A2|]. split; [by apply B2|done].
    - intros x Hx. cbn [syms map concat] in Hx. rewrite app_nil_r in Hx. apply elem_of_app in Hx as [?|?]; auto.
  Qed.
  Lemma syms_mkNot_in f x t : (x, t) ∈ syms (mkNot f) -> (x, t) ∈ syms f.
  Proof. destruct f; cbn; auto. Qed.
  Lemma good_pieces p : split_weight simplify true w = Ok p -> Forall (fun kc => good kc.2) p.
  Proof.
    intros H. apply (walk_cond key_alg key_two simplify true good) in H; [done|..].
    - split; [constructor|]. split; [done|]. intros x Hx. by apply elem_of_nil in Hx.
    - intros a b Ha Hb. by apply good_and.
    - intros a b Ha Hb. by apply good_or.
    - intros a (A1 & A2 & A3). split; [by apply logic_mkNot|]. split; [intros; apply off_tests_mkNot; auto|].
      intros x Hx%syms_mkNot_in. auto.
    - intros a (A1 & A2 & A3). split; [by apply (kt_logic _ HK)|]. split; [intros; apply (kt_off _ HK); auto|].
      intros x Hx%(kt_bools _ HK). auto.
    - destruct Hw as [_ Hc]. rewrite Forall_forall in *. intros c Hin. split; [by apply Hc|]. split; [|intros x; by apply (HBw c)].
      intros r b Hr. destruct (Hr b) as [_ Hr']. rewrite Forall_forall in Hr'. by apply Hr'.
  Qed.

  (** The integrand is the sum over the pieces. *)
  Lemma integrand_pieces base p b r : split_weight simplify true w = Ok p -> Forall (fun kc : pkey * fm => is_poly kc.1) p ->
    logic_formula base -> (forall e, eval e base = eval e s) ->
    qsum (map (fun kc : pkey * fm => part (AndN [kc.2; base]) (key_poly kc.1) b r) p) = integrand s w (Env b r).
  Proof.
    intros H HF Hb Hbase. pose proof (good_pieces p H) as HG.
    destruct (C34_value_partial simplify w p HS H) as [_ HV]. destruct Hw as [Hw1 Hw2].
    destruct (weight_total w (Env b r) Hw1 Hw2) as [v Ev]. specialize (HV _ _ Ev). unfold integrand. rewrite Ev.
    destruct (logic_total s (Env b r) Hs) as [sv Es]. rewrite Es.
    assert (forall kc, kc ∈ p -> exists c, eval (Env b r) kc.2 = Some (VB c) /\
      part (AndN [kc.2; base]) (key_poly kc.1) b r = (if c && sv then poly_val (Env b r) (key_poly kc.1) else 0)%Qc /\
      piece_value key_den (Env b r) kc = Some (if c then poly_val (Env b r) (key_poly kc.1) else 0%Qc)) as HK'.
    { intros kc Hkc. rewrite Forall_forall in HG, HF. destruct (HG _ Hkc) as (G1 & _ & _). destruct (logic_total kc.2 (Env b r) G1) as [c Ec].
      exists c. split; [done|]. split.
      - unfold part. rewrite (eval_and2_true (Env b r) kc.2 base c sv Ec) by by rewrite Hbase. by rewrite bd_true.
      - unfold piece_value. rewrite Ec. specialize (HF _ Hkc). destruct kc as [[k|k] c']; [done|]. by destruct c. }
    unfold pieces_value in HV. clear -HV HK'. destruct sv.
    - revert v HV. induction p as [|kc p IH]; intros v HV; [cbn in *; by injection HV|].
      destruct (HK' kc) as (c & _ & H2 & H3); [by left|]. cbn [map]. rewrite qsum_cons, H2. cbn [mapM] in HV. rewrite H3 in HV. cbn in HV.
      destruct (mapM (piece_value key_den (Env b r)) p) as [vs|] eqn:Em; [|done]. cbn in HV. injection HV as <-.
      rewrite (IH (fun kc' H => HK' kc' (elem_of_list_further _ _ _ H)) (qsum vs)) by done. rewrite andb_true_r. by rewrite <- qsum_cons.
    - apply qsum_zero. intros kc Hkc. destruct (HK' kc Hkc) as (c & _ & -> & _). by rewrite andb_false_r.
  Qed.

  (** The integrals of the pieces in the worlds. *)
  Lemma piece_integrals base p : split_weight simplify true w = Ok p -> Forall (fun kc : pkey * fm => is_poly kc.1) p ->
    logic_formula base -> (forall e, eval e base = eval e s) ->
    exists rows As,
      Forall2 (fun (kc : pkey * fm) row => Forall2 (fun b a => I (part (AndN [kc.2; base]) (key_poly kc.1) b) a) (worlds bools) row) p rows /\
      Forall2 (fun b a => I (fun r => integrand s w (Env b r)) a) (worlds bools) As /\ qsum As = qsum (map qsum rows).
  Proof.
    intros H HF Hb Hbase. pose proof (good_pieces p H) as HG.
    destruct (rows_exist (fun (kc : pkey * fm) row => Forall2 (fun b a => I (part (AndN [kc.2; base]) (key_poly kc.1) b) a) (worlds bools) row) p) as [rows Hrows].
    { intros kc Hkc. apply rows_exist. intros b _. rewrite Forall_forall in HG. destruct (HG _ Hkc) as (G1 & _ & _).
      apply HP; [constructor; constructor; [done|]; constructor; [done|constructor]|].
      intros r Hr. exists b. rewrite <- Hbase. destruct (logic_total base (Env b r) Hb) as [sv Es], (logic_total kc.2 (Env b r) G1) as [c Ec].
      rewrite (eval_and2_true _ _ _ _ _ Ec Es) in Hr. injection Hr as Hr. apply andb_true_iff in Hr as [-> ->]. done. }
    destruct (columns _ I HI _ _ _ _ Hrows) as (As & HAs & Hq). exists rows, As. split; [done|]. split; [|done].
    eapply Forall2_impl; [exact HAs|]. intros b a Ha. cbn beta in Ha. eapply (io_null _ _ HI); [|exact Ha].
    intros r _. cbn beta. by apply integrand_pieces.
  Qed.

  Context {E : Type} (A : alg E) (den : E -> env -> option Qc) (mgr : linfo -> manager) (own : linfo -> sdd -> Prop)
    (unsat : fm -> bool) (to_float : E -> Res Qc).
  Hypothesis HA : sound_arith (a_real A) (a_symbol A) (a_eq A) (a_mul A) (a_add A) den.
  Hypothesis HM : sound_managers mgr own.
  Hypothesis HU : sound_solver unsat.
  Hypothesis HT : sound_number den to_float.

  Lemma volume_nonconvex integrate find base p : sound_indicator (a_le A) (a_lt A) den ->
    sound_integrator den (generic s w) I integrate -> aligned_compilation mgr bools ->
    split_weight simplify true w = Ok p -> Forall (fun kc : pkey * fm => is_poly kc.1) p ->
    base_support unsat find s w = Ok base ->
    exists As, Forall2 (fun b a => I (fun r => integrand s w (Env b r)) a) (worlds bools) As /\
      compute_volume A mgr simplify unsat integrate to_float bools find false s w = Ok (qsum As).
  Proof.
    intros HInd HInt HAl Hp HF Hbase. destruct (base_same unsat find s w base HU Hs (proj1 Hw) Hbase) as (B1 & B2 & B3 & B4).
    destruct (piece_integrals base p Hp HF B1 B2) as (rows & As & Hrows & HAs & Hq). exists As. split; [done|].
    pose proof (good_pieces p Hp) as HG.
    destruct (pieces_ok A den HA mgr bools integrate base p (map qsum rows)) as (y & Ey & Dy).
    { clear Hq Hp. revert HF HG. induction Hrows as [|kc row p' rows' Hrow _ IH]; intros HF HG; cbn [map]; [constructor|].
      constructor; [|apply Forall_cons in HF as [_ HF], HG as [_ HG]; by apply IH].
      apply Forall_cons in HF as [HF _], HG as [HG _]. destruct kc as [[k|k] c]; [done|]. cbn [fst snd key_poly] in *.
      destruct (good_and c base) as (G1 & G2 & G3); [done|split; [done|split]|].
      - intros r b Hr. apply B3. by destruct (Hr b).
      - intros x Hx. by apply HBs, B4.
      - apply (piece_value_ok (generic s w) I HI A den HA mgr own bools HM HInd integrate HInt HAl base c k (qsum row)); try done.
        by apply (row_integral (generic s w) I HI). }
    unfold compute_volume. rewrite Hbase. cbn [rbind]. destruct (C34_value_partial simplify w p HS Hp) as [-> _]. cbn [rbind].
    rewrite Ey. cbn [rbind]. rewrite Hq. by apply HT.
  Qed.

  Lemma volume_convex_ok backend find base p : sound_backend (generic s w) I s backend ->
    split_weight simplify true w = Ok p -> Forall (fun kc : pkey * fm => is_poly kc.1) p ->
    base_support unsat find s w = Ok base ->
    exists As, Forall2 (fun b a => I (fun r => integrand s w (Env b r)) a) (worlds bools) As /\
      compute_volume_convex A mgr simplify unsat to_float bools backend find false s w = Ok (qsum As).
  Proof.
    intros HBk Hp HF Hbase. destruct (base_same unsat find s w base HU Hs (proj1 Hw) Hbase) as (B1 & B2 & B3 & B4).
    destruct (piece_integrals base p Hp HF B1 B2) as (rows & As & Hrows & HAs & Hq). exists As. split; [done|].
    pose proof (good_pieces p Hp) as HG.
    destruct (pieces_convex_ok A den HA mgr bools backend base p (map qsum rows)) as (y & Ey & Dy).
    { clear Hq Hp. revert HF HG. induction Hrows as [|kc row p' rows' Hrow _ IH]; intros HF HG; cbn [map]; [constructor|].
      constructor; [|apply Forall_cons in HF as [_ HF], HG as [_ HG]; by apply IH].
      apply Forall_cons in HF as [HF _], HG as [HG _]. destruct kc as [[k|k] c]; [done|]. cbn [fst snd key_poly] in *.
      destruct (good_and c base) as (G1 & G2 & G3); [done|split; [done|split]|].
      - intros r b Hr. apply B3. by destruct (Hr b).
      - intros x Hx. by apply HBs, B4.
      - intros v0 x0 H0.
        apply (piece_convex_ok (generic s w) I HI A den HA mgr own bools HM HN s backend HBk base c k (qsum row) v0 x0); try done.
        + intros e He. rewrite <- B2. destruct HG as (G4 & _). destruct (logic_total base e B1) as [sv Es], (logic_total c e G4) as [cv Ec].
          rewrite (eval_and2_true _ _ _ _ _ Ec Es) in He. injection He as He. apply andb_true_iff in He as [-> ->]. done.
        + by apply (row_integral (generic s w) I HI). }
    unfold compute_volume_convex. rewrite Hbase. cbn [rbind]. destruct (C34_value_partial simplify w p HS Hp) as [-> _]. cbn [rbind].
    rewrite Ey. cbn [rbind]. rewrite Hq. by apply HT.
  Qed.
End main.
