(** C30-C33: compilation to decision diagrams, algebraic model counting and the
    counting of boolean worlds. *)

From Verif Require Import Base Dict Smt Smt_Facts Math_Model Math_Spec Arith_Proofs.
From Verif Require Import Engine_Spec Lit_Model Lit_Spec Lit_Proofs Lit_Tests Sdd_Model Sdd_Spec Sdd_Proofs Sdd_Example.

(** * C30 *)

(** For every formula over boolean variables and linear inequalities, and every
    sound manager over its literals: compilation succeeds, the diagram is true
    exactly where the formula is (off the bounding hyperplanes), and so is the
    formula read back from it. *)
Theorem C30_compile_recover f : logic_formula f ->
  exists g i, extract_literals f = Ok (g, i) /\
  forall M own, sound_manager (upto (length (Lit_Model.literals i))) M own ->
  exists node, compile_to_sdd M g i = Ok node /\ is_sdd node /\
    (forall e, off_tests e f -> eval e f = Some (VB (sat (number_world i e) node))) /\
    forall simplify, (forall h e, eval e (simplify h) = eval e h) ->
    exists h, recover_formula simplify node i = Ok h /\ forall e, off_tests e f -> eval e h = eval e f.
Proof.
  intros Hl. destruct (extract_sem f Hl) as (g & i & E & _). exists g, i. split; [done|]. intros M own HM.
  destruct (compile_extract f g i M own Hl E HM) as (node & Ec & Ho & Hs). exists node. split; [done|].
  destruct (sm_own _ _ _ HM node Ho) as [Hi Hv]. split; [done|]. split; [done|]. intros simplify Hsimp.
  destruct (recover_compiled f g i node simplify Hl E Hv Hsimp) as (h & Eh & Vh). exists h. split; [done|].
  intros e He. by rewrite Vh, Hs.
Qed.
Print Assumptions C30_compile_recover.

(** Reading back any diagram over the literals of a formula gives a formula that is
    true exactly where the diagram is, at every point. *)
Theorem C30_recover f g i node simplify : logic_formula f -> extract_literals f = Ok (g, i) ->
  (forall v, v ∈ svars node -> v ∈ upto (length (Lit_Model.literals i))) ->
  (forall h e, eval e (simplify h) = eval e h) ->
  exists h, recover_formula simplify node i = Ok h /\ forall e, eval e h = Some (VB (sat (number_world i e) node)).
Proof. exact (recover_compiled f g i node simplify). Qed.
Print Assumptions C30_recover.

(** The assumptions on a manager can be met for every number of literals. *)
Example C30_managers n : sound_manager (upto n) (expand_manager (upto n)) (over (upto n)).
Proof. apply expand_sound; apply upto_ok. Qed.

Definition lt1 : fm := LtN (Sym "x" TReal) (RealC 1).
(** ite(x < 1, A, B) and (A or not A) *)
Definition ex30 : fm :=
  AndN [IteN lt1 (Sym "A" TBool) (Sym "B" TBool); OrN [Sym "A" TBool; NotN (Sym "A" TBool)]].
Lemma ex30_logic : logic_formula ex30.
Proof.
  assert (logic_formula lt1) by (apply lf_lt; [apply le_sym|apply le_const; constructor]).
  apply lf_and. repeat (apply Forall_cons; split); [| |constructor].
  - by repeat constructor.
  - apply lf_or. repeat (apply Forall_cons; split); repeat constructor.
Qed.
Example C30_example : logic_formula ex30 /\
  exists g i node, extract_literals ex30 = Ok (g, i) /\ length (Lit_Model.literals i) = 3 /\
    compile_to_sdd (expand_manager (upto 3)) g i = Ok node /\
    off_tests (Env (fun v => bool_decide (v = "B"%string)) (fun _ => qz 2)) ex30 /\
    sat (number_world i (Env (fun v => bool_decide (v = "B"%string)) (fun _ => qz 2))) node = true /\
    sat (number_world i (Env (fun v => bool_decide (v = "B"%string)) (fun _ => 0%Qc))) node = false.
Proof.
  split; [exact ex30_logic|]. eexists _, _, _. split; [vm_compute; reflexivity|]. split; [reflexivity|].
  split; [vm_compute; reflexivity|]. split.
  - cbn. split; [|done]. split; [|done]. eexists _, _. split; [done|]. split; [done|]. by intros [=].
  - split; vm_compute; reflexivity.
Qed.

(** * C31 *)

(** Evaluating a diagram with the weighted model counting semiring gives the sum
    over all assignments of the variables [vs] that satisfy it of the product of the
    literal weights, for every weight table and every set of variables containing
    those of the diagram. *)
Theorem C31_model_count weights p vs node : is_sdd node -> NoDup vs ->
  (forall v, v ∈ svars node -> v ∈ vs /\ v <> 0 /\ dget weights (Z.of_nat v) = Some (p v)) ->
  amc (wmc_semiring weights) node = Ok (model_count p vs node).
Proof. intros Hs Hnd Hv. rewrite model_count_mean by done. by apply wmc_mean. Qed.
Print Assumptions C31_model_count.

(** For every compiled formula: the weights of the literals determine the count. *)
Theorem C31_compiled f g i M own node weights p : logic_formula f -> extract_literals f = Ok (g, i) ->
  sound_manager (upto (length (Lit_Model.literals i))) M own -> compile_to_sdd M g i = Ok node ->
  (forall v, v ∈ upto (length (Lit_Model.literals i)) -> dget weights (Z.of_nat v) = Some (p v)) ->
  amc (wmc_semiring weights) node = Ok (model_count p (upto (length (Lit_Model.literals i))) node).
Proof.
  intros Hl E HM Ec Hw. destruct (compile_extract f g i M own Hl E HM) as (node' & Ec' & Ho & _).
  assert (node' = node) as -> by congruence. destruct (sm_own _ _ _ HM node Ho) as [Hi Hv].
  destruct (upto_ok (length (Lit_Model.literals i))) as [U1 U2].
  apply C31_model_count; [done|done|]. intros v Hin. auto.
Qed.
Print Assumptions C31_compiled.

(** The value does not depend on sharing: the iterator's cache is invisible. *)
Theorem C31_cache {R} (w : sddwalker R) node : walk_sdd w node = sfold w node.
Proof. exact (walk_sdd_fold w node). Qed.
Print Assumptions C31_cache.

(** A missing weight is reported, never skipped. *)
Theorem C31_missing_weight weights v : dget weights (Z.of_nat v) = None ->
  amc (wmc_semiring weights) (SLit (Z.of_nat v)) = Err KeyError.
Proof.
  intros H. rewrite amc_lit. cbn [r_weight wmc_semiring]. unfold default_weight.
  destruct (Z.ltb_spec (Z.of_nat v) 0); [lia|]. by rewrite H.
Qed.
Print Assumptions C31_missing_weight.

(** (1 and 2) or (not 1 and 3), with weights 1/2, 1/3, 1/4 *)
Definition ex31 : sdd := SDec [(SLit 1, SLit 2); (SLit (-1), SLit 3)].
Lemma ex31_sdd a b c : (0 < a)%Z -> Z.abs_nat b <> Z.abs_nat a -> Z.abs_nat c <> Z.abs_nat a ->
  is_sdd (SDec [(SLit a, SLit b); (SLit (- a), SLit c)]).
Proof.
  intros Ha Hb Hc. constructor.
  - repeat (apply Forall_cons; split); repeat constructor.
  - intros p s v Hin Hv Hv'.
    apply elem_of_cons in Hin as [[= -> ->]|Hin]; [|apply elem_of_list_singleton in Hin as [= -> ->]];
      apply elem_of_list_singleton in Hv, Hv'; lia.
  - intros i j p s q t w Hi Hj Hij Hp Hq.
    destruct i as [|[|]], j as [|[|]]; cbn in Hi, Hj; try done;
      injection Hi as <- <-; injection Hj as <- <-; cbn [sat] in Hp, Hq; unfold lit_true in Hp, Hq;
      replace (Z.abs_nat (- a)) with (Z.abs_nat a) in * by lia;
      destruct (Z.ltb_spec a 0); try lia; destruct (Z.ltb_spec (- a) 0); try lia; destruct (w (Z.abs_nat a)); done.
Qed.
Example C31_example : is_sdd ex31 /\
  exists v, amc (wmc_semiring [(1%Z, Q2Qc (1 # 2)); (2%Z, Q2Qc (1 # 3)); (3%Z, Q2Qc (1 # 4))]) ex31 = Ok v /\
    v = Q2Qc (7 # 24).
Proof.
  split; [by apply ex31_sdd|]. eexists. split; [vm_compute; reflexivity|]. apply Qc_is_canon. reflexivity.
Qed.

(** * C33 *)

(** The regions enumerated from a diagram over the literals of a formula are
    conjunctions of its tests, mention only its boolean variables, and at every
    point the regions that contain it, each counted with two to the number of
    boolean variables it does not mention, make up the number of worlds in which the
    diagram is true. *)
Theorem C33_regions f g i node bools : logic_formula f -> extract_literals f = Ok (g, i) ->
  is_sdd node -> (forall v, v ∈ svars node -> v ∈ upto (length (Lit_Model.literals i))) ->
  NoDup bools -> (forall x, (x, TBool) ∈ syms f -> x ∈ bools) ->
  exists l, amc (convex_semiring i) node = Ok l /\
    Forall (fun r : fm * list string => conj_of_tests (dkeys (abstractions i)) r.1 /\
      NoDup r.2 /\ forall x, x ∈ r.2 -> x ∈ bools) l /\
    forall e, region_count bools e l = world_count i bools e node.
Proof.
  intros Hl E Hs Hv Hnd HB. pose proof (extract_table f g i Hl E) as T.
  destruct (convex_regions f i T bools HB node Hs Hv) as (l & El & Ol & Vl). exists l. split; [done|].
  assert (Forall (fun r : fm * list string => conj_of_tests (dkeys (abstractions i)) r.1 /\
      NoDup r.2 /\ forall x, x ∈ r.2 -> x ∈ bools) l) as HF.
  { rewrite Forall_forall in *. intros r Hr. destruct (Ol r Hr) as (H1 & H2 & H3 & _). split; [done|]. split; [done|].
    intros x Hx. apply (names_bools f i T bools HB node); auto. }
  split; [done|]. intros e. rewrite (region_count_value bools e l Hnd).
  - by rewrite Vl, world_count_mu.
  - rewrite Forall_forall in *. intros r Hr. by destruct (HF r Hr) as (_ & ? & ?).
Qed.
Print Assumptions C33_regions.

(** End to end: the regions count the worlds that satisfy the formula itself. *)
Theorem C33_formula f g i M own node bools : logic_formula f -> extract_literals f = Ok (g, i) ->
  sound_manager (upto (length (Lit_Model.literals i))) M own -> compile_to_sdd M g i = Ok node ->
  NoDup bools -> (forall x, (x, TBool) ∈ syms f -> x ∈ bools) ->
  exists l, amc (convex_semiring i) node = Ok l /\
    forall e, off_tests e f -> region_count bools e l =
      qsum (map (fun b => if bool_decide (eval (Env b (er e)) f = Some (VB true)) then 1%Qc else 0%Qc) (worlds bools)).
Proof.
  intros Hl E HM Ec Hnd HB. destruct (compile_extract f g i M own Hl E HM) as (node' & Ec' & Ho & Hsat).
  assert (node' = node) as -> by congruence. destruct (sm_own _ _ _ HM node Ho) as [Hi Hv].
  destruct (C33_regions f g i node bools Hl E Hi Hv Hnd HB) as (l & El & _ & Vl). exists l. split; [done|].
  intros e He. rewrite Vl. unfold world_count. f_equal. apply map_ext. intros b.
  rewrite Hsat; [by rewrite bd_true|]. by apply (off_tests_reals f Hl e).
Qed.
Print Assumptions C33_formula.

Example C33_example : exists g i l, extract_literals ex30 = Ok (g, i) /\
  amc (convex_semiring i) (SDec [(SLit 3, SLit 1); (SLit (-3), SLit 2)]) = Ok l /\ length l = 2 /\
  region_count ["A"; "B"]%string (Env (fun _ => false) (fun _ => 0%Qc)) l = qz 2.
Proof.
  eexists _, _, _. split; [vm_compute; reflexivity|]. split; [vm_compute; reflexivity|]. split; [reflexivity|].
  apply Qc_is_canon. reflexivity.
Qed.

(** * C32 *)

(** The value computed with the other semiring, multiplied by two to the number of
    boolean variables it does not mention (as the engine does), is the number of
    worlds in which the diagram is true, provided that no decision node adds two
    parts that mention equally many but different boolean variables. *)
Theorem C32_worlds_partial {E : Type} (A : alg E) den f g i node bools :
  sound_arith (a_real A) (a_symbol A) (a_eq A) (a_mul A) (a_add A) den ->
  sound_indicator (a_le A) (a_lt A) den ->
  logic_formula f -> extract_literals f = Ok (g, i) ->
  is_sdd node -> (forall v, v ∈ svars node -> v ∈ upto (length (Lit_Model.literals i))) ->
  aligned i node ->
  NoDup bools -> (forall x, (x, TBool) ∈ syms f -> x ∈ bools) ->
  exists r, amc (nonconvex_semiring A i) node = Ok r /\
    forall e, off_tests e f -> exists v, den r.1 e = Some v /\
      (v * qpow (qz 2) (length bools - length r.2))%Qc = world_count i bools e node.
Proof.
  intros HA HI Hl Ex Hs Hv Hal Hnd HB. pose proof (extract_table f g i Hl Ex) as T.
  destruct (nonconvex_counts A den HA HI f i T bools HB node Hs Hv Hal) as (r & Er & R1 & R2 & R3).
  exists r. split; [done|]. intros e He. eexists. split; [exact (R3 e He)|]. rewrite world_count_mu.
  assert (length r.2 <= length bools) as Hle.
  { apply submseteq_length, NoDup_submseteq; [done|]. intros x Hx. apply (names_bools f i T bools HB node); [done|]. by apply R2. }
  replace (length bools) with (length r.2 + (length bools - length r.2)) at 2 by lia. rewrite qpow_add. ring.
Qed.
Print Assumptions C32_worlds_partial.

(** In particular when all elements of every decision node mention the same boolean
    variables, and when there is at most one boolean variable. *)
Theorem C32_uniform_partial {E : Type} (A : alg E) den f g i node bools :
  sound_arith (a_real A) (a_symbol A) (a_eq A) (a_mul A) (a_add A) den ->
  sound_indicator (a_le A) (a_lt A) den ->
  logic_formula f -> extract_literals f = Ok (g, i) ->
  is_sdd node -> (forall v, v ∈ svars node -> v ∈ upto (length (Lit_Model.literals i))) ->
  (uniform i node \/ exists v, forall x, x ∈ names i node -> x = v) ->
  NoDup bools -> (forall x, (x, TBool) ∈ syms f -> x ∈ bools) ->
  exists r, amc (nonconvex_semiring A i) node = Ok r /\
    forall e, off_tests e f -> exists v, den r.1 e = Some v /\
      (v * qpow (qz 2) (length bools - length r.2))%Qc = world_count i bools e node.
Proof.
  intros HA HI Hl Ex Hs Hv Hc. apply (C32_worlds_partial A den f g); try done.
  destruct Hc as [Hu|[v Hone]]; [by apply uniform_aligned|by apply (single_aligned i node v)].
Qed.
Print Assumptions C32_uniform_partial.

(** Without that condition it is false: for ite(x < 1, A, B), with the diagram that
    decides on x < 1, the engine's value is half the number of worlds. *)
Definition f32 : fm := IteN lt1 (Sym "A" TBool) (Sym "B" TBool).
Definition node32 : sdd := SDec [(SLit 3, SLit 1); (SLit (-3), SLit 2)].
Definition bools32 : list string := ["A"; "B"]%string.
Definition i32 : linfo := match extract_literals f32 with Ok (_, i) => i | Err _ => LInfo [] [] [] end.
Lemma f32_logic : logic_formula f32.
Proof. apply lf_ite; [apply lf_lt; [apply le_sym|apply le_const; constructor]|constructor|constructor]. Qed.

Theorem C32_refuted : logic_formula f32 /\ (exists g, extract_literals f32 = Ok (g, i32)) /\ is_sdd node32 /\
  (forall v, v ∈ svars node32 -> v ∈ upto (length (Lit_Model.literals i32))) /\
  (forall e, off_tests e f32 -> eval e f32 = Some (VB (sat (number_world i32 e) node32))) /\
  forall (E : Type) (A : alg E) den,
    sound_arith (a_real A) (a_symbol A) (a_eq A) (a_mul A) (a_add A) den ->
    sound_indicator (a_le A) (a_lt A) den ->
    exists r, amc (nonconvex_semiring A i32) node32 = Ok r /\ length r.2 = length bools32 /\
    forall e, off_tests e f32 -> exists v, den r.1 e = Some v /\
      world_count i32 bools32 e node32 = (qz 2 * v)%Qc /\ v = 1%Qc.
Proof.
  assert (exists g, extract_literals f32 = Ok (g, i32)) as [g Ex] by (eexists; vm_compute; reflexivity).
  pose proof (extract_table f32 g i32 f32_logic Ex) as T.
  assert (forall v, v ∈ svars node32 -> v ∈ upto (length (Lit_Model.literals i32))) as Hv.
  { intros v Hv. assert (v ∈ [3; 1; 3; 2]) as Hv' by exact Hv. change (v ∈ [1; 2; 3]).
    apply elem_of_list_In in Hv'. apply elem_of_list_In. cbn in *. tauto. }
  assert (forall x, (x, TBool) ∈ syms f32 -> x ∈ bools32) as HB.
  { intros x Hx. change ((x, TBool) ∈ [("x", TReal); ("A", TBool); ("B", TBool)]%string) in Hx.
    rewrite !elem_of_cons in Hx. unfold bools32. rewrite !elem_of_cons.
    destruct Hx as [[=]|[[= ->]|[[= ->]|Hx]]]; [auto|auto|]. by apply elem_of_nil in Hx. }
  assert (is_sdd node32) as Hs by by apply (ex31_sdd 3 1 2).
  split; [exact f32_logic|]. split; [by exists g|]. split; [done|]. split; [done|]. split.
  { intros e He. destruct (extract_sem f32 f32_logic) as (g' & i' & E' & V & _).
    rewrite Ex in E'. injection E' as <- <-. rewrite <- (V e He).
    assert (g = IteN (Sym "a0" TBool) (Sym "b0" TBool) (Sym "b1" TBool)) as ->.
    { assert (Ok g = Ok (IteN (Sym "a0" TBool) (Sym "b0" TBool) (Sym "b1" TBool))) as [= ->]; [|done].
      transitivity (let! (g, _) := extract_literals f32 in Ok g); [by rewrite Ex|vm_compute; reflexivity]. }
    cbn [eval vbool]. rewrite <- (number_world_lit f32 i32 e "a0" 3 T), <- (number_world_lit f32 i32 e "b0" 1 T),
      <- (number_world_lit f32 i32 e "b1" 2 T) by (vm_compute; reflexivity).
    cbn. change (Pos.to_nat 3) with 3%nat. change (Pos.to_nat 2) with 2%nat. change (Pos.to_nat 1) with 1%nat.
    by destruct (number_world i32 e 3), (number_world i32 e 2), (number_world i32 e 1). }
  intros E A den HA HI.
  assert (forall z x, (z = 3%Z /\ x = 1%Z) \/ (z = (-3)%Z /\ x = 2%Z) ->
    is_sdd (SDec [(SLit z, SLit x)]) /\
    (forall v, v ∈ svars (SDec [(SLit z, SLit x)]) -> v ∈ upto (length (Lit_Model.literals i32))) /\
    aligned i32 (SDec [(SLit z, SLit x)])) as HOne.
  { intros z x Hzx. split; [|split].
    - constructor.
      + apply Forall_cons. split; [repeat constructor|constructor].
      + intros p s v Hin Hvp Hvs. apply elem_of_list_singleton in Hin as [= -> ->].
        apply elem_of_list_singleton in Hvp, Hvs. destruct Hzx as [[-> ->]|[-> ->]]; subst v; discriminate.
      + intros [|i] [|j] p s q t w Hi Hj; done.
    - intros v Hin. apply Hv. destruct Hzx as [[-> ->]|[-> ->]].
      + apply (svars_els _ (SLit 3) (SLit 1)); [by left|]. cbn in Hin. rewrite !elem_of_cons in Hin. cbn.
        rewrite !elem_of_list_singleton. destruct Hin as [?|[?|Hin]]; [auto|auto|]. by apply elem_of_nil in Hin.
      + apply (svars_els _ (SLit (-3)) (SLit 2)); [by right; left|]. cbn in Hin. rewrite !elem_of_cons in Hin. cbn.
        rewrite !elem_of_list_singleton. destruct Hin as [?|[?|Hin]]; [auto|auto|]. by apply elem_of_nil in Hin.
    - constructor.
      + apply Forall_cons. split; [repeat constructor|constructor].
      + intros [|b before] p s after Heq; [done|]. injection Heq as _ Heq. by destruct before. }
  destruct (HOne 3%Z 1%Z) as (S1 & V1 & A1); [by left|]. destruct (HOne (-3)%Z 2%Z) as (S2 & V2 & A2); [by right|].
  destruct (nonconvex_counts A den HA HI f32 i32 T bools32 HB _ S1 V1 A1) as (r1 & E1 & N1 & M1 & D1).
  destruct (nonconvex_counts A den HA HI f32 i32 T bools32 HB _ S2 V2 A2) as (r2 & E2 & N2 & M2 & D2).
  assert (r1.2 ≡ₚ ["A"%string]) as P1 by (apply NoDup_Permutation; [done|apply NoDup_singleton|exact M1]).
  assert (r2.2 ≡ₚ ["B"%string]) as P2 by (apply NoDup_Permutation; [done|apply NoDup_singleton|exact M2]).
  apply Permutation_singleton_r in P1, P2.
  apply amc_dec_inv in E1 as (xs1 & X1 & Y1), E2 as (xs2 & X2 & Y2).
  inversion X1 as [|? x1 ? ? Q1 R1]; subst. inversion R1; subst. injection Y1 as ->.
  inversion X2 as [|? x2 ? ? Q2 R2]; subst. inversion R2; subst. injection Y2 as ->.
  assert (amc (nonconvex_semiring A i32) node32 = nonconvex_plus A r1 r2) as ->.
  { unfold node32. rewrite (amc_dec _ _ [r1; r2]); [done|]. constructor; [done|]. constructor; [done|constructor]. }
  unfold nonconvex_plus. rewrite P1, P2. cbn [length Nat.eqb]. eexists. split; [done|]. split; [done|].
  intros e He. cbn [fst]. rewrite (alg_plus_value A den HA e _ _ _ _ (D1 e He) (D2 e He)). eexists. split; [done|].
  rewrite P1, P2. cbn [length qpow]. rewrite world_count_mu.
  assert (mean (fun _ => half) bools32 (F i32 e node32) =
    mean (fun _ => half) bools32 (F i32 e (SDec [(SLit 3, SLit 1)])) +
    mean (fun _ => half) bools32 (F i32 e (SDec [(SLit (-3), SLit 2)])))%Qc as Hsum.
  { unfold node32. rewrite (mu_dec f32 i32 T bools32 e [(SLit 3, SLit 1)] S1 V1), (mu_dec f32 i32 T bools32 e [(SLit (-3), SLit 2)] S2 V2),
      (mu_dec f32 i32 T bools32 e [(SLit 3, SLit 1); (SLit (-3), SLit 2)] Hs Hv). cbn [map fst snd]. rewrite !Poly_Proofs.qsum_cons. change (qsum []) with 0%Qc. ring. }
  assert (mean (fun _ => half) bools32 (F i32 e node32) = half) as Hhalf.
  { unfold node32. rewrite (mu_dec f32 i32 T bools32 e) by done. cbn [map fst snd].
    rewrite !Poly_Proofs.qsum_cons. change (qsum []) with 0%Qc.
    destruct (mu_lit f32 i32 T bools32 HB e 3%Z) as (m & Em & Hm); [by apply Hv; left|].
    destruct (mu_lit f32 i32 T bools32 HB e (-3)%Z) as (m' & Em' & Hm'); [by apply Hv; left|].
    destruct (mu_lit f32 i32 T bools32 HB e 1%Z) as (m1 & Em1 & Hm1); [by apply Hv; right; left|].
    destruct (mu_lit f32 i32 T bools32 HB e 2%Z) as (m2 & Em2 & Hm2); [by apply Hv; right; right; right; left|].
    assert (m = m') as <- by (assert (Ok m = Ok m') as [= ->]; [by rewrite <- Em, <- Em'|done]).
    destruct m as [x|c]; [exfalso; revert Em; vm_compute; discriminate|].
    destruct m1 as [x1|c1]; [|exfalso; revert Em1; vm_compute; discriminate].
    destruct m2 as [x2|c2]; [|exfalso; revert Em2; vm_compute; discriminate].
    destruct Hm as (_ & _ & _ & v & Ev & ->), Hm' as (_ & _ & _ & v' & Ev' & ->), Hm1 as (_ & _ & ->), Hm2 as (_ & _ & ->).
    assert (v' = v) as -> by congruence. destruct v; cbn [ind negb Z.ltb Z.compare]; ring. }
  rewrite Hhalf in Hsum |- *.
  set (m1 := mean _ _ (F i32 e (SDec [(SLit 3, SLit 1)]))) in *.
  set (m2 := mean _ _ (F i32 e (SDec [(SLit (-3), SLit 2)]))) in *.
  change (qpow (qz 2) (length bools32)) with (qz 2 * (qz 2 * 1))%Qc. split.
  - transitivity (qz 2 * (qz 2 * half))%Qc; [ring|]. rewrite Hsum. ring.
  - transitivity (qz 2 * (m1 + m2))%Qc; [ring|]. rewrite <- Hsum. apply half_2.
Qed.
Print Assumptions C32_refuted.

(** The hypotheses of the positive theorems are met, with a non-trivial diagram. *)
Example C32_example : (exists g, extract_literals f32 = Ok (g, i32)) /\
  aligned i32 (SDec [(SLit 1, SLit 3); (SLit (-1), SLit (-3))]) /\ is_sdd (SDec [(SLit 1, SLit 3); (SLit (-1), SLit (-3))]).
Proof.
  split; [eexists; vm_compute; reflexivity|]. split; [|by apply (ex31_sdd 1 3 (-3))].
  apply (single_aligned i32 _ "A"%string). intros x Hx. change (x ∈ ["A"; "A"]%string) in Hx.
  apply elem_of_cons in Hx as [?|Hx]; [done|]. by apply elem_of_list_singleton in Hx.
Qed.
(** PySMT terms with if-then-else for comparisons, and exact numbers at a fixed point,
    are such algebras. *)
Example C32_algebra : exists (A : alg (env -> Qc)) den,
  sound_arith (a_real A) (a_symbol A) (a_eq A) (a_mul A) (a_add A) den /\ sound_indicator (a_le A) (a_lt A) den.
Proof.
  exists {| a_real q := fun _ => q; a_symbol x := fun e => er e x; a_eq _ _ := false;
    a_mul a b := fun e => (a e * b e)%Qc; a_add a b := fun e => (a e + b e)%Qc;
    a_le a b := fun e => (if qle (a e) (b e) then 1 else 0)%Qc;
    a_lt a b := fun e => (if qlt (a e) (b e) then 1 else 0)%Qc |}.
  exists (fun a e => Some (a e)). split; split; cbn; try done; by intros a b e x y [= <-] [= <-].
Qed.
