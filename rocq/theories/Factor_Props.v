(** C37: the engine that factorizes weights. *)

From Verif Require Import Print_Proofs.
From Verif Require Import Base Dict Smt Smt_Facts Walk_Model Math_Model Math_Spec Poly_Proofs Linear_Proofs Arith_Proofs.
From Verif Require Import Engine_Spec Lit_Model Lit_Spec Lit_Proofs Lit_Tests Sdd_Model Sdd_Spec Sdd_Proofs Sdd_Example Sdd_Props.
From Verif Require Import Piecewise_Model Piecewise_Spec Piecewise_Props Xsdd_Model Xsdd_Spec Xsdd_Proofs Xsdd_Props.
From Verif Require Import Factor_Model Factor_Spec Factor_Integral Factor_Proofs Factor_Walk Factor_Value Factor_Piece Factor_Term Factor_Volume Factor_Mono Factor_Example.

(** * The groups

    For every polynomial over the given variables the groups are pairwise disjoint,
    contain every variable, and the product of the factors is the polynomial. *)
Theorem C37_groups p reals : NoDup reals -> (forall k q v, (k, q) ∈ p -> v ∈ k -> v ∈ reals) ->
  exists groups, get_variable_groups_poly p reals = Ok groups /\ factorization reals p groups.
Proof.
  intros Hnd H. apply groups_factorization; [done|]. intros v Hv. unfold poly_variables in Hv.
  apply elem_of_remove_dups, elem_of_list_In, in_concat in Hv as (k & Hin & Hk). apply in_map_iff in Hin as ([k' q] & <- & Hin).
  apply elem_of_list_In in Hk, Hin. eauto.
Qed.
Print Assumptions C37_groups.
(** 3 x x y over x, y, z: the groups are those of z, x, y and the constant. *)
Example C37_groups_example : exists groups,
  get_variable_groups_poly [(["x"; "x"; "y"], qz 3)]%string ["x"; "y"; "z"]%string = Ok groups /\
  map fst groups = [["z"]; ["x"]; ["y"]; []]%string /\
  map (poly_val (Env (fun _ => false) (fun _ => qz 2))) (map snd groups) = [qz 1; qz 4; qz 2; qz 3].
Proof.
  eexists. split; [vm_compute; reflexivity|]. split; [reflexivity|].
  vm_compute. repeat (f_equal; try (apply Qc_is_canon; reflexivity)).
Qed.

(** * One polynomial over a compiled support

    [s] is a support that bounds every variable, [node] its diagram, [p] a polynomial.
    Integrating group by group over the diagram gives the joint integral of [p], summed
    over the boolean worlds.  Missing for the full property: labels; diagrams with nodes
    that add two parts with equally many, but different, booleans (there the engine is
    wrong, see below). *)
Theorem C37_term_partial {E : Type} (A : alg E) den (generic : (string -> Qc) -> Prop) fine ae J parse_condition integrate iter s h i mgr own node bools reals ordered p :
  logic_formula s -> extract_literals s = Ok (h, i) ->
  sound_manager (upto (length (Lit_Model.literals i))) mgr own -> (forall n, own n -> trimmed n) ->
  compile_to_sdd mgr h i = Ok node -> live_aligned i node ->
  (forall x, (x, TBool) ∈ syms s -> x ∈ bools) -> (forall x, (x, TReal) ∈ syms s -> x ∈ reals) ->
  (forall r b, generic r -> off_tests (Env b r) s) -> NoDup reals ->
  (forall k q v, (k, q) ∈ p -> v ∈ k -> v ∈ reals) -> (forall v, v ∈ reals -> bounded_in s v) ->
  integration generic fine ae J ->
  sound_arith (a_real A) (a_symbol A) (a_eq A) (a_mul A) (a_add A) den -> parses den parse_condition ->
  integrates den fine ae J integrate -> (forall l, iter l ≡ₚ l) ->
  exists x, piece_factorized A parse_condition integrate iter bools reals ordered p i [] node = Ok x /\
    shows den fine ae (joint J reals (fun r =>
      qsum (map (fun b => truth (Env b r) s) (worlds bools)) * poly_val (Env (fun _ => false) r) p)%Qc) x.
Proof.
  intros Hl He HM Htr Hc Hal HB HR Hg Hnd Hp Hbd HJ HA HP HInt Hit.
  apply (piece_value generic fine ae J HJ A den parse_condition integrate iter HA HP HInt Hit s h i mgr own); try done.
  intros v Hv. unfold poly_variables in Hv.
  apply elem_of_remove_dups, elem_of_list_In, in_concat in Hv as (k & Hin & Hk). apply in_map_iff in Hin as ([k' q] & <- & Hin).
  apply elem_of_list_In in Hk, Hin. eauto.
Qed.
Print Assumptions C37_term_partial.

(** * compute_volume

    For a support [s] that bounds every real variable, and a weight [w] that is not a
    product (products may have labels) and can be split into polynomials: the result is
    the joint integral over the real variables of the sum over the boolean worlds of
    the weight within the support. *)
Theorem C37_volume_partial {E : Type} (A : alg E) den fine ae J parse_condition integrate iter iter_fm mgr own simplify unsat to_float bools reals ordered find s w base p :
  logic_formula s -> weight_function w ->
  (forall x, (x, TBool) ∈ syms s ++ syms w -> x ∈ bools) -> (forall x, (x, TReal) ∈ syms s ++ syms w -> x ∈ reals) ->
  NoDup reals -> (forall v, v ∈ reals -> bounded_in s v) ->
  integration (Xsdd_Spec.generic s w) fine ae J ->
  sound_arith (a_real A) (a_symbol A) (a_eq A) (a_mul A) (a_add A) den -> parses den parse_condition ->
  integrates den fine ae J integrate -> reads den fine ae to_float ->
  (forall l, iter l ≡ₚ l) -> (forall l, iter_fm l ≡ₚ l) ->
  sound_managers mgr own -> (forall i n, own i n -> trimmed n) -> live_compilation mgr bools ->
  sound_simplifier simplify -> keeps_tests simplify -> keeps_variables simplify -> sound_solver unsat ->
  (forall l, w <> TimesN l) -> split_weight simplify true w = Ok p ->
  Forall (fun kc : pkey * fm => is_poly kc.1) p ->
  base_support unsat find s w = Ok base ->
  forall r, compute_volume_factorized A parse_condition integrate iter iter_fm mgr simplify unsat to_float bools reals ordered find false s w =
    Ok (joint J reals (fun r => qsum (map (fun b => integrand s w (Env b r)) (worlds bools))) r).
Proof.
  intros Hs Hw HB HR Hnd Hbd HJ HA HP HInt HT Hit Hitf HM Htr Hal HS HK HKV HU HL Hp HF Hbase.
  apply (volume_factorized A den fine ae J) with (own := own) (base := base) (p := p); try done; [|by apply (split_exclusive simplify w)].
  destruct w; try done. by edestruct HL.
Qed.
Print Assumptions C37_volume_partial.

(** With at most one boolean the diagrams need not be restricted. *)
Theorem C37_single_partial {E : Type} (A : alg E) den fine ae J parse_condition integrate iter iter_fm mgr own simplify unsat to_float bools reals ordered find s w base p :
  logic_formula s -> weight_function w -> length bools <= 1 ->
  (forall x, (x, TBool) ∈ syms s ++ syms w -> x ∈ bools) -> (forall x, (x, TReal) ∈ syms s ++ syms w -> x ∈ reals) ->
  NoDup reals -> (forall v, v ∈ reals -> bounded_in s v) ->
  integration (Xsdd_Spec.generic s w) fine ae J ->
  sound_arith (a_real A) (a_symbol A) (a_eq A) (a_mul A) (a_add A) den -> parses den parse_condition ->
  integrates den fine ae J integrate -> reads den fine ae to_float ->
  (forall l, iter l ≡ₚ l) -> (forall l, iter_fm l ≡ₚ l) ->
  sound_managers mgr own -> (forall i n, own i n -> trimmed n) ->
  sound_simplifier simplify -> keeps_tests simplify -> keeps_variables simplify -> sound_solver unsat ->
  (forall l, w <> TimesN l) -> split_weight simplify true w = Ok p ->
  Forall (fun kc : pkey * fm => is_poly kc.1) p ->
  base_support unsat find s w = Ok base ->
  forall r, compute_volume_factorized A parse_condition integrate iter iter_fm mgr simplify unsat to_float bools reals ordered find false s w =
    Ok (joint J reals (fun r => qsum (map (fun b => integrand s w (Env b r)) (worlds bools))) r).
Proof.
  intros Hs Hw Hlen HB HR Hnd Hbd HJ HA HP HInt HT Hit Hitf HM Htr HS HK HKV HU HL Hp HF Hbase.
  apply (C37_volume_partial A den fine ae J) with (own := own) (base := base) (p := p); try done.
  by apply (single_compilation mgr own).
Qed.
Print Assumptions C37_single_partial.

(** * The hypotheses can be met

    (A or x < 1) and 0 <= x <= 2 and 0 <= y <= 2 with weight ite(A, x y, 3); the integral
    is the midpoint rule with step 1. *)
Definition symy : fm := Sym "y" TReal.
Definition box (v : fm) : list fm := [LeN (RealC 0) v; LeN v (RealC (qz 2))].
Definition s37 : fm := AndN (OrN [symA; lt1] :: box symx ++ box symy).
Definition w37 : fm := IteN symA (TimesN [symx; symy]) (RealC (qz 3)).
Definition grid37 : list Qc := [Q2Qc (1 # 2); Q2Qc (3 # 2)].
Definition bools37 : list string := ["A"%string].
Definition reals37 : list string := ["x"; "y"]%string.
Lemma generic37 : forall r, on_grid grid37 r -> Xsdd_Spec.generic s37 w37 r.
Proof.
  intros r Hr b.
  assert (forall x, r x <> 0%Qc /\ r x <> 1%Qc /\ r x <> qz 2) as H.
  { intros x. specialize (Hr x). unfold grid37 in Hr. apply elem_of_cons in Hr as [->|Hr]; [|apply elem_of_list_singleton in Hr as ->]; split_and!; intros [=]. }
  split.
  - cbn. unfold off. cbn. destruct (H "x"%string) as (X0 & X1 & X2), (H "y"%string) as (Y0 & Y1 & Y2).
    split_and!; try done; eexists _, _; (split; [reflexivity|]); (split; [reflexivity|]); congruence.
  - constructor; [done|constructor].
Qed.
Lemma box_logic v : Forall logic_formula (box (Sym v TReal)).
Proof.
  constructor; [apply lf_le; [apply le_const; constructor|apply le_sym]|].
  constructor; [apply lf_le; [apply le_sym|apply le_const; constructor]|constructor].
Qed.
Lemma s37_logic : logic_formula s37.
Proof.
  assert (logic_formula lt1) by (apply lf_lt; [apply le_sym|apply le_const; constructor]).
  apply lf_and. constructor; [apply lf_or; constructor; [constructor|by constructor]|]. apply Forall_app. split; apply box_logic.
Qed.
Lemma s37_bounded v : v ∈ reals37 -> bounded_in s37 v.
Proof.
  intros Hv. exists (LeN (RealC 0) (Sym v TReal)), (LeN (Sym v TReal) (RealC (qz 2))). split; [constructor|]. split; [constructor|].
  unfold reals37 in Hv. apply elem_of_cons in Hv as [->|Hv]; [|apply elem_of_list_singleton in Hv as ->];
    split; eapply cj_and; try apply cj_here; unfold s37, box; cbn; repeat (first [by left|right]).
Qed.

(** Every hypothesis of C37_single_partial, and the value. *)
Example C37_example : logic_formula s37 /\ weight_function w37 /\
  (forall x, (x, TBool) ∈ syms s37 ++ syms w37 -> x ∈ bools37) /\ (forall x, (x, TReal) ∈ syms s37 ++ syms w37 -> x ∈ reals37) /\
  NoDup reals37 /\ (forall v, v ∈ reals37 -> bounded_in s37 v) /\
  integration (Xsdd_Spec.generic s37 w37) gfine (gae grid37) (gJ grid37) /\
  parses den36 gparse /\ integrates den36 gfine (gae grid37) (gJ grid37) (gint grid37) /\ reads den36 gfine (gae grid37) (gfloat grid37) /\
  sound_managers (mgr37 false) own37 /\ (forall i n, own37 i n -> trimmed n) /\ keeps_tests (fun f => f) /\ keeps_variables (fun f => f) /\
  (exists p, split_weight (fun f => f) true w37 = Ok p /\ length p = 2 /\ Forall (fun kc : pkey * fm => is_poly kc.1) p) /\
  is_ok (base_support (fun _ => false) false s37 w37) = true /\
  compute_volume_factorized alg36 gparse (gint grid37) (fun l => l) (fun l => l) (mgr37 false) (fun f => f) (fun _ => false) (gfloat grid37)
    bools37 reals37 true false false s37 w37 = Ok (qz 10).
Proof.
  split; [exact s37_logic|]. split.
  { split; [repeat constructor; done|]. constructor; [constructor|constructor]. }
  split; [|split].
  1-2: intros x Hx; cbn in Hx; repeat (apply elem_of_cons in Hx; destruct Hx as [Hx|Hx]; [first [discriminate Hx|injection Hx as ->; apply (bool_decide_unpack _); vm_compute; exact I]|]); by apply elem_of_nil in Hx.
  split; [apply (bool_decide_unpack _); vm_compute; exact I|]. split; [exact s37_bounded|].
  assert (grid37 <> []) as Hne by done.
  split; [apply grid_integration; [done|exact generic37]|].
  split; [exact gparse_ok|]. split; [apply (gint_ok grid37 _ Hne generic37)|]. split; [by apply gfloat_ok|].
  split; [apply mgr37_sound|]. split; [apply own37_trimmed|]. split; [by split|]. split; [by intros f x t H|].
  split. { eexists. split; [vm_compute; reflexivity|]. split; [done|]. constructor; [done|]. constructor; [done|constructor]. }
  split; [vm_compute; reflexivity|]. vm_compute. f_equal.
Qed.

(** * Where it fails *)
Definition s37b : fm := AndN (f32 :: box symx).
Lemma generic37b : forall r, on_grid grid37 r -> Xsdd_Spec.generic s37b (RealC 1) r.
Proof.
  intros r Hr b.
  assert (forall x, r x <> 0%Qc /\ r x <> 1%Qc /\ r x <> qz 2) as H.
  { intros x. specialize (Hr x). unfold grid37 in Hr. apply elem_of_cons in Hr as [->|Hr]; [|apply elem_of_list_singleton in Hr as ->]; split_and!; intros [=]. }
  split; [|constructor]. cbn. unfold off. cbn. destruct (H "x"%string) as (X0 & X1 & X2).
  split_and!; try done; eexists _, _; (split; [reflexivity|]); (split; [reflexivity|]); congruence.
Qed.

(** ite(x < 1, A, B) and 0 <= x <= 2, weight 1, and a diagram that decides on x < 1
    before A and B: everything but the alignment holds, and the engine returns half of
    the volume. *)
Theorem C37_refuted :
  let bools := ["A"; "B"]%string in let reals := ["x"%string] in let w := RealC 1 in
  logic_formula s37b /\ weight_function w /\
  (forall x, (x, TBool) ∈ syms s37b ++ syms w -> x ∈ bools) /\ (forall x, (x, TReal) ∈ syms s37b ++ syms w -> x ∈ reals) /\
  NoDup reals /\ (forall v, v ∈ reals -> bounded_in s37b v) /\
  integration (Xsdd_Spec.generic s37b w) gfine (gae grid37) (gJ grid37) /\
  sound_arith (a_real alg36) (a_symbol alg36) (a_eq alg36) (a_mul alg36) (a_add alg36) den36 /\
  parses den36 gparse /\ integrates den36 gfine (gae grid37) (gJ grid37) (gint grid37) /\ reads den36 gfine (gae grid37) (gfloat grid37) /\
  sound_managers (mgr37 true) own37 /\ (forall i n, own37 i n -> trimmed n) /\
  compute_volume_factorized alg36 gparse (gint grid37) (fun l => l) (fun l => l) (mgr37 true) (fun f => f) (fun _ => false) (gfloat grid37)
    bools reals true false false s37b w = Ok (qz 2) /\
  forall r, joint (gJ grid37) reals (fun r => qsum (map (fun b => integrand s37b w (Env b r)) (worlds bools))) r = qz 4.
Proof.
  cbn zeta. split. { apply lf_and. constructor; [apply f32_logic|apply box_logic]. }
  split; [split; constructor|].
  split; [|split].
  1-2: intros x Hx; cbn in Hx; repeat (apply elem_of_cons in Hx; destruct Hx as [Hx|Hx]; [first [discriminate Hx|injection Hx as ->; apply (bool_decide_unpack _); vm_compute; exact I]|]); by apply elem_of_nil in Hx.
  split; [apply (bool_decide_unpack _); vm_compute; exact I|]. split.
  { intros v Hv. apply elem_of_list_singleton in Hv as ->. exists (LeN (RealC 0) symx), (LeN symx (RealC (qz 2))). split; [constructor|].
    split; [constructor|]. split; eapply cj_and; try apply cj_here; unfold s37b, box; cbn; repeat (first [by left|right]). }
  assert (grid37 <> []) as Hne by done.
  split; [apply grid_integration; [done|exact generic37b]|]. split; [apply alg36_sound|].
  split; [exact gparse_ok|]. split; [apply (gint_ok grid37 _ Hne generic37b)|]. split; [by apply gfloat_ok|].
  split; [apply mgr37_sound|]. split; [apply own37_trimmed|].
  split; [vm_compute; f_equal|]. intros r. vm_compute. f_equal.
Qed.
Print Assumptions C37_refuted.
(** The other order of the variables gives the volume. *)
Example C37_refuted_example :
  compute_volume_factorized alg36 gparse (gint grid37) (fun l => l) (fun l => l) (mgr37 false) (fun f => f) (fun _ => false) (gfloat grid37)
    ["A"; "B"]%string ["x"%string] true false false s37b (RealC 1) = Ok (qz 4).
Proof. vm_compute. f_equal. Qed.

(** The weight ite(A, 2, 3) * x has a label for A.  With any support that is a formula
    without A the engine fails with KeyError. *)
Theorem C37_label_refuted {E : Type} (A : alg E) parse_condition integrate iter (iter_fm : list fm -> list fm) mgr own simplify unsat to_float bools reals ordered s :
  logic_formula s -> (forall t, ("A"%string, t) ∉ syms s) -> "x"%string ∈ reals -> NoDup reals ->
  (forall x, (x, TReal) ∈ syms s -> x ∈ reals) -> iter_fm [BoolC true] = [BoolC true] -> sound_managers mgr own ->
  compute_volume_factorized A parse_condition integrate iter iter_fm mgr simplify unsat to_float bools reals ordered false false s
    (TimesN [IteN symA (RealC (qz 2)) (RealC (qz 3)); symx]) = Err KeyError.
Proof.
  intros Hl HA Hx Hnd HR Hit HM. unfold compute_volume_factorized, base_support. cbn [rbind].
  assert (extract_labels_and_weight (TimesN [IteN symA (RealC (qz 2)) (RealC (qz 3)); symx]) =
    Ok ([("A"%string, (RealC (qz 2), RealC (qz 3)))], symx)) as -> by reflexivity. cbn [rbind].
  assert (split_weight simplify false symx = Ok [(KPoly [(["x"%string], 1%Qc)], BoolC true)]) as -> by reflexivity. cbn [rbind].
  unfold volume_from_terms. assert (term_supports [(KPoly [(["x"%string], 1%Qc)], BoolC true)] = Ok [([(["x"%string], 1%Qc)], [BoolC true])]) as -> by reflexivity.
  cbn [rbind fold_left]. unfold term_volume. cbn [fst snd]. rewrite Hit. set (f := AndN [mkOr [BoolC true]; s]).
  assert (logic_formula f) as Hf by (constructor; constructor; [constructor|]; by constructor).
  assert (forall x t, (x, t) ∈ syms f -> (x, t) ∈ syms s) as HB.
  { intros x t H. cbn in H. by rewrite app_nil_r in H. }
  destruct (extract_sem f Hf) as (g & i & Ex & _). rewrite Ex. cbn [rbind].
  destruct (compile_extract f g i (mgr i) (own i) Hf Ex (HM i)) as (node & Ec & _). rewrite Ec. cbn [rbind].
  unfold piece_factorized. destruct (C37_groups [(["x"%string], 1%Qc)] reals Hnd) as (groups & Eg & HF).
  { intros k q v Hk Hv. apply elem_of_list_singleton in Hk as [= -> ->]. by apply elem_of_list_singleton in Hv as ->. }
  rewrite Eg. cbn [rbind].
  assert (exists order, (if ordered then let! o := group_order groups reals in Ok (Some o) else Ok None) = Ok order) as (order & ->).
  { destruct ordered; [|by exists None]. destruct (group_order_ok groups reals (fz_only _ _ _ HF)) as (o & -> & _). by exists (Some o). }
  cbn [rbind].
  destruct (literal_tables _ _ _ _ (grid_integration [0%Qc] (fun _ => True) ltac:(done) ltac:(done)) f Hf g i Ex reals [(["x"%string], 1%Qc)]
    (fun x H => HR x (HB x TReal H)) groups HF) as (l2g & El & _).
  unfold literal_groups in *. destruct (test_groups groups i) as [d|] eqn:Et; [|done]. cbn [rbind fold_left].
  pose proof (extract_table f g i Hf Ex) as T. destruct (to_two _ _ T) as [T1 _].
  assert (dget (booleans i) "A"%string = None) as HN.
  { destruct (dget (booleans i) "A"%string) as [lit|] eqn:E1; [|done]. apply T1 in E1. apply (to_bool _ _ T) in E1. by destruct (HA TBool (HB _ _ E1)). }
  unfold dlookup at 1. cbn [fst]. by rewrite HN.
Qed.
Print Assumptions C37_label_refuted.
Example C37_label_example : let s := AndN (box symx) in logic_formula s /\ (forall t, ("A"%string, t) ∉ syms s) /\
  (forall x, (x, TReal) ∈ syms s -> x ∈ reals37) /\ sound_managers (mgr37 false) own37.
Proof.
  split; [apply lf_and, box_logic|]. split; [|split].
  - intros t Hx. cbn in Hx. repeat (apply elem_of_cons in Hx; destruct Hx as [Hx|Hx]; [discriminate Hx|]). by apply elem_of_nil in Hx.
  - intros x Hx. cbn in Hx. repeat (apply elem_of_cons in Hx; destruct Hx as [Hx|Hx]; [injection Hx as ->; by left|]). by apply elem_of_nil in Hx.
  - apply mgr37_sound.
Qed.
