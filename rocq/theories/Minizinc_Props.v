(** C65: importing a MiniZinc file. *)

From Verif Require Import Base Smt Dict Xadd_Model Smtlib_Model Smtlib_Proofs.
From Verif Require Import Minizinc_Model Minizinc_Spec Minizinc_Proofs.

(** * A simplifier for the examples: it computes formulas without variables *)

Definition e0 : env := Env (fun _ => false) (fun _ => 0%Qc).
Definition fold_closed (f : fm) : fm :=
  match free_vars f with
  | [] =>
      match typeof f, eval e0 f with
      | Some TReal, Some (VN q) => RealC q
      | Some TReal, _ => RealC 0
      | Some TInt, Some (VN q) => IntC (Qnum (this q))
      | Some TInt, _ => IntC 0
      | _, _ => f
      end
  | _ => f
  end.

Lemma closed_eval e e' f : free_vars f = [] -> eval e f = eval e' f.
Proof.
  assert (forall (A : Type) (g : fm -> option A) (g' : fm -> option A) l, Forall (fun f => free_vars f = [] -> g f = g' f) l ->
    concat (map free_vars l) = [] -> mapM g l = mapM g' l) as HM.
  { intros A g g' l HF. induction HF as [|f' l Hf HF IH]; [done|]. cbn [map concat]. intros Hc. apply app_nil in Hc as [H1 H2].
    cbn [mapM]. unfold mapM. cbn. rewrite (Hf H1). fold (mapM g l). fold (mapM g' l). by rewrite (IH H2). }
  induction f as [n t|b|q|z|l IH|l IH|g IH|g h IHg IHh|g h IHg IHh|c g h IHc IHg IHh|l IH|g h IHg IHh|l IH|g h IHg IHh|g h IHg IHh|
    g h IHg IHh|g h IHg IHh|g IH|g IH] using fm_ind'; cbn [free_vars eval]; intros Hf; try done.
  all: try (f_equal; apply HM; [|done]; eapply Forall_impl; [exact IH|]; intros g Hg Hc; by rewrite (Hg Hc)).
  all: repeat match goal with H : _ ++ _ = [] |- _ => apply app_nil in H as [? ?] end.
  all: by rewrite ?IH, ?IHc, ?IHg, ?IHh by done.
Qed.

Definition integral (q : Qc) : Prop := q = qz (Qnum (this q)).
Lemma qz_num z : Qnum (this (qz z)) = z.
Proof.
  pose proof (Qred_correct (inject_Z z)) as H. unfold qz. cbn [this Q2Qc]. unfold Qred, inject_Z. cbn.
  pose proof (Z.ggcd_gcd z 1) as Hg. pose proof (Z.ggcd_correct_divisors z 1) as Hd. rewrite Z.gcd_1_r in Hg.
  destruct (Z.ggcd z 1) as [g [a b]]. cbn in *. destruct Hd as [Ha Hb]. subst g. rewrite Z.mul_1_l in *. by subst.
Qed.
Lemma integral_qz z : integral (qz z).
Proof. unfold integral. by rewrite qz_num. Qed.
Lemma integral_add x y : integral x -> integral y -> integral (x + y).
Proof.
  unfold integral at 1 2. intros -> ->. replace (qz _ + qz _)%Qc with (qz (Qnum (this x) + Qnum (this y))) by
    (apply Qc_is_canon; unfold qz, Qcplus; cbn [this Q2Qc]; by rewrite !Qred_correct, inject_Z_plus). apply integral_qz.
Qed.
Lemma integral_mul x y : integral x -> integral y -> integral (x * y).
Proof.
  unfold integral at 1 2. intros -> ->. replace (qz _ * qz _)%Qc with (qz (Qnum (this x) * Qnum (this y))) by
    (apply Qc_is_canon; unfold qz, Qcmult; cbn [this Q2Qc]; by rewrite !Qred_correct, inject_Z_mult). apply integral_qz.
Qed.
Lemma integral_opp x : integral x -> integral (- x).
Proof.
  unfold integral at 1. intros ->. replace (- qz _)%Qc with (qz (- Qnum (this x))) by
    (apply Qc_is_canon; unfold qz, Qcopp; cbn [this Q2Qc]; by rewrite !Qred_correct, inject_Z_opp). apply integral_qz.
Qed.
Lemma integral_pow x n : integral x -> integral (qpow x n).
Proof. intros Hx. induction n as [|n IH]; cbn [qpow]; [apply (integral_qz 1)|by apply integral_mul]. Qed.

Lemma closed_int f : free_vars f = [] -> typeof f = Some TInt -> forall e q, eval e f = Some (VN q) -> integral q.
Proof.
  induction f as [n t|b|q|z|l IH|l IH|g IH|g h IHg IHh|g h IHg IHh|c g h IHc IHg IHh|l IH|g h IHg IHh|l IH|g h IHg IHh|g h IHg IHh|
    g h IHg IHh|g h IHg IHh|g IH|g IH] using fm_ind'; cbn [free_vars typeof eval]; intros Hf Ht e q' He; try done.
  all: try (by destruct (bool_decide _); try done; destruct (bool_decide _)).
  all: try (by destruct (all_ty _ _)).
  all: try (by destruct (nary_num _)).
  - injection He as <-. apply integral_qz.
  - apply app_nil in Hf as [H1 Hf]. apply app_nil in Hf as [H2 H3]. destruct (bool_decide (typeof c = Some TBool)); [|done].
    destruct (bool_decide_reflect (typeof g = typeof h)) as [Eq|]; [|done]. cbn in Ht.
    destruct (vbool (eval e c)) as [b|]; [|done]. destruct (eval e g) as [vg|] eqn:Eg; [|done]. destruct (eval e h) as [vh|] eqn:Eh; [|done].
    cbn in He. destruct vg as [|qg], vh as [|qh]; try done. assert (q' = if b then qg else qh) as -> by (cbn in He; congruence).
    destruct b; [by eapply IHg|]. eapply IHh; [done| |exact Eh]. congruence.
  - apply nary_num_Forall in Ht as (_ & _ & HF). destruct (mapM _ l) as [qs|] eqn:Em; [|done]. cbn in He.
    assert (q' = qsum qs) as -> by congruence. clear He. apply mapM_Forall2_vnum in Em. revert Hf IH HF. induction Em as [|f x l qs Hx Em IHm]; intros Hf IH HF.
    { apply (integral_qz 0). }
    cbn [map concat] in Hf. apply app_nil in Hf as [H1 H2]. inversion IH; inversion HF; subst. cbn [qsum]. apply integral_add; [eauto|].
    by apply IHm.
  - pose proof (nary_num_Forall [g; h] TInt Ht) as (_ & _ & HF). inversion HF as [|? ? T1 HF']; subst. inversion HF' as [|? ? T2 ?]; subst.
    apply app_nil in Hf as [H1 H2]. destruct (eval e g) as [[|x]|] eqn:Eg; try done. destruct (eval e h) as [[|y]|] eqn:Eh; try done. cbn in He.
    assert (q' = x - y)%Qc as -> by congruence. unfold Qcminus. apply integral_add; [by eapply IHg|]. apply integral_opp. by eapply IHh.
  - apply nary_num_Forall in Ht as (_ & _ & HF). destruct (mapM _ l) as [qs|] eqn:Em; [|done]. cbn in He.
    assert (q' = qprod qs) as -> by congruence. clear He. apply mapM_Forall2_vnum in Em. revert Hf IH HF. induction Em as [|f x l qs Hx Em IHm]; intros Hf IH HF.
    { apply (integral_qz 1). }
    cbn [map concat] in Hf. apply app_nil in Hf as [H1 H2]. inversion IH; inversion HF; subst. cbn [qprod]. apply integral_mul; [eauto|].
    by apply IHm.
  - pose proof (nary_num_Forall [g; h] TInt Ht) as (_ & _ & HF). inversion HF as [|? ? T1 HF']; subst.
    apply app_nil in Hf as [H1 H2]. destruct (eval e g) as [[|x]|] eqn:Eg; try done. destruct (eval e h) as [[|y]|] eqn:Eh; try done. cbn in He.
    destruct (nat_of_qc y) as [n|]; [|done]. cbn in He. assert (q' = qpow x n)%Qc as -> by congruence. apply integral_pow. by eapply IHg.
  - by destruct (typeof g) as [[]|].
Qed.

Lemma fold_closed_value : keeps_value fold_closed.
Proof.
  intros e f v He. unfold fold_closed. destruct (free_vars f) eqn:Ef; [|done]. destruct (typeof f) as [[]|] eqn:Et; try done.
  all: rewrite (closed_eval e e0 f Ef) in He; rewrite He.
  - pose proof (typeof_kind f _ _ _ Et He) as Hk. by destruct v.
  - pose proof (typeof_kind f _ _ _ Et He) as Hk. destruct v as [|q]; [done|]. cbn [eval]. do 2 f_equal.
    symmetry. by apply (closed_int f Ef Et e0 q).
Qed.
Lemma fold_closed_type : keeps_type fold_closed.
Proof.
  intros f t Ht. unfold fold_closed. destruct (free_vars f); [|done]. rewrite Ht. destruct t; try done; by destruct (eval e0 f) as [[]|].
Qed.
Lemma fold_closed_folds : folds fold_closed.
Proof.
  intros f t Hf Ht Hn. unfold fold_closed. rewrite Hf, Ht. destruct t; try done; by destruct (eval e0 f) as [[]|].
Qed.

(** * What an accepted file means *)

(** If the file is accepted, then for every assignment of the decision variables the
    file, with its includes replaced by the items of the files, has a meaning.  The
    booleans are the boolean decision variables; the numbers are the other decision
    variables, with their intervals; the support is true exactly when all constraints
    and all equations of initialised variables hold; the weight is the product of the
    weights of the file (1 if there is none); the queries have the values they have in
    the file. *)
Theorem C65_meaning : forall fl simp files fuel its r,
  keeps_value simp -> parse_minizinc fl simp files fuel its = Ok r ->
  exists flat, expands files its flat /\ forall e, exists o, runs fl e no_names flat o /\
    mi_bools r = map (fun x => Sym x TBool) (o_bools o) /\
    Forall2 number_is (mi_reals r) (o_numbers o) /\
    eval e (mi_support r) = Some (VB (forallb id (o_support o))) /\
    eval e (mi_weight r) = Some (VN (qprod (o_weights o))) /\
    Forall2 (fun f b => eval e f = Some (VB b)) (mi_queries r) (o_queries o).
Proof. intros fl simp files fuel its r Hs H. by eapply parse_meaning. Qed.
Print Assumptions C65_meaning.

(** The meaning of a file is unique. *)
Theorem C65_unique :
  (forall files its flat flat', expands files its flat -> expands files its flat' -> flat = flat') /\
  (forall fl e rho its o o', runs fl e rho its o -> runs fl e rho its o' -> o = o').
Proof.
  split.
  - intros files its flat flat' H1 H2. by eapply expands_unique.
  - intros fl e rho its o o' H1 H2. by eapply runs_unique.
Qed.
Print Assumptions C65_unique.

(** Every well-typed file without includes is accepted. *)
Theorem C65_accepts_partial : forall fl simp files fuel its,
  keeps_type simp -> folds simp -> well_typed fl no_ctx false its ->
  exists r, parse_minizinc fl simp files (S fuel) its = Ok r.
Proof. intros fl simp files fuel its H1 H2 H. by apply parse_accepts. Qed.
Print Assumptions C65_accepts_partial.

Definition half : Qc := Q2Qc (1 # 2).
Definition ex_included : list item :=
  [ IVar true (TyRange (MUn UMinus (MInt 3)) (MBin OPlus (MInt 4) (MInt 1))) "k" false None;
    IConstraint (MBin OImpl (MId "a") (MBin OLe (MId "x") (MId "k"))) ].
Definition ex_plain : list item :=
  [ IVar false TyInt "n" false (Some (MInt 2));
    IVar false TyFloat "s" false None;
    IAssign "s" (MBin ODiv (MId "n") (MInt 4));
    IVar true TyBool "a" false None;
    IVar true (TyRange (MInt 0) (MFloat half)) "x" false None;
    IVar true TyFloat "y" false (Some (MBin OMinus (MId "x") (MId "s")));
    IConstraint (MIf [MId "a"; MBin OGt (MId "x") (MInt 0); MUn UNot (MId "a"); MBin ONq (MId "x") (MId "n"); MBool false]);
    IWeight (MIf [MId "a"; MId "n"; MBin OMult (MId "x") (MId "x")]);
    IQuery (MBin OXor (MId "a") (MBin OLt (MId "x") (MId "y"))) ].
Definition ex_files (f : string) : option (list item) := if decide (f = "inc.mzn"%string) then Some ex_included else None.

Example C65_meaning_nonvacuous : exists r,
  parse_minizinc id fold_closed ex_files 2 (ex_plain ++ [IInclude "inc.mzn"]) = Ok r /\
  keeps_value fold_closed /\ length (mi_reals r) = 3%nat /\ length (mi_queries r) = 1%nat.
Proof.
  eexists. split; [vm_compute; reflexivity|]. split; [exact fold_closed_value|]. by split.
Qed.

Lemma ta_eq fl G t g g' : typed_as fl G t g' -> g' = g -> typed_as fl G t g.
Proof. by intros H <-. Qed.
Ltac mem := apply (bool_decide_eq_true_1 _); vm_compute; reflexivity.
Global Instance mop_eq_dec : EqDecision mop.
Proof. solve_decision. Defined.

Example C65_accepts_nonvacuous : well_typed id no_ctx false ex_plain /\ keeps_type fold_closed /\ folds fold_closed.
Proof.
  split; [|split; [exact fold_closed_type|exact fold_closed_folds]].
  unfold ex_plain. eapply wt_par_is; [constructor|done|constructor|by intros x k Hx%elem_of_nil|by left|].
  eapply wt_par; [constructor|done|].
  eapply (wt_assign _ _ _ GFloat _ _ GFloat); [reflexivity| | |by left|].
  { eapply (ta_div _ _ _ _ GInt); [|done|done]. by apply (ta_id _ _ "n" (Known GInt false true)). }
  { intros x k Hx Hk. cbn in Hx. apply elem_of_list_singleton in Hx as ->. vm_compute in Hk. by injection Hk as <-. }
  eapply wt_var; [constructor|done|].
  eapply wt_var; [constructor; done|done|].
  set (G := set_ctx _ "x" _).
  assert (forall x k, G x = Some k -> k_set k = true -> typed_as id G (MId x) (k_type k)) as Hid by (intros; by eapply ta_id).
  eapply wt_var_is with (h := join GFloat GFloat); [constructor|done| |by left|].
  { apply ta_arith; [mem| | |done|done].
    - by apply (Hid "x" (Known GFloat true true)).
    - by apply (Hid "s" (Known GFloat false true)). }
  set (G' := set_ctx _ "y" _). clear Hid.
  assert (forall x k, G' x = Some k -> k_set k = true -> typed_as id G' (MId x) (k_type k)) as Hid by (intros; by eapply ta_id).
  pose proof (Hid "a" (Known GBool true true) eq_refl eq_refl) as Ha. pose proof (Hid "x" (Known GFloat true true) eq_refl eq_refl) as Hx.
  pose proof (Hid "n" (Known GInt false true) eq_refl eq_refl) as Hn. pose proof (Hid "y" (Known GFloat true true) eq_refl eq_refl) as Hy.
  cbn in Ha, Hx, Hn, Hy. apply wt_constraint.
  { eapply ta_eq; [eapply (ta_elseif _ _ _ _ _ GBool GBool); [exact Ha| | |by left]|done].
    - by eapply (ta_compare _ _ _ _ _ GFloat GInt); [mem|exact Hx|constructor| |].
    - eapply ta_eq; [eapply (ta_if _ _ _ _ _ GBool GBool); [by apply ta_not| |constructor|by left]|done].
      by eapply (ta_compare _ _ _ _ _ GFloat GInt); [mem|exact Hx|exact Hn| |]. }
  eapply (wt_weight _ _ _ (join GInt GFloat)); [|done|].
  { eapply ta_if; [exact Ha|exact Hn| |by right]. eapply ta_eq; [eapply (ta_arith _ _ _ _ _ GFloat GFloat); [mem|exact Hx|exact Hx|done|done]|done]. }
  apply wt_query; [|constructor].
  apply ta_bool; [mem|exact Ha|]. by eapply (ta_compare _ _ _ _ _ GFloat GFloat); [mem|exact Hx|exact Hy| |].
Qed.

(** Without includes there is at most one weight. *)
Definition weight_items (its : list item) : list mexpr := concat (map (fun it => match it with IWeight t => [t] | _ => [] end) its).
Lemma one_weight fl simp files fuel its : (forall f, IInclude f ∉ its) -> forall s s', visit_items fl simp files (S fuel) s its = Ok s' ->
  match ms_weight s with Some _ => weight_items its = [] | None => (length (weight_items its) <= 1)%nat end.
Proof.
  induction its as [|it its IH]; intros Hno s s' H; [destruct (ms_weight s); [done|cbn; lia]|]. rewrite visit_items_cons in H. apply bind_ok in H as (s1 & H1 & H).
  assert (forall f, IInclude f ∉ its) as Hno' by (intros f Hf; apply (Hno f); by right). specialize (IH Hno' s1 s' H).
  assert ((exists t, it = IWeight t /\ ms_weight s = None /\ ms_weight s1 <> None) \/ ((forall t, it <> IWeight t) /\ ms_weight s1 = ms_weight s)) as Hc.
  { destruct it as [var ty x ann t|x t|t|t|t|f|]; cbn [step] in H1; try done.
    - right; split; [done|]. unfold visit_decl in H1. apply bind_ok in H1 as (a & Ha & H1). destruct ann; [done|]. destruct (dget _ x); [done|].
      apply bind_ok in H1 as (v & Hv & H1). destruct var; [|by injection H1 as <-].
      apply bind_ok in H1 as (u & Hu & H1). apply bind_ok in H1 as (w & Hw & H1). by injection H1 as <-.
    - right; split; [done|]. unfold visit_assign in H1. apply bind_ok in H1 as (a & Ha & H1). destruct (dget _ x) as [en|]; [|done]. destruct (e_value en); [done|].
      apply bind_ok in H1 as (v & Hv & H1). by injection H1 as <-.
    - right; split; [done|]. unfold visit_constraint in H1. apply bind_ok in H1 as (a & Ha & H1). destruct (decide _); [|done]. by injection H1 as <-.
    - left; exists t. split; [done|]. unfold visit_weight in H1. apply bind_ok in H1 as (a & Ha & H1). destruct (ms_weight s); [done|].
      apply bind_ok in H1 as (v & Hv & H1). by injection H1 as <-.
    - right; split; [done|]. unfold visit_query in H1. apply bind_ok in H1 as (a & Ha & H1). destruct (decide _); [|done]. by injection H1 as <-.
    - exfalso. apply (Hno f). by left. }
  destruct Hc as [(t & -> & Hs & Hs1)|[Hn Hs1]].
  - rewrite Hs. destruct (ms_weight s1); [|done]. unfold weight_items in *. cbn. rewrite IH. cbn. lia.
  - assert (weight_items (it :: its) = weight_items its) as -> by (destruct it as [| | |t| | |]; try done; by destruct (Hn t)).
    by rewrite <- Hs1.
Qed.
Theorem C65_one_weight : forall fl simp files fuel its r,
  (forall f, IInclude f ∉ its) -> parse_minizinc fl simp files fuel its = Ok r -> (length (weight_items its) <= 1)%nat.
Proof.
  intros fl simp files fuel its r Hno H. unfold parse_minizinc in H. apply bind_ok in H as (s & Hs & _). destruct fuel as [|fuel]; [done|].
  exact (one_weight fl simp files fuel its Hno _ _ Hs).
Qed.
Print Assumptions C65_one_weight.
Example C65_one_weight_nonvacuous : (forall f, IInclude f ∉ ex_plain) /\
  (exists r, parse_minizinc id fold_closed ex_files 1 ex_plain = Ok r) /\ length (weight_items ex_plain) = 1%nat.
Proof.
  split; [|split; [eexists; vm_compute; reflexivity|done]]. intros f Hf. unfold ex_plain in Hf.
  repeat (apply elem_of_cons in Hf as [Hf|Hf]; [done|]). by apply elem_of_nil in Hf.
Qed.

(** No decision variable is declared twice, in the file or in the files it includes. *)
Definition decl_names (s : mstate) : list string := map sym_name (ms_bools s) ++ map sym_name (dkeys (ms_reals s)).
Definition dinv (s : mstate) : Prop := NoDup (decl_names s) /\ forall x, x ∈ decl_names s -> x ∈ dkeys (ms_vars s).
Lemma dset_keys {A} (k : A -> string) (v : A -> mentry) l : forall d x, x ∈ dkeys d \/ x ∈ map k l ->
  x ∈ dkeys (fold_left (fun d b => dset d (k b) (v b)) l d).
Proof.
  induction l as [|b l IH]; intros d x H; cbn; [destruct H as [H|H]; [done|by apply elem_of_nil in H]|]. apply IH. rewrite dkeys_dset.
  destruct H as [H|H]; [left; case_decide; [done|]; apply elem_of_app; by left|]. cbn in H. apply elem_of_cons in H as [->|H]; [|by right].
  left. case_decide; [done|]. apply elem_of_app. right. by left.
Qed.
Lemma minit_dinv s w : dinv s -> dinv (minit (ms_bools s) (ms_reals s) w).
Proof.
  intros [H1 H2]. split; [done|]. intros x Hx. unfold minit. cbn [ms_vars]. unfold decl_names in Hx. cbn in Hx. apply elem_of_app in Hx as [Hx|Hx].
  - apply (dset_keys (fun r => sym_name (fst r)) (fun r => ME (Some (fst r)) GFloat true)). left.
    apply (dset_keys sym_name (fun b => ME (Some b) GBool true)). by right.
  - apply (dset_keys (fun r => sym_name (fst r)) (fun r => ME (Some (fst r)) GFloat true)). right. unfold dkeys in Hx. by rewrite map_map in Hx.
Qed.
Lemma same_dinv s s' : ms_bools s' = ms_bools s -> ms_reals s' = ms_reals s -> (forall x, x ∈ dkeys (ms_vars s) -> x ∈ dkeys (ms_vars s')) -> dinv s -> dinv s'.
Proof. intros E1 E2 Hk [H1 H2]. unfold dinv, decl_names in *. rewrite E1, E2. split; [done|]. intros x Hx. by apply Hk, H2. Qed.
Lemma items_dinv fl simp files fuel : forall s its s', visit_items fl simp files fuel s its = Ok s' -> dinv s -> dinv s'.
Proof.
  induction fuel as [|fuel IHf]; intros s its s' H; [done|]. revert s H. induction its as [|it its IH]; intros s H HI; [by injection H as <-|].
  rewrite visit_items_cons in H. apply bind_ok in H as (s1 & H1 & H). apply (IH s1 H). clear IH H.
  assert (forall x v, forall y, y ∈ dkeys (ms_vars s) -> y ∈ dkeys (dset (ms_vars s) x v)) as Hk.
  { intros x v y Hy. rewrite dkeys_dset. case_decide; [done|]. apply elem_of_app. by left. }
  destruct it as [var ty x ann t|x t|t|t|t|f|]; cbn [step] in H1; try done.
  - unfold visit_decl in H1. apply bind_ok in H1 as ([g r] & Ha & H1). destruct ann; [done|]. destruct (dget _ x) eqn:Ex; [done|]. apply dget_None in Ex.
    apply bind_ok in H1 as (v & Hv & H1). destruct var; [|by injection H1 as <-; eapply same_dinv; [..|exact HI]; try done; apply Hk].
    apply bind_ok in H1 as (u & Hu & H1). apply bind_ok in H1 as (w & Hw & H1). injection H1 as <-. cbn [fst snd] in *.
    destruct HI as [HN HV]. assert (x ∉ decl_names s) as Hx by (intros Hin; by apply Ex, HV).
    assert (x ∈ dkeys (dset (ms_vars s) x (ME (Some (Sym x (sort_of g))) g true))) as Hxx.
    { rewrite dkeys_dset. case_decide; [done|]. apply elem_of_app. right. by left. }
    assert (Sym x (sort_of g) ∉ dkeys (ms_reals s)) as Hy.
    { intros Hin. apply Hx. apply elem_of_app. right. apply elem_of_list_fmap. by exists (Sym x (sort_of g)). }
    destruct (decide (g = GBool)) as [->|Hg].
    + assert (u = ms_reals s \/ exists a b, u = dset (ms_reals s) (Sym x TBool) (Some a, Some b)) as Hu'.
      { destruct r as [[lo hi]|]; [|left; by injection Hu as <-]. apply bind_ok in Hu as (a & _ & Hu). apply bind_ok in Hu as (b & _ & Hu). right.
        injection Hu as <-. by exists a, b. }
      assert (r = None) as ->.
      { destruct ty; cbn in Ha; try (injection Ha as <-; done); try done. apply bind_ok in Ha as (a & _ & Ha). apply bind_ok in Ha as (b & _ & Ha).
        apply bind_ok in Ha as (ab & _ & Ha). destruct ab as [[a' b']|]; [|done]. destruct (decide (m_type a' = GBool)); [done|]. congruence. }
      injection Hu as <-. clear Hu'. split.
      * unfold decl_names in *. cbn. rewrite map_app. cbn. rewrite <- app_assoc. apply NoDup_app in HN as (N1 & N2 & N3).
        rewrite elem_of_app in Hx. apply NoDup_app. split; [done|]. split.
        -- intros z Hz Hz'. apply elem_of_app in Hz' as [Hz'|Hz']; [apply elem_of_list_singleton in Hz' as ->; tauto|]. by apply (N2 z).
        -- apply NoDup_app. split; [apply NoDup_singleton|]. split; [|done]. intros z Hz%elem_of_list_singleton Hz'. subst z. tauto.
      * intros y Hyin. unfold decl_names in Hyin. cbn in Hyin. rewrite map_app in Hyin. cbn in Hyin. rewrite <- app_assoc in Hyin.
        rewrite !elem_of_app, elem_of_list_singleton in Hyin. cbn. destruct Hyin as [Hyin|[->|Hyin]]; [|done|]; apply Hk, HV, elem_of_app; auto.
    + assert (dkeys u = dkeys (ms_reals s) ++ [Sym x (sort_of g)]) as Ek.
      { assert (forall p q, dkeys (dset (dset (ms_reals s) (Sym x (sort_of g)) p) (Sym x (sort_of g)) q) = dkeys (ms_reals s) ++ [Sym x (sort_of g)] /\
          dkeys (dset (ms_reals s) (Sym x (sort_of g)) p) = dkeys (ms_reals s) ++ [Sym x (sort_of g)]) as Hd.
        { intros p q. rewrite dkeys_dset. rewrite (dkeys_dset (ms_reals s)). rewrite (decide_False (P := _ ∈ dkeys (ms_reals s))) by done.
          rewrite decide_True; [done|]. apply elem_of_app. right. by left. }
        destruct g; [done|..]; (destruct r as [[lo hi]|]; [|injection Hu as <-; by apply (Hd _ (None, None))]; apply bind_ok in Hu as (a & _ & Hu);
          apply bind_ok in Hu as (b & _ & Hu); injection Hu as <-; apply Hd). }
      assert (forall z, z ∈ decl_names s -> z ∈ dkeys (dset (ms_vars s) x (ME (Some (Sym x (sort_of g))) g true))) as HV' by (intros z Hz; by apply Hk, HV).
      assert (match g with GBool => ms_bools s ++ [Sym x (sort_of g)] | _ => ms_bools s end = ms_bools s) as -> by (by destruct g). split.
      * unfold decl_names in *. cbn [ms_bools ms_reals]. rewrite Ek, map_app, app_assoc. cbn [map sym_name]. apply NoDup_app. split; [done|]. split; [|apply NoDup_singleton].
        intros z Hz Hz'. apply elem_of_list_singleton in Hz' as ->. done.
      * intros z Hz. unfold decl_names in Hz. cbn [ms_bools ms_reals] in Hz. rewrite Ek, map_app, app_assoc in Hz. cbn [map sym_name] in Hz.
        apply elem_of_app in Hz as [Hz|Hz]; [by apply HV'|]. apply elem_of_list_singleton in Hz as ->. done.
  - unfold visit_assign in H1. apply bind_ok in H1 as (a & Ha & H1). destruct (dget _ x) as [en|]; [|done]. destruct (e_value en); [done|].
    apply bind_ok in H1 as (v & Hv & H1). injection H1 as <-. eapply same_dinv; [..|exact HI]; try done. apply Hk.
  - unfold visit_constraint in H1. apply bind_ok in H1 as (a & Ha & H1). destruct (decide _); [|done]. injection H1 as <-. done.
  - unfold visit_weight in H1. apply bind_ok in H1 as (a & Ha & H1). destruct (ms_weight s); [done|]. apply bind_ok in H1 as (v & Hv & H1). by injection H1 as <-.
  - unfold visit_query in H1. apply bind_ok in H1 as (a & Ha & H1). destruct (decide _); [|done]. injection H1 as <-. done.
  - destruct (files f) as [its'|]; [|done]. apply bind_ok in H1 as (t & Ht & H1). apply bind_ok in H1 as (r & Hr & H1). injection H1 as <-.
    eapply (same_dinv t); [done|done|done|]. eapply IHf; [exact Ht|]. by apply minit_dinv.
Qed.
Theorem C65_distinct : forall fl simp files fuel its r, parse_minizinc fl simp files fuel its = Ok r ->
  NoDup (map sym_name (mi_bools r) ++ map sym_name (map fst (mi_reals r))).
Proof.
  intros fl simp files fuel its r H. unfold parse_minizinc in H. apply bind_ok in H as (s & Hs & H). apply bind_ok in H as (q & Hq & H). injection H as <-.
  apply (items_dinv fl simp files fuel _ _ _ Hs). split; [constructor|]. intros x Hx. by apply elem_of_nil in Hx.
Qed.
Print Assumptions C65_distinct.
Example C65_distinct_nonvacuous : exists r, parse_minizinc id fold_closed ex_files 1 ex_plain = Ok r /\
  map sym_name (mi_bools r) = ["a"] /\ map sym_name (map fst (mi_reals r)) = ["x"; "y"].
Proof. eexists. split; [vm_compute; reflexivity|done]. Qed.

(** * What is refused or accepted wrongly *)

(** An equation between numbers has a meaning and is refused: = is always read as the
    equivalence of booleans. *)
Definition equation : list item := [IVar true TyFloat "x" false None; IConstraint (MBin OEq (MId "x") (MInt 1))].
Theorem C65_equation_refuted : forall fl simp files fuel,
  (forall e, exists o, runs fl e no_names equation o) /\
  parse_minizinc fl simp files (S fuel) equation = Err PysmtTypeError.
Proof.
  intros fl simp files fuel. split; [|done]. intros e. eexists. eapply r_var; [constructor|]. eapply r_constraint; [|constructor].
  eapply mm_bin; [by constructor|constructor|constructor].
Qed.
Print Assumptions C65_equation_refuted.

(** In general: an equation between two numeric expressions is never accepted. *)
Theorem C65_no_equations : forall fl vars G l r g h,
  table_knows vars G -> typed_as fl G l g -> typed_as fl G r h -> num g -> num h ->
  visit fl vars (MBin OEq l r) = Err PysmtTypeError.
Proof.
  intros fl vars G l r g h HT Hl Hr Ng Nh. destruct (visit_accepts fl _ _ _ _ HT Hl) as (a & Va & Ea & Ta & _).
  destruct (visit_accepts fl _ _ _ _ HT Hr) as (b & Vb & Eb & Tb & _). cbn [visit]. rewrite Va, Vb. cbn [rbind].
  destruct (mcast_accepts a b Ea Eb) as (a' & b' & -> & Ea' & Eb' & Ta' & Tb' & _); [rewrite Ta, Tb; by right|]. cbn [rbind bin_value].
  rewrite Ta, Tb in Ta'. assert (num (join g h)) as Nj by (unfold join; by destruct (decide (g = h))).
  unfold exact in Ea'. rewrite Ta' in Ea'. unfold chk. cbn [typeof]. rewrite Ea'.
  rewrite bool_decide_false; [done|]. intros [= Hs]. by destruct (sort_num _ Nj).
Qed.
Print Assumptions C65_no_equations.
Example C65_no_equations_nonvacuous : table_knows [] no_ctx /\ typed_as id no_ctx (MBin OPlus (MInt 1) (MInt 2)) GInt.
Proof. split; [by intros x|]. eapply ta_eq; [eapply (ta_arith _ _ _ _ _ GInt GInt); [mem|constructor|constructor|done|done]|done]. Qed.

(** Unequal booleans: != is always read as a comparison of numbers. *)
Definition unequal : list item := [IVar true TyBool "a" false None; IConstraint (MBin ONq (MId "a") (MBool true))].
Theorem C65_unequal_refuted : forall fl simp files fuel,
  (forall e, exists o, runs fl e no_names unequal o) /\
  parse_minizinc fl simp files (S fuel) unequal = Err PysmtTypeError.
Proof.
  intros fl simp files fuel. split; [|done]. intros e. eexists. eapply r_var; [constructor|]. eapply r_constraint; [|constructor].
  eapply mm_bin; [by constructor|constructor|constructor].
Qed.
Print Assumptions C65_unequal_refuted.

(** Assigning a decision variable in a separate item has a meaning and is refused. *)
Definition assigned : list item := [IVar true TyFloat "x" false None; IAssign "x" (MFloat half)].
Theorem C65_assign_refuted : forall fl simp files fuel,
  (forall e, exists o, runs fl e no_names assigned o) /\
  parse_minizinc fl simp files (S fuel) assigned = Err ParsingError.
Proof.
  intros fl simp files fuel. split; [|done]. intros e. eexists. eapply r_var; [constructor|].
  eapply r_assign_var; [done|constructor|constructor].
Qed.
Print Assumptions C65_assign_refuted.

(** A parameter is unknown after an include, and within the included file. *)
Definition constants_kept (simp : fm -> fm) : Prop := forall f, is_const f = true -> simp f = f.
Example constants_kept_case : constants_kept fold_closed \/ constants_kept id.
Proof. by right. Qed.
Definition empty_file (f : string) : option (list item) := Some [].
Definition after_include : list item :=
  [IVar false TyInt "n" false (Some (MInt 2)); IInclude "empty.mzn"; IConstraint (MBin OLt (MId "n") (MInt 3))].
Theorem C65_parameter_refuted : forall fl simp fuel, constants_kept simp ->
  (exists flat, expands empty_file after_include flat /\ forall e, exists o, runs fl e no_names flat o) /\
  parse_minizinc fl simp empty_file (S (S fuel)) after_include = Err ParsingError.
Proof.
  intros fl simp fuel Hs. split.
  - eexists. split.
    { apply ex_item; [done|]. eapply ex_include; [reflexivity|constructor|]. apply ex_item; [done|constructor]. }
    intros e. eexists. eapply r_par_is; [constructor|]. cbn [app]. eapply r_constraint; [|constructor].
    eapply mm_bin; [by constructor|constructor|constructor].
  - done.
Qed.
Print Assumptions C65_parameter_refuted.

(** An integer variable counts as real after an include: comparing it with a real is then
    ill typed. *)
Definition int_compared (inc : list item) : list item :=
  [IVar true TyInt "k" false None; IVar true TyFloat "x" false None] ++ inc ++ [IConstraint (MBin OLt (MId "k") (MId "x"))].
Theorem C65_int_refuted : forall fl simp fuel, constants_kept simp ->
  (exists flat, expands empty_file (int_compared [IInclude "empty.mzn"]) flat /\ forall e, exists o, runs fl e no_names flat o) /\
  (exists r, parse_minizinc fl simp empty_file (S (S fuel)) (int_compared []) = Ok r) /\
  parse_minizinc fl simp empty_file (S (S fuel)) (int_compared [IInclude "empty.mzn"]) = Err PysmtTypeError.
Proof.
  intros fl simp fuel Hs. split; [|split].
  - eexists. split.
    { apply ex_item; [done|]. apply ex_item; [done|]. eapply ex_include; [reflexivity|constructor|]. apply ex_item; [done|constructor]. }
    intros e. eexists. eapply r_var; [constructor|]. eapply r_var; [constructor|]. cbn [app]. eapply r_constraint; [|constructor].
    eapply mm_bin; [by constructor|by constructor|constructor].
  - eexists. reflexivity.
  - done.
Qed.
Print Assumptions C65_int_refuted.

(** Two weights are accepted when the first is in an included file and is 1. *)
Definition weight_one (f : string) : option (list item) := Some [IWeight (MInt 1)].
Definition two_weights : list item := [IInclude "one.mzn"; IWeight (MInt 2)].
Theorem C65_two_weights_refuted : forall fl simp fuel, constants_kept simp ->
  expands weight_one two_weights [IWeight (MInt 1); IWeight (MInt 2)] /\
  exists r, parse_minizinc fl simp weight_one (S (S fuel)) two_weights = Ok r.
Proof.
  intros fl simp fuel Hs. split.
  - apply (ex_include _ _ [IWeight (MInt 1)] [IWeight (MInt 1)] _ [IWeight (MInt 2)]); [done|..].
    + apply ex_item; [done|constructor].
    + apply ex_item; [done|constructor].
  - unfold parse_minizinc, two_weights. rewrite visit_items_cons. cbn [step]. unfold weight_one at 1. rewrite visit_items_cons. cbn [step].
    unfold visit_weight at 1. cbn. rewrite (Hs (BoolC true) eq_refl). rewrite (Hs (RealC (qz 1)) eq_refl).
    rewrite decide_True by (f_equal; apply Qc_is_canon; reflexivity). cbn. by eexists.
Qed.
Print Assumptions C65_two_weights_refuted.

(** + before a boolean is accepted although it is ill typed. *)
Theorem C65_plus_refuted : forall fl simp files fuel,
  (exists r, parse_minizinc fl simp files (S fuel) [IConstraint (MUn UPlus (MBool true))] = Ok r) /\
  ~ well_typed fl no_ctx false [IConstraint (MUn UPlus (MBool true))].
Proof.
  intros fl simp files fuel. split; [by eexists|]. intros H. inversion H as [| | | | | |G w t its Ht Hr| |]; subst. inversion Ht as [| | | | |? ? ? Hop Hb Hn| | | | | |]; subst. done.
Qed.
Print Assumptions C65_plus_refuted.

(** A file that includes itself is read without end. *)
Theorem C65_self_include_refuted : forall fl simp fuel,
  parse_minizinc fl simp (fun _ => Some [IInclude "self.mzn"]) fuel [IInclude "self.mzn"] = Err OutOfFuel.
Proof.
  intros fl simp fuel. unfold parse_minizinc.
  assert (forall s, visit_items fl simp (fun _ => Some [IInclude "self.mzn"]) fuel s [IInclude "self.mzn"] = Err OutOfFuel) as H.
  { induction fuel as [|fuel IH]; intros s; [done|]. rewrite visit_items_cons. cbn [step]. by rewrite IH. }
  by rewrite H.
Qed.
Print Assumptions C65_self_include_refuted.
