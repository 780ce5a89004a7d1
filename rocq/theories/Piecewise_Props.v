(** C34 and C35: splitting weight functions. *)

From Verif Require Import Base Dict Smt Smt_Facts Walk_Model Math_Model Math_Spec Poly_Proofs Arith_Proofs
  Piecewise_Model Piecewise_Spec Piecewise_Proofs.

(** * C34: the sum of the pieces that hold is the weight

    The value of a key (polynomial or number) is [key_den].  Whenever the conversion
    does not meet, while adding a piece, an expression that is present together with
    its double, nor negates two pieces to the same expression, the code returns the
    pieces and at every point they sum up to the weight. *)
Theorem C34_value_partial simplify f p : sound_simplifier simplify ->
  split_weight simplify true f = Ok p ->
  split_weight simplify false f = Ok p /\
  forall e v, eval e f = Some (VN v) -> pieces_value key_den e p = Some v.
Proof.
  intros HS H. destruct (walk_value key_alg key_two key_wf key_den simplify key_algebra HS _ f p H) as (H1 & _ & H2).
  by split.
Qed.
Print Assumptions C34_value_partial.

(** Sums and conditionals, nested in any way, of pairwise different monomials: the
    conversion succeeds and is correct. *)
Theorem C34_distinct_partial simplify f ms : sound_simplifier simplify ->
  additive simple_leaf f ms -> NoDup ms ->
  exists p, split_weight simplify false f = Ok p /\
  forall e v, eval e f = Some (VN v) -> pieces_value key_den e p = Some v.
Proof.
  intros HS HA Hnd. destruct (distinct_split simplify HS f ms (msize f) HA Hnd) as (p & rs & H & _); [lia|].
  exists p. by apply C34_value_partial.
Qed.
Print Assumptions C34_distinct_partial.

Ltac fuel := match goal with |- context [msize ?f] => let n := eval vm_compute in (msize f) in change (msize f) with n end.
Definition symx : fm := Sym "x" TReal.
Definition symA : fm := Sym "A" TBool.
Definition timesx (q : Qc) : fm := TimesN [RealC q; symx].

(** ite(A, x, 3) + ite(x < 1, 5 x, 7) *)
Definition ex34 : fm := PlusN [IteN symA symx (RealC (qz 3));
  IteN (LtN symx (RealC 1)) (timesx (qz 5)) (RealC (qz 7))].
Example C34_example : additive simple_leaf ex34 [(["x"%string], 1%Qc); ([], qz 3); (["x"%string], qz 5); ([], qz 7)] /\
  NoDup [(["x"%string], 1%Qc); ([], qz 3); (["x"%string], qz 5); ([], qz 7)] /\
  (forall e, exists v, eval e ex34 = Some (VN v)) /\ sound_simplifier (fun f => f).
Proof.
  split; [|split; [|split]].
  - apply (ad_plus _ _ [[(["x"%string], 1%Qc); ([], qz 3)]; [(["x"%string], qz 5); ([], qz 7)]]); [done|].
    constructor; [|constructor; [|constructor]].
    + apply (ad_ite _ _ _ _ [_] [_]); apply ad_leaf; by constructor.
    + apply (ad_ite _ _ _ _ [_] [_]); apply ad_leaf; by constructor.
  - apply (bool_decide_unpack _). vm_compute. exact I.
  - intros e. cbn. by eexists.
  - by intros e f b.
Qed.

(** A weight with a repeated monomial under overlapping conditions and a product also
    satisfies the premise of C34_value_partial. *)
Example C34_example_repeated : is_ok (split_weight (fun f => f) true
  (TimesN [PlusN [IteN symA symx (RealC 0); symx]; PlusN [symx; RealC 1]])) = true.
Proof. vm_compute. reflexivity. Qed.

(** ** Where it fails

    pysmt's simplifier evaluates formulas without symbols. *)
Definition folds_constants (simplify : fm -> fm) : Prop :=
  forall f b, syms f = [] -> (forall e, eval e f = Some (VB b)) -> simplify f = BoolC b.

(** x + x + x + x cannot be split: assertion failure (piecewise.py:90). *)
Theorem C34_fails_refuted simplify : sound_simplifier simplify -> folds_constants simplify ->
  split_weight simplify false (PlusN [symx; symx; symx; symx]) = Err AssertionError.
Proof.
  intros HS HF. unfold split_weight, split_up_function. fuel.
  set (X := KPoly [(["x"%string], 1%Qc)]). set (X2 := KPoly [(["x"%string], qz 2)]).
  assert (simplify (BoolC true) = BoolC true) as F1 by by apply HF.
  assert (simplify (AndN [BoolC true; BoolC true]) = BoolC true) as F2 by by apply HF.
  assert (simplify (AndN [OrN [BoolC true; BoolC true]; NotN (AndN [BoolC true; BoolC true])]) = BoolC false) as F3 by by apply HF.
  assert (a_eq key_alg X (alg_zero key_alg) = false) as NX by (vm_compute; reflexivity).
  assert (a_eq key_alg X2 (alg_zero key_alg) = false) as NX2 by (vm_compute; reflexivity).
  assert (alg_times key_alg key_two X = X2) as TX.
  { unfold X, X2. vm_compute. do 4 f_equal; apply Qc_is_canon; reflexivity. }
  assert (pw_add key_alg key_two simplify false [(X, BoolC true)] [(X, BoolC true)] = Ok [(X2, BoolC true)]) as A1.
  { unfold pw_add. cbn [app List.filter is_false snd fst]. rewrite NX. cbn [negb andb].
    rewrite addall_cons, (addpiece_new _ _ _ [] X (BoolC true) (BoolC true)) by done. cbn [rbind app].
    by rewrite addall_cons, (addpiece_hit _ _ _ [(X, BoolC true)] X (BoolC true) (BoolC true) (BoolC false) (BoolC true) X2 []). }
  assert (pw_add key_alg key_two simplify false [(X2, BoolC true)] [(X, BoolC true)] = Ok [(X2, BoolC true); (X, BoolC true)]) as A2.
  { unfold pw_add. cbn [app List.filter is_false snd fst]. rewrite NX, NX2. cbn [negb andb].
    rewrite addall_cons, (addpiece_new _ _ _ [] X2 (BoolC true) (BoolC true)) by done. cbn [rbind app].
    by rewrite addall_cons, (addpiece_new _ _ _ [(X2, BoolC true)] X (BoolC true) (BoolC true)). }
  assert (pw_add key_alg key_two simplify false [(X2, BoolC true); (X, BoolC true)] [(X, BoolC true)] = Err AssertionError) as A3.
  { unfold pw_add. cbn [app List.filter is_false snd fst]. rewrite NX, NX2. cbn [negb andb].
    rewrite addall_cons, (addpiece_new _ _ _ [] X2 (BoolC true) (BoolC true)) by done. cbn [rbind app].
    rewrite addall_cons, (addpiece_new _ _ _ [(X2, BoolC true)] X (BoolC true) (BoolC true)) by done. cbn [rbind app].
    by rewrite addall_cons, (addpiece_hit _ _ _ [(X2, BoolC true); (X, BoolC true)] X (BoolC true) (BoolC true) (BoolC false) (BoolC true) X2 [(X2, BoolC true)]). }
  cbn [walk dispatch w_plus pw_walker]. rewrite !rmapM_cons. cbn [walk dispatch w_symbol pw_walker rbind rmapM symx].
  change (pw_symbol key_alg "x") with [(X, BoolC true)]. cbn [reduceM fold_left rbind].
  rewrite A1. cbn [rbind]. rewrite A2. cbn [rbind]. by rewrite A3.
Qed.
Print Assumptions C34_fails_refuted.

(** ite(A, x, 0) + 2 x + ite(A, 0, x) is 3 x, but its pieces sum up to x: the piece
    2 x is dropped (piecewise.py:86).  The hypotheses are results of pysmt's
    simplifier. *)
Definition w34 : fm := PlusN [IteN symA symx (RealC 0); timesx (qz 2); IteN symA (RealC 0) symx].
Theorem C34_lost_refuted simplify : sound_simplifier simplify ->
  simplify (BoolC true) = BoolC true -> simplify (AndN [BoolC true; BoolC true]) = BoolC true ->
  simplify symA = symA -> simplify (NotN symA) = NotN symA ->
  simplify (AndN [BoolC true; symA]) = symA -> simplify (AndN [BoolC true; NotN symA]) = NotN symA ->
  simplify (AndN [symA; NotN symA]) = BoolC false ->
  exists p, split_weight simplify false w34 = Ok p /\ forall e,
    eval e w34 = Some (VN (qz 3 * er e "x"%string)%Qc) /\ pieces_value key_den e p = Some (er e "x"%string).
Proof.
  intros HS F1 F2 F3 F4 F5 F6 F7.
  set (X := KPoly [(["x"%string], 1%Qc)]). set (X2 := KPoly [(["x"%string], qz 2)]). set (Z := KPoly [([], 0%Qc)] : pkey).
  assert (a_eq key_alg X (alg_zero key_alg) = false) as NX by (vm_compute; reflexivity).
  assert (a_eq key_alg X2 (alg_zero key_alg) = false) as NX2 by (vm_compute; reflexivity).
  assert (a_eq key_alg Z (alg_zero key_alg) = true) as NZ by (vm_compute; reflexivity).
  assert (alg_times key_alg key_two X = X2) as TX.
  { unfold X, X2. vm_compute. do 4 f_equal; apply Qc_is_canon; reflexivity. }
  assert (pw_ite key_alg key_two simplify false symA [(X, BoolC true)] [(Z, BoolC true)] = Ok [(X, symA)]) as I1.
  { unfold pw_ite, pw_condition, pw_add. cbn [map fst snd mkAnd mkNot symA app List.filter is_false]. rewrite NX, NZ. cbn [negb andb].
    by rewrite addall_cons, (addpiece_new _ _ _ [] X _ symA). }
  assert (pw_ite key_alg key_two simplify false symA [(Z, BoolC true)] [(X, BoolC true)] = Ok [(X, NotN symA)]) as I2.
  { unfold pw_ite, pw_condition, pw_add. cbn [map fst snd mkAnd mkNot symA app List.filter is_false]. rewrite NX, NZ. cbn [negb andb].
    by rewrite addall_cons, (addpiece_new _ _ _ [] X _ (NotN symA)). }
  assert (pw_mul key_alg key_two simplify false (pw_real key_alg (qz 2)) [(X, BoolC true)] = Ok [(X2, BoolC true)]) as M1.
  { unfold pw_mul, pw_real. cbn [flat_map app]. unfold mul_piece. cbn [fst snd mkAnd].
    assert (a_eq key_alg (a_real key_alg (qz 2)) (alg_zero key_alg) = false) as -> by (vm_compute; reflexivity).
    assert (a_eq key_alg (a_real key_alg (qz 2)) (alg_one key_alg) = false) as -> by (vm_compute; reflexivity).
    assert (a_eq key_alg X (alg_one key_alg) = false) as -> by (vm_compute; reflexivity).
    rewrite NX, F2. cbn [negb andb is_false].
    assert (alg_times key_alg (a_real key_alg (qz 2)) X = X2) as ->.
    { unfold X, X2. vm_compute. do 4 f_equal; apply Qc_is_canon; reflexivity. }
    rewrite NX2. cbn [negb app]. by rewrite addall_cons, (addpiece_new _ _ _ [] X2 _ (BoolC true)). }
  assert (pw_add key_alg key_two simplify false [(X, symA)] [(X2, BoolC true)] = Ok [(X, symA); (X2, BoolC true)]) as A1.
  { unfold pw_add. cbn [app List.filter is_false snd fst symA]. rewrite NX, NX2. cbn [negb andb].
    rewrite addall_cons, (addpiece_new _ _ _ [] X _ symA) by done. cbn [rbind app].
    by rewrite addall_cons, (addpiece_new _ _ _ [(X, symA)] X2 _ (BoolC true)). }
  set (c1 := simplify (AndN [OrN [symA; NotN symA]; NotN (AndN [symA; NotN symA])])).
  assert (forall e, eval e c1 = Some (VB true)) as Hc1.
  { intros e. apply HS. cbn. by destruct (eb e "A"). }
  assert (is_false c1 = false) as Nc1.
  { destruct (is_false c1) eqn:E; [|done].
    by pose proof (is_false_value (Env (fun _ => false) (fun _ => 0%Qc)) c1 true E (Hc1 _)). }
  assert (pw_add key_alg key_two simplify false [(X, symA); (X2, BoolC true)] [(X, NotN symA)] = Ok [(X, c1)]) as A2.
  { unfold pw_add. cbn [app List.filter is_false snd fst symA]. rewrite NX, NX2. cbn [negb andb].
    rewrite addall_cons, (addpiece_new _ _ _ [] X _ symA) by done. cbn [rbind app].
    rewrite addall_cons, (addpiece_new _ _ _ [(X, symA)] X2 _ (BoolC true)) by done. cbn [rbind app].
    rewrite addall_cons, (addpiece_hit _ _ _ [(X, symA); (X2, BoolC true)] X (NotN symA) symA c1 (BoolC false) X2 [(X, c1); (X2, BoolC true)]); try done.
    rewrite Nc1. apply (kset_split key_alg [] X symA [(X2, BoolC true)] X c1); [vm_compute; reflexivity|constructor|].
    constructor; [vm_compute; reflexivity|constructor]. }
  exists [(X, c1)]. split.
  - unfold split_weight, split_up_function. fuel. unfold w34.
    cbn [walk dispatch w_plus pw_walker]. rewrite !rmapM_cons. unfold timesx.
    cbn [walk dispatch w_ite w_times w_symbol w_const pw_walker rbind rmapM symx].
    change (pw_symbol key_alg "x") with [(X, BoolC true)]. change (pw_real key_alg 0) with [(Z, BoolC true)].
    rewrite I1. cbn [rbind reduceM fold_left]. rewrite M1. cbn [rbind]. rewrite I2. cbn [rbind reduceM fold_left].
    rewrite A1. cbn [rbind]. by rewrite A2.
  - intros e. split.
    + cbn. destruct (eb e "A"); cbn; do 2 f_equal; apply Qc_is_canon; unfold qz; cbn; rewrite ?Qred_correct; ring.
    + apply pv_cons'. exists (er e "x"%string), 0%Qc. split; [|split; [done|ring]].
      rewrite (piece_val key_den e X c1 true) by done. f_equal. unfold X, key_den. rewrite pv_cons, pv_nil. unfold mono_val. cbn. ring.
Qed.
Print Assumptions C34_lost_refuted.

(** Such simplifiers exist. *)
Definition table_simplifier (f : fm) : fm :=
  if decide (f = AndN [BoolC true; BoolC true]) then BoolC true
  else if decide (f = AndN [BoolC true; symA]) then symA
  else if decide (f = AndN [BoolC true; NotN symA]) then NotN symA
  else if decide (f = AndN [symA; NotN symA]) then BoolC false else f.
Example C34_simplifier : sound_simplifier table_simplifier /\
  table_simplifier (AndN [symA; NotN symA]) = BoolC false /\ table_simplifier (AndN [BoolC true; symA]) = symA.
Proof.
  split; [|by vm_compute]. intros e f b. unfold table_simplifier. repeat (destruct (decide _) as [->|]; cbn).
  - by intros [= <-].
  - intros [= <-]. by destruct (eb e "A").
  - intros [= <-]. by destruct (eb e "A").
  - intros [= <-]. by destruct (eb e "A").
  - done.
Qed.

(** 1 + 1 becomes the plain number 2, which is not an expression: asking it for its
    expression fails (engine.py:345). *)
Theorem C34_number_refuted simplify : sound_simplifier simplify -> folds_constants simplify ->
  split_weight simplify false (PlusN [RealC 1; RealC 1]) = Ok [(KNum (qz 2), BoolC true)] /\
  forall E (A : alg E), key_to_expression A (KNum (qz 2)) = Err AttributeError.
Proof.
  intros HS HF. split; [|done]. unfold split_weight, split_up_function. fuel.
  assert (simplify (BoolC true) = BoolC true) as F1 by by apply HF.
  assert (simplify (AndN [BoolC true; BoolC true]) = BoolC true) as F2 by by apply HF.
  assert (simplify (AndN [OrN [BoolC true; BoolC true]; NotN (AndN [BoolC true; BoolC true])]) = BoolC false) as F3 by by apply HF.
  cbn [walk dispatch w_plus pw_walker]. rewrite !rmapM_cons. cbn [walk dispatch w_const pw_walker rbind rmapM].
  set (O := KPoly (poly_const 1)). change (pw_real key_alg 1) with [(O, BoolC true)]. cbn [reduceM fold_left rbind].
  unfold pw_add. cbn [app List.filter is_false snd fst].
  assert (a_eq key_alg O (alg_zero key_alg) = false) as -> by (vm_compute; reflexivity). cbn [negb andb].
  rewrite addall_cons, (addpiece_new _ _ _ [] O (BoolC true) (BoolC true)) by done. cbn [rbind app].
  by rewrite addall_cons, (addpiece_hit _ _ _ [(O, BoolC true)] O (BoolC true) (BoolC true) (BoolC false) (BoolC true) (KNum (qz 2)) []).
Qed.
Print Assumptions C34_number_refuted.

(** * C35: literal weights *)

Lemma mapM_app {X Y} (g : X -> option Y) l k : mapM g (l ++ k) = (a ← mapM g l; b ← mapM g k; Some (a ++ b)).
Proof.
  induction l as [|x l IH]; cbn; [by destruct (mapM g k)|]. destruct (g x); cbn; [|done]. rewrite IH.
  destruct (mapM g l); cbn; [|done]. by destruct (mapM g k).
Qed.

Lemma label_loop_value e args : forall ls ts vs v ws,
  labels_value e ls = Some v -> mapM (fun g => vnum (eval e g)) ts = Some ws ->
  mapM (fun g => vnum (eval e g)) args = Some vs ->
  NoDup (dkeys ls ++ omap label_var args) ->
  exists v' ws', labels_value e (label_loop args ls ts).1 = Some v' /\
    mapM (fun g => vnum (eval e g)) (label_loop args ls ts).2 = Some ws' /\
    (v' * qprod ws' = v * qprod ws * qprod vs)%Qc.
Proof.
  induction args as [|a args IH]; intros ls ts vs v ws Hl Ht.
  - intros [= <-] _. exists v, ws. split; [done|]. split; [done|]. cbn [qprod fold_right]. ring.
  - cbn [mapM]. destruct (vnum (eval e a)) as [va|] eqn:Ea; cbn [mbind option_bind]; [|done].
    destruct (mapM _ args) as [vs'|] eqn:Es; cbn [mbind option_bind]; [|done]. intros [= <-].
    cbn [label_loop omap list_omap]. destruct (label_var a) as [x|] eqn:Ex.
    + destruct a as [| | | | | | | | |c t f| | | | | | | | |]; try done. destruct c as [y []| | | | | | | | | | | | | | | | | |]; try done.
      injection Ex as ->. cbn [get_bool_label]. intros Hnd.
      assert (x ∉ dkeys ls) as Hx.
      { apply NoDup_app in Hnd as (_ & Hd & _). intros H. apply (Hd x H). by left. }
      assert (dset ls x (t, f) = ls ++ [(x, (t, f))]) as ->.
      { clear -Hx. induction ls as [|[y w] ls IH]; [done|]. cbn. destruct (decide (y = x)) as [->|Hyx]; [exfalso; apply Hx; by left|].
        rewrite IH; [done|]. intros ?. apply Hx. by right. }
      cbn [eval vbool mbind option_bind] in Ea.
      destruct (eval e t) as [vt|] eqn:Et; cbn [mbind option_bind] in Ea; [|done].
      destruct (eval e f) as [vf|] eqn:Ef; cbn [mbind option_bind] in Ea; [|done].
      destruct vt as [|vt], vf as [|vf]; cbn in Ea; try done. injection Ea as <-.
      destruct (IH (ls ++ [(x, (t, f))]) ts vs' (v * if eb e x then vt else vf)%Qc ws) as (v' & ws' & H1 & H2 & H3).
      * unfold labels_value in *. rewrite mapM_app. destruct (mapM (label_value e) ls) as [us|]; [|done]. cbn in Hl |- *.
        injection Hl as <-. unfold label_value at 1. cbn [fst snd]. destruct (eb e x); rewrite ?Et, ?Ef; cbn; f_equal; rewrite qprod_app; cbn; ring.
      * done.
      * done.
      * unfold dkeys in *. rewrite map_app. cbn. by rewrite <- app_assoc.
      * exists v', ws'. split; [done|]. split; [done|]. rewrite H3. cbn [qprod fold_right]. fold (qprod vs'). ring.
    + assert (get_bool_label a = None) as ->.
      { destruct a as [| | | | | | | | |c t f| | | | | | | | |]; try done. by destruct c as [y []| | | | | | | | | | | | | | | | | |]. }
      intros Hnd. destruct (IH ls (ts ++ [a]) vs' v (ws ++ [va])) as (v' & ws' & H1 & H2 & H3); try done.
      { rewrite mapM_app, Ht. cbn. by rewrite Ea. }
      exists v', ws'. split; [done|]. split; [done|]. rewrite H3, qprod_app. cbn [qprod fold_right]. fold (qprod vs'). ring.
Qed.

(** When no boolean labels two factors and some factor is not a label, multiplying
    the labels back gives the weight at every point. *)
Theorem C35_labels_partial w : match w with
    | TimesN args => NoDup (omap label_var args) /\ exists a, a ∈ args /\ label_var a = None
    | _ => True
    end ->
  exists ls r, extract_labels_and_weight w = Ok (ls, r) /\
  forall e v, eval e w = Some (VN v) -> exists a b,
    labels_value e ls = Some a /\ eval e r = Some (VN b) /\ v = (a * b)%Qc.
Proof.
  assert (forall w : fm, exists ls r, Ok ([], w) = Ok (ls, r) /\
    forall e v, eval e w = Some (VN v) -> exists a b, labels_value e ls = Some a /\ eval e r = Some (VN b) /\ v = (a * b)%Qc) as Htriv.
  { intros w'. eexists _, _. split; [done|]. intros e v Hv. exists 1%Qc, v. split; [done|]. split; [done|ring]. }
  destruct w as [| | | | | | | | | | | |args| | | | | |]; intros Hw; try apply Htriv.
  destruct Hw as [Hnd (a & Ha & Hla)]. cbn [extract_labels_and_weight]. destruct (label_loop args [] []) as [ls ts] eqn:El.
  assert (ts <> []) as Hts.
  { assert (forall args ls ts, (ts <> [] \/ exists a, a ∈ args /\ label_var a = None) -> (label_loop args ls ts).2 <> []) as HG.
    { clear. induction args as [|b args IH]; intros ls ts H; [destruct H as [?|(a & H%elem_of_nil & _)]; done|].
      cbn [label_loop]. destruct (get_bool_label b) as [[x te]|] eqn:Eb.
      - apply IH. destruct H as [?|(a & Ha & Hl)]; [by left|]. apply elem_of_cons in Ha as [->|?]; [|right; eauto].
        exfalso. destruct b as [| | | | | | | | |c t f| | | | | | | | |]; try done. by destruct c as [y []| | | | | | | | | | | | | | | | | |].
      - apply IH. left. by destruct ts. }
    assert ((label_loop args [] []).2 <> []) as H by (apply HG; right; eauto). by rewrite El in H. }
  assert (exists r, mkTimes ts = Ok r /\ forall e ws, mapM (fun g => vnum (eval e g)) ts = Some ws -> eval e r = Some (VN (qprod ws))) as (r & Er & Hr).
  { destruct ts as [|t [|t' ts]]; [done| |].
    - exists t. split; [done|]. intros e ws. cbn [mapM]. destruct (eval e t) as [[|x]|]; cbn; try done. intros [= <-]. cbn. do 2 f_equal. ring.
    - exists (TimesN (t :: t' :: ts)). split; [done|]. intros e ws Hws. cbn [eval]. by rewrite Hws. }
  rewrite Er. cbn [rbind]. eexists _, _. split; [done|]. intros e v. cbn [eval].
  destruct (mapM _ args) as [vs|] eqn:Ev; cbn; [|done]. intros [= <-].
  destruct (label_loop_value e args [] [] vs 1%Qc [] eq_refl eq_refl Ev Hnd) as (v' & ws' & H1 & H2 & H3).
  rewrite El in H1, H2. exists v', (qprod ws'). split; [done|]. split; [by apply Hr|]. rewrite H3. cbn [qprod fold_right]. ring.
Qed.
Print Assumptions C35_labels_partial.
Example C35_example : let args := [IteN symA (RealC (qz 2)) (RealC (qz 3)); IteN (Sym "B" TBool) symx (RealC 1); symx] in
  NoDup (omap label_var args) /\ exists a, a ∈ args /\ label_var a = None.
Proof.
  split; [apply (bool_decide_unpack _); vm_compute; exact I|]. exists symx. split; [by right; right; left|done].
Qed.

(** A boolean that labels two factors keeps only the second label. *)
Theorem C35_duplicate_refuted : let w := TimesN [IteN symA (RealC (qz 2)) (RealC 1); IteN symA (RealC (qz 5)) (RealC 1); symx] in
  exists ls r, extract_labels_and_weight w = Ok (ls, r) /\
  forall e, eb e "A"%string = true -> eval e w = Some (VN (qz 10 * er e "x"%string)%Qc) /\
    labels_value e ls = Some (qz 5) /\ eval e r = Some (VN (er e "x"%string)).
Proof.
  eexists _, _. split; [reflexivity|]. intros e He. split; [|split].
  - cbn. rewrite He. cbn. do 2 f_equal. apply Qc_is_canon. unfold qz. cbn. rewrite ?Qred_correct. ring.
  - change (labels_value e [("A", (RealC (qz 5), RealC 1))]%string = Some (qz 5)).
    unfold labels_value. cbn. unfold label_value. cbn. rewrite He. cbn. f_equal; apply Qc_is_canon; reflexivity.
  - done.
Qed.
Print Assumptions C35_duplicate_refuted.

(** A product of labels only cannot be split: an empty product is refused. *)
Theorem C35_only_labels_refuted a b c d :
  extract_labels_and_weight (TimesN [IteN (Sym "A" TBool) a b; IteN (Sym "B" TBool) c d]) = Err AssertionError.
Proof. done. Qed.
Print Assumptions C35_only_labels_refuted.
