(** C51: a domain that lists a real variable before a boolean. *)

From Verif Require Import Base Dict Smt Smt_Facts Math_Model Math_Spec Poly_Proofs Arith_Proofs Linear_Proofs
  Piecewise_Spec Domain_Model Domain_Spec Integral_Spec Xadd_Model Resolve_Model Xadd_Spec
  Resolve_Spec Toxadd_Model Toxadd_Spec Resolve_Props Volume_Model Volume_Spec Volume_Props.

(** ** A solver for linear arithmetic: Fourier-Motzkin elimination *)

(** A term that is compared with zero, and whether it is strictly below it. *)
Notation con := (pdict * bool)%type.
Definition holds_con (e : env) (c : con) : Prop := if c.2 then (poly_val e c.1 < 0)%Qc else (poly_val e c.1 <= 0)%Qc.

Definition lin_atom (f : fm) : option pdict :=
  match f with
  | Sym x TReal => Some [([x], 1%Qc)]
  | RealC q => Some [([], q)]
  | TimesN [Sym x TReal; RealC q] => Some [([x], q)]
  | _ => None
  end.
Definition lin (f : fm) : option pdict :=
  match f with PlusN l => (@concat _) <$> mapM lin_atom l | f => lin_atom f end.
Definition con_of (a b : fm) (strict : bool) : list con :=
  match lin a, lin b with Some x, Some y => [(dict_plus x (scaled (- (1)) y), strict)] | _, _ => [] end.
Definition cons_of (f : fm) : list con :=
  match f with
  | LtN a b => con_of a b true
  | LeN a b => con_of a b false
  | NotN (LtN a b) => con_of b a false
  | NotN (LeN a b) => con_of b a true
  | _ => []
  end.
Definition coef (v : string) (c : con) : Qc := match dget c.1 [v] with Some q => q | None => 0%Qc end.
Definition eliminate (v : string) (l : list con) : list con :=
  List.filter (fun c => qeq (coef v c) 0) l ++
  flat_map (fun p => map (fun n => (dict_plus (scaled (- coef v n) p.1) (scaled (coef v p) n.1), p.2 || n.2))
      (List.filter (fun c => qlt (coef v c) 0) l)) (List.filter (fun c => qlt 0 (coef v c)) l).
Definition contra (c : con) : bool :=
  match pd_float c.1 with Ok q => if c.2 then qle 0 q else qlt 0 q | Err _ => false end.
Definition solver (asserted : list fm) (t : fm) : bool :=
  let cs := flat_map cons_of (t :: asserted) in
  negb (existsb contra (fold_left (fun cs v => eliminate v cs)
    (remove_dups (concat (concat (map (fun c => map fst c.1) cs)))) cs)).

Lemma lin_atom_ok e f p v : lin_atom f = Some p -> eval e f = Some (VN v) -> poly_val e p = v.
Proof.
  assert (forall x, mono_val e [x] = er e x) as Hm by (intros x; unfold mono_val; cbn; ring).
  intros Hp Hv. unfold lin_atom in Hp. repeat case_match; simplify_eq; cbn in Hv; simplify_eq; rewrite pv_cons, pv_nil, ?Hm;
    unfold mono_val; cbn; ring.
Qed.
Lemma lin_ok e f p v : lin f = Some p -> eval e f = Some (VN v) -> poly_val e p = v.
Proof.
  assert ((exists l, f = PlusN l) \/ lin f = lin_atom f) as [[l ->]|Hf] by (destruct f; eauto).
  2:{ rewrite Hf. apply lin_atom_ok. }
  unfold lin.
  intros Hp Hv. cbn [eval] in Hv. apply fmap_Some in Hp as (ps & Hps & ->). apply fmap_Some in Hv as (vs & Hvs & [= ->]).
  apply mapM_Some in Hps. apply mapM_Some in Hvs. revert vs Hvs.
  induction Hps as [|f p l ps Hp Hps IH]; intros vs Hvs; inversion Hvs as [|? v ? ? Hv Hvs']; subst; [done|].
  cbn [concat]. rewrite pv_app, (IH _ Hvs'). unfold qsum. cbn [fold_right]. f_equal.
  apply (lin_atom_ok e f p v Hp). by destruct (eval e f) as [[|]|]; cbn in Hv; simplify_eq.
Qed.
Lemma cons_ok e f c : c ∈ cons_of f -> eval e f = Some (VB true) -> holds_con e c.
Proof.
  assert (forall a b s x y, eval e a = Some (VN x) -> eval e b = Some (VN y) -> c ∈ con_of a b s ->
    (if s then (x < y)%Qc else (x <= y)%Qc) -> holds_con e c) as Hab.
  { intros a b s x y Hx Hy Hin Hlt. unfold con_of in Hin.
    destruct (lin a) as [p|] eqn:Ea; [|by apply elem_of_nil in Hin]. destruct (lin b) as [q|] eqn:Eb; [|by apply elem_of_nil in Hin].
    apply elem_of_list_singleton in Hin as ->. unfold holds_con. cbn [fst snd].
    rewrite pv_plus, pv_scaled, (lin_ok e a p x Ea Hx), (lin_ok e b q y Eb Hy). destruct s; qclra. }
  intros Hin He.
  unfold cons_of in Hin. repeat case_match; subst; try (by apply elem_of_nil in Hin); cbn in He;
    match goal with H : _ ∈ con_of ?a ?b _ |- _ =>
      (destruct (eval e a) as [[|x]|] eqn:Ex; try done); (destruct (eval e b) as [[|y]|] eqn:Ey; try done); cbn in He; injection He as He;
      apply (Hab a b _ x y Ex Ey Hin) end.
  - by apply qle_false, negb_true_iff.
  - by apply qlt_false, negb_true_iff.
  - by apply qle_spec.
  - by apply qlt_spec.
Qed.
Lemma eliminate_ok e v l : Forall (holds_con e) l -> Forall (holds_con e) (eliminate v l).
Proof.
  rewrite !Forall_forall. intros Hl c. unfold eliminate. rewrite elem_of_app. intros [Hc|Hc].
  - apply Hl. apply elem_of_list_In in Hc. apply filter_In in Hc as [Hc _]. by apply elem_of_list_In.
  - apply elem_of_list_In in Hc. apply in_flat_map in Hc as (p & Hp & Hc). apply in_map_iff in Hc as (n & <- & Hn).
    apply filter_In in Hp as [Hp Cp]. apply filter_In in Hn as [Hn Cn]. apply qlt_spec in Cp. apply qlt_spec in Cn.
    apply elem_of_list_In in Hp, Hn. apply Hl in Hp, Hn. unfold holds_con in *. cbn [fst snd].
    rewrite pv_plus, !pv_scaled. set (a := coef v p) in *. set (b := coef v n) in *.
    destruct p.2, n.2; cbn [orb]; try qcnra.
Qed.
Lemma contra_ok e c : holds_con e c -> contra c = false.
Proof.
  intros Hc. unfold contra. destruct (pd_float c.1) as [q|] eqn:Ef; [|done]. pose proof (pd_float_ok _ _ Ef e) as Hq. injection Hq as Hq.
  unfold holds_con in Hc. rewrite Hq in Hc. destruct c.2; [by apply qle_false|by apply qlt_false].
Qed.
Lemma solver_sound : sound_solver solver.
Proof.
  intros asserted t e Hs Ha Ht. unfold solver in Hs. apply negb_false_iff in Hs.
  assert (Forall (holds_con e) (flat_map cons_of (t :: asserted))) as Hcs.
  { apply Forall_forall. intros c Hc%elem_of_list_In. apply in_flat_map in Hc as (f & Hf & Hc). apply elem_of_list_In in Hc.
    apply (cons_ok e f c Hc). destruct Hf as [<-|Hf]; [done|]. apply Ha. by apply elem_of_list_In. }
  revert Hs Hcs. generalize (flat_map cons_of (t :: asserted)) as cs. intros cs.
  generalize (remove_dups (concat (concat (map (fun c : con => map fst c.1) cs)))) as vs.
  intros vs. revert cs. induction vs as [|v vs IH]; intros cs Hs Hcs; cbn [fold_left] in Hs.
  - apply existsb_exists in Hs as (c & Hc & Hs). rewrite (contra_ok e c) in Hs; [done|]. rewrite Forall_forall in Hcs. by apply Hcs, elem_of_list_In.
  - by apply (IH (eliminate v cs)); [|apply eliminate_ok].
Qed.
Example solver_case : solver [LtN RX RY; NotN (LeN (RealC (qz 3)) RX)] (LtN (PlusN [RY; TimesN [RX; RealC (qz 2)]]) (RealC (qz 8))) = true /\
  solver [LtN RX RY; NotN (LtN RX (RealC (qz 3)))] (LtN (PlusN [RY; TimesN [RX; RealC (qz 2)]]) (RealC (qz 8))) = false.
Proof. by vm_compute. Qed.

Lemma solver_externals : sound_externals pd_alg (fun p => p) simp2 solver pd_den.
Proof. destruct simp2_externals as [H1 H2 H3 H4 _]. split; [done..|]. apply solver_sound. Qed.

(** ** The domain x, y, a *)

Notation cvs := (compute_volume pd_alg (fun p => p) pd_one pd_zero simp2 solver pd_resolver (fun q => q) pd_float2).
Definition dom3 (vars : list string) : domain := Dom vars [("a", TBool); ("x", TReal); ("y", TReal)]%string
  [("x", (Some 0%Qc, Some (qz 10))); ("y", (Some 0%Qc, Some (qz 10)))]%string.
Definition xs3 : list (string * Qc * Qc) := [("x", 0%Qc, qz 10); ("y", 0%Qc, qz 10)]%string.
(** (y <= x or x <= 3) and (a or y <= 5) *)
Definition sup3 : fm := AndN [OrN [LeN RY RX; LeN RX (RealC (qz 3))]; OrN [BA; LeN RY (RealC (qz 5))]].
Definition reals_first : domain := dom3 ["x"; "y"; "a"]%string.
Definition bools_first : domain := dom3 ["a"; "x"; "y"]%string.

Lemma dom3_wf vars : vars ∈ [["x"; "y"; "a"]; ["a"; "x"; "y"]]%string -> wf_domain (dom3 vars).
Proof.
  intros Hv. split; cbn.
  - rewrite !elem_of_cons, elem_of_nil in Hv. destruct Hv as [->|[->|[]]]; apply (bool_decide_unpack _); by vm_compute.
  - apply (bool_decide_unpack _). by vm_compute.
  - intros v. rewrite !elem_of_cons, elem_of_nil in Hv. destruct Hv as [->|[->|[]]]; cbn; rewrite !elem_of_cons; tauto.
  - intros v t H. rewrite !elem_of_cons, elem_of_nil in H. decompose [or] H; simplify_eq; tauto.
  - apply (bool_decide_unpack _). by vm_compute.
  - intros v. rewrite !elem_of_cons, !elem_of_nil. split; intros H; decompose [or] H; simplify_eq; tauto.
Qed.
Lemma xs3_intervals vars : names (dom3 vars) TReal = ["x"; "y"]%string -> intervals (dom3 vars) xs3.
Proof.
  intros Hn. split; [by rewrite Hn|]. intros x lo hi H. unfold xs3 in H. rewrite !elem_of_cons, elem_of_nil in H.
  decompose [or] H; simplify_eq; [| |done]; cbn.
  - split; [by left|by vm_compute].
  - split; [by right; left|by vm_compute].
Qed.
Lemma proper3 : proper_tests ["x"; "y"]%string sup3 /\ proper_tests ["x"; "y"]%string w1.
Proof.
  split; intros a b Hab e; cbn in Hab.
  - rewrite !elem_of_cons, elem_of_nil in Hab. decompose [or] Hab; simplify_eq; [| | |done].
    + exists (upd_r e "y" (er e "x" + 1)). split; [done|]. split.
      * intros x Hx. cbn. rewrite decide_False; [done|]. intros ->. apply Hx. by right; left.
      * exists (er e "x" + 1)%Qc, (er e "x"). split; [done|]. split; [done|]. intros Heq. qclra.
    + exists (upd_r e "x" 0). split; [done|]. split.
      * intros x Hx. cbn. rewrite decide_False; [done|]. intros ->. apply Hx. by left.
      * by exists 0%Qc, (qz 3).
    + exists (upd_r e "y" 0). split; [done|]. split.
      * intros x Hx. cbn. rewrite decide_False; [done|]. intros ->. apply Hx. by right; left.
      * by exists 0%Qc, (qz 5).
  - by apply elem_of_nil in Hab.
Qed.
Lemma sup3_formula : bool_formula sup3.
Proof.
  apply bf_and. constructor; [|constructor; [|constructor]]; apply bf_or.
  - constructor; [apply bf_le; apply le_sym|]. constructor; [|constructor]. apply bf_le; [apply le_sym|]. do 2 constructor.
  - constructor; [constructor|]. constructor; [|constructor]. apply bf_le; [apply le_sym|]. do 2 constructor.
Qed.
Lemma syms3 x t : (x, t) ∈ syms sup3 \/ (x, t) ∈ syms w1 -> (x, t) ∈ d_types reals_first.
Proof.
  cbn. intros [H|H]; rewrite !elem_of_cons, elem_of_nil in H; rewrite !elem_of_cons; decompose [or] H; simplify_eq; tauto.
Qed.

(** With a solver for linear arithmetic and everything else compute_volume_total asks
    for, but with the reals listed first: the integral exists, and it is what the domain
    with the boolean first gives, but here the computation ends in the assertion that the
    last diagram is a leaf, whatever is reduced.  Integrating x leaves a test of a below
    another test of a, summing a out takes the first one away only, and the reduction
    does not look at tests of booleans. *)
Theorem compute_volume_order_refuted :
  sound_externals pd_alg (fun p => p) simp2 solver pd_den /\ resolve_externals simp2 pd_resolver pd_den /\ folds simp2 /\
  adds_none simp2 /\ (forall y v, (forall e, pd_den y e = Some v) -> pd_float2 y = Ok v) /\
  wf_domain reals_first /\ intervals reals_first xs3 /\
  (forall x t, (x, t) ∈ syms sup3 \/ (x, t) ∈ syms w1 -> (x, t) ∈ d_types reals_first) /\
  bool_formula sup3 /\ weight_formula w1 /\
  proper_tests (names reals_first TReal) sup3 /\ proper_tests (names reals_first TReal) w1 /\
  (exists v, (cvs None true bools_first sup3 w1 (new_pool pd_alg false)).2 = Ok v /\
     forall e, wmi (restricted (region reals_first sup3) w1) (names reals_first TBool) (rev xs3) e v) /\
  forall s, (cvs s true reals_first sup3 w1 (new_pool pd_alg false)).2 = Err AssertionError.
Proof.
  assert (names reals_first TReal = ["x"; "y"]%string /\ names bools_first TReal = ["x"; "y"]%string) as [N1 N2] by (split; by vm_compute).
  assert (names reals_first TBool = ["a"]%string /\ names bools_first TBool = ["a"]%string) as [N3 N4] by (split; by vm_compute).
  split; [exact solver_externals|]. split; [exact simp2_resolves|]. split; [exact simp2_folds|]. split; [exact simp2_adds_none|].
  split; [exact pd_float2_ok|]. split; [apply dom3_wf; by left|]. split; [by apply xs3_intervals|]. split; [exact syms3|]. split; [exact sup3_formula|].
  split; [exact w1_formula|]. rewrite N1. split; [apply proper3|]. split; [apply proper3|]. split.
  - destruct (compute_volume_total pd_alg (fun p => p) pd_one pd_zero simp2 solver pd_resolver pd_den (fun q => q) pd_float2
      None true bools_first sup3 w1 (new_pool pd_alg false) xs3 solver_externals pd_knows simp2_resolves simp2_folds simp2_adds_none pd_float2_ok
      (hi_new _ _ _ _ _ _ _ false) new_unordered) as (v & Hv & Hw).
    + apply dom3_wf. by right; left.
    + done.
    + by rewrite N2, N4.
    + by apply xs3_intervals.
    + exact dom1_types.
    + done.
    + exact sup3_formula.
    + exact w1_formula.
    + exact syms3.
    + rewrite N2. apply proper3.
    + rewrite N2. apply proper3.
    + by left.
    + exists v. split; [exact Hv|]. rewrite N3. rewrite N4 in Hw. exact Hw.
  - intros [[[[] []] []]|]; vm_compute; reflexivity.
Qed.
Print Assumptions compute_volume_order_refuted.
