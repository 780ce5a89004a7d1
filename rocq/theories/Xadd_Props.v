(** C42-C47: the diagram pool of pyxadd.  All statements are about pools reached by
    any history of requests (Xadd_Spec). *)

From Verif Require Import Base Dict Smt Smt_Facts Math_Model Math_Spec Poly_Proofs Arith_Proofs Linear_Proofs
  Piecewise_Spec Xadd_Model Resolve_Model Xadd_Spec Xadd_Proofs Xwalk_Proofs Xtest_Proofs Xhist_Proofs Xreq_Proofs.

(** ** A concrete pool: pysmt expressions, a simplifier and a solver that do next to nothing *)

Definition SA := Sym "a" TBool.
Definition SX := Sym "x" TReal.
Definition is1 (f : fm) : Res bool := Ok (bool_decide (f = RealC 1)).
Definition is0 (f : fm) : Res bool := Ok (bool_decide (f = RealC 0)).
Definition keep (f : fm) : fm := f.
Definition simp0 (f : fm) : fm := if bool_decide (f = LeN (RealC 0) (RealC 0)) then BoolC true else f.
Definition always (_ : list fm) (_ : fm) : bool := true.
(** PySmtAlgebra has no integrate_poly (algebraic_backend.py:125-142). *)
Definition no_integrals : resolver fm :=
  Resolver (fun _ _ _ _ => Err AttributeError) (fun v => v) (fun l => l) (fun v => if bool_decide (v = "x"%string) then TReal else TBool).
Notation sv := (serve pysmt_alg keep is1 is0 simp0 always no_integrals).
Definition after (rs : list (request fm)) : pool fm := fold_left (fun p r => (sv r p).1) rs (new_pool pysmt_alg false).

Lemma externals_example : sound_externals pysmt_alg keep simp0 always fm_den.
Proof.
  split; [exact pysmt_sound_arith|done| | |done].
  - intros e f b. unfold simp0. destruct (bool_decide_reflect (f = LeN (RealC 0) (RealC 0))) as [->|]; done.
  - intros f t. unfold simp0. destruct (bool_decide_reflect (f = LeN (RealC 0) (RealC 0))) as [->|]; [|done]. cbn. done.
Qed.

(** node 3: a; node 4: x; node 5: a and x <= 0; node 6: a times x *)
Definition requests0 : list (request fm) :=
  [BoolTestR SA; TerminalR SX; InternalR (LeN SX (RealC 0)) 3 1; ApplyR Multiplication 3 4].
Definition pool0 : pool fm := after requests0.

Ltac mentioned := let a := fresh in let H := fresh in
  intros a H; cbn in H; repeat (apply elem_of_cons in H as [->|H]; [vm_compute; by eexists|]); by apply elem_of_nil in H.
Lemma pool0_history : history pysmt_alg keep is1 is0 simp0 always no_integrals [] pool0.
Proof.
  unfold pool0, after, requests0. cbn [fold_left].
  assert (forall p r, history pysmt_alg keep is1 is0 simp0 always no_integrals [] p -> well_typed r ->
    (forall a, a ∈ mentions r -> is_Some (dget (p_nodes p) a)) -> is_ok (sv r p).2 = true ->
    history pysmt_alg keep is1 is0 simp0 always no_integrals [] (sv r p).1) as Hstep.
  { intros p r Hh Ht Hm Hok. pose proof (hi_step pysmt_alg keep is1 is0 simp0 always no_integrals [] p r Hh Ht Hm) as Hs.
    destruct (sv r p) as [q [i|x]]; [|done]. by destruct r. }
  repeat (apply Hstep; [|done|mentioned|by vm_compute]). constructor.
Qed.
Example pool0_nodes : p_nodes pool0 =
  [(1, TNode (RealC 0)); (2, TNode (RealC 1)); (3, INode (Dec SA true None) 2 1); (4, TNode SX);
   (5, INode (Dec (LtN SX (RealC 0)) true (Some [(["x"%string], 1%Qc)])) 3 1); (6, INode (Dec SA true None) 4 1)].
Proof. vm_compute. reflexivity. Qed.

Section Props.
  Context {E : Type} `{EqDecision E} (A : alg E) (flat : E -> E) (is_one is_zero : E -> Res bool) (simp : fm -> fm)
    (solve : list fm -> fm -> bool) (X : resolver E) (den : E -> env -> option Qc).
  Notation serve := (serve A flat is_one is_zero simp solve X).
  Notation continues := (continues A flat is_one is_zero simp solve X).
  Notation history := (history A flat is_one is_zero simp solve X).
  Notation reachable := (reachable A flat is_one is_zero simp solve X).

  (** ** C42 *)

  (** Different nodes have different content; a node keeps its content in every later
      pool; asking again for a terminal, a (test, children) combination or a test, at
      any later moment, gives the answer of the first time and changes nothing. *)
  Theorem pool_stores_each_node_once p : sound_externals A flat simp solve den -> reachable p ->
    (forall i j n m, dget (p_nodes p) i = Some n -> dget (p_nodes p) j = Some m -> content n = content m -> i = j) /\
    (forall i n q, dget (p_nodes p) i = Some n -> continues p q -> dget (p_nodes q) i = Some n) /\
    (forall r q res q', by_content r -> well_typed r -> (forall a, a ∈ mentions r -> is_Some (dget (p_nodes p) a)) ->
       serve r p = (q, res) -> continues q q' -> serve r q' = (q', res)).
  Proof.
    intros HX Hr. pose proof (reachable_inv A flat is_one is_zero simp solve X den HX p Hr) as Hi. split_and!.
    - intros i j n m. by apply (same_content A simp den p).
    - intros i n q Hn Hc. destruct (continues_ext A flat is_one is_zero simp solve X den HX p q Hr Hc) as [Hx _]. by apply Hx.
    - intros r q res q'. by apply (request_again A flat is_one is_zero simp solve X den HX).
  Qed.

  (** ** C43 *)

  (** Children exist and are older; no infinite path. *)
  Theorem diagrams_finite_acyclic p : sound_externals A flat simp solve den -> reachable p ->
    (forall c i, is_child (p_nodes p) c i -> c < i /\ is_Some (dget (p_nodes p) c)) /\
    well_founded (is_child (p_nodes p)).
  Proof.
    intros HX Hr. pose proof (reachable_inv A flat is_one is_zero simp solve X den HX p Hr) as Hi. split.
    - intros c i (d & ct & cf & Hn & Hc). destruct (iv_node _ _ _ p Hi _ _ _ _ Hn) as (? & ? & ? & ? & _).
      by destruct Hc as [->| ->].
    - by apply (children_wf A simp den).
  Qed.

  (** ** C44 *)

  (** In a pool without a user-given ordering the operations return, and the result
      has at every assignment the value of the operation; the logical operations are
      for diagrams whose leaves are zero and one. *)
  Theorem apply_pointwise_partial op p a b : sound_externals A flat simp solve den -> reachable p ->
    p_ordering p = false -> is_Some (dget (p_nodes p) a) -> is_Some (dget (p_nodes p) b) ->
    (op = LogicalOr \/ op = LogicalAnd -> boolean_diagram p a /\ boolean_diagram p b) ->
    exists q r, apply A flat simp op a b p = (q, Ok r) /\
      forall e x y, denotes den (p_nodes p) e a x -> denotes den (p_nodes p) e b y ->
        exists z, denotes den (p_nodes q) e r z /\ op_val op x y z.
  Proof.
    intros HX Hr Ho Ha Hb Hop. pose proof (reachable_inv A flat is_one is_zero simp solve X den HX p Hr) as Hi.
    destruct HX as [HA HF HS HT HV]. pose proof (apply_ok A flat simp den HA HF HS op p a b Hi Ha Hb) as Hap.
    destruct (apply A flat simp op a b p) as [q [r|x]].
    - exists q, r. split; [done|]. destruct Hap as (_ & Hx & _ & (_ & _ & _ & Hv & _)).
      intros e x y H1 H2. apply Hv; by eapply ext_denotes.
    - destruct Hap as (_ & _ & _ & _ & [?|Hn]); [congruence|]. exfalso. apply Hn. destruct op; cbn; auto.
  Qed.

  (** Whatever the pool and the diagrams: an answer is never wrong. *)
  Theorem apply_never_wrong op p a b q r : sound_externals A flat simp solve den -> reachable p ->
    is_Some (dget (p_nodes p) a) -> is_Some (dget (p_nodes p) b) -> apply A flat simp op a b p = (q, Ok r) ->
    forall e x y, denotes den (p_nodes p) e a x -> denotes den (p_nodes p) e b y ->
      exists z, denotes den (p_nodes q) e r z /\ op_val op x y z.
  Proof.
    intros HX Hr Ha Hb Hap e x y H1 H2. pose proof (reachable_inv A flat is_one is_zero simp solve X den HX p Hr) as Hi.
    destruct HX as [HA HF HS HT HV]. pose proof (apply_ok A flat simp den HA HF HS op p a b Hi Ha Hb) as Hok.
    rewrite Hap in Hok. destruct Hok as (_ & Hx & _ & (_ & _ & _ & Hv & _)). apply Hv; by eapply ext_denotes.
  Qed.

  (** ** C45 *)

  (** A node with a linear test: the pool answers, and off the hyperplane the answer
      has the value of the branch the test selects. *)
  Theorem linear_test_off_hyperplane_partial p f a c ct cf : sound_externals A flat simp solve den -> reachable p ->
    compares f a c -> linear_expr a -> linear_expr c -> typeof a = Some TReal -> typeof c = Some TReal ->
    simp (LeN (RealC 0) (RealC 0)) = BoolC true ->
    is_Some (dget (p_nodes p) ct) -> is_Some (dget (p_nodes p) cf) ->
    exists q i, internal simp (mkdec f) ct cf p = (q, Ok i) /\
      forall e b v, off e a c -> eval e f = Some (VB b) -> denotes den (p_nodes p) e (if b : bool then ct else cf) v ->
        denotes den (p_nodes q) e i v.
  Proof.
    intros HX Hr Hcmp La Lc Ta Tc Hs Ht Hf.
    pose proof (reachable_inv A flat is_one is_zero simp solve X den HX p Hr) as Hi.
    destruct HX as [HA HF HS HT HV].
    destruct (internal_linear A simp den f a c ct cf p Hcmp La Lc Ta Tc Hs Hi) as (q & i & Hq).
    assert (typeof f = Some TBool) as Tf.
    { clear -Hcmp Ta Tc. induction Hcmp; cbn; rewrite ?Ta, ?Tc, ?IHHcmp; done. }
    exists q, i. split; [done|]. intros e b v Hoff He Hv.
    assert (askable (mkdec f)) as Had by (right; by exists f).
    pose proof (internal_inv A simp den HS p (mkdec f) ct cf Hi Had Ht Hf) as Hin. rewrite Hq in Hin.
    destruct Hin as (_ & _ & _ & Hno & _). destruct (Hno i eq_refl) as (_ & Hval & _).
    apply (Hval e b); [|done]. by eapply takes_compare.
  Qed.

  (** A node with a boolean test: at every assignment. *)
  Theorem boolean_test_everywhere p f x ct cf q i : sound_externals A flat simp solve den -> reachable p ->
    f = Sym x TBool \/ f = NotN (Sym x TBool) ->
    is_Some (dget (p_nodes p) ct) -> is_Some (dget (p_nodes p) cf) -> internal simp (mkdec f) ct cf p = (q, Ok i) ->
    forall e b v, eval e f = Some (VB b) -> denotes den (p_nodes p) e (if b : bool then ct else cf) v ->
      denotes den (p_nodes q) e i v.
  Proof.
    intros HX Hr Hf Ht Hcf Hq e b v He Hv.
    pose proof (reachable_inv A flat is_one is_zero simp solve X den HX p Hr) as Hi.
    destruct HX as [HA HF HS HT HV].
    assert (askable (mkdec f)) as Had by (right; exists f; by destruct Hf as [-> | ->]).
    pose proof (internal_inv A simp den HS p (mkdec f) ct cf Hi Had Ht Hcf) as Hin. rewrite Hq in Hin.
    destruct Hin as (_ & _ & _ & Hno & _). destruct (Hno i eq_refl) as (_ & Hval & _).
    apply (Hval e b); [|done]. apply takes_bool; [done|by exists x|done].
  Qed.

  (** Inverting a diagram with leaves zero and one, on which no earlier walk raised. *)
  Theorem invert_negates_partial bad p id : sound_externals A flat simp solve den -> history bad p -> id ∉ bad ->
    p_ordering p = false -> knows_zero_one A is_one is_zero ->
    is_Some (dget (p_nodes p) id) -> boolean_diagram p id ->
    exists q r, invert A flat is_one is_zero simp id p = (q, Ok r) /\
      forall e, exists v, (v = 0 \/ v = 1)%Qc /\ denotes den (p_nodes p) e id v /\ denotes den (p_nodes q) e r (1 - v)%Qc.
  Proof.
    intros HX Hh Hb Ho Hk Hd Hbool. pose proof (history_hinv A flat is_one is_zero simp solve X den HX bad p Hh) as Hv.
    destruct HX as [HA HF HS HT HV]. pose proof (hv_inv _ _ _ _ _ _ Hv) as Hi.
    pose proof (invert_walk A flat is_one is_zero simp den HA HF HS p id Hi Hd (hv_prof _ _ _ _ _ _ Hv id Hb)) as Hw.
    destruct (invert A flat is_one is_zero simp id p) as [q [r|x]].
    - exists q, r. split; [done|]. intros e.
      destruct (boolean_total A simp den HA p Hi id Hd Hbool e) as (v & Hv01 & Hdv).
      exists v. split; [done|]. split; [done|]. by apply Hw.
    - exfalso. by apply (Hw Hk).
  Qed.

  (** ** C46 *)
  Theorem reduce_keeps_value fast p id : sound_externals A flat simp solve den -> reachable p ->
    is_Some (dget (p_nodes p) id) ->
    exists q r, reduce simp solve fast id p = (q, Ok r) /\ is_Some (dget (p_nodes q) r) /\
      forall e v, denotes den (p_nodes p) e id v -> denotes den (p_nodes q) e r v.
  Proof.
    intros HX Hr Hd. pose proof (reachable_inv A flat is_one is_zero simp solve X den HX p Hr) as Hi.
    destruct HX as [HA HF HS HT HV]. destruct (reduce_ok A simp solve den HS HV fast p id Hi Hd) as (q & r & ? & _ & _ & _ & ? & ? & _).
    by exists q, r.
  Qed.

  (** ** C47 *)

  (** A walk over a diagram on which no earlier walk raised: it visits the nodes in a
      bottom-up order, raises what a visit raises, and otherwise returns the fold. *)
  Theorem walk_is_fold_partial {B : Type} (vt : nat -> E -> Res B)
      (vi : nat -> decision -> nat -> nat -> option B -> option B -> Res B) bad p root :
    sound_externals A flat simp solve den -> history bad p -> root ∉ bad -> is_Some (dget (p_nodes p) root) ->
    exists order q, bottom_up_order (p_nodes p) root order /\
      match visits vt vi (p_nodes p) order [] with
      | Ok _ => exists m, pure_walk vt vi root p = (q, Ok m) /\ folds vt vi (p_nodes p) root m
      | Err x => pure_walk vt vi root p = (q, Err x)
      end.
  Proof.
    intros HX Hh Hb Hd. pose proof (history_hinv A flat is_one is_zero simp solve X den HX bad p Hh) as Hv.
    destruct HX as [HA HF HS HT HV]. pose proof (hv_inv _ _ _ _ _ _ Hv) as Hi.
    destruct (pure_walk_ok A simp den vt vi p root Hi Hd (hv_prof _ _ _ _ _ _ Hv root Hb)) as (order & q & Ho & Hw).
    exists order, q. split; [done|]. destruct (visits vt vi (p_nodes p) order []) as [res|x] eqn:Ev; [|done].
    destruct Hw as (m & Hm & Hp & _). exists m. split; [done|].
    destruct (visits_fold vt vi (p_nodes p) root order res Ho Ev root) as (m' & Hm' & Hf).
    { apply Ho. constructor. }
    congruence.
  Qed.

  (** The visits and the fold are unique. *)
  Theorem walk_visits_each_node_once (p : pool E) root order : bottom_up_order (p_nodes p) root order ->
    forall id, below (p_nodes p) root id -> exists before after, order = before ++ id :: after /\ id ∉ before /\ id ∉ after.
  Proof.
    intros (Hnd & Hin & _) id Hb. apply Hin in Hb. apply elem_of_list_split in Hb as (l1 & l2 & ->).
    exists l1, l2. split; [done|]. apply NoDup_app in Hnd as (_ & H1 & H2). split.
    - intros Hi. apply (H1 id Hi), elem_of_cons. by left.
    - by apply NoDup_cons in H2 as [? _].
  Qed.
End Props.
Print Assumptions pool_stores_each_node_once.
Print Assumptions diagrams_finite_acyclic.
Print Assumptions apply_pointwise_partial.
Print Assumptions apply_never_wrong.
Print Assumptions linear_test_off_hyperplane_partial.
Print Assumptions boolean_test_everywhere.
Print Assumptions invert_negates_partial.
Print Assumptions reduce_keeps_value.
Print Assumptions walk_is_fold_partial.

(** ** The hypotheses hold of the concrete pool *)

Lemma pool0_reachable : reachable pysmt_alg keep is1 is0 simp0 always no_integrals pool0.
Proof. exists []. exact pool0_history. Qed.

Lemma bool_leaves p : reachable pysmt_alg keep is1 is0 simp0 always no_integrals p -> p_zero p = 1 -> p_one p = 2 ->
  boolean_diagram p 1 /\ boolean_diagram p 2.
Proof.
  intros Hr Hz Ho. apply (reachable_inv _ _ _ _ _ _ _ _ externals_example) in Hr. split.
  - rewrite <- Hz. by eapply boolean_zero.
  - rewrite <- Ho. by eapply boolean_one.
Qed.

Example C42_example : sv (InternalR (LeN SX (RealC 0)) 3 1) pool0 = (pool0, Ok 5) /\
  sv (InternalR (LtN (RealC 0) SX) 1 3) pool0 = (pool0, Ok 5) /\ sv (TerminalR SX) pool0 = (pool0, Ok 4).
Proof. vm_compute. done. Qed.

Example C43_example : is_child (p_nodes pool0) 3 5 /\ is_child (p_nodes pool0) 2 3.
Proof. split; eexists _, _, _; (split; [vm_compute; reflexivity|]); by left. Qed.

(** (a and x <= 0) or a; the value of node 5 at a = true, x = -1 *)
Example C44_example : p_ordering pool0 = false /\ boolean_diagram pool0 5 /\ boolean_diagram pool0 3 /\
  (sv (ApplyR LogicalOr 5 3) pool0).2 = Ok 7 /\ (sv (ApplyR Summation 6 5) pool0).2 = Ok 10 /\
  denotes fm_den (p_nodes pool0) (Env (fun _ => true) (fun _ => (- (1))%Qc)) 5 1%Qc.
Proof.
  destruct (bool_leaves pool0 pool0_reachable) as [B1 B2]; [by vm_compute|by vm_compute|].
  assert (boolean_diagram pool0 3) as H3 by by apply (boolean_node pool0 3 (Dec SA true None) 2 1); [vm_compute|].
  split; [done|]. split; [|split; [exact H3|split; [by vm_compute|split; [by vm_compute|]]]].
  - apply (boolean_node pool0 5 (Dec (LtN SX (RealC 0)) true (Some [(["x"%string], 1%Qc)])) 3 1); [by vm_compute|done].
  - eapply dn_true; [reflexivity|reflexivity|]. eapply dn_true; [reflexivity|reflexivity|]. by eapply dn_leaf.
Qed.

Example C45_example : knows_zero_one pysmt_alg is1 is0 /\ (sv (InvertR 5) pool0).2 = Ok 11 /\
  compares (LeN SX (RealC 0)) SX (RealC 0) /\ linear_expr SX /\ linear_expr (RealC 0) /\
  simp0 (LeN (RealC 0) (RealC 0)) = BoolC true /\ off (Env (fun _ => true) (fun _ => 1%Qc)) SX (RealC 0).
Proof.
  split; [by vm_compute|]. split; [by vm_compute|]. split; [constructor|]. split; [apply le_sym|].
  split; [do 2 constructor|]. split; [by vm_compute|]. exists 1%Qc, 0%Qc. done.
Qed.

Example C46_example : (sv (ReduceR true 5) pool0).2 = Ok 5 /\ (sv (ReduceR false 6) pool0).2 = Ok 6.
Proof. by vm_compute. Qed.

(** Counting the leaves of the diagram. *)
Definition leaves_t (_ : nat) (_ : fm) : Res nat := Ok 1.
Definition leaves_i (_ : nat) (_ : decision) (_ _ : nat) (a b : option nat) : Res nat :=
  match a, b with Some a, Some b => Ok (a + b) | _, _ => Err TypeError end.
Example C47_example : (pure_walk leaves_t leaves_i 5 pool0).2 = Ok 3.
Proof. by vm_compute. Qed.

(** ** Where the properties fail *)

(** C43: node ids are not checked; a node can be made its own child. *)
Theorem acyclic_unchecked_ids_refuted :
  let p := new_pool pysmt_alg false in
  exists q, internal simp0 (mkdec SA) 3 1 p = (q, Ok 3) /\ is_child (p_nodes q) 3 3.
Proof. eexists. split; [by vm_compute|]. eexists _, _, _. split; [vm_compute; reflexivity|]. by left. Qed.
Print Assumptions acyclic_unchecked_ids_refuted.

(** C44: in a pool with an ordering, operations on two tests raise. *)
Definition pool_ord : pool fm :=
  (sv (BoolTestR (Sym "b" TBool)) (sv (BoolTestR SA) (new_pool pysmt_alg true)).1).1.
Theorem apply_with_ordering_refuted :
  reachable pysmt_alg keep is1 is0 simp0 always no_integrals pool_ord /\ boolean_diagram pool_ord 3 /\ boolean_diagram pool_ord 4 /\
  forall op, (apply pysmt_alg keep simp0 op 3 4 pool_ord).2 = Err AttributeError.
Proof.
  assert (reachable pysmt_alg keep is1 is0 simp0 always no_integrals pool_ord) as Hr.
  { eexists. unfold pool_ord.
    eapply (hi_step _ _ _ _ _ _ _ _ _ (BoolTestR (Sym "b" TBool))); [|done|mentioned].
    eapply (hi_step _ _ _ _ _ _ _ _ _ (BoolTestR SA)); [|done|mentioned]. constructor. }
  destruct (bool_leaves pool_ord Hr) as [B1 B2]; [by vm_compute|by vm_compute|].
  split; [done|split; [|split]].
  - by apply (boolean_node pool_ord 3 (Dec SA true None) 2 1); [vm_compute|].
  - by apply (boolean_node pool_ord 4 (Dec (Sym "b" TBool) true None) 2 1); [vm_compute|].
  - intros []; by vm_compute.
Qed.
Print Assumptions apply_with_ordering_refuted.

(** C45: on the hyperplane the branches are swapped: [x <= 0] is stored as [x < 0]. *)
Theorem linear_test_on_hyperplane_refuted :
  let p := new_pool pysmt_alg false in let e := Env (fun _ => true) (fun _ => 0%Qc) in
  exists q i, internal simp0 (mkdec (LeN SX (RealC 0))) 2 1 p = (q, Ok i) /\
    eval e (LeN SX (RealC 0)) = Some (VB true) /\ denotes fm_den (p_nodes p) e 2 1%Qc /\
    denotes fm_den (p_nodes q) e i 0%Qc.
Proof.
  eexists _, _. split; [by vm_compute|]. split; [reflexivity|]. split; [by eapply dn_leaf|].
  eapply dn_false; [reflexivity|reflexivity|]. by eapply dn_leaf.
Qed.
Print Assumptions linear_test_on_hyperplane_refuted.

(** C45: an algebra without is_one (SympyAlgebra calls a method that does not exist)
    cannot invert a diagram with two tests. *)
Theorem invert_without_is_one_refuted :
  boolean_diagram pool0 5 /\
  (invert pysmt_alg keep (fun _ => Err AttributeError) is0 simp0 5 pool0).2 = Err AttributeError.
Proof. split; [apply C44_example|by vm_compute]. Qed.
Print Assumptions invert_without_is_one_refuted.

(** C47: after a walk that raised, a walk with visitors that never raise on the
    messages of children fails, although the fold exists. *)
Definition raising_t (_ : nat) (_ : fm) : Res nat := Err ValueError.
Theorem walk_after_raise_refuted :
  let p := (sv (WalkR raising_t leaves_i 5) pool0).1 in
  reachable pysmt_alg keep is1 is0 simp0 always no_integrals p /\ folds leaves_t leaves_i (p_nodes p) 5 3 /\
  (pure_walk leaves_t leaves_i 5 p).2 <> Ok 3.
Proof.
  cbv zeta. split; [|split].
  - eexists. apply (hi_step _ _ _ _ _ _ _ _ _ (WalkR raising_t leaves_i 5) pool0_history); [done|mentioned].
  - eapply (fo_node _ _ _ _ _ _ _ 2 1); [reflexivity| | |reflexivity].
    + eapply (fo_node _ _ _ _ _ _ _ 1 1); [reflexivity| | |reflexivity]; by eapply fo_leaf.
    + by eapply fo_leaf.
  - by vm_compute.
Qed.
Print Assumptions walk_after_raise_refuted.
