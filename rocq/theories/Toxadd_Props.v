(** C50: the diagram of a formula or weight has the value of the formula or weight. *)

From Verif Require Import Base Dict Smt Smt_Facts Math_Model Math_Spec Poly_Proofs Arith_Proofs Linear_Proofs
  Piecewise_Spec Xadd_Model Resolve_Model Xadd_Spec Xadd_Proofs Xreq_Proofs Toxadd_Model Toxadd_Spec Toxadd_Proofs
  Xadd_Props.

Section Props.
  Context {E : Type} `{EqDecision E} (A : alg E) (flat : E -> E) (is_one is_zero : E -> Res bool) (simp : fm -> fm)
    (solve : list fm -> fm -> bool) (X : resolver E) (den : E -> env -> option Qc).
  Notation history := (history A flat is_one is_zero simp solve X).
  Notation translate := (translate A flat is_one is_zero simp).

  (** In a pool without a user-given ordering on which no walk has raised, every
      formula over boolean variables and linear comparisons gets a diagram with leaves
      zero and one; at every assignment off the hyperplanes its value is one where the
      formula is true and zero where it is false.  Existing nodes stay as they are. *)
  Theorem formula_to_diagram_partial p f : sound_externals A flat simp solve den -> knows_zero_one A is_one is_zero ->
    simp (LeN (RealC 0) (RealC 0)) = BoolC true -> history [] p -> p_ordering p = false -> bool_formula f ->
    exists q r, translate true f p = (q, Ok (WNode r)) /\ history [] q /\ keeps_nodes p q /\ boolean_diagram q r /\
      forall e b, off_tests e f -> eval e f = Some (VB b) -> denotes den (p_nodes q) e r (if b then 1 else 0)%Qc.
  Proof.
    intros HX HK H0 Hh Ho Hf.
    destruct (translate_ok A flat is_one is_zero simp solve X den HX HK H0 KBool f p) as (q & [r|] & Hr & [Hq _] & Hx & Hv);
      [done|split; [done|by apply bool_formula_bool]| |done].
    destruct Hv as [(_ & Hb & _) Hv]. exists q, r. split; [done|]. split; [done|]. split; [|done].
    split; [apply Hx|]. split; apply Hx.
  Qed.

  (** Every piecewise polynomial weight gets a diagram with its values. *)
  Theorem weight_to_diagram_partial p w : sound_externals A flat simp solve den -> knows_zero_one A is_one is_zero ->
    simp (LeN (RealC 0) (RealC 0)) = BoolC true -> history [] p -> p_ordering p = false -> weight_formula w ->
    exists q r, translate false w p = (q, Ok (WNode r)) /\ history [] q /\ keeps_nodes p q /\
      forall e v, off_tests e w -> eval e w = Some (VN v) -> denotes den (p_nodes q) e r v.
  Proof.
    intros HX HK H0 Hh Ho Hf.
    destruct (translate_ok A flat is_one is_zero simp solve X den HX HK H0 KWeight w p) as (q & [r|] & Hr & [Hq _] & Hx & Hv);
      [done|split; [done|by apply weight_formula_real]| |done].
    destruct Hv as [_ Hv]. exists q, r. split; [done|]. split; [done|]. split; [|done].
    split; [apply Hx|]. split; apply Hx.
  Qed.
End Props.
Print Assumptions formula_to_diagram_partial.
Print Assumptions weight_to_diagram_partial.

(** ** A concrete case *)

Definition SY := Sym "y" TReal.
Definition form0 : fm := AndN [IffN SA (LeN SX (MinusN SY (RealC 1))); OrN [NotN SA; LtN SX (RealC (qz 2))]].
Definition weight0 : fm := IteN (AndN [SA; form0]) (TimesN [SX; SY]) (PlusN [PowN SX (RealC (qn 3)); RealC 1]).
Definition e13 : env := Env (fun _ => true) (fun x => if bool_decide (x = "x"%string) then 1%Qc else qz 3).
Lemma knows_example : knows_zero_one pysmt_alg is1 is0.
Proof. split_and!; vm_compute; reflexivity. Qed.
Lemma form0_formula : bool_formula form0.
Proof.
  apply bf_and. constructor; [|constructor; [|constructor]].
  - apply bf_iff; [apply bf_sym|]. apply bf_le; [apply le_sym|]. apply le_minus; [apply le_sym|]. apply le_const. constructor.
  - apply bf_or. constructor; [by do 2 constructor|]. constructor; [|constructor]. apply bf_lt; [apply le_sym|]. apply le_const. constructor.
Qed.
Lemma weight0_formula : weight_formula weight0.
Proof.
  apply wf_ite.
  - apply bf_and. constructor; [apply bf_sym|]. constructor; [apply form0_formula|constructor].
  - apply wf_times; [done|]. repeat constructor.
  - apply wf_plus; [done|]. constructor; [apply wf_pow; constructor|]. repeat constructor.
Qed.
Lemma e13_off : off_tests e13 form0 /\ off_tests e13 weight0.
Proof.
  assert (forall l, l = comparisons form0 ++ comparisons form0 -> forall a b, (a, b) ∈ l -> off e13 a b) as H.
  { intros l -> a b H. cbn in H. repeat (apply elem_of_cons in H as [[= -> ->]|H]; [eexists _, _; by split_and!|]).
    by apply elem_of_nil in H. }
  split; intros a b Hab; apply (H _ eq_refl), elem_of_app; left; [done|]. cbn in Hab |- *. done.
Qed.
Example formula_to_diagram_case : exists q r,
  translate pysmt_alg keep is1 is0 simp0 true form0 pool0 = (q, Ok (WNode r)) /\
  denotes fm_den (p_nodes q) e13 r 1%Qc.
Proof.
  destruct (formula_to_diagram_partial pysmt_alg keep is1 is0 simp0 always no_integrals fm_den pool0 form0 externals_example
    knows_example) as (q & r & Hr & _ & _ & _ & Hv); [by vm_compute|exact pool0_history|by vm_compute|exact form0_formula|].
  exists q, r. split; [done|]. apply (Hv e13 true); [apply e13_off|]. vm_compute. reflexivity.
Qed.
Example weight_to_diagram_case : exists q r,
  translate pysmt_alg keep is1 is0 simp0 false weight0 pool0 = (q, Ok (WNode r)) /\
  denotes fm_den (p_nodes q) e13 r (qz 3).
Proof.
  destruct (weight_to_diagram_partial pysmt_alg keep is1 is0 simp0 always no_integrals fm_den pool0 weight0 externals_example
    knows_example) as (q & r & Hr & _ & _ & Hv); [by vm_compute|exact pool0_history|by vm_compute|exact weight0_formula|].
  exists q, r. split; [done|]. apply (Hv e13 (qz 3)); [apply e13_off|]. vm_compute. do 2 f_equal. 
Qed.

(** ** Where the property fails *)

(** x^0 <= y: the walk of x^0 returns the id of the terminal one, 2, and the test
    becomes 2 <= y.  At y = 3/2 the formula is true and the diagram zero. *)
Definition pow0_le : fm := LeN (PowN SX (RealC 0)) SY.
Definition e_mid : env := Env (fun _ => true) (fun x => if bool_decide (x = "x"%string) then 1%Qc else Q2Qc (3 # 2)).
Theorem formula_to_diagram_refuted :
  ~ (forall p f q r e b, history pysmt_alg keep is1 is0 simp0 always no_integrals [] p -> p_ordering p = false ->
      typeof f = Some TBool -> translate pysmt_alg keep is1 is0 simp0 true f p = (q, Ok (WNode r)) -> off_tests e f ->
      eval e f = Some (VB b) -> denotes fm_den (p_nodes q) e r (if b then 1 else 0)%Qc).
Proof.
  intros H.
  destruct (translate pysmt_alg keep is1 is0 simp0 true pow0_le (new_pool pysmt_alg false)) as [q res] eqn:Ht.
  assert (res = Ok (WNode 3) /\ exists d, dget (p_nodes q) 3 = Some (INode d 2 1) /\
    eval e_mid (d_test d) = Some (VB false) /\ dget (p_nodes q) 1 = Some (TNode (RealC 0))) as (-> & d & Hn3 & He & Hn1).
  { vm_compute in Ht. injection Ht as <- <-. split; [done|]. eexists. split; [reflexivity|]. split; vm_compute; reflexivity. }
  specialize (H _ pow0_le q 3 e_mid true (hi_new _ _ _ _ _ _ _ false) eq_refl eq_refl Ht).
  assert (denotes fm_den (p_nodes q) e_mid 3 0%Qc) as H0.
  { eapply dn_false; [exact Hn3|exact He|]. eapply dn_leaf; [exact Hn1|done]. }
  pose proof (denotes_fun fm_den _ _ _ _ _ (H ltac:(intros a b Hab; cbn in Hab; apply elem_of_list_singleton in Hab as [= -> ->];
    eexists _, _; by split_and!) eq_refl) H0) as Heq. done.
Qed.
Print Assumptions formula_to_diagram_refuted.

(** Equalities raise. *)
Theorem equality_to_diagram_raises (a b : fm) (mode : bool) p :
  (translate pysmt_alg keep is1 is0 simp0 mode (EqN a b) p).2 = Err NotImplemented.
Proof. done. Qed.
Print Assumptions equality_to_diagram_raises.
