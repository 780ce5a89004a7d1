(** C56: normalize_formula keeps formulas equivalent off the hyperplanes.
    C57: make_coefficients_positive is a projection. *)

From Verif Require Import Base Smt Math_Spec Transform_Model Transform_Spec Transform_Proofs.

(** * C57 *)

(** For every well typed formula of the supported language the call succeeds, the
    result has the type and at every point the value of the formula with each real
    constant replaced by its absolute value, contains no negative constant, and a
    second application changes nothing. *)
Theorem positive_coefficients_projection f :
  wf_fm f = true -> plain f = true -> typed f ->
  exists f', make_coefficients_positive f = Ok f' /\ typeof f' = typeof f /\ fequiv f' (abs_consts f) /\
    abs_consts f' = f' /\ make_coefficients_positive f' = Ok f'.
Proof. exact (positive_correct f). Qed.
Print Assumptions positive_coefficients_projection.

(** On a formula without implications, equivalences and double negations the result
    is literally the formula with the constants replaced. *)
Theorem positive_coefficients_exact f :
  core f = true -> typed f -> make_coefficients_positive f = Ok (abs_consts f).
Proof. exact (positive_core f). Qed.
Print Assumptions positive_coefficients_exact.

Definition neg_example : fm :=
  ImpN (LeN (TimesN [RealC (qz (-2)); Sym "x" TReal]) (RealC (qz (-3))))
    (NotN (AndN [Sym "A" TBool; LtN (Sym "x" TReal) (RealC (qz 1))])).

Example neg_example_supported : wf_fm neg_example = true /\ plain neg_example = true /\ typed neg_example.
Proof. by vm_compute. Qed.

Example neg_example_result : exists f', make_coefficients_positive neg_example = Ok f' /\ core f' = true /\
  f' = OrN [NotN (LeN (TimesN [RealC (qz 2); Sym "x" TReal]) (RealC (qz 3)));
            NotN (AndN [Sym "A" TBool; LtN (Sym "x" TReal) (RealC (qz 1))])].
Proof.
  eexists. split; [vm_compute; reflexivity|]. split; [done|].
  repeat f_equal; apply Qc_is_canon; reflexivity.
Qed.

(** The values do change: the result is in general not equivalent to the formula. *)
Example positive_changes_value : exists f', make_coefficients_positive neg_example = Ok f' /\ ~ fequiv f' neg_example.
Proof.
  eexists. split; [vm_compute; reflexivity|]. intros H.
  specialize (H (Env (fun _ => true) (fun _ => 0%Qc))). vm_compute in H. discriminate.
Qed.

(** * C56 *)

(** Whenever the normalised formula is returned, it has the type of the formula and
    its value at every point that lies on no hyperplane of a comparison of [f]. *)
Theorem normalize_equivalent f f' :
  wf_fm f = true -> plain f = true -> typed f -> normalize_formula f = Ok f' ->
  typeof f' = typeof f /\ forall e, off_all e f -> eval e f' = eval e f.
Proof. exact (normalize_value f f'). Qed.
Print Assumptions normalize_equivalent.

(** It is returned for every formula whose comparisons are between linear expressions. *)
Theorem normalize_succeeds f :
  wf_fm f = true -> plain f = true -> typed f -> linear_tests f -> exists f', normalize_formula f = Ok f'.
Proof. exact (normalize_total f). Qed.
Print Assumptions normalize_succeeds.

Definition norm_example : fm :=
  IffN (Sym "A" TBool)
    (OrN [LeN (TimesN [RealC (qz 4); Sym "x" TReal]) (PlusN [Sym "y" TReal; RealC (qz 2)]);
          NotN (LtN (Sym "y" TReal) (RealC (qz 3)))]).

Example norm_example_supported :
  wf_fm norm_example = true /\ plain norm_example = true /\ typed norm_example /\ linear_tests norm_example.
Proof.
  split; [done|]. split; [done|]. split; [done|]. intros g Hg.
  apply elem_of_list_In in Hg. cbn in Hg. destruct Hg as [<-|[<-|[]]].
  - eexists _, _. split; [constructor|]. split.
    + apply (le_times [RealC (qz 4)] (Sym "x" TReal) []); [|apply le_sym|constructor].
      repeat constructor.
    + apply le_plus; [done|]. constructor; [apply le_sym|]. constructor; [apply le_const; constructor|constructor].
  - eexists _, _. split; [constructor|]. split; [apply le_sym|]. apply le_const. constructor.
Qed.
Example norm_example_off : off_all (Env (fun _ => true) (fun _ => 1%Qc)) norm_example.
Proof.
  intros g a b Hg. apply elem_of_list_In in Hg. cbn in Hg. destruct Hg as [<-|[<-|[]]]; intros Hc; inversion Hc; subst.
  - eexists _, _. split; [vm_compute; reflexivity|]. split; [vm_compute; reflexivity|]. done.
  - eexists _, _. split; [vm_compute; reflexivity|]. split; [vm_compute; reflexivity|]. done.
Qed.

(** On a hyperplane the value can change: x <= 0 becomes x < 0. *)
Theorem normalize_on_hyperplane_refuted : exists f f' e,
  wf_fm f = true /\ plain f = true /\ typed f /\ linear_tests f /\ normalize_formula f = Ok f' /\
  eval e f = Some (VB true) /\ eval e f' = Some (VB false).
Proof.
  exists (LeN (Sym "x" TReal) (RealC 0%Qc)). eexists. exists (Env (fun _ => true) (fun _ => 0%Qc)).
  split; [done|]. split; [done|]. split; [done|]. split.
  { intros g Hg. apply elem_of_list_In in Hg. cbn in Hg. destruct Hg as [<-|[]].
    eexists _, _. split; [constructor|]. split; [apply le_sym|]. apply le_const. constructor. }
  split; [vm_compute; reflexivity|]. split; vm_compute; reflexivity.
Qed.
Print Assumptions normalize_on_hyperplane_refuted.
