(** C03, C04, C05: evaluating and rebuilding formulas
    (pywmi/smt_check.py, pywmi/smt_walk.py). *)

From Verif Require Import Base Smt Walk_Model Walk_Proofs Check_Model Check_Spec Check_Proofs
  Batch_Proofs.

(** (a <-> x <= 2) as a formula, and a weight that uses it twice. *)
Definition ex_cond : fm := IffN (Sym "a" TBool) (LeN (Sym "x" TReal) (RealC (qz 2))).
Definition ex_w : fm :=
  PlusN [IteN ex_cond (PowN (Sym "x" TReal) (RealC (qz 2))) (RealC (qz 3));
         IteN ex_cond (Sym "x" TReal) (TimesN [RealC (qz 5); Sym "x" TReal])].
(** Two rows: (a = 1, x = 2) and (a = 1, x = 4). *)
Definition ex_vars : list string := ["a"; "x"]%string.
Definition ex_cols : list (list Qc) := [[qz 1; qz 1]; [qz 2; qz 4]].
Definition ex_env (x : Qc) : env :=
  Env (fun y => String.eqb y "a" || (String.eqb y "x" && negb (qeq x 0)))
      (fun y => if String.eqb y "x" then x else 1%Qc).

(** * C03 *)

(** Row i of the result is the value of the formula under the assignment given
    by row i of the table. *)
Theorem C03_table_rows : forall vars cols rows f vs,
  NoDup vars -> length cols = length vars ->
  (forall k col, cols !! k = Some col -> length col = length rows) ->
  (forall i e, rows !! i = Some e -> agrees_row vars cols i e) ->
  over vars f -> wf_fm f = true -> plain f = true -> typeof f <> None ->
  Forall2 (fun e v => eval e f = Some v) rows vs ->
  evaluate vars f (Arr2 (length rows) cols) = Ok (Array vs).
Proof. exact evaluate_table. Qed.
Print Assumptions C03_table_rows.

Example C03_table_rows_applies :
  evaluate ex_vars ex_w (Arr2 2 ex_cols) = Ok (Array [VN (qz 6); VN (qz 23)]).
Proof.
  apply (C03_table_rows ex_vars ex_cols [ex_env (qz 2); ex_env (qz 4)]).
  - dec.
  - done.
  - intros [|[|k]] col H; try done; by injection H as <-.
  - intros [|[|i]] e H [|[|k]] x Hk; try done; injection H as <-; injection Hk as <-;
      (eexists _, _; split; [done|]; split; [done|]; split; reflexivity).
  - by apply over_check.
  - reflexivity.
  - reflexivity.
  - cbn. discriminate.
  - repeat constructor; vm_compute; repeat f_equal; by apply Qc_is_canon.
Qed.

(** Zero rows are fine too. *)
Example C03_table_rows_empty : evaluate ex_vars ex_w (Arr2 0 [[]; []]) = Ok (Array []).
Proof. reflexivity. Qed.

(** A single sample. *)
Theorem C03_single_sample : forall vars sample e f v,
  1 < length vars -> NoDup vars -> agrees vars sample e -> over vars f ->
  wf_fm f = true -> plain f = true -> typeof f <> None ->
  eval e f = Some v -> evaluate vars f (Arr1 sample) = Ok (Scalar v).
Proof. exact evaluate_single. Qed.
Print Assumptions C03_single_sample.

Example C03_single_sample_applies :
  evaluate ex_vars ex_w (Arr1 [qz 1; qz 4]) = Ok (Scalar (VN (qz 23))).
Proof.
  apply (C03_single_sample ex_vars [qz 1; qz 4] (ex_env (qz 4))).
  - cbn. lia.
  - dec.
  - intros [|[|k]] x Hk; try done; injection Hk as <-;
      (eexists; split; [done|]; split; reflexivity).
  - by apply over_check.
  - reflexivity.
  - reflexivity.
  - cbn. discriminate.
  - vm_compute; repeat f_equal; by apply Qc_is_canon.
Qed.

(** An assignment dictionary. *)
Theorem C03_assignment : forall asg e f v,
  assigns asg e f -> wf_fm f = true -> plain f = true -> typeof f <> None ->
  eval e f = Some v -> evaluate_assignment f asg = Ok v.
Proof. exact assignment_ok. Qed.
Print Assumptions C03_assignment.

Example C03_assignment_applies :
  evaluate_assignment ex_w (fun y => Some (if String.eqb y "a" then VB true else VN (qz 4))) =
  Ok (VN (qz 23)).
Proof.
  apply (C03_assignment _ (ex_env (qz 4))).
  - intros x t Hx. cbn in Hx. repeat (apply elem_of_cons in Hx as [H|Hx]; [injection H as -> ->; done|]).
    by apply elem_of_nil in Hx.
  - reflexivity.
  - reflexivity.
  - cbn. discriminate.
  - vm_compute; repeat f_equal; by apply Qc_is_canon.
Qed.

(** The claim fails for a single sample of a one-variable domain, given as a
    one-dimensional array: the array is taken for a table and indexing its
    columns raises (smt_check.py:204-207). *)
Theorem C03_one_variable_sample_refuted :
  exists e, agrees ["x"]%string [qz 3] e /\ eval e (Sym "x" TReal) = Some (VN (qz 3)) /\
    evaluate ["x"]%string (Sym "x" TReal) (Arr1 [qz 3]) = Err IndexError.
Proof.
  exists (ex_env (qz 3)). split; [|split; reflexivity].
  intros [|k] x Hk; [|done]. injection Hk as <-. exists (qz 3). split; [done|]. by split.
Qed.
Print Assumptions C03_one_variable_sample_refuted.

(** * C04 *)

(** Whatever formulas a checker is asked for, in whatever order, and also when
    it raises in the middle: the sample table is what it was, and no array
    returned by a (sub)walk is written later. *)
Theorem C04_table_and_results_intact : forall vars len two_d cols fs,
  let s' := walks vars len two_d fs (batch_init cols) in
  (forall k col, cols !! k = Some col -> heap s' !! k = Some (map VN col)) /\
  no_write_after_return (trace s').
Proof. exact walks_no_damage. Qed.
Print Assumptions C04_table_and_results_intact.

(** In particular a result keeps its contents while other formulas are evaluated. *)
Theorem C04_result_kept : forall vars len two_d cols fs f s r a more,
  s = walks vars len two_d fs (batch_init cols) ->
  batch vars len two_d (msize f) f s = (fst (batch vars len two_d (msize f) f s), Ok r) ->
  heap (fst (batch vars len two_d (msize f) f s)) !! r = Some a ->
  heap (walks vars len two_d more (fst (batch vars len two_d (msize f) f s))) !! r = Some a.
Proof. exact walks_result_kept. Qed.
Print Assumptions C04_result_kept.

(** The evaluation of the example does write in place, after results were
    handed out, and hands the array of [ex_cond] out twice. *)
Example C04_not_vacuous :
  let s' := walks ex_vars 2 true [ex_w] (batch_init ex_cols) in
  trace s' !! 5 = Some (Wr 8) /\ trace s' !! 6 = Some (Ret 8) /\ trace s' !! 14 = Some (Wr 11) /\
  trace s' !! 15 = Some (Ret 11) /\ trace s' !! 21 = Some (Ret 11).
Proof. vm_compute. done. Qed.

Example C04_result_kept_applies :
  let s := walks ex_vars 2 true [ex_cond] (batch_init ex_cols) in
  batch ex_vars 2 true (msize ex_w) ex_w s = (fst (batch ex_vars 2 true (msize ex_w) ex_w s), Ok 19) /\
  is_Some (heap (fst (batch ex_vars 2 true (msize ex_w) ex_w s)) !! 19).
Proof. vm_compute. split; [done|]. eexists. done. Qed.

(** * C05 *)

(** The identity walker succeeds on every well formed formula without integer
    parts, keeps its type and its value under every assignment. *)
Theorem C05_identity_preserves : forall f,
  wf_fm f = true -> plain f = true -> typeof f <> None ->
  exists f', identity_walk f = Ok f' /\ typeof f' = typeof f /\ fequiv f' f.
Proof. exact identity_preserves. Qed.
Print Assumptions C05_identity_preserves.

(** The result of the example is a different formula: the equivalence and the
    implications in it are expanded. *)
Example C05_identity_preserves_applies :
  wf_fm ex_w = true /\ plain ex_w = true /\ typeof ex_w = Some TReal /\
  identity_walk ex_w <> Ok ex_w.
Proof. vm_compute. done. Qed.

(** Formulas with integer constants are not rebuilt: walk_constant returns an
    exception object (smt_walk.py:152-158). *)
Theorem C05_integer_constant_refuted :
  wf_fm (IntC 1) = true /\ typeof (IntC 1) = Some TInt /\ identity_walk (IntC 1) = Err ValueError.
Proof. done. Qed.
Print Assumptions C05_integer_constant_refuted.
