(** C28, C29 and C62: literal abstraction and the literal table. *)

From Verif Require Import Base Dict Smt Math_Spec Lit_Model Lit_Spec Lit_Proofs.

(** * C28 *)

(** Extraction succeeds on every formula over boolean variables and linear
    inequalities; the result mentions only literals of the table, and giving each
    literal its meaning yields the truth value of the original formula at every
    point off the bounding hyperplanes. *)
Theorem C28_equivalent f : logic_formula f -> exists g i, extract_literals f = Ok (g, i) /\
  (forall e, off_tests e f -> eval (literal_env e (literals i)) g = eval e f) /\
  (forall lit t, (lit, t) ∈ syms g -> t = TBool /\ is_Some (dget (literals i) lit)).
Proof. exact (extract_sem f). Qed.
Print Assumptions C28_equivalent.

(** The numbers 1..n are given to the n literals, each to one; a negated number
    denotes the same literal; numbers of boolean variables come first; and the
    table is two-way.  This holds for whatever formula is accepted. *)
Theorem C28_numbers f g i : extract_literals f = Ok (g, i) ->
  (forall lit, is_Some (dget (numbered i) lit) <-> is_Some (dget (literals i) lit)) /\
  (forall lit n, dget (numbered i) lit = Some n <-> number_to_lit i (Z.of_nat n) = Ok lit) /\
  (forall n, (exists lit, dget (numbered i) lit = Some n) <-> 1 <= n <= length (literals i)) /\
  (forall z, number_to_lit i (- z) = number_to_lit i z) /\
  (forall l1 l2 x h n1 n2,
    dget (literals i) l1 = Some (MBool x) -> dget (literals i) l2 = Some (MTest h) ->
    dget (numbered i) l1 = Some n1 -> dget (numbered i) l2 = Some n2 -> n1 < n2) /\
  two_way i.
Proof.
  intros H. destruct (extract_inv f g i H) as (s & _ & I & _ & -> & Hnd).
  destruct (numbers_facts (LInfo (s_abs s) (s_bools s) _) Hnd) as (N1 & N2 & N3 & N4).
  split; [exact N1|]. split; [exact N2|]. split; [exact N3|]. split; [exact N4|]. split.
  - intros l1 l2 x h n1 n2. exact (booleans_first_lemma _ _ l1 l2 x h n1 n2 Hnd).
  - exact (table_two_way s I).
Qed.
Print Assumptions C28_numbers.

(** number_to_val gives the meaning of the numbered literal. *)
Theorem C28_number_to_val f g i lit n : extract_literals f = Ok (g, i) ->
  dget (numbered i) lit = Some n ->
  exists m, dget (literals i) lit = Some m /\
    number_to_val i (Z.of_nat n) = Ok m /\ number_to_val i (- Z.of_nat n) = Ok m.
Proof.
  intros H Hn. destruct (C28_numbers f g i H) as (N1 & N2 & _ & N4 & _).
  destruct (proj1 (N1 lit) (ex_intro _ n Hn)) as [m Hm]. exists m. split; [exact Hm|].
  apply N2 in Hn. unfold number_to_val. rewrite N4, Hn. cbn [rbind]. by rewrite Hm.
Qed.
Print Assumptions C28_number_to_val.

Definition x_ : fm := Sym "x" TReal.
Definition y_ : fm := Sym "y" TReal.
Definition A_ : fm := Sym "A" TBool.
Definition B_ : fm := Sym "B" TBool.
(** (2x <= 3y or B) and ite(A, not (x < 3y/2), B) *)
Definition ex28 : fm :=
  AndN [OrN [LeN (TimesN [RealC (qz 2); x_]) (TimesN [RealC (qz 3); y_]); B_];
        IteN A_ (NotN (LtN x_ (TimesN [RealC (Q2Qc (3 # 2)); y_]))) B_].
Definition pt28 : env := Env (fun _ => true) (fun v => if decide (v = "x"%string) then qz 5 else 1%Qc).

Example C28_example :
  logic_formula ex28 /\ off_tests pt28 ex28 /\ eval pt28 ex28 = Some (VB true) /\
  (exists g i, extract_literals ex28 = Ok (g, i) /\ dkeys (numbered i) = ["b0"; "b1"; "a0"]%string).
Proof.
  split; [|split; [|split]].
  - assert (forall q v, linear_expr (TimesN [RealC q; Sym v TReal])) as H1.
    { intros q v. apply (le_times [RealC q] (Sym v TReal) []); [|apply le_sym|constructor].
      apply Forall_cons. split; [constructor|constructor]. }
    constructor. repeat (apply Forall_cons; split); [| |constructor].
    + constructor. repeat (apply Forall_cons; split); [|constructor|constructor].
      apply lf_le; apply H1.
    + apply lf_ite; [constructor| |constructor]. constructor. apply lf_lt; [apply le_sym|apply H1].
  - cbn. assert (forall a b : Qc, qeq a b = false -> a <> b) as H by (intros; by apply qeq_false).
    repeat split; try done.
    + eexists _, _. split; [reflexivity|]. split; [reflexivity|]. by apply H.
    + eexists _, _. split; [reflexivity|]. split; [reflexivity|]. by apply H.
  - by vm_compute.
  - eexists _, _. split; [vm_compute; reflexivity|]. by vm_compute.
Qed.

(** On a bounding hyperplane the meaning can change: x <= 1 at x = 1. *)
Theorem C28_boundary_refuted : exists f g i e, logic_formula f /\
  extract_literals f = Ok (g, i) /\ eval e f = Some (VB true) /\
  eval (literal_env e (literals i)) g = Some (VB false).
Proof.
  exists (LeN x_ (RealC 1)). eexists _, _, (Env (fun _ => true) (fun _ => 1%Qc)).
  split; [apply lf_le; [apply le_sym|apply le_const; constructor]|].
  split; [vm_compute; reflexivity|]. split; by vm_compute.
Qed.
Print Assumptions C28_boundary_refuted.

(** Equalities, although listed among the supported tests, are never accepted. *)
Theorem C28_equality_refuted a b : exists e, extract_literals (EqN a b) = Err e.
Proof.
  unfold extract_literals. cbn [recurse]. unfold rec_test.
  destruct (is_all_real a && is_all_real b); [|by eexists]. cbn. by eexists.
Qed.
Print Assumptions C28_equality_refuted.

(** * C29 *)

(** After any sequence of insertions under new keys (successful or refused) the table
    is two-way: nothing is lost and the inverse contains nothing else.
    Missing: overwriting, deletion and clearing, see the refutations below. *)
Theorem C29_insertions_partial os : fresh_history empty_linfo os -> two_way (lrun empty_linfo os).
Proof. apply history_two_way. done. Qed.
Print Assumptions C29_insertions_partial.

(** The same from any two-way table, such as the one extraction returns. *)
Theorem C29_insertions_after_extract_partial f g i os : extract_literals f = Ok (g, i) ->
  fresh_history i os -> two_way (lrun i os).
Proof. intros H. apply history_two_way. by apply (C28_numbers f g i H). Qed.
Print Assumptions C29_insertions_after_extract_partial.

(** An insertion under a new key is refused exactly when the literal is in use. *)
Theorem C29_refused s x l : dget (booleans s) x = None ->
  (lstep s (SetBool x l)).2 = match dget (literals s) l with Some _ => Err AssertionError | None => Ok tt end.
Proof. exact (fresh_insert_result s x l). Qed.
Print Assumptions C29_refused.

Example C29_example :
  fresh_history empty_linfo [SetBool "A" "b0"; SetTest (LtN x_ y_) "a0"; SetBool "B" "b0"; SetBool "B" "b1"]%string.
Proof. cbn. done. Qed.

(** Building a table from given entries (distinct keys, and distinct literals on each
    side) gives a two-way table, unless a literal is used on both sides, which is
    refused. *)
Theorem C29_constructor abs bools :
  dwf abs -> dwf bools -> NoDup (map snd abs) -> NoDup (map snd bools) ->
  (forall l, l ∈ map snd bools -> l ∈ map snd abs -> linfo_make abs bools = Err AssertionError) /\
  ((forall l, l ∈ map snd bools -> l ∉ map snd abs) -> exists i, linfo_make abs bools = Ok i /\
     abstractions i = abs /\ booleans i = bools /\ two_way i).
Proof. intros. split; [apply make_clash|]. by apply make_disjoint. Qed.
Print Assumptions C29_constructor.

Example C29_constructor_case :
  dwf [(LtN x_ y_, "a0"%string); (LtN y_ x_, "a1"%string)] /\ NoDup ["a0"; "a1"]%string /\
  (forall l, l ∈ ["b0"; "b1"]%string -> l ∉ ["a0"; "a1"]%string) /\
  linfo_make [(LtN x_ y_, "b1"%string)] [("A", "b0"); ("B", "b1")]%string = Err AssertionError.
Proof.
  split; [unfold dwf; dec|]. split; [dec|]. split; [|done].
  intros l. rewrite !elem_of_cons, elem_of_nil. intros [->|[->|[]]]; dec.
Qed.

(** Overwriting a key leaves the old literal in the inverse table. *)
Theorem C29_overwrite_refuted : exists s o, two_way s /\ (lstep s o).2 = Ok tt /\ ~ two_way (lstep s o).1.
Proof.
  exists (lrun empty_linfo [SetBool "A" "b0"]%string), (SetBool "A" "b1")%string. split; [|split].
  - apply history_two_way; [done|]. cbn. done.
  - done.
  - intros [T _]. by pose proof (proj2 (T "A" "b0")%string eq_refl).
Qed.
Print Assumptions C29_overwrite_refuted.

(** Overwriting may also take the literal of another key. *)
Theorem C29_steal_refuted : exists s o, two_way s /\ (lstep s o).2 = Ok tt /\
  dget (booleans (lstep s o).1) "A"%string = dget (booleans (lstep s o).1) "B"%string.
Proof.
  exists (lrun empty_linfo [SetBool "A" "b0"; SetBool "B" "b1"]%string), (SetBool "A" "b1")%string.
  split; [apply history_two_way; [done|]; cbn; done|]. done.
Qed.
Print Assumptions C29_steal_refuted.

(** Deletion always raises KeyError; deleting a present key breaks the table. *)
Theorem C29_delete_refuted s x : two_way s -> dwf (booleans s) ->
  (lstep s (DelBool x)).2 = Err KeyError /\
  (is_Some (dget (booleans s) x) -> ~ two_way (lstep s (DelBool x)).1).
Proof.
  intros [T _] Hwf. split; [by apply del_raises|]. intros [l Hl] [T' _].
  cbn in T'. unfold delegate_del in T'. rewrite Hl in T'. cbn in T'. apply T in Hl.
  apply T' in Hl. rewrite dget_ddel in Hl by done. by rewrite decide_True in Hl.
Qed.
Print Assumptions C29_delete_refuted.

(** Clearing a table that is not empty always raises; with two or more entries
    some remain. *)
Theorem C29_clear_refuted s : two_way s -> dwf (booleans s) -> booleans s <> [] ->
  (lstep s ClearBool).2 = Err RuntimeErr /\
  length (booleans (lstep s ClearBool).1) = length (booleans s) - 1.
Proof.
  intros [T _] Hwf Hne. cbn. unfold delegate_clear.
  assert (forallb (fun kv : string * string => bool_decide (is_Some (dget (literals s) kv.2))) (booleans s) = true) as ->.
  { apply forallb_forall. intros [x l] Hin%elem_of_list_In. apply bool_decide_eq_true.
    apply In_dget in Hin; [|done]. apply T in Hin. cbn. by rewrite Hin. }
  destruct (booleans s) as [|[x l] d]; [done|]. cbn. split; [done|lia].
Qed.
Print Assumptions C29_clear_refuted.

Example C29_tables_example :
  let s := lrun empty_linfo [SetBool "A" "b0"; SetBool "B" "b1"]%string in
  two_way s /\ dwf (booleans s) /\ is_Some (dget (booleans s) "A"%string) /\ booleans s <> [].
Proof.
  cbn zeta. split; [apply history_two_way; [done|]; cbn; done|].
  split; [|split; [by eexists|done]]. unfold dwf. dec.
Qed.

(** * C62 *)

(** The query whether a number stands for a boolean variable answers yes for
    every number, also for those of inequalities. *)
Theorem C62_refuted : exists f g i n h, logic_formula f /\ extract_literals f = Ok (g, i) /\
  number_to_val i n = Ok (MTest h) /\ is_number_boolean i n = Ok true.
Proof.
  exists (LtN x_ y_). eexists _, _, 1%Z, _.
  split; [apply lf_lt; apply le_sym|]. split; [vm_compute; reflexivity|].
  split; [vm_compute; reflexivity|]. by vm_compute.
Qed.
Print Assumptions C62_refuted.

(** For numbers of boolean variables the answer is right, and unknown numbers are
    rejected. *)
Theorem C62_boolean_partial f g i n lit x : extract_literals f = Ok (g, i) ->
  dget (numbered i) lit = Some n -> dget (literals i) lit = Some (MBool x) ->
  is_number_boolean i (Z.of_nat n) = Ok true /\ is_number_boolean i (- Z.of_nat n) = Ok true.
Proof.
  intros H Hn _. destruct (C28_numbers f g i H) as (N1 & N2 & _ & N4 & _). apply N2 in Hn.
  unfold is_number_boolean. rewrite N4, Hn. done.
Qed.
Print Assumptions C62_boolean_partial.
