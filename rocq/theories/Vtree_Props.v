(** C39, C40 and C41: vtrees and elimination orders. *)

From Verif Require Import Base Dict Smt Math_Model Math_Spec Linear_Proofs Lit_Model Lit_Spec Lit_Proofs Lit_Tests
  Sdd_Model Vtree_Model Vtree_Spec Vtree_Proofs Primal_Proofs IntTree_Proofs.

(** * C39 *)

(** A balanced vtree has the given literals as its leaves, in order, and the least
    possible depth for their number. *)
Theorem C39_balanced l prime_larger : l <> [] ->
  all_leaves (create_balanced l prime_larger) = l /\ proper (create_balanced l prime_larger) /\
  depth (create_balanced l prime_larger) = Nat.log2_up (length l).
Proof. exact (balanced_spec l prime_larger). Qed.
Print Assumptions C39_balanced.

(** Adding one leaf to a tree keeps its leaves and adds that one. *)
Theorem C39_balanced_add t v b : proper t -> all_leaves (balanced_add t v b) ≡ₚ all_leaves v ++ all_leaves t.
Proof.
  induction t as [|x|p IHp s IHs]; intros Ht; [done| |].
  - cbn. destruct b; cbn; [done|]. by rewrite (comm (++)).
  - destruct Ht as [Hp Hs]. cbn [balanced_add]. destruct (_ || _); cbn [all_leaves].
    + rewrite (IHp Hp). by rewrite (assoc (++)).
    + rewrite (IHs Hs). by rewrite !(assoc (++)), (comm (++) (all_leaves p)).
Qed.
Print Assumptions C39_balanced_add.

(** Linear vtrees have every literal once: the left-linear one in order, the
    right-linear one in reverse order. *)
Theorem C39_linear l : l <> [] ->
  all_leaves (create_leftlinear l) = l /\ proper (create_leftlinear l) /\
  all_leaves (create_rightlinear l) = rev l /\ proper (create_rightlinear l).
Proof.
  intros H. destruct (linear_proper l H) as [H1 H2]. split; [apply leftlinear_leaves|]. split; [exact H2|].
  split; [apply rightlinear_leaves|exact H1].
Qed.
Print Assumptions C39_linear.

(** Linear vtrees are linear: one of the two children of every node is a leaf. *)
Theorem C39_linear_shape l p s :
  (subtree (VSplit p s) (create_leftlinear l) -> exists x, s = VVar x) /\
  (subtree (VSplit p s) (create_rightlinear l) -> exists x, p = VVar x).
Proof.
  split.
  - unfold create_leftlinear. destruct l as [|x l]; [by inversion 1|].
    assert (H : forall l t, (subtree (VSplit p s) t -> exists x, s = VVar x) ->
      subtree (VSplit p s) (fold_left (fun t v => VSplit t (VVar v)) l t) -> exists x, s = VVar x).
    { clear. induction l as [|y l IH]; intros t Ht; cbn; [done|]. apply IH. intros Hs.
      inversion Hs; subst; [by eexists|auto|]. match goal with H : subtree _ (VVar _) |- _ => inversion H end. }
    apply H. inversion 1.
  - unfold create_rightlinear. destruct l as [|x l]; [by inversion 1|].
    assert (H : forall l t, (subtree (VSplit p s) t -> exists x, p = VVar x) ->
      subtree (VSplit p s) (fold_left (fun t v => VSplit (VVar v) t) l t) -> exists x, p = VVar x).
    { clear. induction l as [|y l IH]; intros t Ht; cbn; [done|]. apply IH. intros Hs.
      inversion Hs; subst; [by eexists| |auto]. match goal with H : subtree _ (VVar _) |- _ => inversion H end. }
    apply H. inversion 1.
Qed.
Print Assumptions C39_linear_shape.

(** The file written for the compiler describes the same tree: ids 0..n-1, each used
    for one node and declared before its use, and the number of every literal. *)
Theorem C39_file varnums t : varnums <> [] -> proper t -> (forall x, x ∈ all_leaves t -> is_Some (dget varnums x)) ->
  exists file nt, to_pysdd varnums t = Ok file /\ read_file file = Some nt /\ same_tree varnums t nt.
Proof. exact (file_spec varnums t). Qed.
Print Assumptions C39_file.

(** Hence the leaves in the file are the numbers of the literals in order. *)
Theorem C39_file_leaves varnums t nt : same_tree varnums t nt ->
  Forall2 (fun x k => dget varnums x = Some k) (all_leaves t) (ntree_leaves nt).
Proof. exact (same_tree_leaves varnums t nt). Qed.
Print Assumptions C39_file_leaves.

Example C39_example :
  let l := ["a0"; "a1"; "b0"; "b1"; "b2"]%string in
  create_balanced l true =
    VSplit (VSplit (VSplit (VVar "a0") (VVar "a1")) (VVar "b0")) (VSplit (VVar "b1") (VVar "b2")) /\
  to_pysdd [("a0", 2); ("a1", 3); ("b0", 1)]%string (create_balanced ["a0"; "a1"; "b0"]%string true) =
    Ok (5, [LeafLine 0 2; LeafLine 1 3; InnerLine 2 0 1; LeafLine 3 1; InnerLine 4 2 3]).
Proof. by vm_compute. Qed.

(** A vtree with an empty part cannot be handed to the compiler. *)
Theorem C39_empty_refuted : exists varnums t, ~ proper t /\ (forall x, x ∈ all_leaves t -> is_Some (dget varnums x)) /\
  to_pysdd varnums t = Err AttributeError.
Proof.
  exists [("b0", 1)]%string, (VSplit (VVar "b0") VEmpty)%string. split; [cbn; tauto|]. split; [|done].
  intros x Hx. apply elem_of_list_singleton in Hx as ->. by eexists.
Qed.
Print Assumptions C39_empty_refuted.

(** * C40 *)

(** The vtree made from an integration tree: every literal once, no empty parts, and
    for any two parallel branches a split that puts the literals over one branch on
    one side and those over the other branch on the other side.  It succeeds when
    every literal's variables are on one path and every leaf variable is mentioned. *)
Theorem C40_create ord logic2cont t lits : iteration ord ->
  itree_ok t -> on_paths (conts logic2cont) t lits -> covered (conts logic2cont) t lits -> NoDup lits ->
  exists v, create_vtree ord logic2cont (isize t) t lits = Ok v /\ all_leaves v ≡ₚ lits /\ proper v /\
    forall a b, branches t a b -> separated (conts logic2cont) v a b.
Proof. intros H. exact (create_spec ord H logic2cont t lits). Qed.
Print Assumptions C40_create.

(** More fuel changes nothing. *)
Theorem C40_create_fuel ord logic2cont fuel t lits : iteration ord ->
  itree_ok t -> on_paths (conts logic2cont) t lits -> covered (conts logic2cont) t lits -> isize t <= fuel ->
  exists v, create_vtree ord logic2cont fuel t lits = Ok v /\ all_leaves v ≡ₚ lits /\ proper v.
Proof.
  intros Hord H1 H2 H3 H4. destruct (create_ok ord Hord logic2cont fuel t lits H4) as (v & E & K1 & K2 & _); [done|].
  by exists v.
Qed.
Print Assumptions C40_create_fuel.

(** The same for the trees that the bami heuristic builds: on every usable literal
    table that mentions a variable, the vtree has every literal once and can be
    written for the compiler. *)
Theorem C40_bami ord i labels : iteration ord -> table_usable i -> literals i <> [] ->
  (abstractions i <> [] -> exists lit v, lit_mentions i labels lit v) ->
  exists v, bami ord i labels = Ok v /\ all_leaves v ≡ₚ dkeys (literals i) /\ proper v.
Proof. exact (bami_spec ord i labels). Qed.
Print Assumptions C40_bami.

(** Tables made by extracting the literals of a formula are usable. *)
Lemma extracted_usable f g i : logic_formula f -> extract_literals f = Ok (g, i) -> table_usable i.
Proof.
  intros Hl E. destruct (extract_inv f g i E) as (s & Es & I & _ & -> & Hnd).
  destruct (recurse_adds f _ _ _ Hl Es) as [A1 _]. split; [done|]. split.
  - cbn. unfold dkeys. rewrite map_app, !map_map. by rewrite (comm (++)).
  - cbn. apply Forall_forall. intros [c l] Hc. cbn.
    apply (In_dget (s_abs s) c l) in Hc; [|apply I].
    destruct (A1 c l Hc) as [Ht|Ht]; [by destruct (is_Some_None Ht)|].
    destruct Ht as (a & b & H1 & H2 & H3 & _). destruct (li_from_smt_ok c a b H1 H2 H3) as [d ->]. done.
Qed.

Lemma all_numbers i v nt : NoDup (dkeys (literals i)) -> all_leaves v ≡ₚ dkeys (literals i) ->
  same_tree (numbered i) v nt -> ntree_leaves nt ≡ₚ seq 1 (length (literals i)).
Proof.
  intros Hnd HP Hs. apply same_tree_leaves in Hs. destruct (numbers_facts i Hnd) as (N1 & N2 & N3 & _).
  assert (Hinj : forall x y k, dget (numbered i) x = Some k -> dget (numbered i) y = Some k -> x = y).
  { intros x y k Hx Hy. apply N2 in Hx, Hy. congruence. }
  apply NoDup_Permutation.
  - rewrite <- HP in Hnd. clear HP N1 N2 N3. induction Hs as [|x k l ks Hx Hs IH]; [constructor|].
    apply NoDup_cons in Hnd as [Hn Hnd]. apply NoDup_cons. split; [|auto]. intros Hk.
    apply elem_of_list_lookup in Hk as [j Hj]. destruct (Forall2_lookup_r _ _ _ _ _ Hs Hj) as (y & Hy & Hyk).
    rewrite (Hinj _ _ _ Hx Hyk) in Hn. apply Hn. by eapply elem_of_list_lookup_2.
  - apply NoDup_ListNoDup, seq_NoDup.
  - intros k. rewrite (elem_of_list_In (seq _ _)), in_seq. replace (1 <= k < 1 + length (literals i)) with (1 <= k < S (length (literals i))) by done.
    assert (1 <= k < S (length (literals i)) <-> 1 <= k <= length (literals i)) as -> by lia. rewrite <- N3. split.
    + intros Hk. apply elem_of_list_lookup in Hk as [j Hj]. destruct (Forall2_lookup_r _ _ _ _ _ Hs Hj) as (y & _ & Hy). eauto.
    + intros [x Hx]. assert (x ∈ all_leaves v) as Hxv.
      { rewrite HP. apply dget_is_Some, N1. eauto. }
      apply elem_of_list_lookup in Hxv as [j Hj]. destruct (Forall2_lookup_l _ _ _ _ _ Hs Hj) as (k' & Hk' & Hxk).
      rewrite Hx in Hxk. injection Hxk as ->. by eapply elem_of_list_lookup_2.
Qed.

(** From the formula to the compiler: whichever of the four strategies is used, the
    file describes a tree in which every literal number occurs once. *)
Theorem C40_formula ord f g i labels : iteration ord -> logic_formula f -> extract_literals f = Ok (g, i) ->
  literals i <> [] -> (abstractions i <> [] -> exists lit v, lit_mentions i labels lit v) ->
  forall strategy, strategy ∈ [bami ord i labels; Ok (balanced i); Ok (rightlinear i); Ok (leftlinear i)] ->
  exists v file nt, strategy = Ok v /\ to_pysdd (numbered i) v = Ok file /\ read_file file = Some nt /\
    same_tree (numbered i) v nt /\ ntree_leaves nt ≡ₚ seq 1 (length (literals i)).
Proof.
  intros Hord Hl E Hne Hm strategy Hs. pose proof (extracted_usable f g i Hl E) as Hu.
  assert (Hk : dkeys (literals i) <> []) by (by destruct (literals i)).
  assert (exists v, strategy = Ok v /\ all_leaves v ≡ₚ dkeys (literals i) /\ proper v) as (v & -> & H1 & H2).
  { rewrite !elem_of_cons, elem_of_nil in Hs. destruct Hs as [->|[->|[->|[->|[]]]]].
    - by apply bami_spec.
    - destruct (balanced_spec _ true Hk) as (K1 & K2 & _). eexists. split; [reflexivity|]. unfold balanced. by rewrite K1.
    - destruct (C39_linear _ Hk) as (_ & _ & K1 & K2). eexists. split; [reflexivity|]. unfold rightlinear. rewrite K1.
      split; [symmetry; apply Permutation_rev|done].
    - destruct (C39_linear _ Hk) as (K1 & K2 & _). eexists. split; [reflexivity|]. unfold leftlinear. by rewrite K1. }
  destruct Hu as (Hnd & _).
  destruct (file_spec (numbered i) v) as (file & nt & K1 & K2 & K3).
  - unfold numbered. by destruct (literals i).
  - done.
  - intros x Hx. rewrite H1 in Hx. apply (numbers_facts i Hnd). by apply dget_is_Some.
  - exists v, file, nt. split; [done|]. split; [done|]. split; [done|]. split; [done|]. by apply (all_numbers i v nt).
Qed.
Print Assumptions C40_formula.

(** (A and x <= y) or (B and y < z and x + w <= 1), with x*w among the weights of A *)
Definition r_ (x : string) : fm := Sym x TReal.
Definition ex40 : fm :=
  OrN [AndN [Sym "A" TBool; LeN (r_ "x") (r_ "y")];
       AndN [Sym "B" TBool; LtN (r_ "y") (r_ "z"); LeN (PlusN [r_ "x"; r_ "w"]) (RealC 1)]].
Definition labels40 : list (string * (fm * fm)) := [("A"%string, (TimesN [r_ "x"; r_ "w"], RealC 1))].

Example C40_formula_example : logic_formula ex40 /\ exists g i, extract_literals ex40 = Ok (g, i) /\ literals i <> [] /\
  lit_mentions i labels40 "a0" "x" /\ (exists v, bami (fun l => l) i labels40 = Ok v /\ all_leaves v = ["b1"; "a1"; "a0"; "a2"; "b0"]%string).
Proof.
  split.
  - assert (forall x, linear_expr (r_ x)) as Hx by (intros x; apply le_sym).
    repeat first [apply Hx | apply le_plus; [done|] | apply le_const; constructor | constructor].
  - eexists _, _. split; [vm_compute; reflexivity|]. split; [done|]. split.
    + eapply lm_test; [apply elem_of_cons; left; reflexivity|vm_compute; reflexivity|].
      eexists _, _. split; [apply elem_of_cons; left; reflexivity|]. by left.
    + eexists. split; [vm_compute; reflexivity|]. reflexivity.
Qed.

(** An integration tree with parallel branches. *)
Definition tree40 : itree := IParallel (Some "x"%string) [IVar "y"; ILine "z" (IVar "u"); IVar "w"]%string None.
Definition table40 : list (string * list string) :=
  [("a0", ["x"; "y"]); ("a1", ["u"; "z"]); ("a2", ["w"]); ("a3", ["z"; "x"]); ("b0", [])]%string.

Ltac member := repeat match goal with
  | H : _ ∈ _ :: _ |- _ => apply elem_of_cons in H as [H|H]; [try discriminate H; try subst|]
  | H : _ ∈ [] |- _ => by apply elem_of_nil in H end.

Example C40_create_example : itree_ok tree40 /\ on_paths (conts table40) tree40 (dkeys table40) /\
  covered (conts table40) tree40 (dkeys table40) /\ NoDup (dkeys table40) /\ branches tree40 (IVar "w") (IVar "y").
Proof.
  split; [cbn; done|]. split; [|split; [|split]].
  - intros a b lit Hab Hlit (v & Hv1 & Hv2) (w & Hw1 & Hw2).
    assert (Hin : forall t l, branches t a b -> t ∈ l -> l = [IVar "y"; ILine "z" (IVar "u"); IVar "w"]%string -> False).
    { intros t l Ht Hl ->. member; inversion Ht; subst. match goal with H : branches (IVar _) _ _ |- _ => inversion H end. }
    apply branches_par_inv in Hab as [(rest & HP)|(t & Ht & Hb)]; [|by eapply Hin].
    assert (Ha : a ∈ [IVar "y"; ILine "z" (IVar "u"); IVar "w"]%string) by (rewrite HP; apply elem_of_cons; by left).
    assert (Hb : b ∈ [IVar "y"; ILine "z" (IVar "u"); IVar "w"]%string) by (rewrite HP; apply elem_of_cons; right; apply elem_of_cons; by left).
    assert (Hne : a <> b).
    { intros ->. assert (NoDup (b :: b :: rest)) as Hn.
      { rewrite <- HP. clear. repeat (apply NoDup_cons; split; [by intros Hi; member|]). constructor. }
      apply NoDup_cons in Hn as [Hn _]. apply Hn, elem_of_cons. by left. }
    clear HP Hin rest. cbn in Hlit.
    rewrite elem_of_list_In in Hv1, Hv2, Hw1, Hw2.
    member; try congruence; vm_compute in Hv1, Hv2, Hw1, Hw2; intuition congruence.
  - intros v Hv. cbn in Hv. member.
    + exists "a0"%string. split; [by left|]. cbn. right. by left.
    + exists "a1"%string. split; [right; by left|]. cbn. by left.
    + exists "a2"%string. split; [right; right; by left|]. cbn. by left.
  - cbn. repeat (apply NoDup_cons; split; [by intros Hi; member|]). constructor.
  - apply (br_par _ _ _ _ _ [ILine "z" (IVar "u")]%string). 
    rewrite (Permutation_swap (IVar "y") (IVar "w")). apply Permutation_skip, Permutation_swap.
Qed.

(** Both hypotheses matter.  A leaf variable without literals leads to a vtree with an
    empty part, which the compiler does not accept. *)
Theorem C40_uncovered_refuted : exists t v, itree_ok t /\ on_paths (conts [("b0", [])]%string) t ["b0"%string] /\
  create_vtree (fun l => l) [("b0", [])]%string (isize t) t ["b0"%string] = Ok v /\ ~ proper v.
Proof.
  exists (IVar "x"), (VSplit (VVar "b0") VEmpty). split; [done|]. split.
  - intros a b lit Hab. inversion Hab.
  - split; [by vm_compute|]. cbn. tauto.
Qed.
Print Assumptions C40_uncovered_refuted.

(** A literal over two branches makes it raise. *)
Theorem C40_two_branches_refuted : exists t l2c, itree_ok t /\ covered (conts l2c) t (dkeys l2c) /\ NoDup (dkeys l2c) /\
  create_vtree (fun l => l) l2c (isize t) t (dkeys l2c) = Err AssertionError.
Proof.
  exists (ISplit None (IVar "x") (IVar "y")), [("a0", ["x"; "y"])]%string. split; [done|]. split; [|split; [|done]].
  - intros v Hv. cbn in Hv. member; exists "a0"%string; (split; [by left|]); cbn; [by left|right; by left].
  - cbn. apply NoDup_singleton.
Qed.
Print Assumptions C40_two_branches_refuted.

(** A problem whose only test has no variables makes the bami strategy raise
    AttributeError, although the other strategies work. *)
Theorem C40_no_variables_refuted : exists f g i, logic_formula f /\ extract_literals f = Ok (g, i) /\
  literals i <> [] /\ bami (fun l => l) i [] = Err AttributeError.
Proof.
  exists (LeN (RealC 1) (RealC (qz 2))). eexists _, _. split; [|split; [vm_compute; reflexivity|by vm_compute]].
  apply lf_le; apply le_const; constructor.
Qed.
Print Assumptions C40_no_variables_refuted.

(** * C41 *)

(** The interaction graph connects exactly the variables that occur in a common
    group; it is symmetric and loop free. *)
Theorem C41_interaction_graph vertices groups f d :
  Forall (fun s => NoDup s /\ forall x, x ∈ s -> x ∈ vertices) groups ->
  exists p, create_interaction_graph vertices groups f d = Ok p /\
    (forall x, is_Some (dget (connected_to p) x) <-> x ∈ vertices) /\
    (forall x y, adj (connected_to p) x y <-> together groups x y).
Proof.
  intros H. destruct (interaction_graph_spec vertices groups f d H) as (p & E & _ & _ & _ & H1 & H2). by exists p.
Qed.
Print Assumptions C41_interaction_graph.

(** After any sequence of eliminations the graph is the one obtained by eliminating
    the same vertices mathematically, it is symmetric and loop free, and the stored
    fill of a remaining vertex is at least the number of its (ordered) non-adjacent
    pairs of neighbours.  Missing: equality, which fails, see C41_stale_fill_refuted. *)
Theorem C41_history_partial vertices groups d p p1 l :
  Forall (fun s => NoDup s /\ forall x, x ∈ s -> x ∈ vertices) groups -> NoDup l -> (forall x, x ∈ l -> x ∈ vertices) ->
  create_interaction_graph vertices groups true d = Ok p -> compute_fills (dkeys (connected_to p)) p = Ok p1 ->
  exists p' f, remove_all l p1 = Ok p' /\ fills p' = Some f /\
    (forall x, is_Some (dget (connected_to p') x) <-> x ∈ vertices /\ x ∉ l) /\
    (forall x y, adj (connected_to p') x y <-> eliminate_all (together groups) l x y) /\
    (forall x y, adj (connected_to p') x y -> adj (connected_to p') y x) /\
    (forall x, ~ adj (connected_to p') x x) /\
    (forall x, is_Some (dget f x) <-> is_Some (dget (connected_to p') x)) /\
    (forall x n es, dget f x = Some (n, es) -> missing_pairs (connected_to p') x <= n).
Proof.
  intros Hg Hl Hlv E1 E2. destruct (interaction_graph_spec vertices groups true d Hg) as (p0 & E & Hgi & Hf & _ & Hv & Ha).
  rewrite E1 in E. injection E as <-. destruct p as [G fl dg]. cbn [connected_to fills] in *. subst fl.
  destruct (compute_fills_spec (dkeys G) G [] dg Hgi) as (f & E & Hwf & Hfk & _ & Hfe).
  { constructor. } { intros x Hx. by apply dget_is_Some. }
  rewrite E2 in E. injection E as ->.
  assert (Hfi : finv G f (fun _ => True)).
  { constructor; [done| |].
    - intros x. rewrite Hfk, <- (dget_is_Some G). split; [intros [Hx|?]; [by destruct (is_Some_None Hx)|done]|by right].
    - intros v n es c Hv' Hc. assert (v ∈ dkeys G) as Hvk by (apply dget_is_Some; by rewrite Hc).
      destruct (Hfe v c Hvk Hc) as (es' & E3 & He). rewrite E3 in Hv'. injection Hv' as <- <-. done. }
  destruct (remove_all_spec l (Primal G (Some f) dg) f _ Hgi eq_refl Hfi Hl) as (p' & f' & ex & Er & Hgi' & Hf' & Hfi' & Hk & Had).
  { intros x Hx. apply Hv. auto. }
  exists p', f'. split; [done|]. split; [done|]. split; [intros x; rewrite Hk; cbn; by rewrite Hv|].
  split. { intros x y. rewrite Had. cbn. by apply eliminate_all_ext. }
  split; [apply (gi_sym _ Hgi')|]. split; [apply (gi_irr _ Hgi')|]. split; [apply (fi_keys _ _ _ Hfi')|].
  intros x n es Hx. assert (is_Some (dget (connected_to p') x)) as [c Hc] by (apply (fi_keys _ _ _ Hfi'); by rewrite Hx).
  by apply (fi_edges _ _ _ Hfi' x n es c).
Qed.
Print Assumptions C41_history_partial.

(** The states reached by eliminations from an interaction graph with fills. *)
Inductive reached : primal -> Prop :=
| re_start vertices groups d p p1 : Forall (fun s => NoDup s /\ forall x, x ∈ s -> x ∈ vertices) groups ->
    create_interaction_graph vertices groups true d = Ok p -> compute_fills (dkeys (connected_to p)) p = Ok p1 -> reached p1
| re_remove p a p1 : reached p -> is_Some (dget (connected_to p) a) -> remove_and_process_node a p = Ok p1 -> reached p1
| re_look p vs r p1 : reached p -> NoDup vs -> vs <> [] -> (forall x, x ∈ vs -> is_Some (dget (connected_to p) x)) ->
    get_lowest_future_minfill vs p = Ok (r, p1) -> reached p1.

Lemma reached_inv p : reached p -> exists f ex, ginv (connected_to p) /\ fills p = Some f /\ finv (connected_to p) f ex.
Proof.
  induction 1 as [vertices groups d p p1 Hg E1 E2|p a p1 _ (f & ex & Hgi & Hf & Hfi) Ha E|p vs r p1 _ (f & ex & Hgi & Hf & Hfi) H1 H2 H3 E].
  - destruct (interaction_graph_spec vertices groups true d Hg) as (p0 & E & Hgi & Hf & _ & Hv & _).
    rewrite E1 in E. injection E as <-. destruct p as [G fl dg]. cbn [connected_to fills] in *. subst fl.
    destruct (compute_fills_spec (dkeys G) G [] dg Hgi) as (f & E & Hwf & Hfk & _ & Hfe).
    { constructor. } { intros x Hx. by apply dget_is_Some. }
    rewrite E2 in E. injection E as ->. exists f, (fun _ => True). split; [done|]. split; [done|]. constructor; [done| |].
    + intros x. cbn. rewrite Hfk, <- (dget_is_Some G). split; [intros [Hx|?]; [by destruct (is_Some_None Hx)|done]|by right].
    + intros v n es c Hv' Hc. cbn in *. assert (v ∈ dkeys G) as Hvk by (apply dget_is_Some; by rewrite Hc).
      destruct (Hfe v c Hvk Hc) as (es' & E3 & He). rewrite E3 in Hv'. injection Hv' as <- <-. done.
  - destruct (remove_step a p (connected_to p) f ex Hgi Hf eq_refl Hfi Ha) as (p' & f' & E' & Hgi' & Hf' & Hfi' & _).
    rewrite E in E'. injection E' as <-. by eexists _, _.
  - destruct (lowest_future_spec vs p f ex Hgi Hf Hfi H1 H2 H3) as (r' & p' & E' & _ & Hgi' & (f' & Hf' & Hfi') & _).
    rewrite E in E'. injection E' as <- <-. by eexists _, _.
Qed.

(** In every reached state one more elimination succeeds, removes exactly the vertex,
    makes its neighbours a clique, adds no other edge, leaves the data of vertices that
    were not its neighbours alone and stores exact fills (and degrees) for its
    neighbours. *)
Theorem C41_step p a : reached p -> is_Some (dget (connected_to p) a) ->
  exists p' f f', remove_and_process_node a p = Ok p' /\ fills p = Some f /\ fills p' = Some f' /\
    (forall x, is_Some (dget (connected_to p') x) <-> is_Some (dget (connected_to p) x) /\ x <> a) /\
    (forall x y, x <> y -> adj (connected_to p) a x -> adj (connected_to p) a y -> adj (connected_to p') x y) /\
    (forall x y, adj (connected_to p') x y ->
       adj (connected_to p) x y \/ adj (connected_to p) a x /\ adj (connected_to p) a y) /\
    (forall x y, adj (connected_to p) x y -> x <> a -> y <> a -> adj (connected_to p') x y) /\
    (forall x, ~ adj (connected_to p) a x -> x <> a ->
       dget (connected_to p') x = dget (connected_to p) x /\ dget f' x = dget f x) /\
    (forall x, adj (connected_to p) a x -> exists es, dget f' x = Some (missing_pairs (connected_to p') x, es)).
Proof.
  intros Hr Ha. destruct (reached_inv p Hr) as (f & ex & Hgi & Hf & Hfi).
  destruct (remove_step a p (connected_to p) f ex Hgi Hf eq_refl Hfi Ha) as (p' & f' & E & Hgi' & Hf' & Hfi' & Hk & Had & Hsame & _).
  exists p', f, f'. split; [done|]. split; [done|]. split; [done|]. split; [done|].
  assert (Hsym := gi_sym _ Hgi). assert (Hirr := gi_irr _ Hgi).
  split; [|split; [|split; [|split; [done|]]]].
  - intros x y Hne Hx Hy. apply Had. split; [intros ->; by apply (Hirr a)|]. split; [intros ->; by apply (Hirr a)|]. right. auto.
  - intros x y Hxy. apply Had in Hxy as (_ & _ & [?|(_ & ? & ?)]); [by left|right]. auto.
  - intros x y Hxy Hxa Hya. apply Had. split; [done|]. split; [done|]. by left.
  - intros x Hx. destruct (adj_vertices _ a x Hgi Hx) as [_ Hxs].
    assert (x <> a) by (intros ->; by apply (Hirr a)).
    assert (is_Some (dget (connected_to p') x)) as [c Hc] by (by apply Hk).
    assert (is_Some (dget f' x)) as [[n es] Hn] by (apply (fi_keys _ _ _ Hfi'); by rewrite Hc).
    destruct (fi_edges _ _ _ Hfi' x n es c Hn Hc) as (_ & _ & Hex). rewrite Hn, (Hex Hx). by eexists.
Qed.
Print Assumptions C41_step.

(** Looking ahead succeeds in every reached state, leaves the graph and the stored
    fills as they were, and returns a non-empty part of the given vertices. *)
Theorem C41_look_ahead p vs : reached p -> NoDup vs -> vs <> [] ->
  (forall x, x ∈ vs -> is_Some (dget (connected_to p) x)) ->
  exists r p' f f', get_lowest_future_minfill vs p = Ok (r, p') /\
    (forall x, dget (connected_to p') x = dget (connected_to p) x) /\
    fills p = Some f /\ fills p' = Some f' /\ (forall x, dget f' x = dget f x) /\
    r <> [] /\ forall x, x ∈ r -> x ∈ vs.
Proof.
  intros Hr Hn Hne Hv. destruct (reached_inv p Hr) as (f & ex & Hgi & Hf & Hfi).
  destruct (lowest_future_spec vs p f ex Hgi Hf Hfi Hn Hne Hv) as (r & p' & E & [Hs1 (f1 & f2 & K1 & K2 & K3)] & _ & _ & _ & Hr0 & Hr1).
  by exists r, p', f1, f2.
Qed.
Print Assumptions C41_look_ahead.

(** The vertices with the least stored fill are returned, all of them. *)
Theorem C41_minfills ord p f : iteration ord -> reached p -> fills p = Some f -> f <> [] ->
  exists r, get_minfills ord p = Ok r /\ NoDup r /\ r <> [] /\
    forall x, x ∈ r <-> exists n es, dget f x = Some (n, es) /\ forall y m es', dget f y = Some (m, es') -> n <= m.
Proof.
  intros Hord Hr Hf Hne. destruct (reached_inv p Hr) as (f' & ex & _ & Hf' & Hfi). rewrite Hf in Hf'. injection Hf' as <-.
  apply minfills_spec; try done. apply (fi_wf _ _ _ Hfi).
Qed.
Print Assumptions C41_minfills.

(** The square a-b-c-d. *)
Definition square : list (list string) := [["a"; "b"]; ["b"; "c"]; ["c"; "d"]; ["d"; "a"]]%string.
Definition square_v : list string := ["a"; "b"; "c"; "d"]%string.
Example C41_example :
  Forall (fun s => NoDup s /\ forall x, x ∈ s -> x ∈ square_v) square /\
  exists p p1, create_interaction_graph square_v square true false = Ok p /\
    compute_fills (dkeys (connected_to p)) p = Ok p1 /\ reached p1.
Proof.
  assert (H : Forall (fun s => NoDup s /\ forall x, x ∈ s -> x ∈ square_v) square).
  { unfold square. repeat (apply Forall_cons; split); [..|constructor]; (split;
      [repeat (apply NoDup_cons; split; [by intros Hi; member|]); constructor|]);
      intros x Hx; member; unfold square_v; rewrite !elem_of_cons; tauto. }
  split; [done|]. eexists _, _. split; [vm_compute; reflexivity|]. split; [vm_compute; reflexivity|].
  by eapply (re_start square_v square false).
Qed.

(** Eliminating a connects b and d.  The stored fill of c is not updated: it remains
    2 although no pair of neighbours of c is missing. *)
Theorem C41_stale_fill_refuted : exists p p1 p2 f es, create_interaction_graph square_v square true false = Ok p /\
  compute_fills (dkeys (connected_to p)) p = Ok p1 /\ remove_and_process_node "a" p1 = Ok p2 /\
  fills p2 = Some f /\ dget f "c"%string = Some (2, es) /\ missing_pairs (connected_to p2) "c" = 0.
Proof.
  eexists _, _, _, _, _. split; [vm_compute; reflexivity|]. split; [vm_compute; reflexivity|].
  split; [vm_compute; reflexivity|]. split; [reflexivity|]. split; by vm_compute.
Qed.
Print Assumptions C41_stale_fill_refuted.

(** Without stored fills, eliminating a vertex connects its neighbours to themselves;
    the next elimination then raises KeyError. *)
Theorem C41_degree_mode_refuted : exists p p1 p2, create_interaction_graph ["x"; "y"]%string [["x"; "y"]]%string false true = Ok p /\
  compute_degrees (dkeys (connected_to p)) p = Ok p1 /\ remove_and_process_node "x" p1 = Ok p2 /\
  adj (connected_to p2) "y" "y" /\ remove_and_process_node "y" p2 = Err KeyError.
Proof.
  eexists _, _, _. split; [vm_compute; reflexivity|]. split; [vm_compute; reflexivity|].
  split; [vm_compute; reflexivity|]. split; [|by vm_compute]. exists ["y"%string]. split; [done|]. by left.
Qed.
Print Assumptions C41_degree_mode_refuted.

(** An eliminated vertex keeps its degree and is returned again. *)
Theorem C41_degree_kept_refuted : exists p p1 p2, create_interaction_graph ["x"; "y"; "z"]%string [["x"; "y"]; ["y"; "z"]]%string true true = Ok p /\
  (let! q := compute_fills (dkeys (connected_to p)) p in compute_degrees (dkeys (connected_to q)) q) = Ok p1 /\
  remove_and_process_node "x" p1 = Ok p2 /\ dget (connected_to p2) "x"%string = None /\
  get_mindegrees (fun l => l) p2 = Ok ["x"; "y"; "z"]%string.
Proof.
  eexists _, _, _. split; [vm_compute; reflexivity|]. split; [vm_compute; reflexivity|].
  split; [vm_compute; reflexivity|]. split; by vm_compute.
Qed.
Print Assumptions C41_degree_kept_refuted.
