(** Proofs for C40: vtrees made from integration trees. *)

From Verif Require Import Base Dict Smt Math_Model Lit_Model Sdd_Model Vtree_Model Vtree_Spec Vtree_Proofs Primal_Proofs.

Section itree_ind.
  Variable P : itree -> Prop.
  Hypothesis HV : forall x, P (IVar x).
  Hypothesis HS : forall x l r, P l -> P r -> P (ISplit x l r).
  Hypothesis HP : forall x ts ws, Forall P ts -> P (IParallel x ts ws).
  Hypothesis HL : forall x t, P t -> P (ILine x t).
  Fixpoint itree_ind' (t : itree) : P t :=
    match t with
    | IVar x => HV x
    | ISplit x l r => HS x l r (itree_ind' l) (itree_ind' r)
    | IParallel x ts ws => HP x ts ws ((fix all (l : list itree) : Forall P l :=
        match l with [] => Forall_nil_2 _ | t :: l => Forall_cons_2 _ t l (itree_ind' t) (all l) end) ts)
    | ILine x t => HL x t (itree_ind' t)
    end.
End itree_ind.

Lemma elem_fold_uni (x : string) (ls : list (list string)) : forall acc, x ∈ fold_left uni ls acc <-> x ∈ acc \/ exists l, l ∈ ls /\ x ∈ l.
Proof.
  induction ls as [|l ls IH]; intros acc; cbn.
  - split; [by left|]. intros [?|(l & Hl & _)]; [done|]. by apply elem_of_nil in Hl.
  - rewrite IH, elem_uni. setoid_rewrite elem_of_cons. naive_solver.
Qed.

Lemma con_vars_split x l r v : v ∈ con_vars (ISplit x l r) <-> v ∈ opt_var x \/ v ∈ con_vars l \/ v ∈ con_vars r.
Proof. cbn [con_vars]. rewrite !elem_uni. tauto. Qed.
Lemma con_vars_par x ts ws v : v ∈ con_vars (IParallel x ts ws) <-> v ∈ opt_var x \/ exists t, t ∈ ts /\ v ∈ con_vars t.
Proof.
  cbn. rewrite elem_fold_uni. split.
  - intros [?|(l & Hl & Hv)]; [by left|]. right. apply elem_of_list_In, in_map_iff in Hl as (t & <- & Ht).
    exists t. split; [by apply elem_of_list_In|done].
  - intros [?|(t & Ht & Hv)]; [by left|]. right. exists (con_vars t). split; [|done].
    apply elem_of_list_In, in_map_iff. exists t. split; [done|]. by apply elem_of_list_In.
Qed.
Lemma con_vars_line x t v : v ∈ con_vars (ILine x t) <-> v = x \/ v ∈ con_vars t.
Proof. cbn [con_vars]. rewrite elem_uni, elem_of_list_singleton. tauto. Qed.

Lemma branches_sub t a b : branches t a b -> forall v, v ∈ con_vars a \/ v ∈ con_vars b -> v ∈ con_vars t.
Proof.
  induction 1; intros v Hv.
  - rewrite con_vars_split. tauto.
  - rewrite con_vars_split. tauto.
  - rewrite con_vars_par. right. destruct Hv as [Hv|Hv].
    + exists a. split; [|done]. rewrite H. apply elem_of_cons. by left.
    + exists b. split; [|done]. rewrite H. apply elem_of_cons. right. apply elem_of_cons. by left.
  - rewrite con_vars_split. auto.
  - rewrite con_vars_split. auto.
  - rewrite con_vars_par. right. exists t. auto.
  - rewrite con_vars_line. auto.
Qed.

Lemma branches_par_inv x ts ws a b : branches (IParallel x ts ws) a b ->
  (exists rest, ts ≡ₚ a :: b :: rest) \/ exists t, t ∈ ts /\ branches t a b.
Proof. inversion 1; subst; eauto. Qed.

Lemma branches_sym t a b : branches t a b -> branches t b a.
Proof.
  induction 1; eauto using branches.
  eapply br_par. rewrite H. apply Permutation_swap.
Qed.

Lemma leaf_vars_con t : forall v, v ∈ leaf_vars t -> v ∈ con_vars t.
Proof.
  induction t as [x|x l r IHl IHr|x ts ws IH|x t IH] using itree_ind'; intros v Hv; cbn [leaf_vars] in Hv.
  - done.
  - apply elem_of_app in Hv. rewrite con_vars_split. naive_solver.
  - apply elem_of_list_In, in_concat in Hv as (l & Hl & Hv). apply in_map_iff in Hl as (t & <- & Ht).
    apply elem_of_list_In in Ht, Hv. rewrite con_vars_par. right. exists t. split; [done|].
    rewrite Forall_forall in IH. by apply IH.
  - rewrite con_vars_line. auto.
Qed.

Lemma itree_ok_par ts : fold_right (fun t P => itree_ok t /\ P) True ts <-> Forall itree_ok ts.
Proof. induction ts; cbn; [by split; intros; [constructor|]|]. rewrite Forall_cons. naive_solver. Qed.

Lemma leaf_vars_ne t : itree_ok t -> leaf_vars t <> [].
Proof.
  induction t as [x|x l r IHl IHr|x ts ws IH|x t IH] using itree_ind'; cbn; intros Ht.
  - done.
  - destruct Ht as [Hl _]. specialize (IHl Hl). by destruct (leaf_vars l).
  - destruct Ht as (Hne & Hok & _). apply itree_ok_par in Hok.
    destruct ts as [|t ts]; [done|]. apply Forall_cons in IH as [IH _]. apply Forall_cons in Hok as [Hok _].
    specialize (IH Hok). cbn. by destruct (leaf_vars t).
  - by apply IH.
Qed.

Lemma meets_spec a b : meets a b = true <-> exists v, v ∈ a /\ v ∈ b.
Proof.
  unfold meets. rewrite existsb_exists. setoid_rewrite <- elem_of_list_In. 
  split; intros (v & H1 & H2); exists v; (split; [done|]); [by apply bool_decide_eq_true in H2|by apply bool_decide_eq_true].
Qed.
Lemma meets_false a b : meets a b = false <-> ~ exists v, v ∈ a /\ v ∈ b.
Proof. rewrite <- meets_spec. by destruct (meets a b). Qed.
Lemma meets_sym a b : meets a b = meets b a.
Proof. apply eq_true_iff_eq. rewrite !meets_spec. naive_solver. Qed.

Local Arguments Nat.ltb : simpl never.
Local Arguments Nat.leb : simpl never.

Section create.
  Variable ord : list string -> list string.
  Hypothesis Hord : iteration ord.
  Variable l2c : list (string * list string).
  Notation conts := (conts l2c).

  Lemma touches_meets lit t : touches conts lit t <-> meets (conts lit) (con_vars t) = true.
  Proof. by rewrite meets_spec. Qed.

  (** ** Dividing the literals of a split *)

  Lemma divide_spec lits lc rc : (forall lit, lit ∈ lits -> meets (conts lit) lc && meets (conts lit) rc = false) ->
    forall a b c, exists a' b' c', divide l2c lits lc rc a b c = Ok (a ++ a', b ++ b', c ++ c') /\
      a' ++ b' ++ c' ≡ₚ lits /\
      (forall lit, lit ∈ a' <-> lit ∈ lits /\ meets (conts lit) lc = true) /\
      (forall lit, lit ∈ b' <-> lit ∈ lits /\ meets (conts lit) rc = true) /\
      (forall lit, lit ∈ c' <-> lit ∈ lits /\ meets (conts lit) lc = false /\ meets (conts lit) rc = false).
  Proof.
    induction lits as [|lit lits IH]; intros Hno a b c; cbn.
    - exists [], [], []. rewrite !(right_id_L [] (++)). split; [done|]. split; [done|].
      split_and!; intros lit; rewrite elem_of_nil; tauto.
    - pose proof (Hno lit ltac:(apply elem_of_cons; by left)) as Hlit. rewrite Hlit.
      assert (forall lit, lit ∈ lits -> meets (conts lit) lc && meets (conts lit) rc = false) as Hno'.
      { intros y Hy. apply Hno, elem_of_cons. by right. }
      destruct (meets (conts lit) lc) eqn:E1; [|destruct (meets (conts lit) rc) eqn:E2].
      + destruct (IH Hno' (a ++ [lit]) b c) as (a' & b' & c' & E & HP & Ha & Hb & Hc). rewrite E.
        exists (lit :: a'), b', c'. rewrite <- (assoc_L (++)). cbn. split; [done|]. split; [by f_equiv|].
        setoid_rewrite elem_of_cons. cbn in Hlit. split_and!; intros y.
        * rewrite Ha. naive_solver.
        * rewrite Hb. split; [naive_solver|]. intros [[->|Hy] Hm]; [congruence|done].
        * rewrite Hc. split; [naive_solver|]. intros [[->|Hy] Hm]; [naive_solver congruence|done].
      + destruct (IH Hno' a (b ++ [lit]) c) as (a' & b' & c' & E & HP & Ha & Hb & Hc). rewrite E.
        exists a', (lit :: b'), c'. rewrite <- (assoc_L (++)). cbn. split; [done|]. split.
        { by rewrite <- Permutation_middle, HP. }
        setoid_rewrite elem_of_cons. split_and!; intros y.
        * rewrite Ha. split; [naive_solver|]. intros [[->|Hy] Hm]; [congruence|done].
        * rewrite Hb. naive_solver.
        * rewrite Hc. split; [naive_solver|]. intros [[->|Hy] Hm]; [naive_solver congruence|done].
      + destruct (IH Hno' a b (c ++ [lit])) as (a' & b' & c' & E & HP & Ha & Hb & Hc). rewrite E.
        exists a', b', (lit :: c'). rewrite <- (assoc_L (++)). cbn. split; [done|]. split.
        { by rewrite (assoc_L (++)), <- Permutation_middle, <- (assoc_L (++)), HP. }
        setoid_rewrite elem_of_cons. split_and!; intros y.
        * rewrite Ha. split; [naive_solver|]. intros [[->|Hy] Hm]; [congruence|done].
        * rewrite Hb. split; [naive_solver|]. intros [[->|Hy] Hm]; [congruence|done].
        * rewrite Hc. naive_solver.
  Qed.

  Lemma balance_spec a b c : exists c1 c2, c1 ++ c2 ≡ₚ c /\
    (balance a b c).1 ≡ₚ a ++ c1 /\ (balance a b c).2 ≡ₚ b ++ c2.
  Proof.
    unfold balance.
    set (need := Nat.min _ _).
    set (rest := drop need c). set (half := Nat.div2 _).
    destruct (_ <? _)%nat; cbn.
    - exists (take need c ++ take half rest), (drop half rest). split_and!.
      + rewrite <- (assoc_L (++)), take_drop. unfold rest. by rewrite take_drop.
      + by rewrite <- (assoc_L (++)).
      + done.
    - exists (take half rest), (take need c ++ drop half rest). split_and!.
      + rewrite (assoc_L (++)), (comm (++) (take half rest)), <- (assoc_L (++)), take_drop.
        unfold rest. by rewrite take_drop.
      + done.
      + by rewrite <- (assoc_L (++)).
  Qed.

  (** ** Separation *)

  (** [separated] without the disjointness of the two sides. *)
  Definition sep (v : vtree) (a b : itree) : Prop :=
    exists l r, (subtree (VSplit l r) v \/ subtree (VSplit r l) v) /\
      (forall lit, lit ∈ all_leaves v -> touches conts lit a -> lit ∈ all_leaves l) /\
      (forall lit, lit ∈ all_leaves v -> touches conts lit b -> lit ∈ all_leaves r).

  Lemma sep_sym v a b : sep v a b -> sep v b a.
  Proof. intros (l & r & Hs & Ha & Hb). exists r, l. tauto. Qed.

  Lemma sep_left v1 v2 a b : sep v1 a b ->
    (forall lit, lit ∈ all_leaves v2 -> touches conts lit a \/ touches conts lit b -> lit ∈ all_leaves v1) ->
    sep (VSplit v1 v2) a b.
  Proof.
    intros (l & r & Hs & Ha & Hb) H. exists l, r. split; [destruct Hs; [left|right]; by constructor|].
    cbn. split; intros lit Hlit Ht; (apply elem_of_app in Hlit as [Hlit|Hlit]; [auto|]); auto.
  Qed.
  Lemma sep_right v1 v2 a b : sep v2 a b ->
    (forall lit, lit ∈ all_leaves v1 -> touches conts lit a \/ touches conts lit b -> lit ∈ all_leaves v2) ->
    sep (VSplit v1 v2) a b.
  Proof.
    intros (l & r & Hs & Ha & Hb) H. exists l, r. split; [destruct Hs; [left|right]; by constructor|].
    cbn. split; intros lit Hlit Ht; (apply elem_of_app in Hlit as [Hlit|Hlit]; [|auto]); auto.
  Qed.

  Lemma subtree_leaves s v : subtree s v -> exists rest, all_leaves v ≡ₚ all_leaves s ++ rest.
  Proof.
    induction 1 as [t|t p s _ (rest & H)|t p s _ (rest & H)]; cbn.
    - exists []. by rewrite (right_id_L [] (++)).
    - exists (rest ++ all_leaves s). rewrite H. by rewrite <- (assoc_L (++)).
    - exists (rest ++ all_leaves p). rewrite H. rewrite (comm (++) (all_leaves p)). by rewrite <- (assoc_L (++)).
  Qed.

  Lemma sep_separated v a b : NoDup (all_leaves v) -> sep v a b -> separated conts v a b.
  Proof.
    intros Hnd (l & r & Hs & Ha & Hb). exists l, r. split; [done|].
    assert (forall lit, lit ∈ all_leaves l -> lit ∈ all_leaves r -> False) as Hdis.
    { assert (exists rest, all_leaves v ≡ₚ all_leaves l ++ all_leaves r ++ rest) as (rest & HP).
      { destruct Hs as [Hs|Hs]; apply subtree_leaves in Hs as (rest & HP); exists rest; rewrite HP; cbn.
        - by rewrite <- (assoc_L (++)).
        - rewrite (comm (++) (all_leaves r)). by rewrite <- (assoc_L (++)). }
      rewrite HP in Hnd. apply NoDup_app in Hnd as (_ & Hd & _). intros lit H1 H2. apply (Hd lit H1), elem_of_app. by left. }
    split; intros lit Hlit Ht.
    - specialize (Ha lit Hlit Ht). split; [done|]. intros H. by apply (Hdis lit).
    - specialize (Hb lit Hlit Ht). split; [done|]. intros H. by apply (Hdis lit).
  Qed.

  (** ** Partitioning parallel trees *)

  Lemma insert_desc_perm x l : insert_desc x l ≡ₚ x :: l.
  Proof. induction l as [|y l IH]; cbn; [done|]. destruct (_ <=? _)%nat; [done|]. rewrite IH. apply Permutation_swap. Qed.
  Lemma sort_desc_perm l : sort_desc l ≡ₚ l.
  Proof. induction l as [|x l IH]; cbn; [done|]. by rewrite insert_desc_perm, IH. Qed.

  Lemma partition_loop_perm l : forall a b lw rw, let '(a', b') := partition_loop l a b lw rw in
    a' ++ b' ≡ₚ a ++ b ++ l /\ (exists u, a' = a ++ u) /\ (exists u, b' = b ++ u).
  Proof.
    induction l as [|x l IH]; intros a b lw rw; cbn.
    - rewrite (right_id_L [] (++)). split; [done|]. split; exists []; by rewrite (right_id_L [] (++)).
    - destruct (lw <? rw)%nat.
      + specialize (IH (a ++ [x]) b (lw + x.1) rw). destruct (partition_loop _ _ _ _ _) as [a' b'].
        destruct IH as (HP & (u & ->) & Hb). split; [|split; [|done]].
        * rewrite HP. rewrite <- !(assoc_L (++)). f_equiv. cbn. by rewrite <- Permutation_middle.
        * exists (x :: u). by rewrite <- (assoc_L (++)).
      + specialize (IH a (b ++ [x]) lw (rw + x.1)). destruct (partition_loop _ _ _ _ _) as [a' b'].
        destruct IH as (HP & Ha & (u & ->)). split; [|split; [done|]].
        * rewrite HP. rewrite <- !(assoc_L (++)). done.
        * exists (x :: u). by rewrite <- (assoc_L (++)).
  Qed.

  Lemma partition_spec values : 2 <= length values -> Forall (fun x : nat * itree => 0 < x.1) values ->
    let '(lp, rp) := partition_trees values in lp ++ rp ≡ₚ values /\ lp <> [] /\ rp <> [].
  Proof.
    intros Hlen Hpos. unfold partition_trees.
    pose proof (sort_desc_perm values) as HP.
    assert (Forall (fun x : nat * itree => 0 < x.1) (sort_desc values)) as Hpos' by (by rewrite HP).
    apply Permutation_length in HP as Hl.
    destruct (sort_desc values) as [|x [|y l]]; cbn in Hl; [lia|lia|].
    apply Forall_cons in Hpos' as [Hx _]. cbn [partition_loop].
    destruct (0 <? 0)%nat eqn:E0; [by apply Nat.ltb_lt in E0; lia|]. cbn [app].
    destruct (0 <? 0 + x.1)%nat eqn:E1; [|apply Nat.ltb_ge in E1; lia]. cbn [app].
    pose proof (partition_loop_perm l [y] [x] (0 + y.1) (0 + x.1)) as H.
    destruct (partition_loop _ _ _ _ _) as [a b]. destruct H as (Hp & (u & ->) & (w & ->)).
    split; [|done]. rewrite Hp, <- HP. cbn. apply Permutation_swap.
  Qed.

  (** ** The result of create_vtree *)

  Definition good (t : itree) (lits : list string) (v : vtree) : Prop :=
    all_leaves v ≡ₚ lits /\ proper v /\ forall a b, branches t a b -> sep v a b.

  Definition split_step (f : itree -> list string -> Res vtree) (l r : itree) (lits : list string) : Res vtree :=
    let! (lefts, rights, rest) := divide l2c lits (con_vars l) (con_vars r) [] [] [] in
    let '(lefts, rights) := balance lefts rights rest in
    let! vl := f l lefts in
    let! vr := f r rights in
    Ok (VSplit vl vr).

  Definition inputs (t : itree) (lits : list string) : Prop :=
    itree_ok t /\ on_paths conts t lits /\ covered conts t lits.

  Lemma on_paths_sub t lits lits' : on_paths conts t lits -> (forall x, x ∈ lits' -> x ∈ lits) -> on_paths conts t lits'.
  Proof. intros H Hs a b lit Hb Hl. apply (H a b lit Hb). auto. Qed.

  Lemma split_ok f l r lits :
    itree_ok l -> itree_ok r ->
    (forall lit, lit ∈ lits -> touches conts lit l -> touches conts lit r -> False) ->
    on_paths conts l lits -> on_paths conts r lits -> covered conts l lits -> covered conts r lits ->
    (forall ls, inputs l ls -> exists v, f l ls = Ok v /\ good l ls v) ->
    (forall ls, inputs r ls -> exists v, f r ls = Ok v /\ good r ls v) ->
    exists vl vr, split_step f l r lits = Ok (VSplit vl vr) /\ all_leaves (VSplit vl vr) ≡ₚ lits /\
      proper (VSplit vl vr) /\
      (forall lit, lit ∈ lits -> touches conts lit l -> lit ∈ all_leaves vl) /\
      (forall lit, lit ∈ lits -> touches conts lit r -> lit ∈ all_leaves vr) /\
      (forall a b, branches l a b -> sep (VSplit vl vr) a b) /\
      (forall a b, branches r a b -> sep (VSplit vl vr) a b).
  Proof.
    intros Hokl Hokr Hdis Hpl Hpr Hcl Hcr IHl IHr.
    destruct (divide_spec lits (con_vars l) (con_vars r)) with (a := @nil string) (b := @nil string) (c := @nil string)
      as (la & lb & lc & E & HP & Ha & Hb & Hc).
    { intros lit Hlit. destruct (meets (conts lit) (con_vars l)) eqn:E1; [|done].
      destruct (meets (conts lit) (con_vars r)) eqn:E2; [|done]. exfalso.
      apply (Hdis lit Hlit); by apply touches_meets. }
    cbn [app] in E.
    destruct (balance_spec la lb lc) as (c1 & c2 & Hc12 & B1 & B2).
    unfold split_step. rewrite E. cbn [rbind].
    destruct (balance la lb lc) as [ls rs] eqn:EB. cbn [fst snd] in B1, B2.
    assert (Hlr : ls ++ rs ≡ₚ lits).
    { rewrite B1, B2, <- HP. rewrite <- (assoc_L (++) la), (assoc_L (++) c1), (comm (++) c1 lb), <- (assoc_L (++) lb).
      by rewrite Hc12. }
    assert (Hls : forall x, x ∈ ls -> x ∈ lits).
    { intros x Hx. rewrite <- Hlr. apply elem_of_app. by left. }
    assert (Hrs : forall x, x ∈ rs -> x ∈ lits).
    { intros x Hx. rewrite <- Hlr. apply elem_of_app. by right. }
    assert (Htl : forall lit, lit ∈ lits -> touches conts lit l -> lit ∈ ls).
    { intros lit Hlit Ht. rewrite B1. apply elem_of_app. left. apply Ha. split; [done|]. by apply touches_meets. }
    assert (Htr : forall lit, lit ∈ lits -> touches conts lit r -> lit ∈ rs).
    { intros lit Hlit Ht. rewrite B2. apply elem_of_app. left. apply Hb. split; [done|]. by apply touches_meets. }
    destruct (IHl ls) as (vl & El & Gl1 & Gl2 & Gl3).
    { split_and!; [done|by eapply on_paths_sub|]. intros v Hv. destruct (Hcl v Hv) as (lit & H1 & H2). exists lit.
      split; [|done]. apply Htl; [done|]. exists v. split; [done|]. by apply leaf_vars_con. }
    destruct (IHr rs) as (vr & Er & Gr1 & Gr2 & Gr3).
    { split_and!; [done|by eapply on_paths_sub|]. intros v Hv. destruct (Hcr v Hv) as (lit & H1 & H2). exists lit.
      split; [|done]. apply Htr; [done|]. exists v. split; [done|]. by apply leaf_vars_con. }
    rewrite El, Er. cbn [rbind]. exists vl, vr. split; [done|].
    assert (Hv : all_leaves (VSplit vl vr) ≡ₚ lits) by (cbn; by rewrite Gl1, Gr1).
    split; [done|]. split; [done|]. split; [|split; [|split]].
    - intros lit H1 H2. rewrite Gl1. auto.
    - intros lit H1 H2. rewrite Gr1. auto.
    - intros a b Hab. apply sep_left; [by apply Gl3|]. intros lit Hlit Ht. rewrite Gl1.
      apply Htl; [rewrite Gr1 in Hlit; auto|].
      destruct Ht as [(v & H1 & H2)|(v & H1 & H2)]; exists v; (split; [done|]); eapply branches_sub; eauto.
    - intros a b Hab. apply sep_right; [by apply Gr3|]. intros lit Hlit Ht. rewrite Gr1.
      apply Htr; [rewrite Gl1 in Hlit; auto|].
      destruct Ht as [(v & H1 & H2)|(v & H1 & H2)]; exists v; (split; [done|]); eapply branches_sub; eauto.
  Qed.

  Lemma pair_perm (a b : itree) rest X Y : X ++ Y ≡ₚ a :: b :: rest ->
    (exists r, X ≡ₚ a :: b :: r) \/ (exists r, Y ≡ₚ a :: b :: r) \/ (a ∈ X /\ b ∈ Y) \/ (a ∈ Y /\ b ∈ X).
  Proof.
    intros HP. assert (a ∈ X ++ Y) as Ha by (rewrite HP; apply elem_of_cons; by left).
    apply elem_of_app in Ha as [Ha|Ha]; apply elem_of_Permutation in Ha as Ha'; destruct Ha' as [Z HZ].
    - rewrite HZ in HP. cbn in HP. apply Permutation_cons_inv in HP.
      assert (b ∈ Z ++ Y) as Hb by (rewrite HP; apply elem_of_cons; by left).
      apply elem_of_app in Hb as [Hb|Hb]; [|tauto]. left.
      apply elem_of_Permutation in Hb as [Z' HZ']. exists Z'. by rewrite HZ, HZ'.
    - rewrite HZ, <- Permutation_middle in HP. apply Permutation_cons_inv in HP.
      assert (b ∈ X ++ Z) as Hb by (rewrite HP; apply elem_of_cons; by left).
      apply elem_of_app in Hb as [Hb|Hb]; [tauto|]. right. left.
      apply elem_of_Permutation in Hb as [Z' HZ']. exists Z'. by rewrite HZ, HZ'.
  Qed.

  Lemma leaf_vars_par x ts ws v : v ∈ leaf_vars (IParallel x ts ws) <-> exists t, t ∈ ts /\ v ∈ leaf_vars t.
  Proof.
    cbn [leaf_vars]. rewrite elem_of_list_In, in_concat. split.
    - intros (l & Hl & Hv). apply in_map_iff in Hl as (t & <- & Ht). exists t. by rewrite !elem_of_list_In.
    - intros (t & Ht & Hv). exists (leaf_vars t). rewrite elem_of_list_In in Hv. split; [|done]. apply in_map.
      by rewrite <- elem_of_list_In.
  Qed.

  Notation sizes := (fold_right (fun t n => 2 + isize t + n) 0).
  Lemma sizes_app X Y : sizes (X ++ Y) = sizes X + sizes Y.
  Proof. induction X; cbn in *; lia. Qed.
  Lemma sizes_perm X Y : X ≡ₚ Y -> sizes X = sizes Y.
  Proof. induction 1; cbn in *; lia. Qed.
  Lemma isize_pos t : 1 <= isize t.
  Proof. destruct t; cbn; lia. Qed.
  Lemma sizes_pos X : X <> [] -> 3 <= sizes X.
  Proof. destruct X as [|t X]; [done|]. intros _. cbn. pose proof (isize_pos t). lia. Qed.

  Lemma create_ok fuel : forall t lits, isize t <= fuel -> inputs t lits ->
    exists v, create_vtree ord l2c fuel t lits = Ok v /\ good t lits v.
  Proof.
    induction fuel as [|fuel IH]; intros t lits Hf Hin; [pose proof (isize_pos t); lia|].
    destruct Hin as (Hok & Hp & Hc).
    assert (Ho : forall x, x ∈ ord lits <-> x ∈ lits) by (intros x; by rewrite (Hord lits)).
    assert (Hsplit : forall l r, itree_ok l -> itree_ok r ->
      (forall lit, lit ∈ lits -> touches conts lit l -> touches conts lit r -> False) ->
      on_paths conts l lits -> on_paths conts r lits -> covered conts l lits -> covered conts r lits ->
      isize l <= fuel -> isize r <= fuel ->
      exists vl vr, split_step (create_vtree ord l2c fuel) l r (ord lits) = Ok (VSplit vl vr) /\
        all_leaves (VSplit vl vr) ≡ₚ lits /\ proper (VSplit vl vr) /\
        (forall lit, lit ∈ lits -> touches conts lit l -> lit ∈ all_leaves vl) /\
        (forall lit, lit ∈ lits -> touches conts lit r -> lit ∈ all_leaves vr) /\
        (forall a b, branches l a b -> sep (VSplit vl vr) a b) /\
        (forall a b, branches r a b -> sep (VSplit vl vr) a b)).
    { intros l r H1 H2 H3 H4 H5 H6 H7 H8 H9.
      destruct (split_ok (create_vtree ord l2c fuel) l r (ord lits)) as (vl & vr & E & K1 & K2 & K3 & K4 & K5 & K6); try done.
      - intros lit Hl. apply H3. by apply Ho.
      - eapply on_paths_sub; [done|]. intros x. apply Ho.
      - eapply on_paths_sub; [done|]. intros x. apply Ho.
      - intros v Hv. destruct (H6 v Hv) as (lit & ? & ?). exists lit. by rewrite Ho.
      - intros v Hv. destruct (H7 v Hv) as (lit & ? & ?). exists lit. by rewrite Ho.
      - intros ls Hls. by apply IH.
      - intros ls Hls. by apply IH.
      - exists vl, vr. split; [done|]. split; [by rewrite K1, (Hord lits)|]. split; [done|]. split_and!; try done.
        + intros lit Hl. apply K3. by apply Ho.
        + intros lit Hl. apply K4. by apply Ho. }
    destruct t as [x|x l r|x ts ws|x t].
    - (* IVar *)
      destruct (Hc x) as (lx & Hlx & Hx); [cbn; by apply elem_of_list_singleton|].
      cbn [create_vtree].
      set (lits' := ord lits) in *.
      destruct (existsb _ lits') eqn:Eb.
      + eexists. split; [reflexivity|]. unfold good.
        apply existsb_exists in Eb as (ly & Hly & Hy). apply bool_decide_eq_true in Hy. apply elem_of_list_In in Hly.
        destruct (balanced_spec (filter (fun lit => x ∉ conts lit) lits') true) as (B1 & B2 & _).
        { intros E. apply (not_elem_of_nil ly). rewrite <- E. by apply elem_of_list_filter. }
        destruct (balanced_spec (filter (fun lit => x ∈ conts lit) lits') true) as (B3 & B4 & _).
        { intros E. apply (not_elem_of_nil lx). rewrite <- E. apply elem_of_list_filter. by rewrite Ho. }
        cbn. rewrite B1, B3. split; [|split; [done|]].
        * transitivity lits'; [|by apply Hord]. clear.
          induction lits' as [|y l IH]; [done|]. rewrite !filter_cons.
          destruct (decide (x ∉ conts y)), (decide (x ∈ conts y)); try done; cbn.
          -- by rewrite IH.
          -- by rewrite <- Permutation_middle, IH.
        * inversion 1.
      + eexists. split; [reflexivity|]. unfold good.
        destruct (balanced_spec lits' true) as (B1 & B2 & _).
        { intros E. apply (not_elem_of_nil lx). rewrite <- E. by apply Ho. }
        rewrite B1. split; [apply Hord|]. split; [done|]. inversion 1.
    - (* ISplit *)
      cbn [itree_ok] in Hok. destruct Hok as [Hl Hr]. cbn [isize] in Hf.
      destruct (Hsplit l r) as (vl & vr & E & K1 & K2 & K3 & K4 & K5 & K6); try done; try lia.
      { intros lit Hlit. by apply (Hp l r lit (br_split x l r)). }
      { intros a b lit Hab. apply Hp. by constructor. }
      { intros a b lit Hab. apply Hp. by apply br_right. }
      { intros v Hv. apply Hc. cbn. apply elem_of_app. by left. }
      { intros v Hv. apply Hc. cbn. apply elem_of_app. by right. }
      exists (VSplit vl vr). split; [exact E|]. split; [done|]. split; [done|].
      intros a b Hab. inversion Hab; subst.
      + exists vl, vr. split; [left; constructor|]. setoid_rewrite K1. auto.
      + exists vr, vl. split; [right; constructor|]. setoid_rewrite K1. auto.
      + by apply K5.
      + by apply K6.
    - (* IParallel *)
      cbn [itree_ok] in Hok. destruct Hok as (Hne & Hoks & Hws). apply itree_ok_par in Hoks.
      rewrite Forall_forall in Hoks.
      destruct ts as [|t1 ts]; [done|]. destruct ts as [|t2 ts].
      { (* one tree *)
        cbn [isize fold_right] in Hf.
        destruct (IH t1 lits) as (v & E & K1 & K2 & K3); [lia| |].
        - split_and!.
          + apply Hoks. by apply elem_of_list_singleton.
          + intros a b lit Hab. apply Hp. eapply br_in; [by apply elem_of_list_singleton|done].
          + intros v Hv. apply Hc. apply leaf_vars_par. exists t1. split; [by apply elem_of_list_singleton|done].
        - exists v. split; [exact E|]. split; [done|]. split; [done|]. intros a b Hab. inversion Hab; subst.
          + match goal with H : _ ≡ₚ _ |- _ => apply Permutation_length in H; cbn in H; lia end.
          + match goal with H : _ ∈ [_] |- _ => apply elem_of_list_singleton in H as -> end. by apply K3. }
      destruct ts as [|t3 ts].
      { (* two trees *)
        cbn [isize fold_right] in Hf.
        assert (t1 ∈ [t1; t2]) as H1 by (apply elem_of_cons; by left).
        assert (t2 ∈ [t1; t2]) as H2 by (apply elem_of_cons; right; by apply elem_of_list_singleton).
        destruct (Hsplit t1 t2) as (vl & vr & E & K1 & K2 & K3 & K4 & K5 & K6); auto; try lia.
        { intros lit Hlit. apply (Hp t1 t2 lit); [|done]. by eapply br_par. }
        { intros a b lit Hab. apply Hp. exact (br_in x _ ws t1 a b H1 Hab). }
        { intros a b lit Hab. apply Hp. exact (br_in x _ ws t2 a b H2 Hab). }
        { intros v Hv. apply Hc. apply leaf_vars_par. eauto. }
        { intros v Hv. apply Hc. apply leaf_vars_par. eauto. }
        exists (VSplit vl vr). split; [exact E|]. split; [done|]. split; [done|].
        intros a b Hab. inversion Hab; subst.
        - match goal with H : _ ≡ₚ a :: b :: rest |- _ => rename H into H4 end.
          assert (rest = []) as -> by (destruct rest; [done|]; apply Permutation_length in H4; cbn in H4; lia).
          apply Permutation_length_2_inv in H4 as [H4|H4]; injection H4 as -> ->.
          + exists vl, vr. split; [left; constructor|]. setoid_rewrite K1. auto.
          + exists vr, vl. split; [right; constructor|]. setoid_rewrite K1. auto.
        - match goal with H : _ ∈ [t1; t2], H' : branches _ a b |- _ => rename H into H4 end.
          apply elem_of_cons in H4 as [->|H4]; [by apply K5|]. apply elem_of_list_singleton in H4 as ->. by apply K6. }
      (* three or more *)
      set (ts' := t1 :: t2 :: t3 :: ts) in *.
      set (weights := match ws with Some ws => ws | None => map (fun t => lit_count l2c (ord lits) (con_vars t)) ts' end).
      assert (Hw : length weights = length ts' /\ Forall (fun w => 0 < w) weights).
      { unfold weights. destruct ws as [ws|]; [done|]. split; [by rewrite map_length|].
        apply Forall_map, Forall_forall. intros t Ht.
        destruct (leaf_vars t) as [|v lv] eqn:El; [by apply (leaf_vars_ne t) in El; [|apply Hoks]|].
        assert (v ∈ leaf_vars t) as Hv by (rewrite El; apply elem_of_cons; by left).
        destruct (Hc v) as (lit & Hlit & Hvl); [apply leaf_vars_par; eauto|].
        unfold lit_count. assert (lit ∈ filter (fun lit => meets (conts lit) (con_vars t) = true) (ord lits)) as Hin.
        { apply elem_of_list_filter. rewrite Ho. split; [|done]. apply meets_spec. exists v. split; [done|].
          by apply leaf_vars_con. }
        destruct (filter _ _); [by apply elem_of_nil in Hin|]. cbn. lia. }
      destruct Hw as [Hwl Hwp].
      assert (Hzf : map fst (zip weights ts') = weights) by (apply fst_zip; lia).
      assert (Hzs : map snd (zip weights ts') = ts') by (apply snd_zip; lia).
      pose proof (partition_spec (zip weights ts')) as Hpart.
      destruct (partition_trees (zip weights ts')) as [lp rp] eqn:Ep.
      destruct Hpart as (HP & Hl0 & Hr0).
      { rewrite zip_with_length, Hwl. cbn. lia. }
      { apply (Forall_map fst). by rewrite Hzf. }
      set (L := IParallel None (map snd lp) (Some (map fst lp))).
      set (R := IParallel None (map snd rp) (Some (map fst rp))).
      assert (HPs : map snd lp ++ map snd rp ≡ₚ ts').
      { rewrite <- map_app, HP. by rewrite Hzs. }
      assert (HPf : Forall (fun w => 0 < w) (map fst lp ++ map fst rp)).
      { rewrite <- map_app, HP. by rewrite Hzf. }
      apply Forall_app in HPf as [HPl HPr].
      assert (HinL : forall t, t ∈ map snd lp -> t ∈ ts').
      { intros t Ht. rewrite <- HPs. apply elem_of_app. by left. }
      assert (HinR : forall t, t ∈ map snd rp -> t ∈ ts').
      { intros t Ht. rewrite <- HPs. apply elem_of_app. by right. }
      assert (HokL : forall (q : list (nat * itree)), q <> [] -> (forall t, t ∈ map snd q -> t ∈ ts') -> Forall (fun w => 0 < w) (map fst q) ->
        itree_ok (IParallel None (map snd q) (Some (map fst q)))).
      { intros q Hq Hqt Hqp. cbn. split; [by destruct q|]. split; [|by rewrite !map_length].
        apply itree_ok_par, Forall_forall. auto. }
      assert (HcL : forall (q : list (nat * itree)) ws, (forall t, t ∈ map snd q -> t ∈ ts') ->
        covered conts (IParallel None (map snd q) ws) lits).
      { intros q ws' Hq v Hv. apply leaf_vars_par in Hv as (t & Ht & Hv). apply Hc, leaf_vars_par. eauto. }
      assert (HbL : forall a b, branches L a b -> branches (IParallel x ts' ws) a b).
      { intros a b Hab. inversion Hab; subst; [|eapply br_in; eauto].
        apply br_par with (rest := rest ++ map snd rp). match goal with H : map snd lp ≡ₚ _ |- _ => by rewrite <- HPs, H end. }
      assert (HbR : forall a b, branches R a b -> branches (IParallel x ts' ws) a b).
      { intros a b Hab. inversion Hab; subst; [|eapply br_in; eauto].
        apply br_par with (rest := rest ++ map snd lp). match goal with H : map snd rp ≡ₚ _ |- _ => by rewrite <- HPs, (comm (++)), H end. }
      assert (Hcross : forall a b, a ∈ map snd lp -> b ∈ map snd rp -> branches (IParallel x ts' ws) a b).
      { intros a b Ha Hb. apply elem_of_Permutation in Ha as [X HX]. apply elem_of_Permutation in Hb as [Y HY].
        apply br_par with (rest := X ++ Y). rewrite <- HPs, HX, HY. cbn. by rewrite <- Permutation_middle. }
      assert (Hsz : sizes (map snd lp) + sizes (map snd rp) = sizes ts').
      { rewrite <- sizes_app. by apply sizes_perm. }
      assert (3 <= sizes (map snd lp)) by (apply sizes_pos; by destruct lp).
      assert (3 <= sizes (map snd rp)) by (apply sizes_pos; by destruct rp).
      change (isize (IParallel x ts' ws)) with (1 + sizes ts') in Hf.
      destruct (Hsplit L R) as (vl & vr & E & K1 & K2 & K3 & K4 & K5 & K6); auto.
      { apply HokL; auto. } { apply HokL; auto. }
      { intros lit Hlit (v1 & Hv1 & Hv1') (v2 & Hv2 & Hv2').
        apply con_vars_par in Hv1' as [Hv1'|(a & Ha & Hva)]; [by apply elem_of_nil in Hv1'|].
        apply con_vars_par in Hv2' as [Hv2'|(b & Hb & Hvb)]; [by apply elem_of_nil in Hv2'|].
        apply (Hp a b lit); [by apply Hcross|done|by exists v1|by exists v2]. }
      { intros a b lit Hab. apply Hp. by apply HbL. }
      { intros a b lit Hab. apply Hp. by apply HbR. }
      { apply HcL; auto. } { apply HcL; auto. }
      { change (isize L) with (1 + sizes (map snd lp)). lia. }
      { change (isize R) with (1 + sizes (map snd rp)). lia. }
      exists (VSplit vl vr). split; [|split; [done|split; [done|]]].
      { unfold split_step in E. subst ts'. cbn [create_vtree]. fold weights. rewrite Ep.
        destruct lp as [|lp0 lp]; [done|]. destruct rp as [|rp0 rp]; [done|]. exact E. }
      assert (HtL : forall a lit, a ∈ map snd lp -> touches conts lit a -> touches conts lit L).
      { intros a lit Ha (v & H1 & H2). exists v. split; [done|]. apply con_vars_par. eauto. }
      assert (HtR : forall a lit, a ∈ map snd rp -> touches conts lit a -> touches conts lit R).
      { intros a lit Ha (v & H1 & H2). exists v. split; [done|]. apply con_vars_par. eauto. }
      intros a b Hab. inversion Hab; subst.
      + match goal with H : _ ≡ₚ a :: b :: rest |- _ => rewrite <- HPs in H; apply pair_perm in H as [(q & Hq)|[(q & Hq)|[[Ha Hb]|[Ha Hb]]]] end.
        * apply K5. by eapply br_par.
        * apply K6. by eapply br_par.
        * exists vl, vr. split; [left; constructor|]. setoid_rewrite K1.
          split; intros lit Hl Ht; [apply K3|apply K4]; eauto.
        * exists vr, vl. split; [right; constructor|]. setoid_rewrite K1.
          split; intros lit Hl Ht; [apply K4|apply K3]; eauto.
      + match goal with H : _ ∈ ts' |- _ => rewrite <- HPs in H; apply elem_of_app in H as [H|H] end.
        * apply K5. by eapply br_in.
        * apply K6. by eapply br_in.
    - (* ILine *)
      cbn [isize] in Hf. cbn [itree_ok] in Hok.
      assert (Hpt : on_paths conts t lits) by (intros a b lit Hab; apply Hp; by constructor).
      assert (Hsame : exists v, create_vtree ord l2c fuel t lits = Ok v /\ good (ILine x t) lits v).
      { destruct (IH t lits) as (v & E & K1 & K2 & K3); [lia|done|]. exists v. split; [done|].
        split; [done|]. split; [done|]. intros a b Hab. inversion Hab; subst. by apply K3. }
      cbn [create_vtree].
      set (lits' := ord lits) in *.
      destruct (filter (fun lit => meets (con_vars t) (conts lit) = false) lits') as [|l0 ls] eqn:Els; [exact Hsame|].
      destruct (filter (fun lit => meets (con_vars t) (conts lit) = true) lits') as [|r0 rs] eqn:Ers; [exact Hsame|].
      rewrite <- Els, <- Ers.
      set (lefts := filter (fun lit => meets (con_vars t) (conts lit) = false) lits') in *.
      set (rights := filter (fun lit => meets (con_vars t) (conts lit) = true) lits') in *.
      assert (Hlr : lefts ++ rights ≡ₚ lits).
      { transitivity lits'; [|apply Hord]. unfold lefts, rights. clear.
        induction lits' as [|y l IH]; [done|]. rewrite !filter_cons.
        destruct (meets (con_vars t) (conts y)).
        - rewrite decide_False by done. rewrite decide_True by done. by rewrite <- Permutation_middle, IH.
        - rewrite decide_True by done. rewrite decide_False by done. cbn. by rewrite IH. }
      assert (Hrin : forall y, y ∈ rights <-> y ∈ lits /\ meets (con_vars t) (conts y) = true).
      { intros y. unfold rights. rewrite elem_of_list_filter, Ho. tauto. }
      destruct (IH t rights) as (v & E & K1 & K2 & K3); [lia| |].
      { split_and!; [done|eapply on_paths_sub; [done|]; intros y Hy; by apply Hrin|].
        intros v Hv. destruct (Hc v Hv) as (lit & H1 & H2). exists lit. split; [|done].
        apply Hrin. split; [done|]. apply meets_spec. exists v. split; [by apply leaf_vars_con|done]. }
      rewrite E. cbn [rbind].
      destruct (balanced_spec lefts true) as (B1 & B2 & _); [by rewrite Els|].
      eexists. split; [reflexivity|]. split; [|split].
      + cbn [all_leaves]. by rewrite B1, K1.
      + done.
      + intros a b Hab. inversion Hab; subst. apply sep_right; [by apply K3|].
        intros lit Hlit Ht. exfalso. rewrite B1 in Hlit. unfold lefts in Hlit. apply elem_of_list_filter in Hlit as [Hm _].
        apply meets_false in Hm. apply Hm.
        destruct Ht as [(v' & H1 & H2)|(v' & H1 & H2)]; exists v'; (split; [|done]); eapply branches_sub; eauto.
  Qed.

  Theorem create_spec t lits : itree_ok t -> on_paths conts t lits -> covered conts t lits -> NoDup lits ->
    exists v, create_vtree ord l2c (isize t) t lits = Ok v /\ all_leaves v ≡ₚ lits /\ proper v /\
      forall a b, branches t a b -> separated conts v a b.
  Proof.
    intros H1 H2 H3 H4. destruct (create_ok (isize t) t lits) as (v & E & K1 & K2 & K3); [done|done|].
    exists v. split; [done|]. split; [done|]. split; [done|]. intros a b Hab. apply sep_separated; [by rewrite K1|auto].
  Qed.
End create.

(** ** The factory *)

Lemma pair_perm' {A} (a b : A) rest X Y : X ++ Y ≡ₚ a :: b :: rest ->
  (exists r, X ≡ₚ a :: b :: r) \/ (exists r, Y ≡ₚ a :: b :: r) \/ (a ∈ X /\ b ∈ Y) \/ (a ∈ Y /\ b ∈ X).
Proof.
  intros HP. assert (a ∈ X ++ Y) as Ha by (rewrite HP; apply elem_of_cons; by left).
  apply elem_of_app in Ha as [Ha|Ha]; apply elem_of_Permutation in Ha as Ha'; destruct Ha' as [Z HZ].
  - rewrite HZ in HP. cbn in HP. apply Permutation_cons_inv in HP.
    assert (b ∈ Z ++ Y) as Hb by (rewrite HP; apply elem_of_cons; by left).
    apply elem_of_app in Hb as [Hb|Hb]; [|tauto]. left.
    apply elem_of_Permutation in Hb as [Z' HZ']. exists Z'. by rewrite HZ, HZ'.
  - rewrite HZ, <- Permutation_middle in HP. apply Permutation_cons_inv in HP.
    assert (b ∈ X ++ Z) as Hb by (rewrite HP; apply elem_of_cons; by left).
    apply elem_of_app in Hb as [Hb|Hb]; [tauto|]. right. left.
    apply elem_of_Permutation in Hb as [Z' HZ']. exists Z'. by rewrite HZ, HZ'.
Qed.

Section factory.
  Variable G : list (string * list string).
  Hypothesis HG : ginv G.

  (** No variable is in both sets and no edge connects them. *)
  Definition apart (a b : list string) : Prop := forall u w, u ∈ a -> w ∈ b -> u <> w /\ ~ adj G u w.
  Lemma apart_sym a b : apart a b -> apart b a.
  Proof. intros H u w Hu Hw. destruct (H w u Hw Hu) as [? Hn]. split; [done|]. intros ?. by apply Hn, (gi_sym G HG). Qed.
  Lemma apart_sub a b a' b' : apart a b -> (forall x, x ∈ a' -> x ∈ a) -> (forall x, x ∈ b' -> x ∈ b) -> apart a' b'.
  Proof. intros H Ha Hb u w Hu Hw. apply H; auto. Qed.

  Definition pairwise (roots : list iroot) : Prop :=
    forall r1 r2 rest, roots ≡ₚ r1 :: r2 :: rest -> apart r1.1.2 r2.1.2.

  Definition apart_inside (t : itree) : Prop := forall a b, branches t a b -> apart (con_vars a) (con_vars b).

  Definition root_ok (r : iroot) : Prop :=
    itree_ok r.1.1 /\ (forall v, v ∈ r.1.2 <-> v ∈ con_vars r.1.1) /\ apart_inside r.1.1 /\ r.2 = idepth r.1.1.

  Record rinv (D : list string) (roots : list iroot) : Prop := {
    ri_ok : Forall root_ok roots;
    ri_pair : pairwise roots;
    ri_vars : forall v, v ∈ D <-> exists r, r ∈ roots /\ v ∈ r.1.2 }.

  Lemma pairwise_app X Y : pairwise (X ++ Y) -> pairwise X /\ pairwise Y /\ forall r1 r2, r1 ∈ X -> r2 ∈ Y -> apart r1.1.2 r2.1.2.
  Proof.
    intros H. split_and!.
    - intros r1 r2 rest HP. apply (H r1 r2 (rest ++ Y)). by rewrite HP.
    - intros r1 r2 rest HP. apply (H r1 r2 (rest ++ X)). by rewrite (comm (++)), HP.
    - intros r1 r2 H1 H2. apply elem_of_Permutation in H1 as [X' HX]. apply elem_of_Permutation in H2 as [Y' HY].
      apply (H r1 r2 (X' ++ Y')). rewrite HX, HY. cbn. by rewrite <- Permutation_middle.
  Qed.
  Lemma pairwise_perm X Y : X ≡ₚ Y -> pairwise X -> pairwise Y.
  Proof. intros HP H r1 r2 rest HY. apply (H r1 r2 rest). by rewrite HP. Qed.
  Lemma pairwise_cons r X : pairwise X -> (forall r2, r2 ∈ X -> apart r.1.2 r2.1.2) -> pairwise (r :: X).
  Proof.
    intros H Hr r1 r2 rest HP. change (r :: X) with ([r] ++ X) in HP.
    apply pair_perm' in HP as [(q & Hq)|[(q & Hq)|[[H1 H2]|[H1 H2]]]].
    - apply Permutation_length in Hq. cbn in Hq. lia.
    - by eapply H.
    - apply elem_of_list_singleton in H1 as ->. auto.
    - apply elem_of_list_singleton in H2 as ->. apply apart_sym. auto.
  Qed.

  Notation unconnected nb := (List.filter (fun r => negb (connected nb r))).
  Lemma place_none nb roots : place nb None roots = unconnected nb roots.
  Proof. induction roots as [|r roots IH]; cbn [place List.filter]; [done|]. destruct (connected nb r); cbn; [done|]. by rewrite IH. Qed.
  Lemma place_some nb n roots : List.filter (connected nb) roots <> [] -> place nb (Some n) roots ≡ₚ n :: unconnected nb roots.
  Proof.
    induction roots as [|r roots IH]; cbn [place List.filter]; [done|]. destruct (connected nb r); cbn [negb].
    - intros _. by rewrite place_none.
    - intros H. rewrite (IH H). apply Permutation_swap.
  Qed.
  Lemma connected_split nb roots : List.filter (connected nb) roots ++ unconnected nb roots ≡ₚ roots.
  Proof.
    induction roots as [|r roots IH]; cbn [List.filter]; [done|]. destruct (connected nb r); cbn [negb].
    - cbn. by rewrite IH.
    - by rewrite <- Permutation_middle, IH.
  Qed.

  Lemma max_height_depth rs : Forall root_ok rs -> max_height rs = fold_right (fun t n => Nat.max (idepth t) n) 0 (map (fun r : iroot => r.1.1) rs).
  Proof. induction 1 as [|r rs Hr _ IH]; cbn; [done|]. destruct Hr as (_ & _ & _ & ->). by rewrite <- IH. Qed.

  (** Joining roots under a new node. *)
  Lemma join_ok (rs : list iroot) t' c' h' x :
    Forall root_ok rs -> pairwise rs ->
    itree_ok t' -> (forall v, v ∈ con_vars t' <-> v = x \/ exists r, r ∈ rs /\ v ∈ con_vars r.1.1) ->
    (forall v, v ∈ c' <-> v = x \/ exists r, r ∈ rs /\ v ∈ r.1.2) -> h' = idepth t' ->
    (forall a b, branches t' a b -> (exists r1 r2 rest, rs ≡ₚ r1 :: r2 :: rest /\ a = r1.1.1 /\ b = r2.1.1) \/
                                    exists r, r ∈ rs /\ branches r.1.1 a b) ->
    root_ok (t', c', h').
  Proof.
    intros Hrs Hp Hok Hcv Hc Hh Hb. rewrite Forall_forall in Hrs. split; [done|]. split; [|split; [|done]].
    - intros v. cbn [fst snd]. rewrite Hc, Hcv. split; (intros [?|(r & Hr & Hv)]; [by left|right; exists r; split; [done|]]);
        by apply (Hrs r Hr).
    - intros a b Hab. cbn [fst snd] in Hab. destruct (Hb a b Hab) as [(r1 & r2 & rest & HP & -> & ->)|(r & Hr & Hab')].
      + assert (r1 ∈ rs) as H1 by (rewrite HP; apply elem_of_cons; by left).
        assert (r2 ∈ rs) as H2 by (rewrite HP; apply elem_of_cons; right; apply elem_of_cons; by left).
        eapply apart_sub; [by apply (Hp r1 r2 rest)| |]; intros v Hv; by apply Hrs.
      + by apply (Hrs r Hr).
  Qed.

  Lemma map_perm_inv {A B} (f : A -> B) l l' : map f l ≡ₚ l' -> exists l2, l ≡ₚ l2 /\ map f l2 = l'.
  Proof.
    intros H. symmetry in H. apply Permutation_map_inv in H as (l2 & Hl & HP). exists l2. by split.
  Qed.

  Lemma add_node_spec D roots x : rinv D roots -> is_Some (dget G x) -> x ∉ D ->
    exists roots', add_node G x roots = Ok roots' /\ rinv (x :: D) roots'.
  Proof.
    intros [Hok Hpair Hvars] [nb Hnb] HxD. unfold add_node. rewrite Hnb.
    assert (Hadj : forall w, adj G x w <-> w ∈ nb).
    { intros w. unfold adj. rewrite Hnb. split; [intros (c & [= ->] & ?); done|]. intros ?. by exists nb. }
    set (rs := List.filter (connected nb) roots).
    set (us := List.filter (fun r => negb (connected nb r)) roots).
    pose proof (connected_split nb roots) as Hsplit. fold rs us in Hsplit.
    assert (Hokrs : Forall root_ok (rs ++ us)) by (by rewrite Hsplit).
    apply Forall_app in Hokrs as [Hokr Hoku].
    destruct (pairwise_app rs us) as (Hpr & Hpu & Hpru). { by apply (pairwise_perm roots). }
    assert (Hun : forall r, r ∈ us -> forall w, w ∈ r.1.2 -> x <> w /\ ~ adj G x w).
    { intros r Hr w Hw. split.
      - intros ->. apply HxD, Hvars. exists r. split; [|done]. rewrite <- Hsplit. apply elem_of_app. by right.
      - rewrite Hadj. intros Hin. unfold us in Hr. apply elem_of_list_In, filter_In in Hr as [_ Hr].
        apply negb_true_iff in Hr. unfold connected in Hr. apply meets_false in Hr. apply Hr. by exists w. }
    assert (Hfinal : forall roots' t' c' h', roots' ≡ₚ (t', c', h') :: us -> root_ok (t', c', h') ->
      (forall v, v ∈ c' <-> v = x \/ exists r, r ∈ rs /\ v ∈ r.1.2) -> rinv (x :: D) roots').
    { intros roots' t' c' h' HP Hr Hc. constructor.
      - rewrite HP. by constructor.
      - apply (pairwise_perm ((t', c', h') :: us)); [done|]. apply pairwise_cons; [done|].
        intros r2 Hr2 u w Hu Hw. cbn [fst snd] in Hu. apply Hc in Hu as [->|(r & Hr' & Hu)].
        + by apply (Hun r2 Hr2).
        + by apply (Hpru r r2 Hr' Hr2).
      - intros v. rewrite elem_of_cons, Hvars. setoid_rewrite HP. setoid_rewrite <- Hsplit.
        setoid_rewrite elem_of_cons. setoid_rewrite elem_of_app. split.
        + intros [->|(r & [Hr'|Hr'] & Hv)].
          * exists (t', c', h'). split; [by left|]. apply Hc. by left.
          * exists (t', c', h'). split; [by left|]. apply Hc. right. by exists r.
          * exists r. auto.
        + intros (r & [->|Hr'] & Hv).
          * cbn in Hv. apply Hc in Hv as [?|(r & Hr' & Hv)]; [by left|]. right. exists r. auto.
          * right. exists r. auto. }
    assert (Hcv2 : forall r, r ∈ rs -> forall v, v ∈ r.1.2 <-> v ∈ con_vars r.1.1).
    { intros r Hr. rewrite Forall_forall in Hokr. by apply Hokr. }
    pose proof (place_some nb) as Hplace. 
    destruct rs as [|[[t1 c1] h1] [|[[t2 c2] h2] [|[[t3 c3] h3] rest]]] eqn:Ers.
    - (* a new leaf *)
      eexists. split; [reflexivity|]. apply (Hfinal _ (IVar x) [x] 1).
      + cbn in Hsplit. rewrite Hsplit. by rewrite (comm (++)).
      + split; [done|]. split; [done|]. split; [|done]. intros a b Hab. inversion Hab.
      + intros v. rewrite elem_of_list_singleton. split; [by left|]. intros [?|(r & Hr & _)]; [done|]. by apply elem_of_nil in Hr.
    - (* a line *)
      eexists. split; [reflexivity|]. eapply Hfinal.
      { apply Hplace. change (rs <> []). rewrite Ers. done. }
      2:{ intros v. rewrite elem_uni, elem_of_list_singleton. split.
          - intros [Hv|?]; [right; eexists; split; [by apply elem_of_list_singleton|done]|by left].
          - intros [?|(r & Hr & Hv)]; [by right|]. apply elem_of_list_singleton in Hr as ->. by left. }
      apply Forall_cons in Hokr as Hok1. destruct Hok1 as [(K1 & K2 & K3 & K4) _]. cbn [fst snd] in K1, K2, K3, K4.
      eapply (join_ok [(t1, c1, h1)] _ _ _ x Hokr Hpr); [done| | | |].
      + intros v. rewrite con_vars_line. split.
        * intros [?|Hv]; [by left|]. right. exists (t1, c1, h1). split; [by apply elem_of_list_singleton|done].
        * intros [?|(r & Hr & Hv)]; [by left|]. apply elem_of_list_singleton in Hr as ->. by right.
      + intros v. rewrite elem_uni, elem_of_list_singleton. split.
        * intros [Hv|?]; [right; eexists; split; [by apply elem_of_list_singleton|done]|by left].
        * intros [?|(r & Hr & Hv)]; [by right|]. apply elem_of_list_singleton in Hr as ->. by left.
      + cbn. rewrite K4. lia.
      + intros a b Hab. inversion Hab; subst. right. exists (t1, c1, idepth t1). split; [by apply elem_of_list_singleton|done].
    - (* a split *)
      assert (Htwo : forall r, r ∈ [(t1, c1, h1); (t2, c2, h2)] <-> r = (t1, c1, h1) \/ r = (t2, c2, h2)).
      { intros r. by rewrite elem_of_cons, elem_of_list_singleton. }
      assert (Hc : forall v, v ∈ uni (uni c1 c2) [x] <-> v = x \/ exists r : iroot, r ∈ [(t1, c1, h1); (t2, c2, h2)] /\ v ∈ r.1.2).
      { intros v. rewrite !elem_uni, elem_of_list_singleton. setoid_rewrite Htwo. split.
        - intros [[Hv|Hv]|?]; [right; exists (t1, c1, h1)|right; exists (t2, c2, h2)|by left]; auto.
        - intros [?|(r & [->| ->] & Hv)]; auto. }
      eexists. split; [reflexivity|]. eapply Hfinal.
      { apply Hplace. change (rs <> []). rewrite Ers. done. }
      2:{ exact Hc. }
      pose proof Hokr as Hok'. apply Forall_cons in Hok' as [(K1 & K2 & K3 & K4) Hok'].
      apply Forall_cons in Hok' as [(L1 & L2 & L3 & L4) _]. cbn [fst snd] in *.
      eapply (join_ok [(t1, c1, h1); (t2, c2, h2)] _ _ _ x Hokr Hpr); [done| |exact Hc| |].
      + intros v. rewrite con_vars_split. cbn [opt_var]. rewrite elem_of_list_singleton. setoid_rewrite Htwo. split.
        * intros [?|[Hv|Hv]]; [by left|right; exists (t1, c1, h1)|right; exists (t2, c2, h2)]; auto.
        * intros [?|(r & [->| ->] & Hv)]; auto.
      + cbn. rewrite K4, L4. lia.
      + intros a b Hab. inversion Hab; subst.
        * left. exists (a, c1, idepth a), (b, c2, idepth b), []. done.
        * left. exists (a, c2, idepth a), (b, c1, idepth b), []. split; [apply Permutation_swap|done].
        * right. exists (t1, c1, idepth t1). split; [apply Htwo; by left|done].
        * right. exists (t2, c2, idepth t2). split; [apply Htwo; by right|done].
    - (* a parallel node *)
      set (rs' := (t1, c1, h1) :: (t2, c2, h2) :: (t3, c3, h3) :: rest) in *.
      assert (Hc : forall v, v ∈ uni (fold_left uni (map (fun r : iroot => r.1.2) rs') []) [x] <->
                             v = x \/ exists r, r ∈ rs' /\ v ∈ r.1.2).
      { intros v. rewrite elem_uni, elem_fold_uni, elem_of_list_singleton. split.
        - intros [[Hv|(l & Hl & Hv)]|?]; [by apply elem_of_nil in Hv| |by left]. right.
          apply elem_of_list_In, in_map_iff in Hl as (r & <- & Hr). exists r. split; [by apply elem_of_list_In|done].
        - intros [?|(r & Hr & Hv)]; [by right|]. left. right. exists r.1.2. split; [|done].
          apply elem_of_list_In, in_map_iff. exists r. split; [done|]. by apply elem_of_list_In. }
      eexists. split; [reflexivity|]. eapply Hfinal.
      { apply Hplace. change (rs <> []). rewrite Ers. done. }
      2:{ exact Hc. }
      eapply (join_ok rs' _ _ _ x Hokr Hpr); [|intros v; rewrite con_vars_par|exact Hc| |].
      + cbn [itree_ok]. split; [done|]. split; [|done]. apply itree_ok_par, Forall_map.
        eapply Forall_impl; [exact Hokr|]. by intros r (? & _).
      + cbn [opt_var]. rewrite elem_of_list_singleton. split.
        * intros [?|(t & Ht & Hv)]; [by left|]. right. apply elem_of_list_In, in_map_iff in Ht as (r & <- & Hr).
          exists r. split; [by apply elem_of_list_In|done].
        * intros [?|(r & Hr & Hv)]; [by left|]. right. exists r.1.1. split; [|done].
          apply elem_of_list_In, in_map_iff. exists r. split; [done|]. by apply elem_of_list_In.
      + rewrite (max_height_depth rs' Hokr). cbn [idepth]. lia.
      + intros a b Hab. apply branches_par_inv in Hab as [(q & Hq)|(t & Ht & Hab)].
        * left. apply map_perm_inv in Hq as (l2 & HP & Hl2).
          destruct l2 as [|r1 [|r2 l2]]; try done. cbn in Hl2. injection Hl2 as <- <- _. by exists r1, r2, l2.
        * right. apply elem_of_list_In, in_map_iff in Ht as (r & <- & Hr).
          exists r. split; [by apply elem_of_list_In|done].
  Qed.

  Lemma get_int_tree_spec D roots : rinv D roots -> roots <> [] ->
    exists t, get_int_tree roots = Some t /\ itree_ok t /\ apart_inside t /\ forall v, v ∈ con_vars t <-> v ∈ D.
  Proof.
    intros [Hok Hpair Hvars] Hne.
    assert (Hcv : forall r, r ∈ roots -> forall v, v ∈ r.1.2 <-> v ∈ con_vars r.1.1).
    { intros r Hr. rewrite Forall_forall in Hok. by apply Hok. }
    assert (Hin : forall r, r ∈ roots -> itree_ok r.1.1 /\ apart_inside r.1.1).
    { intros r Hr. rewrite Forall_forall in Hok. destruct (Hok r Hr) as (? & _ & ? & _). done. }
    assert (Hap : forall r1 r2 rest, roots ≡ₚ r1 :: r2 :: rest -> apart (con_vars r1.1.1) (con_vars r2.1.1)).
    { intros r1 r2 rest HP. eapply apart_sub; [by apply (Hpair r1 r2 rest)| |]; intros v Hv; (apply Hcv; [|done]); rewrite HP.
      - apply elem_of_cons; by left.
      - apply elem_of_cons; right; apply elem_of_cons; by left. }
    destruct roots as [|[[t1 c1] h1] [|[[t2 c2] h2] [|[[t3 c3] h3] rest]]] eqn:Ers; [done| | |].
    - exists t1. split; [done|].
      destruct (Hin (t1, c1, h1)) as [K1 K2]; [by apply elem_of_list_singleton|]. split; [done|]. split; [done|].
      intros v. rewrite Hvars. split.
      + intros Hv. exists (t1, c1, h1). split; [by apply elem_of_list_singleton|]. apply Hcv; [by apply elem_of_list_singleton|done].
      + intros (r & Hr & Hv). apply Hcv in Hv; [|done]. apply elem_of_list_singleton in Hr as ->. done.
    - assert (Htwo : forall r, r ∈ [(t1, c1, h1); (t2, c2, h2)] <-> r = (t1, c1, h1) \/ r = (t2, c2, h2)).
      { intros r. by rewrite elem_of_cons, elem_of_list_singleton. }
      destruct (Hin (t1, c1, h1)) as [K1 K2]; [apply Htwo; by left|].
      destruct (Hin (t2, c2, h2)) as [L1 L2]; [apply Htwo; by right|].
      exists (ISplit None t1 t2). split; [done|]. split; [done|]. split.
      + intros a b Hab. inversion Hab; subst.
        * by apply (Hap (a, c1, h1) (b, c2, h2) []).
        * by apply (Hap (a, c2, h2) (b, c1, h1) []), Permutation_swap.
        * by apply K2.
        * by apply L2.
      + intros v. rewrite con_vars_split, Hvars. split.
        * intros [Hv|[Hv|Hv]]; [by apply elem_of_nil in Hv| |].
          -- exists (t1, c1, h1). assert ((t1, c1, h1) ∈ [(t1, c1, h1); (t2, c2, h2)]) as H by (apply Htwo; by left).
             split; [done|]. by apply Hcv.
          -- exists (t2, c2, h2). assert ((t2, c2, h2) ∈ [(t1, c1, h1); (t2, c2, h2)]) as H by (apply Htwo; by right).
             split; [done|]. by apply Hcv.
        * intros (r & Hr & Hv). apply Hcv in Hv; [|done]. apply Htwo in Hr as [->| ->]; auto.
    - eexists. split; [reflexivity|]. rewrite <- Ers in *. split; [|split].
      + cbn [itree_ok]. split; [by rewrite Ers|]. split; [|done]. apply itree_ok_par, Forall_map, Forall_forall.
        intros r Hr. by apply Hin.
      + intros a b Hab. apply branches_par_inv in Hab as [(q & Hq)|(t & Ht & Hab)].
        * apply map_perm_inv in Hq as (l2 & HP & Hl2).
          destruct l2 as [|r1 [|r2 l2]]; try done. cbn in Hl2. injection Hl2 as <- <- _. by apply (Hap r1 r2 l2).
        * apply elem_of_list_In, in_map_iff in Ht as (r & <- & Hr).
          apply elem_of_list_In in Hr. by apply (Hin r Hr).
      + intros v. rewrite con_vars_par, Hvars. split.
        * intros [Hv|(t & Ht & Hv)]; [by apply elem_of_nil in Hv|]. apply elem_of_list_In, in_map_iff in Ht as (r & <- & Hr).
          apply elem_of_list_In in Hr. exists r. split; [done|]. by apply Hcv.
        * intros (r & Hr & Hv). right. exists r.1.1. split; [|by apply Hcv].
          apply elem_of_list_In, in_map_iff. exists r. split; [done|]. by apply elem_of_list_In.
  Qed.
End factory.

(** ** Selecting the next variable *)

Lemma dget_Some_iff {V} (d : list (string * V)) k v : dwf d -> dget d k = Some v <-> (k, v) ∈ d.
Proof. intros H. split; [apply dget_In|by apply In_dget]. Qed.

Lemma get_new_height_ok G x roots : is_Some (dget G x) -> exists h, get_new_height G x roots = Ok h.
Proof.
  intros [nb Hnb]. unfold get_new_height. rewrite Hnb. destruct (List.filter _ _) as [|? [|? [|? ?]]]; eauto.
Qed.

Lemma least_loop_spec G roots nodes : (forall x, x ∈ nodes -> is_Some (dget G x)) -> forall best acc,
  NoDup (acc ++ nodes) -> (best = None -> acc = []) -> (best <> None -> acc <> []) ->
  exists r, least_loop G nodes roots best acc = Ok r /\ NoDup r /\ (acc <> [] \/ nodes <> [] -> r <> []) /\
    forall x, x ∈ r -> x ∈ acc \/ x ∈ nodes.
Proof.
  induction nodes as [|x nodes IH]; intros HG best acc Hnd Hnone Hsome; cbn [least_loop].
  - exists acc. rewrite (right_id_L [] (++)) in Hnd. split; [done|]. split; [done|]. split; [naive_solver|]. by left.
  - destruct (get_new_height_ok G x roots) as [h ->]; [apply HG, elem_of_cons; by left|]. cbn [rbind].
    assert (HG' : forall y, y ∈ nodes -> is_Some (dget G y)) by (intros y Hy; apply HG, elem_of_cons; by right).
    assert (Hdrop : NoDup ([x] ++ nodes)) by (apply NoDup_app in Hnd as (_ & _ & Hnd); done).
    assert (Hskip : NoDup (acc ++ nodes)).
    { rewrite <- Permutation_middle in Hnd. by apply NoDup_cons in Hnd as [_ Hnd]. }
    setoid_rewrite elem_of_cons.
    assert (Hnew : exists r, least_loop G nodes roots (Some h) [x] = Ok r /\ NoDup r /\ (acc <> [] \/ x :: nodes <> [] -> r <> []) /\
      forall y, y ∈ r -> y ∈ acc \/ y = x \/ y ∈ nodes).
    { destruct (IH HG' (Some h) [x]) as (r & E & H1 & H2 & H3); [done|done|done|].
      exists r. split; [done|]. split; [done|]. split; [intros _; apply H2; by left|].
      intros y Hy. destruct (H3 y Hy) as [Hy'|Hy']; [|auto]. apply elem_of_list_singleton in Hy'. auto. }
    destruct best as [b|]; [|exact Hnew].
    destruct (b =? h)%nat; [|destruct (h <? b)%nat; [exact Hnew|]].
    + destruct (IH HG' (Some b) (acc ++ [x])) as (r & E & H1 & H2 & H3); [by rewrite <- (assoc_L (++))|done|by destruct acc|].
      exists r. split; [done|]. split; [done|]. split; [intros _; apply H2; left; by destruct acc|].
      intros y Hy. destruct (H3 y Hy) as [Hy'|Hy']; [|auto]. apply elem_of_app in Hy' as [?|Hy']; [auto|].
      apply elem_of_list_singleton in Hy'. auto.
    + destruct (IH HG' (Some b) acc) as (r & E & H1 & H2 & H3); [done|done|done|].
      exists r. split; [done|]. split; [done|]. split; [intros _; apply H2; left; by apply Hsome|].
      intros y Hy. destruct (H3 y Hy); auto.
Qed.

Lemma least_spec G roots nodes : (forall x, x ∈ nodes -> is_Some (dget G x)) -> NoDup nodes -> nodes <> [] ->
  exists r, get_least_depth_increase G nodes roots = Ok r /\ NoDup r /\ r <> [] /\ forall x, x ∈ r -> x ∈ nodes.
Proof.
  intros HG Hnd Hne. unfold get_least_depth_increase.
  assert (exists r, least_loop G nodes roots None [] = Ok r /\ NoDup r /\ r <> [] /\ forall x, x ∈ r -> x ∈ nodes) as H.
  { destruct (least_loop_spec G roots nodes HG None []) as (r & E & H1 & H2 & H3); [done|done|done|].
    exists r. split; [done|]. split; [done|]. split; [by apply H2; right|]. intros x Hx.
    destruct (H3 x Hx) as [Hx'|]; [by apply elem_of_nil in Hx'|done]. }
  destruct nodes as [|x [|y nodes]]; [done| |exact H]. exists [x]. done.
Qed.

Lemma minfills_spec ord p f : iteration ord -> fills p = Some f -> f <> [] -> dwf f ->
  exists r, get_minfills ord p = Ok r /\ NoDup r /\ r <> [] /\
    forall x, x ∈ r <-> exists n es, dget f x = Some (n, es) /\ forall y m es', dget f y = Some (m, es') -> n <= m.
Proof.
  intros Hord Hf Hne Hwf. unfold get_minfills. rewrite Hf.
  destruct (min_fill_ok f Hne) as (m & Em & (x0 & n0 & es0 & Hx0 & ->) & Hmin).
  assert (Hin : forall x, x ∈ ord (map fst (filter (fun e : string * fill => e.2.1 = m) f)) <->
     exists n es, dget f x = Some (n, es) /\ forall y k es', dget f y = Some (k, es') -> n <= k).
  { intros x. rewrite (Hord _), elem_of_list_In, in_map_iff. split.
    - intros ((x' & n & es) & <- & He). apply elem_of_list_In, elem_of_list_filter in He as [<- He].
      exists n, es. split; [by apply dget_Some_iff|]. intros y k es' Hy. apply (Hmin y k es'). by apply dget_Some_iff.
    - intros (n & es & Hx & Hle). exists (x, (n, es)). split; [done|]. apply elem_of_list_In, elem_of_list_filter.
      apply dget_Some_iff in Hx; [|done]. split; [|done]. cbn. apply Nat.le_antisymm.
      + apply (Hle x0 m es0). by apply dget_Some_iff.
      + by apply (Hmin x n es). }
  destruct f as [|e f]; [done|]. rewrite Em. cbn [rbind]. eexists. split; [reflexivity|]. split; [|split; [|done]].
  - rewrite (Hord _). unfold dwf, dkeys in Hwf. revert Hwf. generalize (e :: f). clear. intros l.
    induction l as [|e l IH]; cbn [map]; [constructor|]. rewrite NoDup_cons. intros [H1 H2]. rewrite filter_cons.
    destruct (decide _); [|auto]. cbn [map]. apply NoDup_cons. split; [|auto]. intros Hin. apply H1.
    apply elem_of_list_In, in_map_iff in Hin as (e' & Ee & He'). apply elem_of_list_In, elem_of_list_filter in He' as [_ He'].
    rewrite <- Ee. apply elem_of_list_In, in_map. by apply elem_of_list_In.
  - intros E. apply (not_elem_of_nil x0). rewrite <- E. apply Hin. exists m, es0.
    split; [by apply dget_Some_iff|]. intros y k es' Hy. apply (Hmin y k es'). by apply dget_Some_iff.
Qed.

Section loop.
  Variable ord : list string -> list string.
  Hypothesis Hord : iteration ord.
  Variable G : list (string * list string).
  Hypothesis HG : ginv G.

  Lemma bami_loop_spec fuel : forall D p f ex roots,
    rinv G D roots -> ginv (connected_to p) -> fills p = Some f -> finv (connected_to p) f ex ->
    (forall x, is_Some (dget (connected_to p) x) <-> is_Some (dget G x) /\ x ∉ D) ->
    length f <= fuel ->
    exists roots' D', bami_loop ord G fuel p roots = Ok roots' /\ rinv G D' roots' /\ forall x, x ∈ D' <-> x ∈ D \/ is_Some (dget G x).
  Proof.
    induction fuel as [|fuel IH]; intros D p f ex roots Hr Hgi Hf Hfi Hkeys Hlen.
    - destruct f; [|cbn in Hlen; lia]. cbn [bami_loop]. rewrite Hf. exists roots, D. split; [done|]. split; [done|].
      intros x. split; [by left|]. intros [?|Hx]; [done|]. destruct (decide (x ∈ D)) as [?|n]; [done|]. exfalso.
      assert (is_Some (dget (connected_to p) x)) as H by (by apply Hkeys). apply (fi_keys _ _ _ Hfi) in H. by destruct H.
    - cbn [bami_loop]. rewrite Hf. destruct f as [|e f].
      { exists roots, D. split; [done|]. split; [done|].
        intros x. split; [by left|]. intros [?|Hx]; [done|]. destruct (decide (x ∈ D)) as [?|n]; [done|]. exfalso.
        assert (is_Some (dget (connected_to p) x)) as H by (by apply Hkeys). apply (fi_keys _ _ _ Hfi) in H. by destruct H. }
      set (f0 := e :: f) in *.
      destruct (minfills_spec ord p f0 Hord Hf) as (m1 & -> & Hn1 & Hne1 & Hm1); [done|by apply (fi_wf _ _ _ Hfi)|]. cbn [rbind].
      assert (Hk1 : forall x, x ∈ m1 -> is_Some (dget (connected_to p) x)).
      { intros x Hx. apply Hm1 in Hx as (n & es & Hx & _). apply (fi_keys _ _ _ Hfi). by rewrite Hx. }
      destruct (least_spec G roots m1) as (m2 & -> & Hn2 & Hne2 & Hm2); [|done|done|].
      { intros x Hx. by apply Hkeys, Hk1. }
      cbn [rbind].
      destruct (lowest_future_spec m2 p f0 ex Hgi Hf Hfi Hn2 Hne2) as (m3 & p' & -> & Hsame & Hgi' & (f' & Hf' & Hfi') & _ & Hne3 & Hm3).
      { intros x Hx. auto. }
      cbn [rbind]. destruct m3 as [|x m3]; [done|].
      assert (Hx : is_Some (dget (connected_to p) x)) by (apply Hk1, Hm2, Hm3, elem_of_cons; by left).
      apply Hkeys in Hx as Hx'. destruct Hx' as [HxG HxD].
      destruct (add_node_spec G HG D roots x Hr HxG HxD) as (roots' & -> & Hr'). cbn [rbind].
      destruct Hsame as [Hs1 Hs2].
      destruct (remove_step x p' (connected_to p') f' ex Hgi' Hf' eq_refl Hfi') as (p2 & f2 & -> & Hgi2 & Hf2 & Hfi2 & Hk2 & _).
      { by rewrite Hs1. }
      cbn [rbind].
      destruct (IH (x :: D) p2 f2 _ roots' Hr' Hgi2 Hf2 Hfi2) as (roots2 & D2 & E & Hr2 & HD2).
      { intros y. rewrite Hk2, Hs1, Hkeys. rewrite not_elem_of_cons. naive_solver. }
      { assert (length f2 < length f0); [|lia].
        assert (Hsub : dkeys f2 ⊆ filter (fun y => y <> x) (dkeys f0)).
        { intros y Hy. apply elem_of_list_filter. 
          assert (is_Some (dget f2 y)) as Hy' by (by apply dget_is_Some).
          apply (fi_keys _ _ _ Hfi2), Hk2 in Hy' as [Hy' Hyx]. split; [done|].
          apply dget_is_Some. apply (fi_keys _ _ _ Hfi). by rewrite <- Hs1. }
        assert (Hl : length (dkeys f2) <= length (filter (fun y => y <> x) (dkeys f0))).
        { apply submseteq_length. apply NoDup_submseteq; [apply (fi_wf _ _ _ Hfi2)|]. exact Hsub. }
        assert (Hl2 : length (filter (fun y => y <> x) (dkeys f0)) < length (dkeys f0)).
        { apply filter_length_lt with (x := x); [|tauto]. apply dget_is_Some. by apply (fi_keys _ _ _ Hfi). }
        unfold dkeys in Hl, Hl2. rewrite !map_length in *. lia. }
      exists roots2, D2. split; [done|]. split; [done|]. intros y. rewrite HD2, elem_of_cons. naive_solver.
  Qed.
End loop.

(** ** The conversion tables *)

Lemma NoDup_names (l : list string) : forall acc, NoDup acc -> NoDup (fold_left uni (map (fun v => [v]) l) acc).
Proof. induction l as [|v l IH]; intros acc H; cbn; [done|]. apply IH. apply NoDup_uni; [done|]. apply NoDup_singleton. Qed.

Lemma NoDup_free f : NoDup (free_names f).
Proof.
  unfold free_names. replace (map (fun s => [fst s]) (syms f)) with (map (fun v : string => [v]) (map fst (syms f))).
  - apply NoDup_names, NoDup_nil_2.
  - by rewrite map_map.
Qed.

Lemma elem_names x (l : list string) : forall acc, x ∈ fold_left uni (map (fun v => [v]) l) acc <-> x ∈ acc \/ x ∈ l.
Proof.
  intros acc. rewrite elem_fold_uni. apply or_iff_compat_l. split.
  - intros (s & Hs & Hx). apply elem_of_list_In, in_map_iff in Hs as (v & <- & Hv). apply elem_of_list_singleton in Hx as ->.
    by apply elem_of_list_In.
  - intros Hx. exists [x]. split; [|by apply elem_of_list_singleton]. apply elem_of_list_In, in_map_iff. exists x.
    split; [done|]. by apply elem_of_list_In.
Qed.
Lemma elem_free x f : x ∈ free_names f <-> exists t, (x, t) ∈ syms f.
Proof.
  unfold free_names. replace (map (fun s => [fst s]) (syms f)) with (map (fun v : string => [v]) (map fst (syms f))) by (by rewrite map_map).
  rewrite elem_names. split.
  - intros [Hx|Hx]; [by apply elem_of_nil in Hx|]. apply elem_of_list_In, in_map_iff in Hx as ([y t] & <- & Hy).
    exists t. by apply elem_of_list_In.
  - intros [t Ht]. right. apply elem_of_list_In, in_map_iff. exists (x, t). split; [done|]. by apply elem_of_list_In.
Qed.

Record cinv (ks : list string) (l2c : list (string * list string)) (vs : list string) : Prop := {
  ci_keys : dkeys l2c = ks;
  ci_sets : Forall NoDup (map snd l2c);
  ci_nodup : NoDup vs;
  ci_vs : forall v, v ∈ vs <-> exists s, s ∈ map snd l2c /\ v ∈ s }.

Lemma cinv_step ord ks l2c vs k s : iteration ord -> cinv ks l2c vs -> k ∉ ks -> NoDup s ->
  cinv (ks ++ [k]) (dset l2c k s) (uni vs (ord s)).
Proof.
  intros Hord [H1 H2 H3 H4] Hk Hs. rewrite (dset_fresh l2c k s) by (by rewrite H1). constructor.
  - unfold dkeys in *. by rewrite map_app, H1.
  - rewrite map_app. apply Forall_app. split; [done|]. cbn. by repeat constructor.
  - apply NoDup_uni; [done|]. by rewrite (Hord s).
  - intros v. rewrite elem_uni, (Hord s), H4, map_app. setoid_rewrite elem_of_app. cbn. setoid_rewrite elem_of_list_singleton.
    naive_solver.
Qed.

Lemma conversion_spec ord i labels : iteration ord -> table_usable i ->
  exists l2c vs, conversion_tables ord i labels = Ok (l2c, vs) /\
    cinv (map snd (abstractions i) ++ map snd (booleans i)) l2c vs /\
    forall lit v, lit_mentions i labels lit v -> exists s, (lit, s) ∈ l2c /\ v ∈ s.
Proof.
  intros Hord (Hnd & HP & Hlin). rewrite <- HP in Hnd. unfold conversion_tables.
  set (stepA := fun (r : Res tables) (a : fm * string) =>
    let! (l2c, keys) := r in
    let! d := li_from_smt a.1 in
    let cvars := li_variables d in
    Ok (dset l2c a.2 cvars, uni keys (ord cvars))).
  set (stepB := fun (r : Res tables) (b : string * string) =>
    let! (l2c, keys) := r in
    match dget labels b.1 with
    | Some (pos, neg) =>
        let cvars := uni (free_names pos) (free_names neg) in
        Ok (dset l2c b.2 cvars, uni keys (ord cvars))
    | None => Ok (dset l2c b.2 [], keys)
    end).
  assert (HA : forall l ks l2c vs, cinv ks l2c vs -> NoDup (ks ++ map snd l) ->
    Forall (fun a : fm * string => is_ok (Math_Model.li_from_smt a.1) = true) l ->
    exists l2c' vs', fold_left stepA l (Ok (l2c, vs)) = Ok (l2c', vs') /\ cinv (ks ++ map snd l) l2c' vs' /\
      (forall kv, kv ∈ l2c -> kv ∈ l2c') /\
      forall f n d, (f, n) ∈ l -> li_from_smt f = Ok d -> (n, li_variables d) ∈ l2c').
  { induction l as [|[f n] l IH]; intros ks l2c vs Hci Hn Hl; cbn [fold_left map].
    - exists l2c, vs. rewrite (right_id_L [] (++)). split; [done|]. split; [done|]. split; [done|]. by intros ? ? ? ?%elem_of_nil.
    - apply Forall_cons in Hl as [Hf Hl]. cbn [fst snd] in *. unfold stepA at 2. cbn [rbind fst snd].
      destruct (li_from_smt f) as [d|] eqn:Ed; [|done]. cbn [rbind].
      assert (n ∉ ks). { intros Hin. apply NoDup_app in Hn as (_ & Hd & _). apply (Hd n Hin). cbn. apply elem_of_cons. by left. }
      destruct (IH (ks ++ [n]) (dset l2c n (li_variables d)) (uni vs (ord (li_variables d)))) as (l' & v' & E & H' & Hk & Hm).
      + apply cinv_step; [done|done|done|]. unfold li_variables. apply NoDup_names, NoDup_nil_2.
      + by rewrite <- (assoc_L (++)).
      + done.
      + exists l', v'. split; [done|]. rewrite <- (assoc_L (++)) in H'. split; [done|].
        rewrite dset_fresh in Hk by (by rewrite (ci_keys _ _ _ Hci)). split.
        * intros kv Hkv. apply Hk, elem_of_app. by left.
        * intros f' n' d' Hin Hd'. apply elem_of_cons in Hin as [[= -> ->]|Hin]; [|by apply (Hm f' n')].
          rewrite Hd' in Ed. injection Ed as ->. apply Hk, elem_of_app. right. by apply elem_of_list_singleton. }
  assert (HB : forall l ks l2c vs, cinv ks l2c vs -> NoDup (ks ++ map snd l) ->
    exists l2c' vs', fold_left stepB l (Ok (l2c, vs)) = Ok (l2c', vs') /\ cinv (ks ++ map snd l) l2c' vs' /\
      (forall kv, kv ∈ l2c -> kv ∈ l2c') /\
      forall x n pos neg, (x, n) ∈ l -> dget labels x = Some (pos, neg) -> (n, uni (free_names pos) (free_names neg)) ∈ l2c').
  { clear HA. induction l as [|[f n] l IH]; intros ks l2c vs Hci Hn; cbn [fold_left map].
    - exists l2c, vs. rewrite (right_id_L [] (++)). split; [done|]. split; [done|]. split; [done|]. by intros ? ? ? ? ?%elem_of_nil.
    - cbn [fst snd] in *.
      assert (n ∉ ks). { intros Hin. apply NoDup_app in Hn as (_ & Hd & _). apply (Hd n Hin). cbn. apply elem_of_cons. by left. }
      assert (exists s, stepB (Ok (l2c, vs)) (f, n) = Ok (dset l2c n s, uni vs (ord s)) /\ NoDup s /\
        forall pos neg, dget labels f = Some (pos, neg) -> s = uni (free_names pos) (free_names neg)) as (s & -> & Hs & Hse).
      { unfold stepB. cbn [rbind fst snd]. destruct (dget labels f) as [[pos neg]|].
        - eexists. split; [reflexivity|]. split; [apply NoDup_uni; apply NoDup_free|]. by intros ? ? [= <- <-].
        - exists []. split; [|split; [constructor|done]]. assert (ord [] = []) as -> by (apply Permutation_nil; symmetry; apply Hord).
          unfold uni. cbn. by rewrite (right_id_L [] (++)). }
      destruct (IH (ks ++ [n]) (dset l2c n s) (uni vs (ord s))) as (l' & v' & E & H' & Hk & Hm).
      + by apply cinv_step.
      + by rewrite <- (assoc_L (++)).
      + exists l', v'. split; [done|]. rewrite <- (assoc_L (++)) in H'. split; [done|].
        rewrite dset_fresh in Hk by (by rewrite (ci_keys _ _ _ Hci)). split.
        * intros kv Hkv. apply Hk, elem_of_app. by left.
        * intros f' n' pos neg Hin Hd'. apply elem_of_cons in Hin as [[= -> ->]|Hin]; [|by apply (Hm f' n')].
          rewrite <- (Hse _ _ Hd'). apply Hk, elem_of_app. right. by apply elem_of_list_singleton. }
  destruct (HA (abstractions i) [] [] []) as (l1 & v1 & E1 & H1 & _ & HmA).
  { constructor; [done|constructor|constructor|]. intros v. rewrite elem_of_nil. split; [done|].
    intros (s & Hs & _). by apply elem_of_nil in Hs. }
  { cbn. by apply NoDup_app in Hnd as (? & _ & _). }
  { done. }
  cbn [app] in H1. rewrite E1. cbn [rbind].
  destruct (HB (booleans i) _ l1 v1 H1 Hnd) as (l2 & v2 & E2 & H2 & Hkeep & HmB). exists l2, v2.
  split; [done|]. split; [done|]. intros lit v Hm. inversion Hm; subst.
  - match goal with H : exists _ _, _ |- _ => destruct H as (m & c & Hmc & Hvm) end.
    eexists. split; [eapply Hkeep, HmA; eauto|]. unfold li_variables. apply elem_names. right.
    apply elem_of_list_In, in_concat. exists m. split; [|by apply elem_of_list_In].
    apply in_map_iff. exists (m, c). split; [done|]. by apply elem_of_list_In.
  - eexists. split; [eapply HmB; eauto|]. apply elem_uni. rewrite !elem_free.
    match goal with H : (v, t) ∈ _ ++ _ |- _ => apply elem_of_app in H as [?|?] end; eauto.
Qed.

Lemma bami_spec ord i labels : iteration ord -> table_usable i -> literals i <> [] ->
  (abstractions i <> [] -> exists lit v, lit_mentions i labels lit v) ->
  exists v, bami ord i labels = Ok v /\ all_leaves v ≡ₚ dkeys (literals i) /\ proper v.
Proof.
  intros Hord Hu Hne Hmen. unfold bami. destruct (abstractions i) as [|ab abs] eqn:Ea.
  - unfold balanced. destruct (balanced_spec (dkeys (literals i)) true) as (H1 & H2 & _).
    { by destruct (literals i). }
    exists (create_balanced (dkeys (literals i)) true). split; [done|]. by rewrite H1.
  - destruct (conversion_spec ord i labels Hord Hu) as (l2c & vs & E & Hci & Hlm).
    rewrite E. cbn [rbind]. destruct Hci as [Hk Hsets Hnvs Hin].
    destruct Hmen as (lit0 & v0 & Hmen); [done|]. apply Hlm in Hmen as (s0 & Hs0 & Hv0).
    assert (Hvs : vs <> []).
    { intros ->. apply (not_elem_of_nil v0), Hin. exists s0. split; [|done]. apply elem_of_list_In, in_map_iff.
      exists (lit0, s0). split; [done|]. by apply elem_of_list_In. }
    destruct (interaction_graph_spec vs (map snd l2c) true false) as (g & -> & Hgi & Hfl & _ & Hvert & Hadj).
    { apply Forall_forall. intros s Hs. rewrite Forall_forall in Hsets. split; [by apply Hsets|]. intros x Hx. apply Hin. eauto. }
    cbn [rbind]. destruct g as [G fl dg]. cbn [connected_to fills] in *. subst fl.
    destruct (compute_fills_spec (dkeys G) G [] dg Hgi) as (f & -> & Hwf & Hfk & _ & Hfe).
    { constructor. } { intros x Hx. by apply dget_is_Some. }
    cbn [rbind].
    assert (HwG := gi_wf G Hgi).
    assert (Hfi : finv G f (fun _ => True)).
    { constructor; [done| |].
      - intros x. rewrite Hfk, <- (dget_is_Some G). split; [intros [Hx|?]; [by destruct (is_Some_None Hx)|done]|by right].
      - intros v n es c Hv Hc. assert (v ∈ dkeys G) as Hv' by (apply dget_is_Some; by rewrite Hc).
        destruct (Hfe v c Hv' Hc) as (es' & E2 & He). rewrite E2 in Hv. injection Hv as <- <-. done. }
    destruct (bami_loop_spec ord Hord G Hgi (length vs) [] (Primal G (Some f) dg) f (fun _ => True) []) as (roots & D & -> & Hr & HD).
    { constructor; [constructor| |].
      - intros r1 r2 rest HP. apply Permutation_length in HP. done.
      - intros v. rewrite elem_of_nil. split; [done|]. intros (r & Hr & _). by apply elem_of_nil in Hr. }
    { done. } { done. } { done. } { cbn. intros x. rewrite elem_of_nil. tauto. }
    { assert (Hsub : dkeys f ⊆ vs).
      { intros x Hx. apply Hvert. apply (fi_keys _ _ _ Hfi). by apply dget_is_Some. }
      assert (length (dkeys f) <= length vs) by (apply submseteq_length, NoDup_submseteq; [apply Hwf|done]).
      unfold dkeys in *. by rewrite map_length in *. }
    cbn [rbind].
    assert (HDv : forall x, x ∈ D <-> x ∈ vs).
    { intros x. rewrite HD, Hvert, elem_of_nil. tauto. }
    assert (Hrne : roots <> []).
    { intros ->. destruct vs as [|v vs0]; [done|]. assert (v ∈ D) as Hv by (apply HDv, elem_of_cons; by left).
      apply (ri_vars G _ _ Hr) in Hv as (r & Hr' & _). by apply elem_of_nil in Hr'. }
    destruct (get_int_tree_spec G D roots Hr Hrne) as (t & -> & Hok & Hap & Hcv).
    destruct Hu as (Hnd & HP & _). rewrite <- HP, <- Hk in Hnd.
    assert (Hset : forall lit u, u ∈ conts l2c lit -> conts l2c lit ∈ map snd l2c).
    { intros lit u Hu. unfold conts in *. destruct (dget l2c lit) as [s|] eqn:Es; [|by apply elem_of_nil in Hu].
      cbn. apply dget_Some_iff in Es; [|done]. apply elem_of_list_In, in_map_iff. exists (lit, s). split; [done|]. by apply elem_of_list_In. }
    destruct (create_spec ord Hord l2c t (dkeys l2c)) as (v & Ev & H1 & H2 & _).
    + done.
    + intros a b lit Hab Hlit (u & Hu1 & Hu2) (w & Hw1 & Hw2).
      destruct (Hap a b Hab u w Hu2 Hw2) as [Hneq Hno]. apply Hno, Hadj. split; [done|].
      exists (conts l2c lit). split; [by apply (Hset lit u)|done].
    + intros u Hu. apply leaf_vars_con, Hcv, HDv, Hin in Hu as (s & Hs & Hus).
      apply elem_of_list_In, in_map_iff in Hs as ((lit & s') & <- & Hl). apply elem_of_list_In in Hl.
      exists lit. split; [apply elem_of_list_In, in_map_iff; exists (lit, s'); split; [done|by apply elem_of_list_In]|].
      unfold conts. by rewrite (proj2 (dget_Some_iff l2c lit s' Hnd) Hl).
    + done.
    + exists v. split; [done|]. split; [|done]. rewrite H1, Hk. done.
Qed.
