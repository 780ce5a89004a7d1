(** Lemmas for C42-C46: invariants of the pool. *)

From Verif Require Import Base Dict Smt Smt_Facts Walk_Model Math_Model Math_Spec Poly_Proofs Arith_Proofs Linear_Proofs
  Piecewise_Spec Xadd_Model Xadd_Spec.

Local Arguments Nat.leb : simpl never.
Local Arguments Nat.ltb : simpl never.
Local Arguments Nat.eqb : simpl never.

Notation dlt nodes id := (is_Some (dget nodes id)).

(** * Values *)

Section Denotes.
  Context {E : Type} (den : E -> env -> option Qc).

  Lemma denotes_mono ns ns' e id v : (forall i n, dget ns i = Some n -> dget ns' i = Some n) ->
    denotes den ns e id v -> denotes den ns' e id v.
  Proof.
    intros Hm. induction 1 as [|id d ct cf v Hn He _ IH|id d ct cf v Hn He _ IH].
    - eapply dn_leaf; eauto.
    - eapply dn_true; eauto.
    - eapply dn_false; eauto.
  Qed.

  Lemma denotes_fun ns e id v w : denotes den ns e id v -> denotes den ns e id w -> v = w.
  Proof.
    intros H. revert w. induction H as [id x v Hn Hd|id d ct cf v Hn He _ IH|id d ct cf v Hn He _ IH]; intros w Hw.
    - inversion Hw; simplify_eq; congruence.
    - inversion Hw; simplify_eq. by apply IH.
    - inversion Hw; simplify_eq. by apply IH.
  Qed.

  Lemma denotes_leaf ns e id x v : dget ns id = Some (TNode x) -> denotes den ns e id v -> den x e = Some v.
  Proof. intros Hn H. inversion H; simplify_eq; congruence. Qed.

  Lemma denotes_node ns e id d ct cf v : dget ns id = Some (INode d ct cf) -> denotes den ns e id v ->
    exists b : bool, eval e (d_test d) = Some (VB b) /\ denotes den ns e (if b then ct else cf) v.
  Proof. intros Hn H. inversion H; simplify_eq; [exists true|exists false]; done. Qed.

  Lemma denotes_child ns e id d ct cf b v : dget ns id = Some (INode d ct cf) ->
    eval e (d_test d) = Some (VB b) -> denotes den ns e (if b : bool then ct else cf) v -> denotes den ns e id v.
  Proof. intros Hn He Hv. destruct b; [by eapply dn_true|by eapply dn_false]. Qed.

  (** Existing diagrams keep their value: their nodes are closed under children. *)
  Lemma denotes_back ns ns' e id v : (forall i n, dget ns i = Some n -> dget ns' i = Some n) ->
    (forall i d ct cf, dget ns i = Some (INode d ct cf) -> dlt ns ct /\ dlt ns cf) ->
    dlt ns id -> denotes den ns' e id v -> denotes den ns e id v.
  Proof.
    intros Hm Hc Hid H. induction H as [id x v Hn Hd|id d ct cf v Hn He _ IH|id d ct cf v Hn He _ IH];
      destruct Hid as [n Hid]; pose proof (Hm _ _ Hid) as Hn'; simplify_eq.
    - by eapply dn_leaf.
    - eapply dn_true; eauto. apply IH. apply (Hc _ _ _ _ Hid).
    - eapply dn_false; eauto. apply IH. apply (Hc _ _ _ _ Hid).
  Qed.

  Lemma below_back (ns ns' : list (nat * node E)) a b : (forall i n, dget ns i = Some n -> dget ns' i = Some n) ->
    (forall i d ct cf, dget ns i = Some (INode d ct cf) -> dlt ns ct /\ dlt ns cf) ->
    dlt ns a -> below ns' a b -> below ns a b /\ dlt ns b.
  Proof.
    intros Hm Hc Ha H. induction H as [a|a d ct cf c b Hn Hd _ IH]; [split; [constructor|done]|].
    destruct Ha as [n Ha]. pose proof (Hm _ _ Ha) as Hn'. simplify_eq.
    destruct (Hc _ _ _ _ Ha) as [Ht Hf]. destruct IH as [Hb ?]; [by destruct Hd; subst|].
    split; [|done]. by eapply bl_step.
  Qed.
  Lemma below_mono (ns ns' : list (nat * node E)) a b : (forall i n, dget ns i = Some n -> dget ns' i = Some n) ->
    below ns a b -> below ns' a b.
  Proof. intros Hm. induction 1; [constructor|]. eapply bl_step; eauto. Qed.
  Lemma below_trans (ns : list (nat * node E)) a b c : below ns a b -> below ns b c -> below ns a c.
  Proof. induction 1; [done|]. intros. eapply bl_step; eauto. Qed.
End Denotes.

(** * Decisions *)

(** Dictionaries of linear inequalities. *)
Definition linear_dict (c : pdict) : Prop :=
  dwf c /\ forall k v, (k, v) ∈ c -> length k <= 1 /\ v <> 0%Qc.
Lemma linear_dict_make (g : mono * Qc -> Qc) c : linear_dict c -> linear_dict (li_make (map (fun kv => (kv.1, g kv)) c)).
Proof.
  intros [Hw Hl]. split; [apply dwf_lfilter; by apply dwf_map|]. intros k v Hin.
  split; [|by eapply filter_nonzero]. apply elem_of_list_In, filter_In in Hin as [Hin _].
  apply in_map_iff in Hin as ([k' v'] & [= <- <-] & Hin). apply elem_of_list_In in Hin. by apply (Hl k' v').
Qed.
Lemma linear_dict_from f c : li_from_smt f = Ok c -> linear_dict c.
Proof. intros Hf. split; [by eapply li_dwf|by eapply li_linear]. Qed.

(** What every decision stored in a pool satisfies. *)
Definition good (d : decision) : Prop :=
  d_canonical d = true /\
  ((exists x, d_test d = Sym x TBool) \/
   (exists c, d_ineq d = Some c /\ li_to_smt c = Ok (d_test d) /\ dec_is_bool d = false /\ linear_dict c)).

Lemma li_to_smt_not_bool c f : li_to_smt c = Ok f ->
  (exists a b, f = LeN a b) \/ (exists a b, f = LtN a b).
Proof.
  unfold li_to_smt. destruct c as [|[[|x k] q] [|? c]].
  - intros [= <-]. eauto.
  - intros [= <-]. eauto.
  - destruct (rmapM _ _); cbn [rbind]; [|done]. destruct (mkPlus _); cbn [rbind]; [|done]. intros [= <-]. eauto.
  - destruct (rmapM _ _); cbn [rbind]; [|done]. destruct (mkPlus _); cbn [rbind]; [|done]. intros [= <-]. eauto.
  - destruct (rmapM _ _); cbn [rbind]; [|done]. destruct (mkPlus _); cbn [rbind]; [|done]. intros [= <-]. eauto.
Qed.

Section Decision.
  Context (simp : fm -> fm) (HS : sound_simplifier simp).

  (** The decisions a pool is asked about: those it stores and Decision(f). *)
  Definition askable (d : decision) : Prop :=
    good d \/ exists f, d = mkdec f /\ typeof f = Some TBool.

  Lemma canonical_good d ct cf d' ct' cf' : askable d -> to_canonical simp d ct cf = Ok (d', ct', cf') ->
    good d' /\ ((ct' = ct /\ cf' = cf) \/ (ct' = cf /\ cf' = ct)).
  Proof.
    unfold to_canonical. intros [Hg|(f & -> & Ty)].
    { destruct Hg as [Hc Hg]. rewrite Hc. intros [= <- <- <-]. split; [by split|by left]. }
    cbn [d_canonical d_test mkdec].
    destruct (dec_is_bool (mkdec f)) eqn:Eb.
    - destruct (is_symbol f) eqn:Es.
      + intros [= <- <- <-]. split; [|by left]. split; [done|]. left. destruct f; try done.
        exists n. cbn. cbn in Ty. by simplify_eq.
      + destruct (is_symbol (simp (mkNot f))) eqn:Es'; [|done]. intros [= <- <- <-]. split; [|by right].
        split; [done|]. left. cbn [d_test]. unfold dec_is_bool in Eb. cbn in Eb.
        destruct f as [| | | | | |g| | | | | | | | | | | |]; try done. destruct g as [x t| | | | | | | | | | | | | | | | | |]; try done.
        cbn in Ty. destruct (bool_decide_reflect (Some t = Some TBool)); simplify_eq. cbn [mkNot] in *.
        destruct (simp (Sym x TBool)) as [y t| | | | | | | | | | | | | | | | | |] eqn:E; try done.
        specialize (HS (Env (fun _ => true) (fun _ => 0%Qc)) (Sym x TBool) true eq_refl). rewrite E in HS.
        exists y. by destruct t; cbn in HS.
    - destruct (li_from_smt f) as [i|] eqn:Ei; cbn [rbind]; [|done]. apply linear_dict_from in Ei.
      destruct (psort _ _) as [|k0 ?]; [done|].
      destruct (qlt _ 0).
      + destruct (li_to_smt _) as [t|] eqn:Et; cbn [rbind]; [|done]. intros [= <- <- <-].
        split; [|by right]. split; [done|]. right. eexists. split; [done|]. split; [done|]. split.
        { by apply li_to_smt_not_bool in Et as [(a & b & ->)|(a & b & ->)]. }
        unfold dict_neg, dict_scale. rewrite map_map. cbn [fst].
        by apply (linear_dict_make (fun kv => - (kv.2 / qabs (li_coefficient i k0)))%Qc).
      + destruct (li_to_smt _) as [t|] eqn:Et; cbn [rbind]; [|done]. intros [= <- <- <-].
        split; [|by left]. split; [done|]. right. eexists. split; [done|]. split; [done|]. split.
        { by apply li_to_smt_not_bool in Et as [(a & b & ->)|(a & b & ->)]. }
        by apply (linear_dict_make (fun kv => kv.2 / qabs (li_coefficient i k0))%Qc).
  Qed.

  (** Under the assignment [e] a node for [d] takes the branch [b]. *)
  Definition takes (d : decision) (e : env) (b : bool) : Prop :=
    (forall b', valid_branches simp d = Ok [b'] -> b' = b) /\
    (forall ct cf d' ct' cf', to_canonical simp d ct cf = Ok (d', ct', cf') ->
       exists b' : bool, eval e (d_test d') = Some (VB b') /\
         (if b' then ct' else cf') = (if b then ct else cf)).

  Lemma takes_good d e b : good d -> eval e (d_test d) = Some (VB b) -> takes d e b.
  Proof.
    intros [Hc Hg] He. split.
    - intros b'. unfold valid_branches.
      destruct (bool_decide_reflect (d_test d ∈ [BoolC true; BoolC false])) as [Hin|Hin]; cbn [rbind].
      + rewrite !elem_of_cons, elem_of_nil in Hin. destruct Hin as [Hi|[Hi|[]]]; rewrite Hi in *; cbn in He; simplify_eq.
        * by intros [= <-].
        * by intros [= <-].
      + assert (exists s, (if dec_is_bool d then Ok (simp (d_test d))
          else let! i := dec_inequality d in let! f := li_to_smt i in Ok (simp f)) = Ok s /\
          eval e s = Some (VB b)) as (s & -> & Hs).
        { destruct Hg as [[x Hx]|(c & Hi & Ht & Hb & _)].
          - unfold dec_is_bool. rewrite Hx. cbn. eexists. split; [done|]. rewrite Hx in He. by apply HS.
          - rewrite Hb. unfold dec_inequality. rewrite Hi. cbn [rbind]. rewrite Ht. cbn [rbind].
            eexists. split; [done|]. by apply HS. }
        cbn [rbind]. destruct (bool_decide_reflect (s = BoolC true)) as [->|].
        { intros [= <-]. cbn in Hs. by simplify_eq. }
        destruct (bool_decide_reflect (s = BoolC false)) as [->|]; [|done].
        intros [= <-]. cbn in Hs. by simplify_eq.
    - intros ct cf d' ct' cf'. unfold to_canonical. rewrite Hc. intros [= <- <- <-]. eauto.
  Qed.

  Lemma valid_branches_good d : good d ->
    exists bs, valid_branches simp d = Ok bs /\ (bs = [true] \/ bs = [false] \/ bs = [true; false]).
  Proof.
    intros [Hc Hg]. unfold valid_branches.
    assert (exists s, (if bool_decide (d_test d ∈ [BoolC true; BoolC false]) then Ok (d_test d)
      else if dec_is_bool d then Ok (simp (d_test d))
      else let! i := dec_inequality d in let! f := li_to_smt i in Ok (simp f)) = Ok s) as [s ->].
    { destruct (bool_decide _); [by eexists|]. destruct Hg as [[x Hx]|(c & Hi & Ht & Hb & _)].
      - unfold dec_is_bool. rewrite Hx. cbn. by eexists.
      - rewrite Hb. unfold dec_inequality. rewrite Hi. cbn [rbind]. rewrite Ht. by eexists. }
    cbn [rbind]. eexists. split; [done|]. repeat case_bool_decide; auto.
  Qed.

  (** A boolean test: at every assignment. *)
  Lemma takes_bool f e b : (exists x, f = Sym x TBool \/ f = NotN (Sym x TBool)) ->
    eval e f = Some (VB b) -> takes (mkdec f) e b.
  Proof.
    intros (x & Hf) He.
    assert (dec_is_bool (mkdec f) = true) as Hb by by destruct Hf as [-> | ->].
    split.
    - intros b'. unfold valid_branches. cbn [d_test mkdec].
      rewrite bool_decide_eq_false_2 by (rewrite !elem_of_cons, elem_of_nil; intros [->|[->|[]]]; naive_solver).
      rewrite Hb. cbn [rbind]. apply HS in He.
      destruct (bool_decide_reflect (simp f = BoolC true)) as [E|].
      { intros [= <-]. rewrite E in He. cbn in He. by simplify_eq. }
      destruct (bool_decide_reflect (simp f = BoolC false)) as [E|]; [|done].
      intros [= <-]. rewrite E in He. cbn in He. by simplify_eq.
    - intros ct cf d' ct' cf'. unfold to_canonical. rewrite Hb. cbn [d_canonical d_test mkdec].
      destruct Hf as [-> | ->]; cbn [is_symbol].
      + intros [= <- <- <-]. cbn [d_test]. eauto.
      + cbn [mkNot]. destruct (is_symbol _) eqn:E; [|done]. intros [= <- <- <-]. cbn [d_test].
        cbn in He. simplify_eq. exists (eb e x). split; [|by destruct (eb e x)].
        by apply HS.
  Qed.

  Lemma qabs_pos x : x <> 0%Qc -> (0 < qabs x)%Qc.
  Proof.
    intros Hx. unfold qabs. destruct (qle 0 x) eqn:E.
    - apply qle_spec in E. apply Qcle_lt_or_eq in E as [|]; [done|congruence].
    - apply qle_false in E. qclra.
  Qed.

  (** A comparison: at every point off its hyperplane. *)
  Lemma takes_compare f a c e b : compares f a c -> typeof a = Some TReal -> typeof c = Some TReal ->
    off e a c -> eval e f = Some (VB b) -> takes (mkdec f) e b.
  Proof.
    intros Hcmp Ta Tc Hoff He.
    assert (dec_is_bool (mkdec f) = false) as Hb.
    { destruct Hcmp as [| |g ? ? Hcmp]; [done|done|]. by destruct Hcmp. }
    assert (d_test (mkdec f) ∉ [BoolC true; BoolC false]) as Hin.
    { rewrite !elem_of_cons, elem_of_nil. cbn. destruct Hcmp; naive_solver. }
    destruct (li_from_smt f) as [i|] eqn:Ei.
    2:{ split.
        - intros b'. unfold valid_branches. rewrite bool_decide_eq_false_2 by done. rewrite Hb.
          unfold dec_inequality. cbn [d_ineq d_test mkdec]. by rewrite Ei.
        - intros. unfold to_canonical in *. cbn [d_canonical d_test mkdec] in *. rewrite Hb, Ei in *. done. }
    destruct (li_half_space f a c i Hcmp Ta Tc Ei) as (g & h & Eg & Eh & Hgh).
    destruct (Hgh e Hoff) as [Hg _]. split.
    - intros b'. unfold valid_branches. rewrite bool_decide_eq_false_2 by done. rewrite Hb.
      unfold dec_inequality. cbn [d_ineq d_test mkdec]. rewrite Ei. cbn [rbind]. rewrite Eg. cbn [rbind].
      assert (eval e (simp g) = Some (VB b)) as Hs by (apply HS; congruence).
      destruct (bool_decide_reflect (simp g = BoolC true)) as [E|].
      { intros [= <-]. rewrite E in Hs. cbn in Hs. by simplify_eq. }
      destruct (bool_decide_reflect (simp g = BoolC false)) as [E|]; [|done].
      intros [= <-]. rewrite E in Hs. cbn in Hs. by simplify_eq.
    - intros ct cf d' ct' cf'. unfold to_canonical. cbn [d_canonical d_test mkdec]. rewrite Hb, Ei. cbn [rbind].
      destruct (psort mono_cmp (dkeys i)) as [|k0 ks] eqn:Ek; [done|].
      unfold li_from_smt, math_walk in Ei. destruct (walk _ _ f) as [i'|] eqn:E; cbn [rbind] in Ei; [|done].
      injection Ei as <-. pose proof (walk_compares _ _ _ _ _ Hcmp E Ta Tc) as Hd.
      assert (dwf (li_make i')) as Wd by (apply dwf_lfilter; apply Hd).
      destruct Hoff as (x & y & Hx & Hy & Hne).
      destruct (diff_holds _ _ _ _ _ _ _ Hd Hx Hy Hne) as [Hnz _].
      set (i := li_make i') in *.
      assert (poly_val e i <> 0%Qc) as Hnz' by (unfold i, li_make; by rewrite pv_filter).
      assert (qlt (poly_val e i) 0 = b) as Hqb.
      { destruct (li_to_smt_sound _ Wd) as (g' & Eg' & Vg'). rewrite Eg in Eg'. injection Eg' as <-.
        rewrite Vg', li_holds_off, He in Hg by done. by simplify_eq. }
      assert (k0 ∈ dkeys i) as Hk0.
      { rewrite <- (psort_perm mono_cmp (dkeys i)), Ek. apply elem_of_cons. by left. }
      assert (li_coefficient i k0 <> 0%Qc) as Hco.
      { apply dget_is_Some in Hk0 as [q Hq]. unfold li_coefficient. rewrite Hq. cbn.
        apply dget_In in Hq. unfold i, li_make in Hq. apply elem_of_list_In, List.filter_In in Hq as [_ Hq].
        unfold nonzero in Hq. cbn in Hq. apply negb_true_iff, qeq_false in Hq. done. }
      assert (0 < qabs (li_coefficient i k0))%Qc as Hpos by by apply qabs_pos.
      set (q := qabs (li_coefficient i k0)) in *. clearbody q.
      set (u := poly_val e i) in *.
      assert (forall s : bool, let r := if s then dict_neg (dict_scale i q) else dict_scale i q in
        forall t, li_to_smt (li_make r) = Ok t -> eval e t = Some (VB (xorb s b))) as Hr.
      { intros s r t Et.
        assert (dwf r) as Wr.
        { unfold r, dwf, dict_neg, dict_scale, dkeys in *. destruct s; rewrite ?map_map; cbn; done. }
        assert (dwf (li_make r)) as Wr' by by apply dwf_lfilter.
        destruct (li_to_smt_sound _ Wr') as (t' & Et' & Vt). rewrite Et in Et'. injection Et' as <-.
        assert (poly_val e (li_make r) = if s then (- (u / q))%Qc else (u / q)%Qc) as Hv.
        { unfold li_make, r. rewrite pv_filter. destruct s; rewrite ?pv_neg, pv_scale; done. }
        assert (u / q <> 0)%Qc as Hu.
        { intros H0. apply Hnz'. assert (u = u / q * q)%Qc as -> by (field; intros ->; by apply Qclt_not_eq in Hpos).
          rewrite H0. ring. }
        assert (qlt (u / q) 0 = qlt u 0) as Hlt.
        { assert (u = u / q * q)%Qc as Hu' by (field; intros ->; by apply Qclt_not_eq in Hpos).
          apply eq_iff_eq_true. rewrite !qlt_spec. rewrite Hu' at 2.
          set (w := (u / q)%Qc) in *. clearbody w. split; intros.
          - qcnra.
          - destruct (Qclt_le_dec w 0) as [|Hge]; [done|]. exfalso.
            assert (0 <= w * q)%Qc by qcnra. by apply (Qcle_not_lt 0 (w * q)%Qc). }
        rewrite Vt, li_holds_off; rewrite Hv.
        - do 2 f_equal. rewrite <- Hqb, <- Hlt. set (w := (u / q)%Qc) in *. clearbody w.
          destruct s; [|by destruct (qlt w 0)]. change (xorb true (qlt w 0)) with (negb (qlt w 0)). apply eq_iff_eq_true. rewrite negb_true_iff, qlt_spec, qlt_false.
          split; intros Hw; [qclra|]. destruct (Qc_dec w 0) as [[H1|H1]|H1]; [qclra|qclra|done].
        - set (w := (u / q)%Qc) in *. clearbody w. destruct s; [|done]. intros H0. apply Hu. qclra. }
      destruct (qlt (li_coefficient (dict_scale i q) k0) 0).
      + destruct (li_to_smt (li_make (dict_neg (dict_scale i q)))) as [t|] eqn:Et; cbn [rbind]; [|done].
        intros [= <- <- <-]. cbn [d_test]. exists (negb b). split; [by apply (Hr true)|]. by destruct b.
      + destruct (li_to_smt (li_make (dict_scale i q))) as [t|] eqn:Et; cbn [rbind]; [|done].
        intros [= <- <- <-]. cbn [d_test]. exists b. split; [|done]. apply (Hr false) in Et. by destruct b.
  Qed.
End Decision.

(** * The pool *)

Section Pool.
  Context {E : Type} `{EqDecision E} (A : alg E) (flat : E -> E) (simp : fm -> fm) (solve : list fm -> fm -> bool)
    (den : E -> env -> option Qc).
  Context (HA : sound_arith (a_real A) (a_symbol A) (a_eq A) (a_mul A) (a_add A) den)
    (HF : forall x e v, den x e = Some v -> den (flat x) e = Some v) (HS : sound_simplifier simp).
  Notation denotes := (denotes den).

  (** Results of operations: nothing disappears. *)
  Record ext (p p' : pool E) : Prop := {
    ex_nodes : forall i n, dget (p_nodes p) i = Some n -> dget (p_nodes p') i = Some n;
    ex_tests : forall t i, dget (p_tests p) t = Some i -> dget (p_tests p') t = Some i;
    ex_exprs : forall x i, dget (p_exprs p) x = Some i -> dget (p_exprs p') x = Some i;
    ex_imap : forall k i, dget (p_internal p) k = Some i -> dget (p_internal p') k = Some i;
    ex_zero : p_zero p' = p_zero p; ex_one : p_one p' = p_one p; ex_ord : p_ordering p' = p_ordering p }.
  Definition frame (p p' : pool E) : Prop :=
    p_profiles p' = p_profiles p /\ p_resolved p' = p_resolved p.

  (** ** Shapes: the order of the tests on the paths, tests that decide whether a
      diagram is zero *)
  Definition root_ge (q : pool E) (i a : nat) : Prop :=
    forall d ct cf, dget (p_nodes q) a = Some (INode d ct cf) -> exists j, dget (p_tests q) (d_test d) = Some j /\ i <= j.
  Definition ordered (q : pool E) (a : nat) : Prop :=
    forall b d ct cf j, below (p_nodes q) a b -> dget (p_nodes q) b = Some (INode d ct cf) ->
      dget (p_tests q) (d_test d) = Some j -> root_ge q (S j) ct /\ root_ge q (S j) cf.
  Inductive forcing (nodes : list (nat * node E)) (z : nat) (t : fm) (c : bool) : nat -> Prop :=
  | fc_zero : forcing nodes z t c z
  | fc_test a d ct cf : dget nodes a = Some (INode d ct cf) -> d_test d = t ->
      (if c then cf else ct) = z -> forcing nodes z t c a
  | fc_other a d ct cf : dget nodes a = Some (INode d ct cf) -> d_test d <> t ->
      forcing nodes z t c ct -> forcing nodes z t c cf -> forcing nodes z t c a.
  Definition forces (q : pool E) : fm -> bool -> nat -> Prop := forcing (p_nodes q) (p_zero q).
  Definition tested (q : pool E) (P : fm -> Prop) (a : nat) : Prop :=
    forall b d ct cf, below (p_nodes q) a b -> dget (p_nodes q) b = Some (INode d ct cf) -> P (d_test d).
  Definition unpruned (t : fm) : Prop := simp t <> BoolC true /\ simp t <> BoolC false.
  Definition shaped (q : pool E) (op : xop) (a b r : nat) : Prop :=
    (forall P, tested q P a -> tested q P b -> tested q P r) /\
    (op = Multiplication -> a = p_zero q \/ b = p_zero q -> r = p_zero q) /\
    (op = Summation -> (a = p_zero q -> r = b) /\ (b = p_zero q -> r = a)) /\
    (ordered q a -> ordered q b ->
      ordered q r /\ (forall i, root_ge q i a -> root_ge q i b -> root_ge q i r) /\
      (op = Multiplication -> forall t c, unpruned t -> forces q t c a \/ forces q t c b -> forces q t c r) /\
      (op = Summation -> forall t, unpruned t -> forces q t true a -> forces q t false b ->
         boolean_diagram q a -> boolean_diagram q b -> boolean_diagram q r)).
  Definition shrunk (q : pool E) (a r : nat) : Prop :=
    (forall P, tested q P a -> tested q P r) /\
    (ordered q a -> ordered q r /\ forall i, root_ge q i a -> root_ge q i r).

  Record inv (p : pool E) : Prop := {
    iv_lt : forall i n, dget (p_nodes p) i = Some n -> i < p_counter p;
    iv_node : forall i d ct cf, dget (p_nodes p) i = Some (INode d ct cf) ->
      ct < i /\ cf < i /\ dlt (p_nodes p) ct /\ dlt (p_nodes p) cf /\ ct <> cf /\ good d /\
      exists j, dget (p_tests p) (d_test d) = Some j /\ dget (p_internal p) (j, ct, cf) = Some i;
    iv_imap : forall j ct cf i, dget (p_internal p) (j, ct, cf) = Some i ->
      exists d, dget (p_nodes p) i = Some (INode d ct cf) /\ dget (p_tests p) (d_test d) = Some j;
    iv_term : forall i x, dget (p_nodes p) i = Some (TNode x) <-> dget (p_exprs p) x = Some i;
    iv_tlt : forall t j, dget (p_tests p) t = Some j -> j < length (p_tests p);
    iv_tinj : forall t t' j, dget (p_tests p) t = Some j -> dget (p_tests p) t' = Some j -> t = t';
    iv_zero : dget (p_nodes p) (p_zero p) = Some (TNode (alg_zero A));
    iv_one : dget (p_nodes p) (p_one p) = Some (TNode (alg_one A));
    iv_apply : forall op a b r, dget (p_apply p) (op, a, b) = Some r ->
      dlt (p_nodes p) a /\ dlt (p_nodes p) b /\ dlt (p_nodes p) r /\
      (forall e x y, denotes (p_nodes p) e a x -> denotes (p_nodes p) e b y ->
         exists z, denotes (p_nodes p) e r z /\ op_val op x y z) /\
      (op <> Summation -> boolean_diagram p a -> boolean_diagram p b -> boolean_diagram p r) /\
      shaped p op a b r;
    iv_reduced : forall a r, dget (p_reduced p) a = Some r ->
      dlt (p_nodes p) a /\ dlt (p_nodes p) r /\
      (forall e x, denotes (p_nodes p) e a x -> denotes (p_nodes p) e r x) /\ shrunk p a r }.

  Lemma ext_refl p : ext p p.
  Proof. split; done. Qed.
  Lemma ext_trans p q r : ext p q -> ext q r -> ext p r.
  Proof. intros [] []. split; try eauto; congruence. Qed.
  Lemma frame_refl p : frame p p.
  Proof. split; done. Qed.
  Lemma frame_trans p q r : frame p q -> frame q r -> frame p r.
  Proof. intros [] []. split; congruence. Qed.

  Lemma ext_dlt p q i : ext p q -> dlt (p_nodes p) i -> dlt (p_nodes q) i.
  Proof. intros Hx [n Hn]. exists n. by apply Hx. Qed.
  Lemma ext_denotes p q e i v : ext p q -> denotes (p_nodes p) e i v -> denotes (p_nodes q) e i v.
  Proof. intros Hx. apply denotes_mono, Hx. Qed.
  Lemma inv_closed p : inv p -> forall i d ct cf, dget (p_nodes p) i = Some (INode d ct cf) ->
    dlt (p_nodes p) ct /\ dlt (p_nodes p) cf.
  Proof. intros Hi i d ct cf Hn. destruct (iv_node p Hi _ _ _ _ Hn) as (_ & _ & ? & ? & _). done. Qed.
  Lemma ext_back p q e i v : inv p -> ext p q -> dlt (p_nodes p) i -> denotes (p_nodes q) e i v ->
    denotes (p_nodes p) e i v.
  Proof. intros Hi Hx. apply denotes_back; [apply Hx|by apply inv_closed]. Qed.

  Lemma boolean_ext p q i : inv p -> ext p q -> dlt (p_nodes p) i -> boolean_diagram p i -> boolean_diagram q i.
  Proof.
    intros Hi Hx Hd Hb b x Hbl Hn.
    destruct (below_back _ _ _ _ (ex_nodes p q Hx) (inv_closed p Hi) Hd Hbl) as [Hbl' [n Hn']].
    rewrite (ex_zero p q Hx), (ex_one p q Hx). apply (Hb b x Hbl').
    pose proof (ex_nodes p q Hx _ _ Hn'). by simplify_eq.
  Qed.
  Lemma boolean_back p q i : ext p q -> boolean_diagram q i -> boolean_diagram p i.
  Proof.
    intros Hx Hb b x Hbl Hn. rewrite <- (ex_zero p q Hx), <- (ex_one p q Hx).
    apply (Hb b x); [|by apply Hx]. eapply below_mono; [apply Hx|done].
  Qed.
  Lemma boolean_zero (p : pool E) : inv p -> boolean_diagram p (p_zero p).
  Proof.
    intros Hi b x Hb _. inversion Hb as [|a d ct cf c b' Hn]; subst; [by left|].
    rewrite (iv_zero p Hi) in Hn. done.
  Qed.
  Lemma boolean_one (p : pool E) : inv p -> boolean_diagram p (p_one p).
  Proof.
    intros Hi b x Hb _. inversion Hb as [|a d ct cf c b' Hn]; subst; [by right|].
    rewrite (iv_one p Hi) in Hn. done.
  Qed.
  Lemma boolean_node (p : pool E) i d ct cf : dget (p_nodes p) i = Some (INode d ct cf) ->
    boolean_diagram p i <-> boolean_diagram p ct /\ boolean_diagram p cf.
  Proof.
    intros Hn. split.
    - intros Hb. split; intros b x Hbl; apply Hb; (eapply bl_step; [done| |done]); auto.
    - intros [Ht Hf] b x Hbl Hx. inversion Hbl as [|a d' ct' cf' c b' Hn' Hc Hbl']; subst; [congruence|].
      rewrite Hn in Hn'. simplify_eq. destruct Hc as [->| ->]; eauto.
  Qed.
  Lemma boolean_leaf (p : pool E) i x : dget (p_nodes p) i = Some (TNode x) -> boolean_diagram p i ->
    i = p_zero p \/ i = p_one p.
  Proof. intros Hn Hb. apply (Hb i x); [constructor|done]. Qed.

  Lemma den_zero e : den (alg_zero A) e = Some 0%Qc.
  Proof. apply HA. Qed.
  Lemma den_one e : den (alg_one A) e = Some 1%Qc.
  Proof. apply HA. Qed.
  Lemma denotes_zero p e v : inv p -> denotes (p_nodes p) e (p_zero p) v <-> v = 0%Qc.
  Proof.
    intros Hi. split.
    - intros Hv. apply (denotes_leaf _ _ _ _ _ _ (iv_zero p Hi)) in Hv. rewrite den_zero in Hv. by simplify_eq.
    - intros ->. eapply dn_leaf; [by apply iv_zero|apply den_zero].
  Qed.
  Lemma denotes_one p e v : inv p -> denotes (p_nodes p) e (p_one p) v <-> v = 1%Qc.
  Proof.
    intros Hi. split.
    - intros Hv. apply (denotes_leaf _ _ _ _ _ _ (iv_one p Hi)) in Hv. rewrite den_one in Hv. by simplify_eq.
    - intros ->. eapply dn_leaf; [by apply iv_one|apply den_one].
  Qed.
  Lemma zero_ne_one p : inv p -> p_zero p <> p_one p.
  Proof.
    intros Hi Heq. assert (denotes (p_nodes p) (Env (fun _ => true) (fun _ => 0%Qc)) (p_zero p) 1%Qc) as Hd
      by (rewrite Heq; by apply denotes_one).
    apply denotes_zero in Hd; [|done]. discriminate Hd.
  Qed.

  (** Shapes survive an extension. *)
  Lemma ext_node_back p q a n : ext p q -> dlt (p_nodes p) a -> dget (p_nodes q) a = Some n -> dget (p_nodes p) a = Some n.
  Proof. intros Hx [m Hm] Hn. pose proof (ex_nodes p q Hx _ _ Hm). by simplify_eq. Qed.
  Lemma root_ge_iff p q i a : inv p -> ext p q -> dlt (p_nodes p) a -> root_ge q i a <-> root_ge p i a.
  Proof.
    intros Hi Hx Hd. split; intros Hr d ct cf Hn.
    - destruct (Hr d ct cf) as (j & Hj & ?); [by apply Hx|]. exists j. split; [|done].
      destruct (iv_node p Hi _ _ _ _ Hn) as (_ & _ & _ & _ & _ & _ & j' & Hj' & _).
      pose proof (ex_tests p q Hx _ _ Hj'). by simplify_eq.
    - apply (ext_node_back p q) in Hn; [|done|done]. destruct (Hr d ct cf Hn) as (j & Hj & ?). exists j. split; [by apply Hx|done].
  Qed.
  Lemma below_iff p q a b : inv p -> ext p q -> dlt (p_nodes p) a ->
    below (p_nodes q) a b <-> below (p_nodes p) a b /\ dlt (p_nodes p) b.
  Proof.
    intros Hi Hx Hd. split.
    - intros Hb. by apply (below_back _ _ _ _ (ex_nodes p q Hx) (inv_closed p Hi) Hd Hb).
    - intros [Hb _]. eapply below_mono; [apply Hx|done].
  Qed.
  Lemma below_dlt p a b : inv p -> dlt (p_nodes p) a -> below (p_nodes p) a b -> dlt (p_nodes p) b.
  Proof.
    intros Hi Hd Hb. by apply (below_back _ _ _ _ (ex_nodes p p (ext_refl p)) (inv_closed p Hi) Hd Hb).
  Qed.
  Lemma ordered_iff p q a : inv p -> ext p q -> dlt (p_nodes p) a -> ordered q a <-> ordered p a.
  Proof.
    intros Hi Hx Hd. split.
    - intros Ho b d ct cf j Hb Hn Hj. destruct (inv_closed p Hi _ _ _ _ Hn) as [Dt Df].
      destruct (Ho b d ct cf j) as [H1 H2]; [|by apply Hx|by apply Hx|].
      { apply (below_iff p q); [done|done|done|]. split; [done|by eexists]. }
      split; by apply (root_ge_iff p q).
    - intros Ho b d ct cf j Hb Hn Hj. apply (below_iff p q) in Hb as [Hb Db]; [|done|done|done].
      apply (ext_node_back p q) in Hn; [|done|done]. destruct (inv_closed p Hi _ _ _ _ Hn) as [Dt Df].
      destruct (iv_node p Hi _ _ _ _ Hn) as (_ & _ & _ & _ & _ & _ & j' & Hj' & _).
      pose proof (ex_tests p q Hx _ _ Hj'). simplify_eq.
      destruct (Ho b d ct cf j Hb Hn Hj') as [H1 H2]. split; by apply (root_ge_iff p q).
  Qed.
  Lemma tested_iff p q P a : inv p -> ext p q -> dlt (p_nodes p) a -> tested q P a <-> tested p P a.
  Proof.
    intros Hi Hx Hd. split.
    - intros Ht b d ct cf Hb Hn. apply (Ht b d ct cf); [|by apply Hx].
      apply (below_iff p q); [done|done|done|]. split; [done|by eexists].
    - intros Ht b d ct cf Hb Hn. apply (below_iff p q) in Hb as [Hb Db]; [|done|done|done].
      apply (ext_node_back p q) in Hn; [|done|done]. by apply (Ht b d ct cf).
  Qed.
  Lemma forces_iff p q t c a : inv p -> ext p q -> dlt (p_nodes p) a -> forces q t c a <-> forces p t c a.
  Proof.
    intros Hi Hx Hd. split.
    - intros Hf. unfold forces in Hf; induction Hf as [|a d ct cf Hn Ht Hz|a d ct cf Hn Ht _ IH1 _ IH2].
      + rewrite (ex_zero p q Hx). constructor.
      + apply (ext_node_back p q) in Hn; [|done|done]. rewrite (ex_zero p q Hx) in Hz. by eapply fc_test.
      + apply (ext_node_back p q) in Hn; [|done|done]. destruct (inv_closed p Hi _ _ _ _ Hn) as [Dt Df].
        eapply fc_other; [done|done|by apply IH1|by apply IH2].
    - intros Hf. clear Hd. unfold forces in Hf; induction Hf as [|a d ct cf Hn Ht Hz|a d ct cf Hn Ht _ IH1 _ IH2].
      + rewrite <- (ex_zero p q Hx). constructor.
      + eapply fc_test; [by apply Hx|done|]. by rewrite (ex_zero p q Hx).
      + eapply fc_other; [by apply Hx|done|done|done].
  Qed.
  Lemma shaped_ext p q op a b r : inv p -> ext p q -> dlt (p_nodes p) a -> dlt (p_nodes p) b -> dlt (p_nodes p) r ->
    shaped p op a b r -> shaped q op a b r.
  Proof.
    intros Hi Hx Da Db Dr (S1 & S2 & S3 & S4). rewrite <- (ex_zero p q Hx) in S2, S3. split_and!; [|done|done|].
    - intros P Ha Hb. apply (tested_iff p q); [done..|]. apply S1; by apply (tested_iff p q).
    - intros Oa Ob. destruct S4 as (O1 & O2 & O3 & O4); [by apply (ordered_iff p q)..|]. split_and!.
      + by apply (ordered_iff p q).
      + intros i Ha Hb. apply (root_ge_iff p q); [done..|]. apply O2; by apply (root_ge_iff p q).
      + intros Hop t c Hu Hf. apply (forces_iff p q); [done..|]. apply O3; [done|done|].
        destruct Hf; [left|right]; by apply (forces_iff p q).
      + intros Hop t Hu Fa Fb Ba Bb. apply (boolean_ext p q); [done..|]. apply (O4 Hop t Hu).
        * by apply (forces_iff p q).
        * by apply (forces_iff p q).
        * by eapply boolean_back.
        * by eapply boolean_back.
  Qed.
  Lemma shrunk_ext p q a r : inv p -> ext p q -> dlt (p_nodes p) a -> dlt (p_nodes p) r ->
    shrunk p a r -> shrunk q a r.
  Proof.
    intros Hi Hx Da Dr (S1 & S2). split.
    - intros P Ha. apply (tested_iff p q); [done..|]. apply S1; by apply (tested_iff p q).
    - intros Oa. destruct S2 as (O1 & O2); [by apply (ordered_iff p q)..|]. split.
      + by apply (ordered_iff p q).
      + intros i Ha. apply (root_ge_iff p q); [done..|]. apply O2; by apply (root_ge_iff p q).
  Qed.
  Lemma shrunk_refl p a : shrunk p a a.
  Proof. by split. Qed.

  (** Leaves. *)
  Lemma below_leaf (p : pool E) a b x : dget (p_nodes p) a = Some (TNode x) -> below (p_nodes p) a b -> b = a.
  Proof. intros Hn Hb. by inversion Hb; subst; simplify_eq. Qed.
  Lemma tested_leaf (p : pool E) P a x : dget (p_nodes p) a = Some (TNode x) -> tested p P a.
  Proof. intros Hn b d ct cf Hb Hnb. rewrite (below_leaf p a b x Hn Hb) in Hnb. congruence. Qed.
  Lemma ordered_leaf (p : pool E) a x : dget (p_nodes p) a = Some (TNode x) -> ordered p a.
  Proof. intros Hn b d ct cf j Hb Hnb. rewrite (below_leaf p a b x Hn Hb) in Hnb. congruence. Qed.
  Lemma root_ge_leaf (p : pool E) i a x : dget (p_nodes p) a = Some (TNode x) -> root_ge p i a.
  Proof. intros Hn d ct cf. congruence. Qed.
  Lemma forces_leaf (p : pool E) t c a x : dget (p_nodes p) a = Some (TNode x) -> forces p t c a -> a = p_zero p.
  Proof. intros Hn Hf. inversion Hf; subst; [done|congruence|congruence]. Qed.
  Lemma root_ge_mono (p : pool E) i j a : i <= j -> root_ge p j a -> root_ge p i a.
  Proof. intros Hij Hr d ct cf Hn. destruct (Hr d ct cf Hn) as (k & ? & ?). exists k. split; [done|lia]. Qed.

  (** Nodes. *)
  Lemma tested_node (p : pool E) P a d ct cf : dget (p_nodes p) a = Some (INode d ct cf) ->
    tested p P a <-> P (d_test d) /\ tested p P ct /\ tested p P cf.
  Proof.
    intros Hn. split.
    - intros Ht. split; [apply (Ht a d ct cf); [constructor|done]|].
      split; intros b d' ct' cf' Hb; apply Ht; (eapply bl_step; [done| |done]); auto.
    - intros (H1 & H2 & H3) b d' ct' cf' Hb Hnb. inversion Hb as [|a' d0 ct0 cf0 c b' Hn' Hc Hb']; subst; [by simplify_eq|].
      rewrite Hn in Hn'. simplify_eq. destruct Hc as [->| ->]; eauto.
  Qed.
  Lemma ordered_node (p : pool E) a d ct cf j : dget (p_nodes p) a = Some (INode d ct cf) ->
    dget (p_tests p) (d_test d) = Some j ->
    ordered p a <-> root_ge p (S j) ct /\ root_ge p (S j) cf /\ ordered p ct /\ ordered p cf.
  Proof.
    intros Hn Hj. split.
    - intros Ho. destruct (Ho a d ct cf j) as [H1 H2]; [constructor|done|done|].
      split_and!; [done|done| |]; intros b d' ct' cf' j' Hb; apply Ho; (eapply bl_step; [done| |done]); auto.
    - intros (H1 & H2 & H3 & H4) b d' ct' cf' j' Hb Hnb Hj'.
      inversion Hb as [|a' d0 ct0 cf0 c b' Hn' Hc Hb']; subst; [by simplify_eq|].
      rewrite Hn in Hn'. simplify_eq. destruct Hc as [->| ->]; eauto.
  Qed.
  Lemma root_ge_node (p : pool E) i a d ct cf j : dget (p_nodes p) a = Some (INode d ct cf) ->
    dget (p_tests p) (d_test d) = Some j -> root_ge p i a <-> i <= j.
  Proof.
    intros Hn Hj. split.
    - intros Hr. destruct (Hr _ _ _ Hn) as (? & ? & ?). by simplify_eq.
    - intros Hij d' ct' cf' Hn'. simplify_eq. eauto.
  Qed.

  (** A diagram in which the deciding test does not occur is zero. *)
  Lemma forces_zero p t c j a : inv p -> dget (p_tests p) t = Some j -> ordered p a -> root_ge p (S j) a ->
    forces p t c a -> a = p_zero p.
  Proof.
    intros Hi Hj Ho Hr Hf. unfold forces in Hf; induction Hf as [|a d ct cf Hn Ht Hz|a d ct cf Hn Ht _ IH1 _ IH2]; [done| |].
    - subst t. destruct (Hr _ _ _ Hn) as (j' & Hj' & ?). simplify_eq. lia.
    - destruct (Hr _ _ _ Hn) as (j' & Hj' & ?). apply (ordered_node p a d ct cf j' Hn Hj') in Ho as (R1 & R2 & O1 & O2).
      destruct (iv_node p Hi _ _ _ _ Hn) as (_ & _ & _ & _ & Hne & _). exfalso. apply Hne. rewrite IH1, IH2; try done.
      + eapply root_ge_mono; [|done]. lia.
      + eapply root_ge_mono; [|done]. lia.
  Qed.

  (** What internal returns for a decision stored in a node. *)
  Lemma good_branches d : good d -> valid_branches simp d =
    Ok (if bool_decide (simp (d_test d) = BoolC true) then [true]
        else if bool_decide (simp (d_test d) = BoolC false) then [false] else [true; false]).
  Proof.
    intros [Hc Hg]. unfold valid_branches.
    destruct (bool_decide_reflect (d_test d ∈ [BoolC true; BoolC false])) as [Hin|Hin].
    { rewrite !elem_of_cons, elem_of_nil in Hin. destruct Hg as [[x Hx]|(c & _ & Hs & _)].
      - rewrite Hx in Hin. naive_solver.
      - apply li_to_smt_not_bool in Hs as [(? & ? & Hs)|(? & ? & Hs)]; rewrite Hs in Hin; naive_solver. }
    destruct Hg as [[x Hx]|(c & Hc' & Hs & Hb & _)].
    - unfold dec_is_bool. rewrite Hx. rewrite bool_decide_true by done. done.
    - rewrite Hb. unfold dec_inequality. rewrite Hc'. cbn [rbind]. rewrite Hs. done.
  Qed.

  (** The parts of the invariant about the caches survive an extension. *)
  Lemma iv_apply_ext p q : inv p -> ext p q -> p_apply q = p_apply p ->
    forall op a b r, dget (p_apply q) (op, a, b) = Some r ->
      dlt (p_nodes q) a /\ dlt (p_nodes q) b /\ dlt (p_nodes q) r /\
      (forall e x y, denotes (p_nodes q) e a x -> denotes (p_nodes q) e b y ->
         exists z, denotes (p_nodes q) e r z /\ op_val op x y z) /\
      (op <> Summation -> boolean_diagram q a -> boolean_diagram q b -> boolean_diagram q r) /\ shaped q op a b r.
  Proof.
    intros Hi Hx Ha op a b r Hr. rewrite Ha in Hr.
    destruct (iv_apply p Hi _ _ _ _ Hr) as (H1 & H2 & H3 & Hs & Hb & Hsh).
    split; [by eapply ext_dlt|]. split; [by eapply ext_dlt|]. split; [by eapply ext_dlt|]. split; [|split].
    - intros e x y Hdx Hdy. destruct (Hs e x y) as (z & Hz & Hop); [by eapply ext_back|by eapply ext_back|].
      exists z. split; [by eapply ext_denotes|done].
    - intros Hop H4 H5. eapply boolean_ext; [done|done|done|]. apply Hb; [done| |]; by eapply boolean_back.
    - by apply (shaped_ext p q).
  Qed.
  Lemma iv_reduced_ext p q : inv p -> ext p q -> p_reduced q = p_reduced p ->
    forall a r, dget (p_reduced q) a = Some r ->
      dlt (p_nodes q) a /\ dlt (p_nodes q) r /\
      (forall e x, denotes (p_nodes q) e a x -> denotes (p_nodes q) e r x) /\ shrunk q a r.
  Proof.
    intros Hi Hx Ha a r Hr. rewrite Ha in Hr.
    destruct (iv_reduced p Hi _ _ Hr) as (H1 & H2 & Hs & Hsh).
    split; [by eapply ext_dlt|]. split; [by eapply ext_dlt|]. split; [|by apply (shrunk_ext p q)].
    intros e x Hdx. eapply ext_denotes; [done|]. apply Hs. by eapply ext_back.
  Qed.

  Lemma counter_fresh p : inv p -> dget (p_nodes p) (p_counter p) = None.
  Proof.
    intros Hi. destruct (dget (p_nodes p) (p_counter p)) eqn:Hn; [|done].
    apply (iv_lt p Hi) in Hn. lia.
  Qed.

  (** ** terminal *)
  Lemma terminal_ok p x : inv p -> exists q i, terminal x p = (q, Ok i) /\ inv q /\ ext p q /\ frame p q /\
    dget (p_nodes q) i = Some (TNode x).
  Proof.
    intros Hi. unfold terminal. destruct (dget (p_exprs p) x) as [i|] eqn:Ex.
    { exists p, i. split; [done|]. split; [done|]. split; [apply ext_refl|]. split; [apply frame_refl|]. by apply iv_term. }
    eexists _, _. split; [reflexivity|]. pose proof (counter_fresh p Hi) as Hc.
    match goal with |- inv ?q /\ _ => set (q' := q) end.
    assert (forall i, dget (p_nodes q') i = if decide (p_counter p = i) then Some (TNode x) else dget (p_nodes p) i) as Hn.
    { intros i. unfold q'. cbn [p_nodes]. apply dget_dset. }
    assert (forall y, dget (p_exprs q') y = if decide (x = y) then Some (p_counter p) else dget (p_exprs p) y) as He.
    { intros y. unfold q'. cbn [p_exprs]. apply dget_dset. }
    assert (ext p q') as Hx.
    { split; try done.
      - intros i n Hn'. rewrite Hn. destruct (decide _); [congruence|done].
      - intros y i Hy. rewrite He. destruct (decide _); [congruence|done]. }
    assert (forall i d ct cf, dget (p_nodes q') i = Some (INode d ct cf) -> dget (p_nodes p) i = Some (INode d ct cf)) as Hback.
    { intros i d ct cf. rewrite Hn. by destruct (decide _). }
    split; [|split; [done|split; [by split|by rewrite Hn, decide_True by done]]].
    split.
    - intros i n. rewrite Hn. destruct (decide _) as [<-|]; unfold q'; cbn [p_counter]; [lia|].
      intros Hn'. apply (iv_lt p Hi) in Hn'. lia.
    - intros i d ct cf Hn'. apply Hback in Hn'. destruct (iv_node p Hi _ _ _ _ Hn') as (? & ? & ? & ? & ? & ? & ?).
      split_and!; try done; by eapply ext_dlt.
    - intros j ct cf i Hj. destruct (iv_imap p Hi _ _ _ _ Hj) as (d & Hd & ?). exists d. split; [by apply Hx|done].
    - intros i y. rewrite Hn, He. pose proof (iv_term p Hi i y) as Ht.
      destruct (decide (p_counter p = i)) as [Hci|Hci], (decide (x = y)) as [Hxy|Hxy]; subst; try done.
      + split; [congruence|]. intros Hy. apply iv_term in Hy; [|done]. congruence.
      + split; [|congruence]. intros Hy. apply iv_term in Hy; [congruence|done].
    - intros t j Hj. by apply (iv_tlt p Hi) in Hj.
    - apply (iv_tinj p Hi).
    - apply Hx, (iv_zero p Hi).
    - apply Hx, (iv_one p Hi).
    - by apply (iv_apply_ext p q').
    - by apply (iv_reduced_ext p q').
  Qed.

  (** ** internal *)

  Lemma add_test_ok p t : inv p -> exists q j, add_test t p = (q, Ok j) /\ inv q /\ ext p q /\ frame p q /\
    dget (p_tests q) t = Some j /\ p_nodes q = p_nodes p /\ p_internal q = p_internal p /\ p_counter q = p_counter p.
  Proof.
    intros Hi. unfold add_test. destruct (dget (p_tests p) t) as [j|] eqn:Ej.
    { exists p, j. split; [done|]. split; [done|]. split; [apply ext_refl|]. split; [apply frame_refl|]. done. }
    eexists _, _. split; [reflexivity|].
    match goal with |- inv ?q /\ _ => set (q' := q) end.
    assert (forall s, dget (p_tests q') s = if decide (t = s) then Some (length (p_tests p)) else dget (p_tests p) s) as Ht.
    { intros s. unfold q'. cbn [p_tests]. apply dget_dset. }
    assert (ext p q') as Hx.
    { split; try done. intros s j Hj. rewrite Ht. destruct (decide _); [congruence|done]. }
    split; [|split; [done|split; [by split|split; [by rewrite Ht, decide_True by done|done]]]].
    split.
    - apply (iv_lt p Hi).
    - intros i d ct cf Hn. destruct (iv_node p Hi _ _ _ _ Hn) as (? & ? & ? & ? & ? & ? & j & Hj & ?).
      split_and!; try done. exists j. split; [by apply Hx|done].
    - intros j ct cf i Hj. destruct (iv_imap p Hi _ _ _ _ Hj) as (d & Hd & Hj'). exists d. split; [done|by apply Hx].
    - apply (iv_term p Hi).
    - intros s j. rewrite Ht. unfold q'. cbn [p_tests].
      assert (length (dset (p_tests p) t (length (p_tests p))) = S (length (p_tests p))) as ->.
      { rewrite dset_fresh by by apply dget_None. rewrite app_length. cbn. lia. }
      destruct (decide _); [intros [= <-]; lia|]. intros Hj. apply (iv_tlt p Hi) in Hj. lia.
    - intros s s' j. rewrite !Ht. destruct (decide (t = s)), (decide (t = s')); try congruence.
      + intros [= <-] Hj. apply (iv_tlt p Hi) in Hj. lia.
      + intros Hj [= <-]. apply (iv_tlt p Hi) in Hj. lia.
      + apply (iv_tinj p Hi).
    - apply (iv_zero p Hi).
    - apply (iv_one p Hi).
    - by apply (iv_apply_ext p q').
    - by apply (iv_reduced_ext p q').
  Qed.

  (** Registering a new internal node. *)
  Lemma register_ok p d ct cf j : inv p -> good d -> dlt (p_nodes p) ct -> dlt (p_nodes p) cf -> ct <> cf ->
    dget (p_tests p) (d_test d) = Some j -> dget (p_internal p) (j, ct, cf) = None ->
    let q := Pool (S (p_counter p)) (dset (p_nodes p) (p_counter p) (INode d ct cf))
       (dset (p_internal p) (j, ct, cf) (p_counter p)) (p_exprs p) (p_tests p)
       (p_apply p) (p_ordering p) (p_zero p) (p_one p) (p_profiles p) (p_reduced p) (p_resolved p) in
    inv q /\ ext p q /\ frame p q /\ dget (p_nodes q) (p_counter p) = Some (INode d ct cf).
  Proof.
    intros Hi Hg Hct Hcf Hne Hj Hk q'. pose proof (counter_fresh p Hi) as Hc.
    assert (forall i, dget (p_nodes q') i = if decide (p_counter p = i) then Some (INode d ct cf) else dget (p_nodes p) i) as Hn.
    { intros i. unfold q'. cbn [p_nodes]. apply dget_dset. }
    assert (forall k, dget (p_internal q') k = if decide ((j, ct, cf) = k) then Some (p_counter p) else dget (p_internal p) k) as Hm.
    { intros k. unfold q'. cbn [p_internal]. apply dget_dset. }
    assert (ext p q') as Hx.
    { split; try done.
      - intros i n Hn'. rewrite Hn. destruct (decide _); [congruence|done].
      - intros k i Hk'. rewrite Hm. destruct (decide _); [congruence|done]. }
    split; [|split; [done|split; [by split|by rewrite Hn, decide_True by done]]].
    split.
    - intros i n. rewrite Hn. destruct (decide _) as [<-|]; unfold q'; cbn [p_counter]; [lia|].
      intros Hn'. apply (iv_lt p Hi) in Hn'. lia.
    - intros i d' ct' cf'. rewrite Hn. destruct (decide _) as [<-|Hci].
      + intros [= <- <- <-]. destruct Hct as [n1 H1], Hcf as [n2 H2].
        pose proof (iv_lt p Hi _ _ H1). pose proof (iv_lt p Hi _ _ H2).
        split; [lia|]. split; [lia|]. split; [exists n1; by apply Hx|]. split; [exists n2; by apply Hx|].
        split; [done|]. split; [done|]. exists j. split; [done|]. by rewrite Hm, decide_True by done.
      + intros Hn'. destruct (iv_node p Hi _ _ _ _ Hn') as (? & ? & ? & ? & ? & ? & j' & ? & Hj').
        split_and!; try done; try by eapply ext_dlt. exists j'. split; [done|]. by apply Hx.
    - intros j' ct' cf' i. rewrite Hm. destruct (decide _) as [Heq|].
      + intros [= <-]. simplify_eq. exists d. split; [by rewrite Hn, decide_True by done|done].
      + intros Hj'. destruct (iv_imap p Hi _ _ _ _ Hj') as (d' & Hd & ?). exists d'. split; [by apply Hx|done].
    - intros i x. rewrite Hn. destruct (decide _) as [<-|].
      + split; [done|]. intros Hx'. apply (iv_term p Hi) in Hx'. congruence.
      + apply (iv_term p Hi).
    - apply (iv_tlt p Hi).
    - apply (iv_tinj p Hi).
    - apply Hx, (iv_zero p Hi).
    - apply Hx, (iv_one p Hi).
    - by apply (iv_apply_ext p q').
    - by apply (iv_reduced_ext p q').
  Qed.

  (** What the result of internal is. *)
  Definition node_of (p q : pool E) (d : decision) (ct cf i : nat) : Prop :=
    dlt (p_nodes q) i /\
    (forall e b v, takes simp d e b -> denotes (p_nodes p) e (if b : bool then ct else cf) v ->
       denotes (p_nodes q) e i v) /\
    (i = ct \/ i = cf \/ exists d1 d2 ct' cf', dget (p_nodes q) i = Some (INode d2 ct' cf') /\
       to_canonical simp d ct cf = Ok (d1, ct', cf') /\ d_test d2 = d_test d1 /\
       ((ct' = ct /\ cf' = cf) \/ (ct' = cf /\ cf' = ct))).

  Lemma cons_node_inv p d ct cf : inv p -> askable d -> dlt (p_nodes p) ct -> dlt (p_nodes p) cf -> ct <> cf ->
    let '(q, r) := cons_node simp d ct cf p in
    inv q /\ ext p q /\ frame p q /\ (forall i, r = Ok i -> node_of p q d ct cf i) /\
    (good d -> is_ok r = true).
  Proof.
    intros Hi Had Hct Hcf Hne. unfold cons_node.
    unfold mbind at 1. unfold mlift at 1.
    destruct (to_canonical simp d ct cf) as [[[d' ct'] cf']|x] eqn:Ec.
    2:{ split; [done|]. split; [apply ext_refl|]. split; [apply frame_refl|]. split; [done|].
        intros [Hg _]. unfold to_canonical in Ec. by rewrite Hg in Ec. }
    destruct (canonical_good simp HS _ _ _ _ _ _ Had Ec) as [Hg' Hsw].
    assert (dlt (p_nodes p) ct' /\ dlt (p_nodes p) cf' /\ ct' <> cf') as (Hct' & Hcf' & Hne').
    { destruct Hsw as [[-> ->]|[-> ->]]; auto. }
    unfold mbind at 1. destruct (add_test_ok p (d_test d') Hi) as (q & j & -> & Hiq & Hxq & Hfq & Hj & Hnq & Hmq & Hcq).
    assert (forall q' i d'', ext q q' -> dget (p_nodes q') i = Some (INode d'' ct' cf') -> d_test d'' = d_test d' ->
      node_of p q' d ct cf i) as Hnode.
    { intros q' i d'' Hx Hn Heq'. split; [by eexists|]. split.
      - intros e b v [_ Ht] Hv. destruct (Ht _ _ _ _ _ Ec) as (b' & He & Heq). eapply denotes_child; [done|by rewrite Heq'|].
        rewrite Heq. eapply ext_denotes; [|done]. by eapply ext_trans.
      - right. right. eexists _, _, _, _. split; [done|]. done. }
    destruct (dget (p_internal q) (j, ct', cf')) as [i|] eqn:Ek.
    - split; [done|]. split; [done|]. split; [done|]. split; [|done].
      intros i' [= <-]. destruct (iv_imap q Hiq _ _ _ _ Ek) as (d'' & Hn & Ht).
      assert (d_test d'' = d_test d') as Heq by by eapply (iv_tinj q Hiq).
      by apply (Hnode q i d'' (ext_refl q)).
    - cbn [mbind register]. rewrite <- Hnq in Hct', Hcf'.
      destruct (register_ok q d' ct' cf' j Hiq Hg' Hct' Hcf' Hne' Hj Ek) as (Hi' & Hx' & Hf' & Hn').
      split; [done|]. split; [by eapply ext_trans|]. split; [by eapply frame_trans|]. split; [|done].
      intros i [= <-]. by eapply Hnode.
  Qed.

  Lemma internal_inv p d ct cf : inv p -> askable d -> dlt (p_nodes p) ct -> dlt (p_nodes p) cf ->
    let '(q, r) := internal simp d ct cf p in
    inv q /\ ext p q /\ frame p q /\ (forall i, r = Ok i -> node_of p q d ct cf i) /\
    (good d -> is_ok r = true).
  Proof.
    intros Hi Had Hct Hcf. unfold internal.
    assert (forall r, (forall i, r = Ok i -> (i = ct \/ i = cf) /\
        (forall e b v, takes simp d e b -> denotes (p_nodes p) e (if b : bool then ct else cf) v ->
       denotes (p_nodes p) e i v)) -> (good d -> is_ok r = true) ->
      inv p /\ ext p p /\ frame p p /\ (forall i, r = Ok i -> node_of p p d ct cf i) /\ (good d -> is_ok r = true)) as Hsame.
    { intros r Hr Hok. split; [done|]. split; [apply ext_refl|]. split; [apply frame_refl|]. split; [|done].
      intros i Hi'. destruct (Hr i Hi') as [Hc Hd]. split; [by destruct Hc; subst|]. split; [done|].
      destruct Hc; auto. }
    destruct (bool_decide_reflect (ct = cf)) as [->|Hne].
    { cbn [mret]. apply Hsame; [|done]. intros i [= <-]. split; [by left|]. intros e b v _. by destruct b. }
    unfold mbind at 1. unfold mlift at 1.
    destruct (valid_branches simp d) as [bs|x] eqn:Ev.
    2:{ apply Hsame; [done|]. intros Hg. destruct (valid_branches_good simp d Hg) as (bs & Hbs & _). congruence. }
    destruct bs as [|b [|? ?]]; [by apply cons_node_inv| |by apply cons_node_inv].
    unfold mret. apply Hsame; [|done]. intros i [= <-]. split; [destruct b; auto|].
    intros e b' v [Ht _] Hv. by rewrite (Ht b Ev).
  Qed.

  (** A decision stored in a node keeps its children when a node is made of it. *)
  Lemma internal_good p d ct cf q i : inv p -> good d -> dlt (p_nodes p) ct -> dlt (p_nodes p) cf ->
    internal simp d ct cf p = (q, Ok i) ->
    (i = ct /\ ct = cf) \/ (exists b, simp (d_test d) = BoolC b /\ i = if b : bool then ct else cf) \/
    (ct <> cf /\ unpruned (d_test d) /\ exists d2, dget (p_nodes q) i = Some (INode d2 ct cf) /\ d_test d2 = d_test d).
  Proof.
    intros Hi Hg Hct Hcf. unfold internal. destruct (bool_decide_reflect (ct = cf)) as [->|Hne].
    { intros [= <- <-]. auto. }
    unfold mbind at 1. unfold mlift at 1. rewrite (good_branches d Hg).
    destruct (bool_decide_reflect (simp (d_test d) = BoolC true)) as [Ht|Ht].
    { intros [= <- <-]. right. left. by exists true. }
    destruct (bool_decide_reflect (simp (d_test d) = BoolC false)) as [Hf|Hf].
    { intros [= <- <-]. right. left. by exists false. }
    unfold cons_node. unfold mbind at 1. unfold mlift at 1. destruct Hg as [Hc Hg]. unfold to_canonical. rewrite Hc. cbn [rbind].
    unfold mbind at 1. destruct (add_test_ok p (d_test d) Hi) as (q1 & j & -> & Hiq & Hxq & Hfq & Hj & Hnq & Hmq & Hcq).
    intros Hr. right. right. split; [done|]. split; [done|]. revert Hr. destruct (dget (p_internal q1) (j, ct, cf)) as [i'|] eqn:Ek.
    - intros [= <- <-]. destruct (iv_imap q1 Hiq _ _ _ _ Ek) as (d'' & Hn & Ht'). exists d''. split; [done|].
      by eapply (iv_tinj q1 Hiq).
    - cbn [mbind register]. intros [= <- <-]. cbn [p_nodes]. exists d. split; [|done]. by rewrite dget_dset, decide_True by done.
  Qed.

  (** ** apply *)

  (** [r] is a correct result of the operation on [a] and [b]. *)
  Definition applied (q : pool E) (op : xop) (a b r : nat) : Prop :=
    dlt (p_nodes q) a /\ dlt (p_nodes q) b /\ dlt (p_nodes q) r /\
    (forall e x y, denotes (p_nodes q) e a x -> denotes (p_nodes q) e b y ->
       exists z, denotes (p_nodes q) e r z /\ op_val op x y z) /\
    (op <> Summation -> boolean_diagram q a -> boolean_diagram q b -> boolean_diagram q r) /\ shaped q op a b r.

  Lemma applied_ext p q op a b r : inv p -> ext p q -> applied p op a b r -> applied q op a b r.
  Proof.
    intros Hi Hx (H1 & H2 & H3 & Hs & Hb & Hsh).
    split; [by eapply ext_dlt|]. split; [by eapply ext_dlt|]. split; [by eapply ext_dlt|]. split; [|split; [|by apply (shaped_ext p q)]].
    - intros e x y Hdx Hdy. destruct (Hs e x y) as (z & Hz & Hop); [by eapply ext_back|by eapply ext_back|].
      exists z. split; [by eapply ext_denotes|done].
    - intros Hop H4 H5. eapply boolean_ext; [done|done|done|]. apply Hb; [done| |]; by eapply boolean_back.
  Qed.

  Lemma set_apply_ok p op a b r : inv p -> applied p op a b r ->
    inv (set_apply p (op, a, b) r) /\ ext p (set_apply p (op, a, b) r) /\ frame p (set_apply p (op, a, b) r).
  Proof.
    intros Hi Hr. split; [|split; split; done]. destruct Hi as [I1 I2 I3 I4 I5 I6 I7 I8 I9 I10].
    split; try done. intros op' a' b' r'. unfold set_apply. cbn [p_apply p_nodes]. rewrite dget_dset.
    destruct (decide _) as [Heq|]; [|apply I9]. intros [= <-]. injection Heq as <- <- <-. exact Hr.
  Qed.

  (** Which operations never raise on which diagrams. *)
  Definition total_on (p : pool E) (op : xop) (a b : nat) : Prop :=
    match op with
    | Multiplication | Summation => True
    | _ => boolean_diagram p a /\ boolean_diagram p b
    end.

  Lemma op_val_mul_zero x y : (x = 0 \/ y = 0)%Qc -> op_val Multiplication x y 0%Qc.
  Proof. cbn. intros [-> | ->]; ring. Qed.

  Lemma terminal_leaf_ok p op r1 x1 r2 x2 (k : E -> E -> E) :
    inv p -> dget (p_nodes p) r1 = Some (TNode x1) -> dget (p_nodes p) r2 = Some (TNode x2) ->
    (forall e x y, den x1 e = Some x -> den x2 e = Some y -> exists z, den (k x1 x2) e = Some z /\ op_val op x y z) ->
    (op <> Summation -> boolean_diagram p r1 -> boolean_diagram p r2 -> False) ->
    r1 <> p_zero p -> r2 <> p_zero p ->
    let '(q, res) := (do! id := terminal (flat (k x1 x2)) in mret (Some id)) p in
    inv q /\ ext p q /\ frame p q /\ exists r, res = Ok (Some r) /\ applied q op r1 r2 r.
  Proof.
    intros Hi H1 H2 Hk Hb Hz1 Hz2. unfold mbind.
    destruct (terminal_ok p (flat (k x1 x2)) Hi) as (q & i & -> & Hiq & Hx & Hf & Hn).
    cbn. split; [done|]. split; [done|]. split; [done|]. exists i. split; [done|].
    pose proof (ex_nodes _ _ Hx _ _ H1) as H1'. pose proof (ex_nodes _ _ Hx _ _ H2) as H2'.
    rewrite <- (ex_zero _ _ Hx) in Hz1, Hz2.
    split; [by eexists|]. split; [by eexists|]. split; [by eexists|]. split; [|split].
    - intros e x y Hdx Hdy. eapply denotes_leaf in Hdx; [|done]. eapply denotes_leaf in Hdy; [|done].
      destruct (Hk e x y Hdx Hdy) as (z & Hz & Hop). exists z. split; [|done]. eapply dn_leaf; [done|]. by apply HF.
    - intros Hop Hb1 Hb2. destruct Hb; [done| |]; by eapply boolean_back.
    - split; [intros P _ _; by eapply tested_leaf|]. split; [tauto|]. split; [tauto|]. intros _ _.
      split; [by eapply ordered_leaf|]. split; [intros j _ _; by eapply root_ge_leaf|]. split.
      + intros _ t c _ [Hc|Hc]; [by apply (forces_leaf q t c r1 x1) in Hc|by apply (forces_leaf q t c r2 x2) in Hc].
      + intros _ t _ Hc. by apply (forces_leaf q t true r1 x1) in Hc.
  Qed.

  (** The result is one of the arguments or a constant. *)
  Lemma shaped_pick p op r1 r2 r : inv p -> r = r1 \/ r = r2 \/ r = p_zero p \/ r = p_one p ->
    (op = Multiplication -> r1 = p_zero p \/ r2 = p_zero p -> r = p_zero p) ->
    (op = Multiplication -> r = p_zero p \/ (r1 = p_one p /\ r = r2) \/ (r2 = p_one p /\ r = r1)) ->
    (op = Summation -> (r1 = p_zero p /\ r = r2) \/ (r2 = p_zero p /\ r = r1)) ->
    shaped p op r1 r2 r.
  Proof.
    intros Hi Hr Hz Hm Hs. pose proof (iv_zero p Hi) as Nz. pose proof (iv_one p Hi) as No. pose proof (zero_ne_one p Hi) as Hzo.
    split; [|split; [done|split]].
    - intros P H1 H2. destruct Hr as [->|[->|[->| ->]]]; [done|done|by eapply tested_leaf|by eapply tested_leaf].
    - intros Hop. destruct (Hs Hop) as [[-> ->]|[-> ->]]; split; congruence.
    - intros O1 O2. split; [destruct Hr as [->|[->|[->| ->]]]; [done|done|by eapply ordered_leaf|by eapply ordered_leaf]|].
      split; [intros i R1 R2; destruct Hr as [->|[->|[->| ->]]]; [done|done|by eapply root_ge_leaf|by eapply root_ge_leaf]|].
      split.
      + intros Hop t c Hu Hf. destruct (Hm Hop) as [->|[[-> ->]|[-> ->]]]; [constructor| |].
        * destruct Hf as [Hf|Hf]; [|done]. by apply (forces_leaf p t c _ _ No) in Hf.
        * destruct Hf as [Hf|Hf]; [done|]. by apply (forces_leaf p t c _ _ No) in Hf.
      + intros Hop t _ _ _ B1 B2. by destruct (Hs Hop) as [[_ ->]|[_ ->]].
  Qed.

  Lemma compute_terminal_ok p op r1 n1 r2 n2 : inv p ->
    dget (p_nodes p) r1 = Some n1 -> dget (p_nodes p) r2 = Some n2 ->
    let '(q, res) := compute_terminal A flat op r1 n1 r2 n2 p in
    inv q /\ ext p q /\ frame p q /\
    match res with
    | Ok (Some r) => applied q op r1 r2 r
    | Ok None => q = p /\ is_tnode n1 && is_tnode n2 = false /\ r1 <> p_zero p /\ r2 <> p_zero p
    | Err x => x <> OutOfFuel /\ ~ total_on p op r1 r2
    end.
  Proof.
    intros Hi H1 H2. unfold compute_terminal. unfold mbind at 1. unfold mget at 1.
    assert (forall r, applied p op r1 r2 r -> inv p /\ ext p p /\ frame p p /\ applied p op r1 r2 r) as Hsame.
    { intros. split; [done|]. split; [apply ext_refl|]. split; [apply frame_refl|]. done. }
    assert (inv p /\ ext p p /\ frame p p) as Hself.
    { split; [done|]. split; [apply ext_refl|]. apply frame_refl. }
    assert (dlt (p_nodes p) r1) as Hd1 by by eexists. assert (dlt (p_nodes p) r2) as Hd2 by by eexists.
    assert (dlt (p_nodes p) (p_zero p)) as Hdz by (eexists; by apply iv_zero).
    assert (dlt (p_nodes p) (p_one p)) as Hdo by (eexists; by apply iv_one).
    assert (forall r, dlt (p_nodes p) r ->
      (forall e x y, denotes (p_nodes p) e r1 x -> denotes (p_nodes p) e r2 y ->
         exists z, denotes (p_nodes p) e r z /\ op_val op x y z) ->
      (op <> Summation -> boolean_diagram p r1 -> boolean_diagram p r2 -> boolean_diagram p r) ->
      shaped p op r1 r2 r -> applied p op r1 r2 r) as Happ.
    { intros r Hd Hs Hb. split; [done|]. split; [done|]. split; [done|]. done. }
    pose proof (boolean_zero p Hi) as Bz. pose proof (boolean_one p Hi) as Bo.
    pose proof (zero_ne_one p Hi) as Hzo.
    destruct op; cbv zeta.
    - destruct (bool_decide (r1 = p_zero p) || bool_decide (r2 = p_zero p)) eqn:Ez.
      { cbn. apply Hsame, Happ; [done| |done|apply shaped_pick; naive_solver]. intros e x y Hx Hy. exists 0%Qc. split; [by apply denotes_zero|].
        apply op_val_mul_zero. rewrite orb_true_iff, !bool_decide_eq_true in Ez. destruct Ez as [-> | ->].
        - left. by apply denotes_zero in Hx.
        - right. by apply denotes_zero in Hy. }
      rewrite orb_false_iff, !bool_decide_eq_false in Ez.
      destruct (bool_decide_reflect (r1 = p_one p)) as [-> |Ho1].
      { cbn. apply Hsame, Happ; [done| |done|apply shaped_pick; naive_solver]. intros e x y Hx Hy. exists y. split; [done|].
        apply denotes_one in Hx; [|done]. subst x. cbn. ring. }
      destruct (bool_decide_reflect (r2 = p_one p)) as [-> |Ho2].
      { cbn. apply Hsame, Happ; [done| |done|apply shaped_pick; naive_solver]. intros e x y Hx Hy. exists x. split; [done|].
        apply denotes_one in Hy; [|done]. subst y. cbn. ring. }
      destruct n1 as [x1|d1 c1 f1]; [|cbn; split_and!; naive_solver].
      destruct n2 as [x2|d2 c2 f2]; [|cbn; split_and!; naive_solver].
      pose proof (terminal_leaf_ok p Multiplication r1 x1 r2 x2 (alg_times A) Hi H1 H2) as Hl.
      destruct ((do! id := terminal (flat (alg_times A x1 x2)) in mret (Some id)) p) as [q res].
      destruct Hl as (? & ? & ? & r & -> & ?); [| |tauto|tauto|done].
      + intros e x y Hx Hy. eexists. split; [by eapply alg_times_value|done].
      + intros _ Hb1 _.
        destruct (boolean_leaf p r1 x1 H1 Hb1); tauto.
    - destruct (bool_decide_reflect (r1 = p_zero p)) as [-> |Hz1].
      { cbn. apply Hsame, Happ; [done| |done|apply shaped_pick; naive_solver]. intros e x y Hx Hy. exists y. split; [done|].
        apply denotes_zero in Hx; [|done]. subst x. cbn. ring. }
      destruct (bool_decide_reflect (r2 = p_zero p)) as [-> |Hz2].
      { cbn. apply Hsame, Happ; [done| |done|apply shaped_pick; naive_solver]. intros e x y Hx Hy. exists x. split; [done|].
        apply denotes_zero in Hy; [|done]. subst y. cbn. ring. }
      destruct n1 as [x1|d1 c1 f1]; [|cbn; split_and!; naive_solver].
      destruct n2 as [x2|d2 c2 f2]; [|cbn; split_and!; naive_solver].
      pose proof (terminal_leaf_ok p Summation r1 x1 r2 x2 (alg_plus A) Hi H1 H2) as Hl.
      destruct ((do! id := terminal (flat (alg_plus A x1 x2)) in mret (Some id)) p) as [q res].
      destruct Hl as (? & ? & ? & r & -> & ?); [| |tauto|tauto|done].
      + intros e x y Hx Hy. eexists. split; [by eapply alg_plus_value|done].
      + done.
    - destruct (is_tnode n1 && is_tnode n2 && _) eqn:Et.
      { cbn. split; [done|]. split; [apply ext_refl|]. split; [apply frame_refl|]. split; [done|]. intros [Hb1 Hb2].
        rewrite !andb_true_iff in Et. destruct Et as [[Et1 Et2] Et]. destruct n1 as [x1|]; [|done]. destruct n2 as [x2|]; [|done].
        rewrite orb_true_iff, !negb_true_iff, !orb_false_iff, !bool_decide_eq_false in Et.
        destruct (boolean_leaf p r1 x1 H1 Hb1), (boolean_leaf p r2 x2 H2 Hb2); tauto. }
      destruct (bool_decide_reflect (r1 = p_zero p)) as [-> |Hz1].
      { cbn. apply Hsame, Happ; [done| |done|apply shaped_pick; naive_solver]. intros e x y Hx Hy. exists y. split; [done|].
        apply denotes_zero in Hx; [|done]. subst x. intros _ ?. split; [done|]. split; [auto|].
        intros [Hc|]; [discriminate Hc|done]. }
      destruct (bool_decide_reflect (r1 = p_one p)) as [-> |Ho1].
      { cbn. apply Hsame, Happ; [done| |done|apply shaped_pick; naive_solver]. intros e x y Hx Hy. exists 1%Qc. split; [by apply denotes_one|].
        apply denotes_one in Hx; [|done]. subst x. intros _ _. split; [auto|]. split; auto. }
      destruct (bool_decide_reflect (r2 = p_zero p)) as [-> |Hz2].
      { cbn. apply Hsame, Happ; [done| |done|apply shaped_pick; naive_solver]. intros e x y Hx Hy. exists x. split; [done|].
        apply denotes_zero in Hy; [|done]. subst y. intros ? _. split; [done|]. split; [auto|].
        intros [|Hc]; [done|discriminate Hc]. }
      destruct (bool_decide_reflect (r2 = p_one p)) as [-> |Ho2].
      { cbn. apply Hsame, Happ; [done| |done|apply shaped_pick; naive_solver]. intros e x y Hx Hy. exists 1%Qc. split; [by apply denotes_one|].
        apply denotes_one in Hy; [|done]. subst y. intros _ _. split; [auto|]. split; auto. }
      destruct (is_tnode n1 && is_tnode n2) eqn:En; [done|].
      cbn. split_and!; naive_solver.
    - destruct (is_tnode n1 && is_tnode n2 && _) eqn:Et.
      { cbn. split; [done|]. split; [apply ext_refl|]. split; [apply frame_refl|]. split; [done|]. intros [Hb1 Hb2].
        rewrite !andb_true_iff in Et. destruct Et as [[Et1 Et2] Et]. destruct n1 as [x1|]; [|done]. destruct n2 as [x2|]; [|done].
        rewrite orb_true_iff, !negb_true_iff, !orb_false_iff, !bool_decide_eq_false in Et.
        destruct (boolean_leaf p r1 x1 H1 Hb1), (boolean_leaf p r2 x2 H2 Hb2); tauto. }
      destruct (bool_decide_reflect (r1 = p_one p)) as [-> |Ho1].
      { cbn. apply Hsame, Happ; [done| |done|apply shaped_pick; naive_solver]. intros e x y Hx Hy. exists y. split; [done|].
        apply denotes_one in Hx; [|done]. subst x. intros _ ?. split; [done|]. split; [auto|]. by intros []. }
      destruct (bool_decide_reflect (r1 = p_zero p)) as [-> |Hz1].
      { cbn. apply Hsame, Happ; [done| |done|apply shaped_pick; naive_solver]. intros e x y Hx Hy. exists 0%Qc. split; [by apply denotes_zero|].
        apply denotes_zero in Hx; [|done]. subst x. intros _ _. split; [auto|]. split; [done|by intros []]. }
      destruct (bool_decide_reflect (r2 = p_one p)) as [-> |Ho2].
      { cbn. apply Hsame, Happ; [done| |done|apply shaped_pick; naive_solver]. intros e x y Hx Hy. exists x. split; [done|].
        apply denotes_one in Hy; [|done]. subst y. intros ? _. split; [done|]. split; [auto|]. by intros []. }
      destruct (bool_decide_reflect (r2 = p_zero p)) as [-> |Hz2].
      { cbn. apply Hsame, Happ; [done| |done|apply shaped_pick; naive_solver]. intros e x y Hx Hy. exists 0%Qc. split; [by apply denotes_zero|].
        apply denotes_zero in Hy; [|done]. subst y. intros _ _. split; [auto|]. split; [done|by intros []]. }
      destruct (is_tnode n1 && is_tnode n2) eqn:En; [done|].
      cbn. split_and!; naive_solver.
  Qed.

  Lemma children_ok p i n d : inv p -> dget (p_nodes p) i = Some n ->
    let '(t, f) := children i n (d_test d) in
    dlt (p_nodes p) t /\ dlt (p_nodes p) f /\ t <= i /\ f <= i /\
    (match n with INode d' _ _ => d_test d' = d_test d -> t < i /\ f < i | _ => True end) /\
    (boolean_diagram p i -> boolean_diagram p t /\ boolean_diagram p f) /\
    (forall e b v, eval e (d_test d) = Some (VB b) -> denotes (p_nodes p) e i v ->
       denotes (p_nodes p) e (if b : bool then t else f) v).
  Proof.
    intros Hi Hn. unfold children.
    assert (dlt (p_nodes p) i) as Hd by by eexists.
    assert (forall P : Prop, P -> dlt (p_nodes p) i /\ dlt (p_nodes p) i /\ i <= i /\ i <= i /\ P /\
      (boolean_diagram p i -> boolean_diagram p i /\ boolean_diagram p i) /\
      (forall e b v, eval e (d_test d) = Some (VB b) -> denotes (p_nodes p) e i v ->
       denotes (p_nodes p) e (if b : bool then i else i) v)) as Hself.
    { intros P HP. split_and!; try done. intros e [] v; done. }
    destruct n as [x|d' ct cf]; [by apply Hself|].
    destruct (bool_decide_reflect (d_test d' = d_test d)) as [Heq|Heq]; [|by apply Hself].
    destruct (iv_node p Hi _ _ _ _ Hn) as (? & ? & ? & ? & _).
    split_and!; try done; [lia|lia|by apply boolean_node in Hn; rewrite Hn|].
    intros e b v He Hv. destruct (denotes_node _ _ _ _ _ _ _ _ Hn Hv) as (b' & Hb' & Hv').
    rewrite Heq, He in Hb'. by simplify_eq.
  Qed.

  Lemma boolean_internal p q d ct cf i : inv p -> ext p q -> dlt (p_nodes p) ct -> dlt (p_nodes p) cf ->
    node_of p q d ct cf i -> boolean_diagram p ct -> boolean_diagram p cf -> boolean_diagram q i.
  Proof.
    intros Hi Hx Hct Hcf (_ & _ & Hn) Bt Bf.
    assert (boolean_diagram q ct) as Bt' by by eapply boolean_ext.
    assert (boolean_diagram q cf) as Bf' by by eapply boolean_ext.
    destruct Hn as [->|[->|(d1 & d2 & ct' & cf' & Hn & _ & _ & Hs)]]; [done|done|].
    apply boolean_node in Hn. apply Hn. by destruct Hs as [[-> ->]|[-> ->]].
  Qed.

  Definition child_shape (p : pool E) (i : nat) (d : decision) (j t f : nat) : Prop :=
    (forall P, tested p P i -> tested p P t /\ tested p P f) /\
    (ordered p i -> ordered p t /\ ordered p f /\ root_ge p (S j) t /\ root_ge p (S j) f) /\
    (forall t0 c, forces p t0 c i -> t0 <> d_test d -> forces p t0 c t /\ forces p t0 c f) /\
    (forall c, ordered p i -> forces p (d_test d) c i -> i = p_zero p \/ (if c : bool then f else t) = p_zero p) /\
    (boolean_diagram p i -> boolean_diagram p t /\ boolean_diagram p f).

  Lemma children_shape p i n d j : inv p -> dget (p_nodes p) i = Some n -> dget (p_tests p) (d_test d) = Some j ->
    root_ge p j i ->
    let '(t, f) := children i n (d_test d) in child_shape p i d j t f.
  Proof.
    intros Hi Hn Hj Hr. pose proof (children_ok p i n d Hi Hn) as Hc. unfold children in *.
    assert ((forall d' ct cf, n = INode d' ct cf -> d_test d' <> d_test d) -> child_shape p i d j i i) as Hself.
    { intros Hd. assert (root_ge p (S j) i) as Hr'.
      { intros d' ct cf Hn'. destruct (Hr d' ct cf Hn') as (j' & Hj' & Hle). exists j'. split; [done|].
        assert (j <> j'); [|lia]. intros <-. rewrite Hn in Hn'. simplify_eq.
        apply (Hd d' ct cf); [done|]. by eapply (iv_tinj p Hi). }
      split_and!; try done. intros c Ho Hf. left. by eapply forces_zero. }
    destruct n as [x|d' ct cf]; [by apply Hself|].
    destruct (bool_decide_reflect (d_test d' = d_test d)) as [Heq|Heq]; [|apply Hself; by intros d0 ct0 cf0 [= -> -> ->]].
    destruct Hc as (_ & _ & _ & _ & _ & Hb & _).
    assert (dget (p_tests p) (d_test d') = Some j) as Hj' by by rewrite Heq.
    split_and!; try done.
    - intros P HP. by apply (tested_node p P i d' ct cf Hn) in HP as (_ & ? & ?).
    - intros Ho. apply (ordered_node p i d' ct cf j Hn Hj') in Ho. tauto.
    - intros t0 c Hf Ht. inversion Hf; simplify_eq; [|done].
      rewrite (iv_zero p Hi) in Hn. done.
    - intros c Ho Hf. inversion Hf; simplify_eq; auto.
  Qed.

  Lemma shaped_internal q op r1 r2 d j t1 f1 t2 f2 ct cf r : inv q -> dget (p_tests q) (d_test d) = Some j ->
    child_shape q r1 d j t1 f1 -> child_shape q r2 d j t2 f2 ->
    (forall i, root_ge q i r1 -> root_ge q i r2 -> i <= j) ->
    (forall P, tested q P r1 -> tested q P r2 -> P (d_test d)) ->
    r1 <> p_zero q -> r2 <> p_zero q -> shaped q op t1 t2 ct -> shaped q op f1 f2 cf ->
    (r = ct /\ ct = cf) \/ (exists b, simp (d_test d) = BoolC b /\ r = if b : bool then ct else cf) \/
    (ct <> cf /\ unpruned (d_test d) /\ exists d2, dget (p_nodes q) r = Some (INode d2 ct cf) /\ d_test d2 = d_test d) ->
    shaped q op r1 r2 r.
  Proof.
    intros Hi Hj (T1 & O1 & F1 & Z1 & B1) (T2 & O2 & F2 & Z2 & B2) Hij HP Hn1 Hn2 (ST & SZ & SS & SO) (ST' & SZ' & SS' & SO') Hr.
    assert (forall Q : nat -> Prop, Q ct -> Q cf ->
      (forall d2, dget (p_nodes q) r = Some (INode d2 ct cf) -> d_test d2 = d_test d -> Q r) -> Q r) as Hcase.
    { intros Q Ht Hf Hnode. destruct Hr as [[-> _]|[(b & _ & ->)|(_ & _ & d2 & Hn & Hd)]]; [done|by destruct b|by eapply Hnode]. }
    assert (unpruned (d_test d) -> (r = ct /\ ct = cf) \/ (ct <> cf /\ exists d2, dget (p_nodes q) r = Some (INode d2 ct cf) /\ d_test d2 = d_test d)) as Hkeep.
    { intros [U1 U2]. destruct Hr as [?|[(b & Hb & _)|(? & _ & ?)]]; [by left| |by right]. by destruct b. }
    split; [|split; [tauto|split; [tauto|]]].
    - intros P P1 P2. destruct (T1 P P1), (T2 P P2). apply Hcase; [by apply ST|by apply ST'|].
      intros d2 Hn Hd. apply (tested_node q P r d2 ct cf Hn). rewrite Hd. split; [by apply HP|]. split; [by apply ST|by apply ST'].
    - intros Or1 Or2. destruct (O1 Or1) as (Ot1 & Of1 & Rt1 & Rf1). destruct (O2 Or2) as (Ot2 & Of2 & Rt2 & Rf2).
      destruct (SO Ot1 Ot2) as (Oct & Rct & Fct & Bct). destruct (SO' Of1 Of2) as (Ocf & Rcf & Fcf & Bcf).
      pose proof (Rct _ Rt1 Rt2) as R1. pose proof (Rcf _ Rf1 Rf2) as R2.
      split; [|split; [|split]].
      + apply Hcase; [done|done|]. intros d2 Hn Hd. rewrite <- Hd in Hj. by apply (ordered_node q r d2 ct cf j Hn Hj).
      + intros i I1 I2. pose proof (Hij i I1 I2). apply Hcase.
        * eapply root_ge_mono; [|exact R1]. lia.
        * eapply root_ge_mono; [|exact R2]. lia.
        * intros d2 Hn Hd. rewrite <- Hd in Hj. by apply (root_ge_node q i r d2 ct cf j Hn Hj).
      + intros Hop t c Hu Hf. destruct (decide (t = d_test d)) as [->|Hne].
        * assert ((if c then cf else ct) = p_zero q) as Hz.
          { destruct Hf as [Hf|Hf].
            - destruct (Z1 c Or1 Hf) as [?|Hz]; [done|]. destruct c; [apply SZ'|apply SZ]; auto.
            - destruct (Z2 c Or2 Hf) as [?|Hz]; [done|]. destruct c; [apply SZ'|apply SZ]; auto. }
          destruct (Hkeep Hu) as [[-> Heq]|(_ & d2 & Hn & Hd)].
          -- destruct c; rewrite ?Heq, ?Hz; [constructor|]. rewrite <- Heq, Hz. constructor.
          -- by eapply fc_test.
        * assert (forces q t c ct /\ forces q t c cf) as [Gt Gf].
          { split; [apply Fct|apply Fcf]; try done;
              (destruct Hf as [Hf|Hf]; [destruct (F1 _ _ Hf Hne)|destruct (F2 _ _ Hf Hne)]; auto). }
          apply Hcase; [done|done|]. intros d2 Hn Hd. eapply fc_other; [done|by rewrite Hd|done|done].
      + intros Hop t Hu G1 G2 H1 H2. destruct (B1 H1) as [Bt1 Bf1], (B2 H2) as [Bt2 Bf2].
        assert (boolean_diagram q ct /\ boolean_diagram q cf) as [Gt Gf].
        { destruct (decide (t = d_test d)) as [->|Hne].
          - destruct (Z1 _ Or1 G1) as [?|Zf]; [done|]. destruct (Z2 _ Or2 G2) as [?|Zt]; [done|].
            destruct (SS Hop) as [_ SSt]. destruct (SS' Hop) as [SSf _]. by rewrite (SSt Zt), (SSf Zf).
          - destruct (F1 _ _ G1 Hne), (F2 _ _ G2 Hne). split; [by apply (Bct Hop t)|by apply (Bcf Hop t)]. }
        apply Hcase; [done|done|]. intros d2 Hn Hd. apply boolean_node in Hn. by apply Hn.
  Qed.

  Lemma apply_fuel_ok n op : forall p r1 r2, inv p -> dlt (p_nodes p) r1 -> dlt (p_nodes p) r2 -> r1 + r2 < n ->
    let '(q, res) := apply_fuel A flat simp n op r1 r2 p in
    inv q /\ ext p q /\ frame p q /\
    match res with
    | Ok r => applied q op r1 r2 r
    | Err x => x <> OutOfFuel /\ (p_ordering p = true \/ ~ total_on p op r1 r2)
    end.
  Proof.
    induction n as [|n IH]; intros p r1 r2 Hi Hd1 Hd2 Hlt; [lia|]. cbn [apply_fuel].
    destruct (dget (p_apply p) (op, r1, r2)) as [r|] eqn:Ea.
    { split; [done|]. split; [apply ext_refl|]. split; [apply frame_refl|]. by apply (iv_apply p Hi). }
    destruct Hd1 as [n1 H1], Hd2 as [n2 H2].
    unfold mbind at 1. unfold get_node at 1. rewrite H1.
    unfold mbind at 1. unfold get_node at 1. rewrite H2.
    unfold mbind at 1. pose proof (compute_terminal_ok p op r1 n1 r2 n2 Hi H1 H2) as Hct.
    destruct (compute_terminal A flat op r1 n1 r2 n2 p) as [q res].
    destruct Hct as (Hiq & Hxq & Hfq & Hres). destruct res as [[r|]|x].
    { cbn. destruct (set_apply_ok q op r1 r2 r Hiq Hres) as (? & Hx & ?). split; [done|].
      split; [by eapply ext_trans|]. split; [by eapply frame_trans|]. by eapply applied_ext. }
    2:{ split; [done|]. split; [done|]. split; [done|]. destruct Hres. auto. }
    destruct Hres as (-> & Hnt & Hz1 & Hz2). clear Hiq Hxq Hfq.
    (* the selected decision *)
    unfold mbind at 1. unfold mbind at 1.
    match goal with |- let '(q, res) := (let '(p0, r) := (let '(p1, r0) := ?m p in _) in _) in _ => set (sel := m) end.
    assert ((exists x, sel p = (p, Err x) /\ x <> OutOfFuel /\ p_ordering p = true) \/
      (exists d, sel p = (p, Ok d) /\ good d /\
        ((exists a b, n1 = INode d a b) \/ (exists a b, n2 = INode d a b)) /\
        exists j, dget (p_tests p) (d_test d) = Some j /\ root_ge p j r1 /\ root_ge p j r2)) as Hsel.
    { unfold sel. destruct n1 as [x1|d1 c1 f1], n2 as [x2|d2 c2 f2].
      - done.
      - destruct (iv_node p Hi _ _ _ _ H2) as (_ & _ & _ & _ & _ & Hg2 & j2 & Hj2 & _).
        right. exists d2. split; [done|]. split; [done|]. split; [eauto|]. exists j2. split; [done|].
        split; [by eapply root_ge_leaf|]. by eapply root_ge_node.
      - destruct (iv_node p Hi _ _ _ _ H1) as (_ & _ & _ & _ & _ & Hg1 & j1 & Hj1 & _).
        right. exists d1. split; [done|]. split; [done|]. split; [eauto|]. exists j1. split; [done|].
        split; [by eapply root_ge_node|by eapply root_ge_leaf].
      - destruct (iv_node p Hi _ _ _ _ H1) as (_ & _ & _ & _ & _ & Hg1 & j1 & Hj1 & _).
        destruct (iv_node p Hi _ _ _ _ H2) as (_ & _ & _ & _ & _ & Hg2 & j2 & Hj2 & _).
        unfold mbind, test_smaller_eq. destruct (p_ordering p) eqn:Eo; [left; by eexists|]. rewrite Hj1, Hj2. cbn.
        right. destruct (j1 <=? j2) eqn:Ej; [apply Nat.leb_le in Ej; exists d1|apply Nat.leb_gt in Ej; exists d2];
          (split; [done|]); (split; [done|]); (split; [eauto|]); eexists; (split; [done|]);
          (split; eapply root_ge_node; try done; lia). }
    destruct Hsel as [(x & -> & Hx & Ho)|(d & -> & Hg & Hdn & j & Hj & Hj1 & Hj2)].
    { split; [done|]. split; [apply ext_refl|]. split; [apply frame_refl|]. auto. }
    clear sel.
    pose proof (children_ok p r1 n1 d Hi H1) as C1. pose proof (children_ok p r2 n2 d Hi H2) as C2.
    pose proof (fun q Hiq Hq Hj => children_shape q r1 n1 d j Hiq Hq Hj) as CS1.
    pose proof (fun q Hiq Hq Hj => children_shape q r2 n2 d j Hiq Hq Hj) as CS2.
    destruct (children r1 n1 (d_test d)) as [t1 f1]. destruct (children r2 n2 (d_test d)) as [t2 f2].
    destruct C1 as (Dt1 & Df1 & Lt1 & Lf1 & S1 & B1 & V1). destruct C2 as (Dt2 & Df2 & Lt2 & Lf2 & S2 & B2 & V2).
    assert (t1 + t2 < n /\ f1 + f2 < n) as [Ht Hf].
    { destruct Hdn as [(a & b & ->)|(a & b & ->)]; [destruct S1; [done|]|destruct S2; [done|]]; lia. }
    assert (total_on p op r1 r2 -> total_on p op t1 t2 /\ total_on p op f1 f2) as Htot.
    { destruct op; cbn; try done; intros [Hb1 Hb2]; destruct (B1 Hb1), (B2 Hb2); done. }
    unfold mbind at 1. pose proof (IH p t1 t2 Hi Dt1 Dt2 Ht) as IHt.
    destruct (apply_fuel A flat simp n op t1 t2 p) as [q1 [ct|x]]; destruct IHt as (Hi1 & Hx1 & Hf1 & Ht').
    2:{ split; [done|]. split; [done|]. split; [done|]. destruct Ht' as [? [?|Hnt']]; split; auto. right. intros Hto. by apply Hnt', Htot. }
    unfold mbind at 1. assert (dlt (p_nodes q1) f1) as Df1' by by eapply ext_dlt.
    assert (dlt (p_nodes q1) f2) as Df2' by by eapply ext_dlt.
    pose proof (IH q1 f1 f2 Hi1 Df1' Df2' Hf) as IHf.
    destruct (apply_fuel A flat simp n op f1 f2 q1) as [q2 [cf|x]]; destruct IHf as (Hi2 & Hx2 & Hf2 & Hf').
    2:{ split; [done|]. split; [by eapply ext_trans|]. split; [by eapply frame_trans|].
        rewrite (ex_ord p q1 Hx1) in Hf'.
        destruct Hf' as [? [?|Hnt']]; split; auto. right. intros Hto. apply Hnt'. apply Htot in Hto as [_ Hto].
        destruct op; cbn in *; try done; destruct Hto; split; (apply (boolean_ext p q1); done). }
    apply (applied_ext q1 q2) in Ht'; [|done|done].
    pose proof Ht' as At. pose proof Hf' as Af. destruct Ht' as (_ & _ & Dct & Sct & Bct & _). destruct Hf' as (_ & _ & Dcf & Scf & Bcf & _).
    pose proof (internal_inv q2 d ct cf Hi2 (or_introl Hg) Dct Dcf) as Hint.
    destruct (internal simp d ct cf q2) as [q3 [r|x]] eqn:Eint; destruct Hint as (Hi3 & Hx3 & Hf3 & Hr & Hok); [|by specialize (Hok Hg)].
    specialize (Hr r eq_refl). pose proof Hr as (Dr & Sr & _).
    assert (ext p q2) as Hx12 by by eapply ext_trans.
    assert (ext p q3) as Hx13 by by eapply ext_trans.
    assert (applied q3 op r1 r2 r) as Happ.
    { split; [eapply ext_dlt; [done|by eexists]|]. split; [eapply ext_dlt; [done|by eexists]|]. split; [done|]. split; [|split].
      - intros e x y Hx Hy.
        assert (denotes (p_nodes p) e r1 x) as Hx' by (eapply (ext_back p q3); [done|done|by eexists|done]).
        assert (denotes (p_nodes p) e r2 y) as Hy' by (eapply (ext_back p q3); [done|done|by eexists|done]).
        assert (exists b, eval e (d_test d) = Some (VB b)) as [b Hb].
        { destruct Hdn as [(a & b & ->)|(a & b & ->)].
          - destruct (denotes_node _ _ _ _ _ _ _ _ H1 Hx') as (b' & ? & _). eauto.
          - destruct (denotes_node _ _ _ _ _ _ _ _ H2 Hy') as (b' & ? & _). eauto. }
        pose proof (V1 e b x Hb Hx') as Vx. pose proof (V2 e b y Hb Hy') as Vy.
        assert (exists z, denotes (p_nodes q2) e (if b then ct else cf) z /\ op_val op x y z) as (z & Hz & Hop).
        { destruct b; [apply Sct|apply Scf]; by eapply ext_denotes. }
        exists z. split; [|done]. eapply Sr; [|done]. by apply takes_good.
      - intros Hop Hb1 Hb2.
        assert (boolean_diagram p r1) as Hb1' by by eapply boolean_back.
        assert (boolean_diagram p r2) as Hb2' by by eapply boolean_back.
        destruct (B1 Hb1') as [Bt1 Bf1], (B2 Hb2') as [Bt2 Bf2].
        eapply boolean_internal; [exact Hi2|done|exact Dct|exact Dcf|done| |].
        + apply Bct; [done| |]; (eapply (boolean_ext p q2); [done|done| |done]; done).
        + apply Bcf; [done| |]; (eapply (boolean_ext p q2); [done|done| |done]; done).
      - pose proof (ex_nodes _ _ Hx13 _ _ H1) as N1. pose proof (ex_nodes _ _ Hx13 _ _ H2) as N2.
        pose proof (ex_tests _ _ Hx13 _ _ Hj) as Hj'.
        apply (shaped_internal q3 op r1 r2 d j t1 f1 t2 f2 ct cf r); [done|done| | | | |by rewrite (ex_zero _ _ Hx13)|by rewrite (ex_zero _ _ Hx13)| | |].
        + apply CS1; [done|done|done|]. apply (root_ge_iff p q3); [done|done|by eexists|done].
        + apply CS2; [done|done|done|]. apply (root_ge_iff p q3); [done|done|by eexists|done].
        + intros i R1 R2. destruct Hdn as [(a & b & ->)|(a & b & ->)].
          * by apply (root_ge_node q3 i r1 d a b j N1 Hj').
          * by apply (root_ge_node q3 i r2 d a b j N2 Hj').
        + intros P P1 P2. destruct Hdn as [(a & b & ->)|(a & b & ->)].
          * by apply (tested_node q3 P r1 d a b N1) in P1 as [? _].
          * by apply (tested_node q3 P r2 d a b N2) in P2 as [? _].
        + apply (applied_ext q2 q3) in At; [|done|done]. by destruct At as (_ & _ & _ & _ & _ & ?).
        + apply (applied_ext q2 q3) in Af; [|done|done]. by destruct Af as (_ & _ & _ & _ & _ & ?).
        + by apply (internal_good q2 d ct cf q3 r). }
    destruct (set_apply_ok q3 op r1 r2 r Hi3 Happ) as (Hi4 & Hx4 & Hf4).
    split; [done|]. split; [by eapply ext_trans|]. split; [exact (frame_trans _ _ _ (frame_trans _ _ _ (frame_trans _ _ _ Hf1 Hf2) Hf3) Hf4)|].
    by eapply applied_ext.
  Qed.

  Lemma apply_ok op p r1 r2 : inv p -> dlt (p_nodes p) r1 -> dlt (p_nodes p) r2 ->
    let '(q, res) := apply A flat simp op r1 r2 p in
    inv q /\ ext p q /\ frame p q /\
    match res with
    | Ok r => applied q op r1 r2 r
    | Err x => x <> OutOfFuel /\ (p_ordering p = true \/ ~ total_on p op r1 r2)
    end.
  Proof. intros. apply apply_fuel_ok; [done|done|done|lia]. Qed.

  (** ** reduce *)

  Definition reduced (q : pool E) (asserted : list fm) (a r : nat) : Prop :=
    dlt (p_nodes q) a /\ dlt (p_nodes q) r /\
    (forall e x, (forall f, f ∈ asserted -> eval e f = Some (VB true)) ->
       denotes (p_nodes q) e a x -> denotes (p_nodes q) e r x) /\ shrunk q a r.

  Lemma reduced_ext p q l a r : inv p -> ext p q -> reduced p l a r -> reduced q l a r.
  Proof.
    intros Hi Hx (H1 & H2 & Hs & Hsh). split; [by eapply ext_dlt|]. split; [by eapply ext_dlt|].
    split; [|by apply (shrunk_ext p q)].
    intros e x Hl Hdx. eapply ext_denotes; [done|]. apply Hs; [done|]. by eapply ext_back.
  Qed.

  Lemma eval_mkNot_flip e t b : eval e t = Some (VB b) -> eval e (mkNot t) = Some (VB (negb b)).
  Proof.
    intros He. destruct t; try (cbn [mkNot]; cbn [eval] in *; rewrite He; done).
    cbn [mkNot]. cbn [eval] in He. destruct (vbool (eval e t)) as [c|] eqn:Ec; [|done]. cbn in He. simplify_eq.
    destruct (eval e t) as [[c'|]|]; try done. cbn in Ec. simplify_eq. by rewrite negb_involutive.
  Qed.

  Context (HV : sound_solver solve).

  Lemma shrunk_node q a d ct cf j r1 r2 r : dget (p_nodes q) a = Some (INode d ct cf) ->
    dget (p_tests q) (d_test d) = Some j -> shrunk q ct r1 -> shrunk q cf r2 ->
    (r = r1 /\ r1 = r2) \/ (exists b, simp (d_test d) = BoolC b /\ r = if b : bool then r1 else r2) \/
    (r1 <> r2 /\ unpruned (d_test d) /\ exists d2, dget (p_nodes q) r = Some (INode d2 r1 r2) /\ d_test d2 = d_test d) ->
    shrunk q a r.
  Proof.
    intros Hn Hj (T1 & O1) (T2 & O2) Hr.
    assert (forall Q : nat -> Prop, Q r1 -> Q r2 ->
      (forall d2, dget (p_nodes q) r = Some (INode d2 r1 r2) -> d_test d2 = d_test d -> Q r) -> Q r) as Hcase.
    { intros Q Ht Hf Hnode. destruct Hr as [[-> _]|[(b & _ & ->)|(_ & _ & d2 & Hn' & Hd)]]; [done|by destruct b|by eapply Hnode]. }
    split.
    - intros P HP. apply (tested_node q P a d ct cf Hn) in HP as (Pd & Pt & Pf).
      apply Hcase; [by apply T1|by apply T2|]. intros d2 Hn' Hd. apply (tested_node q P r d2 r1 r2 Hn').
      rewrite Hd. auto.
    - intros Ho. apply (ordered_node q a d ct cf j Hn Hj) in Ho as (R1 & R2 & Oct & Ocf).
      destruct (O1 Oct) as (Or1 & Rr1). destruct (O2 Ocf) as (Or2 & Rr2). split.
      + apply Hcase; [done|done|]. intros d2 Hn' Hd. rewrite <- Hd in Hj. apply (ordered_node q r d2 r1 r2 j Hn' Hj). auto.
      + intros i Hi. apply (root_ge_node q i a d ct cf j Hn Hj) in Hi. apply Hcase.
        * eapply root_ge_mono; [|by apply Rr1]. lia.
        * eapply root_ge_mono; [|by apply Rr2]. lia.
        * intros d2 Hn' Hd. rewrite <- Hd in Hj. by apply (root_ge_node q i r d2 r1 r2 j Hn' Hj).
  Qed.
  Lemma shrunk_child q a d ct cf j c r : dget (p_nodes q) a = Some (INode d ct cf) ->
    dget (p_tests q) (d_test d) = Some j -> c = ct \/ c = cf -> shrunk q c r -> shrunk q a r.
  Proof.
    intros Hn Hj Hc (T1 & O1). split.
    - intros P HP. apply (tested_node q P a d ct cf Hn) in HP as (Pd & Pt & Pf). apply T1. by destruct Hc as [->| ->].
    - intros Ho. apply (ordered_node q a d ct cf j Hn Hj) in Ho as (R1 & R2 & Oct & Ocf).
      destruct O1 as (Or1 & Rr1); [by destruct Hc as [->| ->]|]. split; [done|].
      intros i Hi. apply (root_ge_node q i a d ct cf j Hn Hj) in Hi.
      apply Rr1. eapply root_ge_mono; [|destruct Hc as [->| ->]; [exact R1|exact R2]]. lia.
  Qed.

  Lemma reduce_fuel_ok fast n : forall p asserted cs id, inv p -> dlt (p_nodes p) id -> id < n ->
    exists q cs' r, reduce_fuel simp solve n fast asserted cs id p = (q, Ok (cs', r)) /\
      inv q /\ ext p q /\ frame p q /\ reduced q asserted id r.
  Proof.
    induction n as [|n IH]; intros p asserted cs id Hi Hd Hlt; [lia|]. cbn [reduce_fuel].
    pose proof Hd as [nd Hn]. unfold mbind at 1. unfold get_node at 1. rewrite Hn.
    assert (exists q cs' r, (p, @Ok (list nat * nat) (cs, id)) = (q, Ok (cs', r)) /\
      inv q /\ ext p q /\ frame p q /\ reduced q asserted id r) as Hself.
    { eexists _, _, _. split; [done|]. split; [done|]. split; [apply ext_refl|]. split; [apply frame_refl|].
      split; [done|]. split; [done|]. split; [done|apply shrunk_refl]. }
    destruct nd as [x|d ct cf]; [done|].
    destruct (fast && bool_decide (id ∈ cs)); [done|]. clear Hself.
    destruct (iv_node p Hi _ _ _ _ Hn) as (Hlt1 & Hlt2 & Hct & Hcf & _ & Hg & j & Hj & _).
    (* the body, then the bookkeeping of fast mode *)
    enough (forall (m : M E (list nat * nat)), (exists q cs' r, m p = (q, Ok (cs', r)) /\
      inv q /\ ext p q /\ frame p q /\ reduced q asserted id r) ->
      exists q cs' r, (do! (cs, r) := m in mret (if fast then r :: cs else cs, r)) p = (q, Ok (cs', r)) /\
        inv q /\ ext p q /\ frame p q /\ reduced q asserted id r) as Hwrap; [apply Hwrap|].
    2:{ intros m (q & cs' & r & Hm & ?). unfold mbind. rewrite Hm. eexists _, _, _. split; [reflexivity|]. done. }
    clear Hwrap.
    assert (forall q1 r1 q2 r2 l1 l2, ext p q1 -> inv q1 -> inv q2 -> ext q1 q2 -> reduced q1 l1 ct r1 -> reduced q2 l2 cf r2 ->
      frame p q1 -> frame q1 q2 ->
      (forall e, (forall f, f ∈ asserted -> eval e f = Some (VB true)) -> eval e (d_test d) = Some (VB true) ->
         forall f, f ∈ l1 -> eval e f = Some (VB true)) ->
      (forall e, (forall f, f ∈ asserted -> eval e f = Some (VB true)) -> eval e (d_test d) = Some (VB false) ->
         forall f, f ∈ l2 -> eval e f = Some (VB true)) ->
      forall (cs : list nat), exists q cs' r, (do! r := internal simp d r1 r2 in mret (cs, r)) q2 = (q, Ok (cs', r)) /\
        inv q /\ ext p q /\ frame p q /\ reduced q asserted id r) as Hboth.
    { clear cs. intros q1 r1 q2 r2 l1 l2 Hx1 Hi1 Hi2 Hx2 Hr1 Hr2 Hf1 Hf2 Hl1 Hl2 cs.
      apply (reduced_ext q1 q2) in Hr1; [|done|done].
      destruct Hr1 as (_ & Hd1 & Hs1 & Hsh1). destruct Hr2 as (_ & Hd2 & Hs2 & Hsh2).
      unfold mbind. pose proof (internal_inv q2 d r1 r2 Hi2 (or_introl Hg) Hd1 Hd2) as Hint.
      destruct (internal simp d r1 r2 q2) as [q3 [r|x]] eqn:Eint; destruct Hint as (Hi3 & Hx3 & Hf3 & Hr & Hok); [|by specialize (Hok Hg)].
      specialize (Hr r eq_refl). destruct Hr as (Dr & Sr & _).
      assert (ext p q2) as Hx12 by by eapply ext_trans.
      assert (ext p q3) as Hx13 by by eapply ext_trans.
      eexists _, _, _. split; [reflexivity|]. split; [done|]. split; [done|].
      split; [exact (frame_trans _ _ _ (frame_trans _ _ _ Hf1 Hf2) Hf3)|].
      split; [by eapply ext_dlt|]. split; [done|]. split.
      2:{ apply (shrunk_ext q2 q3) in Hsh1; [|done|done|by eapply ext_dlt|done].
          apply (shrunk_ext q2 q3) in Hsh2; [|done|done|by eapply ext_dlt|done].
          pose proof (ex_nodes _ _ Hx13 _ _ Hn) as N1. pose proof (ex_tests _ _ Hx13 _ _ Hj) as Hj'.
          by eapply shrunk_node, (internal_good q2 d r1 r2 q3 r). }
      intros e v He Hv. apply (ext_back p q3) in Hv; [|done|done|done].
      destruct (denotes_node _ _ _ _ _ _ _ _ Hn Hv) as (b & Hb & Hv').
      eapply Sr; [by apply takes_good|].
      destruct b; [apply Hs1|apply Hs2]; [by apply Hl1|by eapply ext_denotes|by apply Hl2|by eapply ext_denotes]. }
    destruct (negb (dec_is_bool d)).
    - destruct (solve asserted (d_test d)) eqn:Es1; cbn [negb]; [destruct (solve asserted (mkNot (d_test d))) eqn:Es2; cbn [negb]|].
      + unfold mbind at 1. destruct (IH p (d_test d :: asserted) cs ct Hi Hct) as (q1 & c1 & r1 & -> & Hi1 & Hx1 & Hf1 & Hr1); [lia|].
        cbn. unfold mbind at 1.
        destruct (IH q1 (mkNot (d_test d) :: asserted) c1 cf Hi1 (ext_dlt _ _ _ Hx1 Hcf)) as (q2 & c2 & r2 & -> & Hi2 & Hx2 & Hf2 & Hr2); [lia|].
        eapply Hboth; [exact Hx1|exact Hi1|exact Hi2|exact Hx2|exact Hr1|exact Hr2|done|done| |].
        * intros e He Ht f Hf. apply elem_of_cons in Hf as [->|Hf]; [done|by apply He].
        * intros e He Ht f Hf. apply elem_of_cons in Hf as [->|Hf]; [by apply eval_mkNot_flip in Ht|by apply He].
      + destruct (IH p (d_test d :: asserted) cs ct Hi Hct) as (q1 & c1 & r1 & -> & Hi1 & Hx1 & Hf1 & Hr1); [lia|].
        eexists _, _, _. split; [reflexivity|]. split; [done|]. split; [done|]. split; [done|].
        destruct Hr1 as (_ & Hd1 & Hs1 & Hsh). split; [by eapply ext_dlt|]. split; [done|].
        split; [|eapply shrunk_child; [exact (ex_nodes _ _ Hx1 _ _ Hn)|exact (ex_tests _ _ Hx1 _ _ Hj)| |exact Hsh]; auto].
        intros e v He Hv. apply (ext_back p q1) in Hv; [|done|done|done].
        destruct (denotes_node _ _ _ _ _ _ _ _ Hn Hv) as (b & Hb & Hv').
        destruct b.
        * apply Hs1; [|by eapply ext_denotes]. intros f Hf. apply elem_of_cons in Hf as [->|Hf]; [done|by apply He].
        * exfalso. eapply (HV asserted _ e); [done|done|]. by apply eval_mkNot_flip in Hb.
      + destruct (IH p (mkNot (d_test d) :: asserted) cs cf Hi Hcf) as (q1 & c1 & r1 & -> & Hi1 & Hx1 & Hf1 & Hr1); [lia|].
        eexists _, _, _. split; [reflexivity|]. split; [done|]. split; [done|]. split; [done|].
        destruct Hr1 as (_ & Hd1 & Hs1 & Hsh). split; [by eapply ext_dlt|]. split; [done|].
        split; [|eapply shrunk_child; [exact (ex_nodes _ _ Hx1 _ _ Hn)|exact (ex_tests _ _ Hx1 _ _ Hj)| |exact Hsh]; auto].
        intros e v He Hv. apply (ext_back p q1) in Hv; [|done|done|done].
        destruct (denotes_node _ _ _ _ _ _ _ _ Hn Hv) as (b & Hb & Hv').
        destruct b.
        * exfalso. by eapply (HV asserted _ e).
        * apply Hs1; [|by eapply ext_denotes]. intros f Hf. apply elem_of_cons in Hf as [->|Hf]; [by apply eval_mkNot_flip in Hb|by apply He].
    - unfold mbind at 1. destruct (IH p asserted cs ct Hi Hct) as (q1 & c1 & r1 & -> & Hi1 & Hx1 & Hf1 & Hr1); [lia|].
      cbn. unfold mbind at 1.
      destruct (IH q1 asserted c1 cf Hi1 (ext_dlt _ _ _ Hx1 Hcf)) as (q2 & c2 & r2 & -> & Hi2 & Hx2 & Hf2 & Hr2); [lia|].
      eapply Hboth; [exact Hx1|exact Hi1|exact Hi2|exact Hx2|exact Hr1|exact Hr2|done|done|by intros e He _|by intros e He _].
  Qed.

  Lemma reduce_ok fast p id : inv p -> dlt (p_nodes p) id ->
    exists q r, reduce simp solve fast id p = (q, Ok r) /\ inv q /\ ext p q /\ frame p q /\ dlt (p_nodes q) r /\
      (forall e x, denotes (p_nodes p) e id x -> denotes (p_nodes q) e r x) /\ shrunk q id r.
  Proof.
    intros Hi Hd. unfold reduce. destruct (dget (p_reduced p) id) as [r|] eqn:Er.
    { destruct (iv_reduced p Hi _ _ Er) as (_ & ? & ? & ?). exists p, r. split; [done|]. split; [done|].
      split; [apply ext_refl|]. split; [apply frame_refl|]. done. }
    unfold mbind. destruct (reduce_fuel_ok fast (S id) p [] [] id Hi Hd) as (q & c & r & -> & Hi' & Hx & Hf & Hr); [lia|].
    eexists _, _. split; [reflexivity|].
    assert (forall e x, denotes (p_nodes q) e id x -> denotes (p_nodes q) e r x) as Hs.
    { intros e x. apply Hr. intros f Hf'. by apply elem_of_nil in Hf'. }
    destruct Hr as (Hd1 & Hd2 & _ & Hsh).
    split; [|split; [|split; [|split; [done|split; [|done]]]]].
    - destruct Hi' as [I1 I2 I3 I4 I5 I6 I7 I8 I9 I10]. split; try done.
      intros a b. unfold set_reduced. cbn [p_reduced p_nodes]. rewrite dget_dset.
      destruct (decide _) as [<-|]; [|apply I10]. intros [= <-]. done.
    - eapply ext_trans; [exact Hx|]. split; done.
    - eapply frame_trans; [exact Hf|]. split; done.
    - intros e x Hdx. apply Hs. by eapply ext_denotes.
  Qed.

  (** ** The new pool *)
  Lemma new_pool_ok ordering : inv (new_pool A ordering) /\ p_ordering (new_pool A ordering) = ordering /\
    p_profiles (new_pool A ordering) = [] /\ p_resolved (new_pool A ordering) = [].
  Proof.
    assert (alg_zero A <> alg_one A) as Hne.
    { intros Heq. pose proof (den_zero (Env (fun _ => true) (fun _ => 0%Qc))) as Hz. rewrite Heq, den_one in Hz. discriminate Hz. }
    assert (new_pool A ordering = Pool 3 [(1, TNode (alg_zero A)); (2, TNode (alg_one A))] []
      [(alg_zero A, 1); (alg_one A, 2)] [] [] ordering 1 2 [] [] []) as ->.
    { unfold new_pool, terminal. cbn [p_exprs dget]. unfold mbind. cbn [register p_counter p_nodes p_internal p_exprs p_tests
        p_apply p_ordering p_zero p_one p_profiles p_reduced p_resolved dset dget].
      rewrite decide_False by done. cbn [register p_counter p_nodes p_internal p_exprs p_tests
        p_apply p_ordering p_zero p_one p_profiles p_reduced p_resolved dset dget].
      rewrite !decide_False by done. done. }
    split; [|done]. split; cbn [p_exprs p_counter p_nodes p_internal p_tests p_apply p_zero p_one p_reduced]; try done.
    - intros i n Hn. apply dget_In in Hn. rewrite !elem_of_cons, elem_of_nil in Hn.
      destruct Hn as [Hn|[Hn|[]]]; simplify_eq; lia.
    - intros i d ct cf Hn. apply dget_In in Hn. rewrite !elem_of_cons, elem_of_nil in Hn.
      destruct Hn as [Hn|[Hn|[]]]; simplify_eq.
    - intros i x. cbn [dget].
      destruct (decide (1 = i)) as [<-|H1], (decide (alg_zero A = x)) as [<-|H2]; simplify_eq; try done.
      + split; [congruence|]. destruct (decide _); [congruence|done].
      + split; [|congruence]. destruct (decide _); congruence.
      + destruct (decide (2 = i)) as [<-|H3], (decide (alg_one A = x)) as [<-|H4]; split; congruence.
  Qed.
End Pool.
