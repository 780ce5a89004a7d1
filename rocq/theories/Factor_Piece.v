(** One term of the weight over a compiled support (C37). *)

From Verif Require Import Base Dict Smt Smt_Facts Walk_Model Math_Model Math_Spec Poly_Proofs Linear_Proofs Arith_Proofs.
From Verif Require Import Engine_Spec Lit_Model Lit_Spec Lit_Proofs Lit_Tests Sdd_Model Sdd_Spec Sdd_Proofs Print_Proofs.
From Verif Require Import Piecewise_Model Multimap_Model Resolve_Model Xsdd_Model Factor_Model Factor_Spec Factor_Integral Factor_Proofs Factor_Walk Factor_Value.

(** * Conjuncts of the support *)

Definition atom (l a b : fm) : Prop := l = LeN a b \/ l = LtN a b.

Lemma and_true e gs g : eval e (mkAnd gs) = Some (VB true) -> g ∈ gs -> eval e g = Some (VB true).
Proof.
  assert (forall gs, eval e (AndN gs) = Some (VB true) -> forall g, g ∈ gs -> eval e g = Some (VB true)) as H.
  { clear. intros gs. cbn [eval]. induction gs as [|h gs IH]; intros H g Hg; [by apply elem_of_nil in Hg|].
    cbn [mapM] in H. destruct (eval e h) as [[b|]|] eqn:Eh; cbn in H; try done.
    destruct (mapM (fun g => vbool (eval e g)) gs) as [bs|] eqn:Eg; cbn in H; [|done].
    injection H as H. apply andb_true_iff in H as [H1 H2]. cbn in H1.
    apply elem_of_cons in Hg as [->|Hg]; [congruence|]. apply IH; [|done]. cbn. by rewrite H2. }
  intros Hg Hin. destruct gs as [|h [|h' gs]].
  - by apply elem_of_nil in Hin.
  - apply elem_of_list_singleton in Hin as ->. exact Hg.
  - exact (H _ Hg _ Hin).
Qed.

Lemma smapM_elem l f : f ∈ l -> forall s gs s', sinv s -> smapM recurse l s = Ok (gs, s') ->
  exists s1 g s2, sinv s1 /\ recurse f s1 = Ok (g, s2) /\ sext s2 s' /\ g ∈ gs.
Proof.
  induction l as [|h l IH]; intros Hin s gs s' Hi; [by apply elem_of_nil in Hin|]. cbn [smapM].
  destruct (recurse h s) as [[g1 s1]|] eqn:E1; [|done]. cbn [rbind].
  destruct (smapM recurse l s1) as [[gs' s2]|] eqn:E2; [|done]. cbn [rbind]. intros [= <- <-].
  destruct (recurse_inv h _ _ _ Hi E1) as (I1 & X1 & _).
  apply elem_of_cons in Hin as [->|Hin].
  - exists s, g1, s1. split; [done|]. split; [done|]. split; [|by left].
    assert (Forall (fun f => forall s g s', sinv s -> recurse f s = Ok (g, s') -> step_ok s g s') l) as Hst.
    { apply Forall_forall. intros k _. apply recurse_inv. }
    by destruct (smapM_inv l Hst _ _ _ I1 E2) as (_ & X2 & _).
  - destruct (IH Hin _ _ _ I1 E2) as (s3 & g & s4 & H1 & H2 & H3 & H4). exists s3, g, s4.
    split; [done|]. split; [done|]. split; [done|]. by right.
Qed.

Lemma conj_recurse l a b f : atom l a b -> conjunct l f -> forall s g s', sinv s -> recurse f s = Ok (g, s') ->
  exists c lit, to_canonical l = Ok c /\ dget (s_abs s') c = Some lit /\
    forall e, eval e g = Some (VB true) -> eb e lit = true.
Proof.
  intros Hl. induction 1 as [|fs f Hin Hc IH]; intros s g s' Hi.
  - destruct Hl as [-> | ->]; cbn [recurse]; intros E; apply rec_test_ok in E as (_ & c & lit & Ec & -> & Hd); try done;
      exists c, lit; (split; [done|]); (split; [done|]); intros e; cbn; congruence.
  - cbn [recurse]. destruct (smapM recurse fs s) as [[gs s1]|] eqn:E; [|done]. cbn [rbind]. intros [= <- <-].
    destruct (smapM_elem fs f Hin _ _ _ Hi E) as (s2 & g & s3 & I2 & E2 & X & Hg).
    destruct (IH _ _ _ I2 E2) as (c & lit & Ec & Hd & Ht). exists c, lit. split; [done|].
    split; [by apply X|]. intros e He. apply Ht. by apply (and_true e gs).
Qed.

Lemma conjunct_logic l f : conjunct l f -> logic_formula f -> logic_formula l.
Proof.
  induction 1 as [|fs f Hin _ IH]; intros Hl; [done|]. inversion Hl as [| |? HF| | | | | | |]; subst.
  rewrite Forall_forall in HF. by apply IH, HF.
Qed.

(** * Compiling, for every assignment of the numbers *)
Lemma compile_worlds f g i M own : logic_formula f -> extract_literals f = Ok (g, i) ->
  sound_manager (upto (length (Lit_Model.literals i))) M own ->
  exists node, compile_to_sdd M g i = Ok node /\ own node /\
    (forall w, eval (name_env (numbered i) w) g = Some (VB (sat w node))) /\
    (forall e, off_tests e f -> eval e f = Some (VB (sat (number_world i e) node))).
Proof.
  intros Hl He HM. pose proof (extract_table f g i Hl He) as T.
  destruct (extract_sem f Hl) as (g' & i' & E & V & Y). rewrite He in E. injection E as <- <-.
  destruct (numbers_facts i (to_nodup _ _ T)) as (N1 & N2 & N3 & N4).
  set (P := fun x : string => exists k, dget (numbered i) x = Some k /\ k ∈ upto (length (Lit_Model.literals i))).
  assert (prop_over P g) as Hp.
  { destruct (extract_inv f g i He) as (s & Er & _). apply prop_syms; [exact (recurse_prop f _ _ _ Er)|].
    intros y t Hy. destruct (Y y t Hy) as [_ HY]. apply N1 in HY as [k Hk]. exists k. split; [done|].
    assert (1 <= k <= length (Lit_Model.literals i)) as Hr by (apply N3; by exists y).
    unfold upto. apply elem_of_list_In, in_seq. lia. }
  destruct (compile_ok _ M own HM (numbered i) (msize g) g) as (node & Ec & Ho & Hs); [done|exact Hp|].
  destruct (compile_extract f g i M own Hl He HM) as (node' & Ec' & Ho' & Hs').
  assert (node' = node) as -> by (unfold compile_to_sdd in *; congruence).
  exists node. done.
Qed.

(** * Variables of the tests *)

Lemma li_to_smt_syms (Q : string -> Prop) d c : nkeys Q d -> li_to_smt d = Ok c -> forall x t, (x, t) ∈ syms c -> Q x.
Proof.
  intros Hn.
  assert (forall l ts, Forall (fun kv : mono * Qc => Forall Q kv.1) l -> rmapM li_term l = Ok ts ->
    forall h, h ∈ ts -> forall x t, (x, t) ∈ syms h -> Q x) as HT.
  { intros l ts HF H. apply rmapM_Forall2 in H. induction H as [|[k q] t' l ts Hk H IH]; intros h Hh; [by apply elem_of_nil in Hh|].
    inversion HF as [|? ? HQ HF']; subst. apply elem_of_cons in Hh as [->|Hh]; [|by apply IH].
    intros x t Hx. cbn [fst] in HQ. unfold li_term in Hk. cbn [fst snd] in Hk.
    assert (exists u, mkTimes (map (fun n => Sym n TReal) k) = Ok u /\ (x, t) ∈ syms u) as (u & Eu & Hu).
    { destruct (mkTimes _) as [u|]; [|done]. exists u. split; [done|]. cbn [rbind] in Hk. destruct (qeq q 1); injection Hk as <-; [done|].
      cbn [syms map concat] in Hx. by rewrite !app_nil_r in Hx. }
    assert ((x, t) ∈ concat (map syms (map (fun n => Sym n TReal) k))) as Hc.
    { destruct k as [|o [|o' k]]; cbn in Eu; [done| |]; injection Eu as <-; exact Hu. }
    clear -HQ Hc. induction HQ as [|o k Ho _ IH]; [by apply elem_of_nil in Hc|]. cbn in Hc.
    apply elem_of_cons in Hc as [[= -> ->]|Hc]; [done|by apply IH]. }
  assert (forall ts s, (forall h, h ∈ ts -> forall x t, (x, t) ∈ syms h -> Q x) -> mkPlus ts = Ok s ->
    forall x t, (x, t) ∈ syms s -> Q x) as HS.
  { intros ts s H Hs x t Hx. unfold mkPlus in Hs. destruct ts as [|h [|h' ts]]; [done| |]; injection Hs as <-.
    - apply (H h) with (t := t); [by left|done].
    - cbn [syms] in Hx. apply elem_of_list_In, in_concat in Hx as (l & Hl & Hx). apply in_map_iff in Hl as (k & <- & Hk).
      apply (H k) with (t := t); by apply elem_of_list_In. }
  assert (forall d c, nkeys Q d -> (let! ts := rmapM li_term (List.filter (fun kv => negb (bool_decide (kv.1 = CONST_KEY))) d) in
      let! s := mkPlus ts in Ok (LtN s (RealC (li_b d)))) = Ok c -> forall x t, (x, t) ∈ syms c -> Q x) as HG.
  { clear -HT HS. intros d c Hn H x t Hx. destruct (rmapM _ _) as [ts|] eqn:Et; [|done]. cbn [rbind] in H.
    destruct (mkPlus ts) as [s|] eqn:Es; [|done]. cbn [rbind] in H. injection H as <-. cbn [syms] in Hx. rewrite app_nil_r in Hx.
    apply (HS ts s) with (t := t); [|done|done]. refine (HT _ ts _ Et). apply Forall_forall. intros kv Hkv.
    apply elem_of_list_In, filter_In in Hkv as [Hkv _]. unfold nkeys in Hn. rewrite Forall_forall in Hn. by apply Hn, elem_of_list_In. }
  unfold li_to_smt. destruct d as [|[[|k0 k] q] [|kv d]].
  - intros [= <-] x t Hx. by apply elem_of_nil in Hx.
  - intros [= <-] x t Hx. by apply elem_of_nil in Hx.
  - by apply HG.
  - by apply HG.
  - by apply HG.
Qed.

Lemma nkeys_filter Q P d : nkeys Q d -> nkeys Q (List.filter P d).
Proof.
  intros H. unfold nkeys in *. rewrite Forall_forall in *. intros kv Hkv. apply elem_of_list_In, filter_In in Hkv as [Hkv _].
  by apply H, elem_of_list_In.
Qed.

Lemma li_from_smt_nkeys (Q : string -> Prop) f d : (forall x t, (x, t) ∈ syms f -> Q x) -> li_from_smt f = Ok d -> nkeys Q d.
Proof.
  intros Hq. unfold li_from_smt, math_walk. destruct (walk _ _ f) as [d'|] eqn:E; [|done]. cbn [rbind]. intros [= <-].
  unfold li_make. apply nkeys_filter. by apply (walk_nkeys Q (msize f) f).
Qed.

Lemma canonical_syms (Q : string -> Prop) l c : (forall x t, (x, t) ∈ syms l -> Q x) -> to_canonical l = Ok c ->
  forall x t, (x, t) ∈ syms c -> Q x.
Proof.
  intros Hq. unfold to_canonical. destruct (li_from_smt l) as [d|] eqn:E; [|done]. cbn [rbind].
  apply li_to_smt_syms. pose proof (li_from_smt_nkeys Q l d Hq E) as Hn. unfold li_normalize. destruct d as [|kv d]; [done|].
  destruct (qeq _ _); [done|]. unfold li_make. apply nkeys_filter. unfold dict_scale.
  by apply (nkeys_map Q (fun kv' => kv'.2 / max_abs (kv :: d))%Qc).
Qed.

(** Every test of the table is over the real variables of the formula. *)
Definition tests_over (Q : string -> Prop) (s : lst) : Prop :=
  forall c lit, dget (s_abs s) c = Some lit -> forall x t, (x, t) ∈ syms c -> Q x.

Lemma recurse_over (Q : string -> Prop) f : forall s g s', logic_formula f -> (forall x, (x, TReal) ∈ syms f -> Q x) -> tests_over Q s ->
  recurse f s = Ok (g, s') -> tests_over Q s'.
Proof.
  assert (forall l, Forall (fun f => forall s g s', logic_formula f -> (forall x, (x, TReal) ∈ syms f -> Q x) -> tests_over Q s ->
      recurse f s = Ok (g, s') -> tests_over Q s') l -> Forall logic_formula l -> (forall x, (x, TReal) ∈ concat (map syms l) -> Q x) ->
      forall s gs s', tests_over Q s -> smapM recurse l s = Ok (gs, s') -> tests_over Q s') as HL.
  { induction 1 as [|h l Hf _ IH]; intros Hl Hq s gs s' Hs; cbn [smapM]; [by intros [= <- <-]|].
    apply Forall_cons_1 in Hl as [L1 L2]. cbn [map concat] in Hq.
    destruct (recurse h s) as [[g s1]|] eqn:E1; [|done]. cbn [rbind].
    destruct (smapM recurse l s1) as [[gs' s2]|] eqn:E2; [|done]. cbn [rbind]. intros [= <- <-].
    refine (IH L2 _ _ _ _ (Hf _ _ _ L1 _ Hs E1) E2); intros x Hx; apply Hq, elem_of_app; auto. }
  assert (forall l a b, atom l a b -> linear_expr a -> linear_expr b -> (forall x, (x, TReal) ∈ syms l -> Q x) ->
      forall s g s', tests_over Q s -> rec_test l a b s = Ok (g, s') -> tests_over Q s') as HT.
  { intros l a b Hl La Lb Hq s g s' Hs. unfold rec_test. destruct (is_all_real a && is_all_real b); [|done].
    destruct (to_canonical l) as [c|] eqn:Ec; [|done]. cbn [rbind].
    destruct (dget (s_abs s) c) as [lit|] eqn:E; intros [= <- <-]; [done|]. intros c' lit. cbn [s_abs].
    rewrite dget_dset. destruct (decide (c = c')) as [<-|]; [|apply Hs]. intros _. apply (canonical_syms Q l); [|done].
    intros x t Hx. assert (t = TReal) as ->; [|by apply Hq].
    destruct Hl as [-> | ->]; cbn [syms] in Hx; apply elem_of_app in Hx as [Hx|Hx];
      solve [exact (linear_syms a La _ _ Hx)|exact (linear_syms b Lb _ _ Hx)]. }
  induction f using fm_ind'; intros s g' s' Hl Hq Hs; inversion Hl; subst; cbn [recurse]; cbn [syms] in Hq.
  - unfold rec_symbol. rewrite bool_decide_true by done. destruct (dget (s_bools s) n) as [l|] eqn:E; intros [= <- <-]; done.
  - by intros [= <- <-].
  - destruct (smapM recurse l s) as [[gs s1]|] eqn:E; [|done]. cbn [rbind]. intros [= <- <-]. by apply (HL l H H1 Hq s gs s1).
  - destruct (smapM recurse l s) as [[gs s1]|] eqn:E; [|done]. cbn [rbind]. intros [= <- <-]. by apply (HL l H H1 Hq s gs s1).
  - destruct (recurse f s) as [[g s1]|] eqn:E; [|done]. cbn [rbind]. intros [= <- <-]. by apply (IHf s g s1).
  - destruct (recurse f1 s) as [[g1 s1]|] eqn:E1; [|done]. cbn [rbind].
    destruct (recurse f2 s1) as [[g2 s2]|] eqn:E2; [|done]. cbn [rbind]. intros [= <- <-].
    refine (IHf2 s1 g2 s2 _ _ (IHf1 s g1 s1 _ _ Hs E1) E2); try done; intros x Hx; apply Hq, elem_of_app; auto.
  - destruct (recurse f1 s) as [[g1 s1]|] eqn:E1; [|done]. cbn [rbind].
    destruct (recurse f2 s1) as [[g2 s2]|] eqn:E2; [|done]. cbn [rbind]. intros [= <- <-].
    refine (IHf2 s1 g2 s2 _ _ (IHf1 s g1 s1 _ _ Hs E1) E2); try done; intros x Hx; apply Hq, elem_of_app; auto.
  - destruct (recurse f1 s) as [[g1 s1]|] eqn:E1; [|done]. cbn [rbind].
    destruct (recurse f2 s1) as [[g2 s2]|] eqn:E2; [|done]. cbn [rbind].
    destruct (recurse f3 s2) as [[g3 s3]|] eqn:E3; [|done]. cbn [rbind]. intros [= <- <-].
    refine (IHf3 s2 g3 s3 _ _ (IHf2 s1 g2 s2 _ _ (IHf1 s g1 s1 _ _ Hs E1) E2) E3); try done; intros x Hx; apply Hq; rewrite !elem_of_app; auto.
  - eapply (HT (LeN f1 f2) f1 f2); [by left|done|done|done|done].
  - eapply (HT (LtN f1 f2) f1 f2); [by right|done|done|done|done].
Qed.

Lemma li_variables_in (Q : string -> Prop) d v : nkeys Q d -> v ∈ li_variables d -> Q v.
Proof.
  intros Hn Hv. unfold li_variables in Hv. apply elem_of_remove_dups, elem_of_list_In, in_concat in Hv as (k & Hk & Hv).
  apply in_map_iff in Hk as ([k' q] & <- & Hk). unfold nkeys in Hn. rewrite Forall_forall in Hn.
  apply elem_of_list_In in Hk. specialize (Hn _ Hk). rewrite Forall_forall in Hn. by apply Hn, elem_of_list_In.
Qed.

(** * Groups of the literals *)

Lemma gr_lookup groups g : g < length groups -> groups !! g = Some (gr groups g).
Proof. intros H. unfold gr. by destruct (lookup_lt_is_Some_2 groups g H) as [x ->]. Qed.

Lemma get_group_in groups v : forall k, get_group groups v = Ok k -> v ∈ (gr groups k).1.
Proof.
  induction groups as [|[vs p] groups IH]; intros k; cbn [get_group]; [done|]. case_bool_decide; [by intros [= <-]|].
  destruct (get_group groups v) as [j|] eqn:E; [|done]. cbn [rbind]. intros [= <-]. exact (IH j eq_refl).
Qed.
Lemma get_group_ok groups v : forall k, v ∈ (gr groups k).1 -> exists j, get_group groups v = Ok j.
Proof.
  induction groups as [|[vs p] groups IH]; intros k Hk; cbn [get_group].
  { unfold gr in Hk. cbn in Hk. by apply elem_of_nil in Hk. }
  case_bool_decide as Hin; [by eexists|]. destruct k as [|k]; [done|]. destruct (IH k Hk) as [j ->]. by eexists.
Qed.

Section literals.
  Context (groups : list (list string * pdict)).
  Hypothesis Hdis : forall g h v, v ∈ (gr groups g).1 -> v ∈ (gr groups h).1 -> g = h.
  Notation mentioned d g := (exists v, v ∈ li_variables d /\ v ∈ (gr groups g).1).

  Lemma groups_of vs : (forall v, v ∈ vs -> exists k, v ∈ (gr groups k).1) ->
    exists gs, rmapM (get_group groups) vs = Ok gs /\ forall g, g ∈ gs <-> exists v, v ∈ vs /\ v ∈ (gr groups g).1.
  Proof.
    induction vs as [|v vs IH]; intros H.
    - exists []. split; [done|]. intros g. split; [intros Hg; by apply elem_of_nil in Hg|]. intros (v & Hv & _). by apply elem_of_nil in Hv.
    - destruct (H v) as [k Hk]; [by left|]. destruct (get_group_ok groups v k Hk) as [j Hj].
      destruct IH as (gs & Eg & Hgs); [intros u Hu; apply H; by right|]. cbn [rmapM]. rewrite Hj, Eg. cbn [rbind]. eexists. split; [done|].
      apply get_group_in in Hj. intros g. rewrite elem_of_cons, Hgs. split.
      + intros [->|(u & Hu & Hin)]; [exists v; split; [by left|done]|exists u; split; [by right|done]].
      + intros (u & Hu & Hin). apply elem_of_cons in Hu as [->|Hu]; [left; by apply (Hdis g j v)|right; eauto].
  Qed.

  Context (i : linfo).
  Hypothesis HT : forall c lit, (c, lit) ∈ abstractions i -> exists n d, dget (numbered i) lit = Some n /\ li_from_smt c = Ok d /\
    forall v, v ∈ li_variables d -> exists k, v ∈ (gr groups k).1.

  Lemma test_groups_ok : exists l2g, test_groups groups i = Ok l2g /\
    (forall z gs, dget l2g z = Some gs -> exists c lit d, (c, lit) ∈ abstractions i /\ dget (numbered i) lit = Some (Z.abs_nat z) /\
       li_from_smt c = Ok d /\ forall g, g ∈ gs <-> mentioned d g) /\
    (forall c lit z, (c, lit) ∈ abstractions i -> dget (numbered i) lit = Some (Z.abs_nat z) -> is_Some (dget l2g z)).
  Proof.
    unfold test_groups.
    enough (forall l acc, (forall kv, kv ∈ l -> kv ∈ abstractions i) ->
      (forall z gs, dget acc z = Some gs -> exists c lit d, (c, lit) ∈ abstractions i /\ dget (numbered i) lit = Some (Z.abs_nat z) /\
        li_from_smt c = Ok d /\ forall g, g ∈ gs <-> mentioned d g) ->
      exists l2g, fold_left (fun r (kv : fm * string) =>
          let! d := r in
          let! n := dlookup (numbered i) kv.2 in
          let! c := li_from_smt kv.1 in
          let! gs := rmapM (get_group groups) (li_variables c) in
          Ok (dset (dset d (Z.of_nat n) gs) (- Z.of_nat n)%Z gs)) l (Ok acc) = Ok l2g /\
      (forall z gs, dget l2g z = Some gs -> exists c lit d, (c, lit) ∈ abstractions i /\ dget (numbered i) lit = Some (Z.abs_nat z) /\
        li_from_smt c = Ok d /\ forall g, g ∈ gs <-> mentioned d g) /\
      (forall c lit z, (c, lit) ∈ l -> dget (numbered i) lit = Some (Z.abs_nat z) -> is_Some (dget l2g z)) /\
      (forall z, is_Some (dget acc z) -> is_Some (dget l2g z))) as H.
    { destruct (H (abstractions i) []) as (l2g & H1 & H2 & H3 & _); [done|done|]. by exists l2g. }
    induction l as [|[c lit] l IH]; intros acc Hl Hacc; cbn [fold_left].
    { exists acc. split; [done|]. split; [done|]. split; [|done]. intros c lit z Hin. by apply elem_of_nil in Hin. }
    destruct (HT c lit) as (n & d & Hn & Hd & Hv); [apply Hl; by left|].
    destruct (groups_of (li_variables d) Hv) as (gs & Eg & Hgs). cbn [rbind fst snd]. unfold dlookup at 2. rewrite Hn. cbn [rbind].
    rewrite Hd. cbn [rbind]. rewrite Eg. cbn [rbind].
    destruct (IH (dset (dset acc (Z.of_nat n) gs) (- Z.of_nat n)%Z gs)) as (l2g & H1 & H2 & H3 & H4).
    - intros kv Hkv. apply Hl. by right.
    - intros z gs'. rewrite !dget_dset. destruct (decide (- Z.of_nat n = z)%Z) as [<-|]; [|destruct (decide (Z.of_nat n = z)) as [<-|]].
      + intros [= <-]. exists c, lit, d. split; [apply Hl; by left|]. split; [by replace (Z.abs_nat (- Z.of_nat n)) with n by lia|]. done.
      + intros [= <-]. exists c, lit, d. split; [apply Hl; by left|]. split; [by rewrite Zabs2Nat.id|]. done.
      + apply Hacc.
    - exists l2g. split; [exact H1|]. split; [done|]. split.
      + intros c' lit' z Hin Hz. apply elem_of_cons in Hin as [[= -> ->]|Hin]; [|by apply (H3 c' lit')].
        apply H4. rewrite !dget_dset. rewrite Hn in Hz. injection Hz as Hz.
        destruct (decide (- Z.of_nat n = z)%Z); [by eexists|]. destruct (decide (Z.of_nat n = z)); [by eexists|lia].
      + intros z Hz. apply H4. rewrite !dget_dset. destruct (decide _); [by eexists|]. destruct (decide _); [by eexists|done].
  Qed.
End literals.

(** * The order of the groups *)

Lemma insert_by_perm {X} (x : Z * X) l : insert_by x l ≡ₚ x :: l.
Proof.
  induction l as [|y l IH]; cbn [insert_by]; [done|]. destruct (x.1 <=? y.1)%Z; [done|]. rewrite IH. apply Permutation_swap.
Qed.
Lemma sort_by_perm {X} (l : list (Z * X)) : sort_by l ≡ₚ map snd l.
Proof.
  unfold sort_by. induction l as [|x l IH]; cbn [fold_right map]; [done|]. rewrite insert_by_perm. cbn [map]. by rewrite IH.
Qed.
Lemma snd_zip {X Y} (l : list X) : forall (k : list Y), length l = length k -> map snd (zip l k) = k.
Proof. induction l as [|x l IH]; intros [|y k]; cbn; try done. intros [= H]. by rewrite IH. Qed.

Lemma group_order_ok (groups : list group) reals : (forall g v, g ∈ groups -> v ∈ g.1 -> v ∈ reals) ->
  exists o, group_order groups reals = Ok o /\ o ≡ₚ seq 0 (length groups).
Proof.
  intros H. unfold group_order.
  assert (forall vs : list string, (forall v, v ∈ vs -> v ∈ reals) -> exists ks, rmapM (list_index reals) vs = Ok ks) as HI.
  { induction vs as [|v vs IH]; intros Hv; [by exists []|]. destruct IH as [ks Ek]; [intros u Hu; apply Hv; by right|].
    assert (is_Some (list_find (fun y => y = v) reals)) as [[k u] Hf].
    { destruct (list_find (fun y => y = v) reals) as [ku|] eqn:E; [by eexists|]. exfalso.
      apply list_find_None in E. rewrite Forall_forall in E. apply (E v); [apply Hv; by left|done]. }
    cbn [rmapM]. unfold list_index at 1. rewrite Hf. cbn [rbind]. rewrite Ek. by eexists. }
  assert (exists ks, rmapM (fun g : group => let! idx := rmapM (list_index reals) g.1 in
      Ok (fold_left (fun m k => Z.max m (Z.of_nat k)) idx (-1)%Z)) groups = Ok ks /\ length ks = length groups) as (ks & Ek & Hlen).
  { clear -H HI. induction groups as [|g groups IH]; [by exists []|]. destruct IH as (ks & Ek & Hl); [intros h v Hh; apply H; by right|].
    destruct (HI g.1) as [idx Ei]; [intros v; apply H; by left|]. cbn [rmapM]. rewrite Ei. cbn [rbind]. rewrite Ek. cbn [rbind].
    eexists. split; [done|]. cbn. by rewrite Hl. }
  rewrite Ek. cbn [rbind]. eexists. split; [done|]. rewrite sort_by_perm, snd_zip; [done|]. by rewrite seq_length.
Qed.

(** * Functions of the factors and of the support *)

Section fine.
  Context (generic : (string -> Qc) -> Prop) (fine : rfn -> Prop) (ae : rfn -> rfn -> Prop) (J : string -> rfn -> rfn).
  Hypothesis HJ : integration generic fine ae J.

  Lemma fine_pval p : fine (pval p).
  Proof.
    unfold pval, poly_val. induction p as [|[k q] p IH].
    - exact (fi_number _ _ _ _ HJ 0%Qc).
    - refine (fi_plus _ _ _ _ HJ (fun r => q * mono_val (Env (fun _ => false) r) k)%Qc _ _ IH).
      refine (fi_times _ _ _ _ HJ (fun _ => q) _ (fi_number _ _ _ _ HJ q) _). clear IH. unfold mono_val.
      induction k as [|x k IH]; [exact (fi_number _ _ _ _ HJ 1%Qc)|].
      exact (fi_times _ _ _ _ HJ (fun r => r x) _ (fi_variable _ _ _ _ HJ x) IH).
  Qed.

  Lemma factorization_grouped reals p groups : factorization reals p groups -> grouped fine groups.
  Proof.
    intros HF.
    assert (forall g, groups !! g = Some (gr groups g) \/ gr groups g = ([], [])) as Hgr.
    { intros g. unfold gr. destruct (groups !! g); [by left|by right]. }
    split; [|split; [|split]].
    - intros g. destruct (Hgr g) as [H| ->]; [|constructor]. apply (fz_set _ _ _ HF). by eapply elem_of_list_lookup_2.
    - intros g h v Hg Hh. destruct (Hgr g) as [Eg|Eg]; [|rewrite Eg in Hg; by apply elem_of_nil in Hg].
      destruct (Hgr h) as [Eh|Eh]; [|rewrite Eh in Hh; by apply elem_of_nil in Hh].
      destruct (decide (g = h)) as [|Hne]; [done|]. by destruct (fz_disjoint _ _ _ HF g h _ _ v Eg Eh Hne Hg).
    - intros g v Hv. destruct (Hgr g) as [Eg|Eg]; [|rewrite Eg; by intros r r' _].
      intros r r' Hr. unfold pval. apply poly_val_only. intros x Hx. cbn [er]. apply Hr. intros ->. apply Hv.
      unfold li_variables in Hx. apply elem_of_remove_dups, elem_of_list_In, in_concat in Hx as (k & Hk & Hx).
      apply in_map_iff in Hk as ([k' q] & <- & Hk). apply (fz_factor _ _ _ HF _ k' q).
      + by eapply elem_of_list_lookup_2.
      + by apply elem_of_list_In.
      + by apply elem_of_list_In.
    - intros g. apply fine_pval.
  Qed.

  Definition has_truth (w : string -> bool) (f : fm) : Prop :=
    exists phi, (forall r, eval (Env w r) f = Some (VB (phi r))) /\ fine (fun r => ind (phi r)).

  Lemma fine_neg (g : rfn) : fine g -> fine (fun r => 1 - g r)%Qc.
  Proof.
    intros Hg. apply (fi_same _ _ _ _ HJ (fun r => 1 + (- (1)) * g r)%Qc); [intros r; ring|].
    apply (fi_plus _ _ _ _ HJ (fun _ => 1%Qc)); [exact (fi_number _ _ _ _ HJ 1%Qc)|].
    apply (fi_times _ _ _ _ HJ (fun _ => (- (1))%Qc)); [exact (fi_number _ _ _ _ HJ (- (1))%Qc)|done].
  Qed.

  Lemma truth_list w l : Forall (has_truth w) l -> exists phis, (forall r, mapM (fun g => vbool (eval (Env w r) g)) l = Some (phis r)) /\
    fine (fun r => ind (forallb id (phis r))) /\ fine (fun r => ind (existsb id (phis r))).
  Proof.
    induction 1 as [|g l (phi & Hg & Fg) _ (phis & Hl & F1 & F2)].
    - exists (fun _ => []). split; [done|]. split; [exact (fi_number _ _ _ _ HJ 1%Qc)|exact (fi_number _ _ _ _ HJ 0%Qc)].
    - exists (fun r => phi r :: phis r). split; [|split].
      + intros r. cbn [mapM]. rewrite Hg. cbn. specialize (Hl r). cbn in Hl. by rewrite Hl.
      + apply (fi_same _ _ _ _ HJ (fun r => ind (phi r) * ind (forallb id (phis r)))%Qc).
        * intros r. cbn [forallb]. unfold id at 2. by rewrite <- ind_and.
        * by apply (fi_times _ _ _ _ HJ).
      + apply (fi_same _ _ _ _ HJ (fun r => 1 - (1 - ind (phi r)) * (1 - ind (existsb id (phis r))))%Qc).
        * intros r. cbn [existsb]. unfold id at 2. destruct (phi r), (existsb id (phis r)); cbn; ring.
        * apply fine_neg. apply (fi_times _ _ _ _ HJ); by apply fine_neg.
  Qed.

  Lemma truth_test w c a b : compares c a b -> linear_expr a -> linear_expr b -> has_truth w c.
  Proof.
    intros Hc Ha Hb. exists (fun r => bool_decide (eval (Env w r) c = Some (VB true))).
    assert (forall r, exists v, eval (Env w r) c = Some (VB v)) as Hv.
    { intros r. destruct (linear_value a (Env w r) Ha) as [x Hx], (linear_value b (Env w r) Hb) as [y Hy].
      clear -Hc Hx Hy. induction Hc as [a b|a b|c a b Hc IH]; cbn [eval]; [rewrite Hx, Hy; cbn; eauto..|].
      destruct (IH Hx Hy) as [v ->]. cbn. eauto. }
    split.
    - intros r. destruct (Hv r) as [[] ->]; [by rewrite bool_decide_eq_true_2|by rewrite bool_decide_eq_false_2].
    - exact (fi_test _ _ _ _ HJ c a b w Hc Ha Hb).
  Qed.

  Lemma logic_truth w f : logic_formula f -> has_truth w f.
  Proof.
    induction f using fm_ind'; intros Hl; inversion Hl; subst.
    - exists (fun _ => w n). split; [done|]. exact (fi_number _ _ _ _ HJ (ind (w n))).
    - exists (fun _ => b). split; [done|]. exact (fi_number _ _ _ _ HJ (ind b)).
    - assert (Forall (has_truth w) l) as HF by (rewrite Forall_forall in *; auto).
      destruct (truth_list w l HF) as (phis & E & F1 & _). exists (fun r => forallb id (phis r)). split; [|done].
      intros r. cbn [eval]. by rewrite E.
    - assert (Forall (has_truth w) l) as HF by (rewrite Forall_forall in *; auto).
      destruct (truth_list w l HF) as (phis & E & _ & F1). exists (fun r => existsb id (phis r)). split; [|done].
      intros r. cbn [eval]. by rewrite E.
    - destruct (IHf H0) as (phi & E & F1). exists (fun r => negb (phi r)). split; [intros r; cbn [eval]; by rewrite E|].
      apply (fi_same _ _ _ _ HJ (fun r => 1 - ind (phi r))%Qc); [intros r; destruct (phi r); cbn; ring|by apply fine_neg].
    - destruct (IHf1 H1) as (p1 & E1 & F1), (IHf2 H2) as (p2 & E2 & F2). exists (fun r => implb (p1 r) (p2 r)).
      split; [intros r; cbn [eval]; rewrite E1, E2; cbn; by destruct (p1 r)|].
      apply (fi_same _ _ _ _ HJ (fun r => 1 - ind (p1 r) * (1 - ind (p2 r)))%Qc).
      + intros r. destruct (p1 r), (p2 r); cbn; ring.
      + apply fine_neg. apply (fi_times _ _ _ _ HJ); [done|by apply fine_neg].
    - destruct (IHf1 H1) as (p1 & E1 & F1), (IHf2 H2) as (p2 & E2 & F2). exists (fun r => eqb (p1 r) (p2 r)).
      split; [intros r; cbn [eval]; by rewrite E1, E2|].
      apply (fi_same _ _ _ _ HJ (fun r => ind (p1 r) * ind (p2 r) + (1 - ind (p1 r)) * (1 - ind (p2 r)))%Qc).
      + intros r. destruct (p1 r), (p2 r); cbn; ring.
      + apply (fi_plus _ _ _ _ HJ); apply (fi_times _ _ _ _ HJ); try done; by apply fine_neg.
    - destruct (IHf1 H2) as (p1 & E1 & F1), (IHf2 H3) as (p2 & E2 & F2), (IHf3 H4) as (p3 & E3 & F3).
      exists (fun r => if p1 r then p2 r else p3 r).
      split; [intros r; cbn [eval]; rewrite E1; cbn; rewrite E2, E3; by destruct (p1 r)|].
      apply (fi_same _ _ _ _ HJ (fun r => ind (p1 r) * ind (p2 r) + (1 - ind (p1 r)) * ind (p3 r))%Qc).
      + intros r. destruct (p1 r); cbn; ring.
      + apply (fi_plus _ _ _ _ HJ); apply (fi_times _ _ _ _ HJ); try done; by apply fine_neg.
    - apply (truth_test w _ f1 f2); [constructor|done..].
    - apply (truth_test w _ f1 f2); [constructor|done..].
  Qed.

  Lemma fine_truth w f : logic_formula f -> fine (fun r => truth (Env w r) f).
  Proof.
    intros Hl. destruct (logic_truth w f Hl) as (phi & E & F1). refine (fi_same _ _ _ _ HJ _ _ _ F1). intros r. unfold truth. rewrite E.
    destruct (phi r); [by rewrite bool_decide_eq_true_2|by rewrite bool_decide_eq_false_2].
  Qed.

  Lemma fine_qsum {X} (l : list X) (g : X -> rfn) : (forall x, x ∈ l -> fine (g x)) -> fine (fun r => qsum (map (fun x => g x r) l)).
  Proof.
    induction l as [|x l IH]; intros H; [exact (fi_number _ _ _ _ HJ 0%Qc)|].
    apply (fi_plus _ _ _ _ HJ (g x)); [apply H; by left|]. apply IH. intros y Hy. apply H. by right.
  Qed.
End fine.

(** * Bounds *)

Lemma conjunct_true e c f : conjunct c f -> eval e f = Some (VB true) -> eval e c = Some (VB true).
Proof.
  induction 1 as [|l f Hin _ IH]; [done|]. intros He. apply IH. revert Hin. apply and_true.
  destruct l as [|h [|h' l]]; [done| |done]. cbn [mkAnd]. cbn in He. destruct (eval e h) as [[b|]|]; cbn in He; try done.
  injection He as He. rewrite andb_true_r in He. unfold id in He. by subst.
Qed.

Lemma lower_shape v l : lower_bound v l -> exists q, atom l (RealC q) (Sym v TReal) /\
  (forall e, eval e l = Some (VB true) -> qle q (er e v) = true) /\
  (forall e e', (er e v < q)%Qc -> (q < er e' v)%Qc -> eval e l <> eval e' l).
Proof.
  intros [q|q]; exists q; (split; [first [by left|by right]|split]).
  - intros e. cbn. by intros [= ->].
  - intros e e' H1 H2 H. cbn in H. injection H as H. apply Qclt_not_le in H1. apply Qclt_le_weak in H2. apply H1.
    apply qle_spec. rewrite H. by apply qle_spec.
  - intros e. cbn. intros [= H]. apply qlt_spec in H. apply qle_spec. by apply Qclt_le_weak.
  - intros e e' H1 H2 H. cbn in H. injection H as H. apply Qclt_le_weak, Qcle_not_lt in H1. apply H1.
    apply qlt_spec. rewrite H. by apply qlt_spec.
Qed.
Lemma upper_shape v l : upper_bound v l -> exists q, atom l (Sym v TReal) (RealC q) /\
  (forall e, eval e l = Some (VB true) -> qle (er e v) q = true) /\
  (forall e e', (er e v < q)%Qc -> (q < er e' v)%Qc -> eval e l <> eval e' l).
Proof.
  intros [q|q]; exists q; (split; [first [by left|by right]|split]).
  - intros e. cbn. by intros [= ->].
  - intros e e' H1 H2 H. cbn in H. injection H as H. apply Qclt_not_le in H2. apply Qclt_le_weak in H1. apply H2.
    apply qle_spec. rewrite <- H. by apply qle_spec.
  - intros e. cbn. intros [= H]. apply qlt_spec in H. apply qle_spec. by apply Qclt_le_weak.
  - intros e e' H1 H2 H. cbn in H. injection H as H. apply Qclt_le_weak, Qcle_not_lt in H2. apply H2.
    apply qlt_spec. rewrite <- H. by apply qlt_spec.
Qed.

Lemma bounded_within s v w : bounded_in s v -> within v (fun r => truth (Env w r) s).
Proof.
  intros (l & u & Hl & Hu & Cl & Cu). destruct (lower_shape v l Hl) as (lo & _ & Pl & _), (upper_shape v u Hu) as (hi & _ & Pu & _).
  exists lo, hi. intros r Hr. unfold truth in Hr. case_bool_decide as He; [|done].
  pose proof (Pl _ (conjunct_true _ _ _ Cl He)) as H1. pose proof (Pu _ (conjunct_true _ _ _ Cu He)) as H2.
  by apply qle_spec in H1; apply qle_spec in H2.
Qed.
