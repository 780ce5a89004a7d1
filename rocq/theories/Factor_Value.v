(** The value of the recursion of the factorized integrator (C37). *)

From Verif Require Import Base Dict Smt Smt_Facts Walk_Model Math_Model Math_Spec Poly_Proofs Linear_Proofs Arith_Proofs.
From Verif Require Import Engine_Spec Lit_Model Lit_Spec Lit_Proofs Lit_Tests Sdd_Model Sdd_Spec Sdd_Proofs.
From Verif Require Import Piecewise_Model Multimap_Model Resolve_Model Xsdd_Model Factor_Model Factor_Spec Factor_Integral Factor_Walk.

(** * Literals that a diagram implies *)
Definition entails (n : sdd) (z : Z) : Prop := forall w, sat w n = true -> lit_true w z = true.

Lemma entails_var n z w : sat w n = true -> entails n z -> Z.abs_nat z ∈ svars n.
Proof.
  intros Hw He. destruct (decide (Z.abs_nat z ∈ svars n)) as [|Hn]; [done|]. exfalso.
  set (w' := fun k => if decide (k = Z.abs_nat z) then (z <? 0)%Z else w k).
  assert (sat w' n = true) as Hw'.
  { rewrite <- Hw. apply sat_agree. intros v Hv. unfold w'. by destruct (decide (v = Z.abs_nat z)) as [->|]. }
  apply He in Hw'. unfold lit_true, w' in Hw'. rewrite decide_True in Hw' by done. by destruct (z <? 0)%Z.
Qed.

Lemma entails_lit z z' : z' <> 0%Z -> entails (SLit z') z -> z = z'.
Proof.
  intros Hz He. assert (sat (fun _ => negb (z' <? 0)%Z) (SLit z') = true) as Hw by (cbn; unfold lit_true; by destruct (z' <? 0)%Z).
  pose proof (entails_var _ _ _ Hw He) as Hv. cbn in Hv. apply elem_of_list_singleton in Hv.
  apply He in Hw. unfold lit_true in Hw. destruct (z <? 0)%Z eqn:E1, (z' <? 0)%Z eqn:E2; cbn in Hw; try done; lia.
Qed.

Section elements.
  Context (els : list (sdd * sdd)) (Hs : is_sdd (SDec els)) (Ht : trimmed (SDec els)) (p s : sdd) (Hin : (p, s) ∈ els) (Hl : live (p, s) = true).

  Lemma elem_parts : is_sdd p /\ is_sdd s /\ trimmed p /\ trimmed s /\ p <> SFalse /\ s <> SFalse /\ forall v, v ∈ svars p -> v ∉ svars s.
  Proof.
    inversion Hs as [| | |? HF HD _]; subst. inversion Ht as [| | |? HT _]; subst. rewrite Forall_forall in HF, HT.
    destruct (HF _ Hin), (HT _ Hin). unfold live in Hl. cbn [fst snd] in Hl. split_and!; try done.
    - by intros ->.
    - intros ->. by rewrite orb_true_r in Hl.
    - intros v. by apply (HD p s).
  Qed.

  Lemma elem_entails z : entails (SDec els) z -> entails p z \/ entails s z.
  Proof.
    intros He. destruct elem_parts as (_ & _ & T1 & T2 & N1 & N2 & D).
    destruct (trimmed_sat p T1 N1) as [wp Hp], (trimmed_sat s T2 N2) as [ws Hw].
    assert (forall w1 w2, sat w1 p = true -> sat w2 s = true ->
      lit_true (fun k => if decide (k ∈ svars p) then w1 k else w2 k) z = true) as HC.
    { intros w1 w2 H1 H2. apply He. cbn [sat]. apply existsb_exists. exists (p, s). split; [by apply elem_of_list_In|].
      cbn [fst snd]. apply andb_true_iff. split.
      - rewrite <- H1. apply sat_agree. intros v Hv. by rewrite decide_True.
      - rewrite <- H2. apply sat_agree. intros v Hv. rewrite decide_False; [done|]. intros Hv'. by apply (D v). }
    destruct (decide (Z.abs_nat z ∈ svars p)) as [Hz|Hz].
    - left. intros w H. pose proof (HC w ws H Hw) as HH. unfold lit_true in *. by rewrite decide_True in HH.
    - right. intros w H. pose proof (HC wp w Hp H) as HH. unfold lit_true in *. by rewrite decide_False in HH.
  Qed.
End elements.

Lemma entails_tags l2g n z : is_sdd n -> trimmed n -> n <> SFalse -> (forall v, v ∈ svars n -> v <> 0) -> entails n z ->
  forall g, g ∈ tg l2g (SLit z) -> g ∈ tg l2g n.
Proof.
  intros Hs Ht. revert Hs. induction n using sdd_ind'; intros Hs Hn Hv He g Hg; try done.
  - pose proof (entails_var STrue z (fun _ => false) eq_refl He) as H. by apply elem_of_nil in H.
  - assert (z0 <> 0%Z) as Hz by (intros ->; by apply (Hv 0); [left|]). by rewrite (entails_lit z z0 Hz He) in Hg.
  - destruct (trimmed_sat _ Ht Hn) as [w Hw]. destruct (sat_live w els Hw) as (p & s & Hin & Hl & _).
    destruct (elem_parts els Hs Ht p s Hin Hl) as (S1 & S2 & T1 & T2 & N1 & N2 & _).
    rewrite Forall_forall in H. destruct (H _ Hin) as [IH1 IH2]. cbn [fst snd] in *. apply tg_dec. exists p, s.
    split; [done|]. split; [done|]. destruct (elem_entails els Hs Ht p s Hin Hl z He) as [E|E]; [left; apply IH1|right; apply IH2]; try done;
      intros v Hvv; apply Hv, (svars_els els p s); auto.
Qed.

(** * The names of the live elements *)
Lemma live_names_dec i els x : x ∈ live_names i (SDec els) <->
  exists p s, (p, s) ∈ els /\ live (p, s) = true /\ (x ∈ live_names i p \/ x ∈ live_names i s).
Proof.
  assert (forall p s, match (p, s) with (SFalse, _) | (_, SFalse) => [] | (p, s) => live_names i p ++ live_names i s end =
    if live (p, s) then live_names i p ++ live_names i s else []) as HE by (intros p s; by destruct p, s).
  cbn [live_names]. induction els as [|[p s] els IH]; cbn [map concat].
  - split; [intros H; by apply elem_of_nil in H|]. intros (p & s & H & _). by apply elem_of_nil in H.
  - rewrite elem_of_app, IH. rewrite HE. split.
    + intros [H|(p' & s' & H1 & H2)]; [|exists p', s'; split; [by right|done]].
      exists p, s. split; [by left|]. destruct (live (p, s)); [|by apply elem_of_nil in H]. split; [done|]. by apply elem_of_app.
    + intros (p' & s' & H1 & H2 & H3). apply elem_of_cons in H1 as [[= -> ->]|H1]; [left|right; eauto].
      rewrite H2. by apply elem_of_app.
Qed.
Lemma live_names_names i n x : x ∈ live_names i n -> x ∈ names i n.
Proof.
  induction n using sdd_ind'; intros Hx; try by apply elem_of_nil in Hx.
  - cbn [live_names] in Hx. apply names_in. exists (Z.abs_nat z). split; [by left|]. rewrite <- number_val_abs.
    destruct (number_to_val i z) as [[y|c]|]; try by apply elem_of_nil in Hx. by apply elem_of_list_singleton in Hx as ->.
  - apply live_names_dec in Hx as (p & s & Hin & _ & Hx). rewrite Forall_forall in H. destruct (H _ Hin) as [H1 H2].
    apply (names_els i els p s); [done|]. cbn [fst snd] in *. tauto.
Qed.

(** * Orders of groups *)
Lemma rmapM_index o l : (forall g : nat, g ∈ l -> g ∈ o) -> exists ks, rmapM (list_index o) l = Ok ks /\ length ks = length l.
Proof.
  induction l as [|g l IH]; intros H; [by exists []|]. destruct IH as (ks & E & L); [intros h Hh; apply H; by right|].
  destruct (list_find_elem_of (fun y => y = g) o g) as [[k y] Hk]; [apply H; by left|done|]. exists (k :: ks).
  cbn [rmapM]. unfold list_index at 1. rewrite Hk, E. cbn. by rewrite L.
Qed.

Section value.
  Context (generic : (string -> Qc) -> Prop) (fine : rfn -> Prop) (ae : rfn -> rfn -> Prop) (J : string -> rfn -> rfn).
  Hypothesis HJ : integration generic fine ae J.
  Context {E : Type} (A : alg E) (den : E -> env -> option Qc) (parse_condition : fm -> Res E)
    (integrate : list string -> E -> Res E) (iter : list nat -> list nat).
  Hypothesis HA : sound_arith (a_real A) (a_symbol A) (a_eq A) (a_mul A) (a_add A) den.
  Hypothesis HP : parses den parse_condition.
  Hypothesis HInt : integrates den fine ae J integrate.
  Hypothesis Hiter : forall l, iter l ≡ₚ l.
  Context (f : fm) (i : linfo) (T : table_ok f i) (bools : list string).
  Hypothesis HB : forall x, (x, TBool) ∈ syms f -> x ∈ bools.
  Hypothesis Hgen : forall r w, generic r -> off_tests (Env w r) f.
  Notation N := (length (Lit_Model.literals i)).
  Context (groups : list (list string * pdict)).
  Hypothesis HG : grouped fine groups.
  Context (l2g : list (Z * list nat)).
  Hypothesis Hl2g : forall z c, Z.abs_nat z ∈ upto N -> number_to_val i z = Ok (MTest c) ->
    exists d, li_from_smt c = Ok d /\ forall g, g ∈ tg l2g (SLit z) <-> exists v, v ∈ li_variables d /\ v ∈ (gr groups g).1.
  Hypothesis Hl2b : forall z x, Z.abs_nat z ∈ upto N -> number_to_val i z = Ok (MBool x) -> tg l2g (SLit z) = [].
  Context (n2g : list (sdd * list nat)) (root : sdd).
  Hypothesis Hn2g : forall m, below m root -> exists L, dlookup n2g m = Ok L /\ NoDup L /\ forall g, g ∈ L <-> g ∈ tg l2g m.
  Context (order : option (list nat)).
  Hypothesis Horder : forall o, order = Some o -> o ≡ₚ seq 0 (length groups).

  Notation shows := (shows den fine ae).
  Notation NT := (NT J groups).
  Notation tvars := (tvars groups).
  Notation fit := (fit fine).
  Notation nob := (fun _ : string => false).
  Notation mu := (mean (fun _ => half) bools).
  Definition M (n : sdd) : rfn := fun r => mu (F i (Env nob r) n).

  (** ** Expressions *)
  Lemma shows_ae (g h : rfn) x : shows g x -> fine h -> ae g h -> shows h x.
  Proof. intros [F1 (k & Hk & Ha)] F2 H. split; [done|]. exists k. split; [done|]. by apply (ae_trans _ _ _ _ HJ _ g). Qed.
  Lemma shows_same (g h : rfn) x : shows g x -> (forall r, g r = h r) -> shows h x.
  Proof.
    intros Hg H. apply (shows_ae g); [done|apply (fi_same _ _ _ _ HJ g); [done|apply Hg]|]. by apply (ae_point _ _ _ _ HJ).
  Qed.
  Lemma shows_times (g h : rfn) x y : shows g x -> shows h y -> shows (fun r => g r * h r)%Qc (alg_times A x y).
  Proof.
    intros [F1 (k1 & H1 & A1)] [F2 (k2 & H2 & A2)]. split; [by apply (fi_times _ _ _ _ HJ)|].
    exists (fun r => k1 r * k2 r)%Qc. split; [|by apply (ig_times _ _ _ _ HJ)].
    intros e. exact (alg_times_value A den HA e _ _ _ _ (H1 e) (H2 e)).
  Qed.
  Lemma shows_plus (g h : rfn) x y : shows g x -> shows h y -> shows (fun r => g r + h r)%Qc (alg_plus A x y).
  Proof.
    intros [F1 (k1 & H1 & A1)] [F2 (k2 & H2 & A2)]. split; [by apply (fi_plus _ _ _ _ HJ)|].
    exists (fun r => k1 r + k2 r)%Qc. split; [|by apply (ig_plus _ _ _ _ HJ)].
    intros e. exact (alg_plus_value A den HA e _ _ _ _ (H1 e) (H2 e)).
  Qed.
  Lemma shows_real q : shows (fun _ => q) (a_real A q).
  Proof.
    split; [apply (fi_number _ _ _ _ HJ)|]. exists (fun _ => q). split; [|apply (ae_refl _ _ _ _ HJ)].
    intros e. apply (sa_real _ _ _ _ _ _ HA).
  Qed.
  Lemma shows_power k : exists x, alg_power A (a_real A (qz 2)) (qn k) = Ok x /\ shows (fun _ => qpow (qz 2) k) x.
  Proof.
    destruct (alg_power_value A den HA (Env nob (fun _ => 0%Qc)) (a_real A (qz 2)) (qz 2) k) as (x & Ex & _); [apply (sa_real _ _ _ _ _ _ HA)|].
    exists x. split; [done|]. split; [apply (fi_number _ _ _ _ HJ)|]. exists (fun _ => qpow (qz 2) k). split; [|apply (ae_refl _ _ _ _ HJ)].
    intros e. destruct (alg_power_value A den HA e (a_real A (qz 2)) (qz 2) k) as (x' & Ex' & V); [apply (sa_real _ _ _ _ _ _ HA)|]. congruence.
  Qed.
  Lemma shows_poly p : fine (pval p) -> shows (pval p) (to_expression A p).
  Proof.
    intros Hf. split; [done|]. exists (pval p). split; [|apply (ae_refl _ _ _ _ HJ)]. intros e. by rewrite (to_expression_value A den HA).
  Qed.

  Definition counted (m : rfn) (ns : list string) (r : E * list string) : Prop :=
    NoDup r.2 /\ same_set r.2 ns /\ shows (fun x => qpow (qz 2) (length r.2) * m x)%Qc r.1.

  Lemma counted_same m ns ns' r : same_set ns ns' -> counted m ns r -> counted m ns' r.
  Proof. intros H (H1 & H2 & H3). split; [done|]. split; [|done]. intros x. by rewrite (H2 x). Qed.
  Lemma counted_ae m m' ns r : fine m' -> ae m m' -> counted m ns r -> counted m' ns r.
  Proof.
    intros Hf H (H1 & H2 & H3). split; [done|]. split; [done|]. apply (shows_ae _ _ _ H3).
    - apply (fi_times _ _ _ _ HJ); [apply (fi_number _ _ _ _ HJ)|done].
    - by apply (ae_mul_l _ _ _ _ HJ).
  Qed.
  Lemma counted_zero : counted (fun _ => 0%Qc) [] (alg_zero A, []).
  Proof.
    split; [constructor|]. split; [done|]. apply (shows_same (fun _ => 0%Qc)); [apply shows_real|]. intros r. cbn. ring.
  Qed.
  Lemma counted_plus m1 m2 ns1 ns2 r1 r2 : counted m1 ns1 r1 -> counted m2 ns2 r2 ->
    (length (remove_dups ns1) = length (remove_dups ns2) -> same_set ns1 ns2) ->
    exists r, nonconvex_plus A r1 r2 = Ok r /\ counted (fun x => m1 x + m2 x)%Qc (ns1 ++ ns2) r.
  Proof.
    intros (A1 & A2 & A3) (B1 & B2 & B3) Hal. unfold nonconvex_plus.
    assert (forall (ns l : list string), NoDup l -> same_set l ns -> length (remove_dups ns) = length l) as HR.
    { intros ns l H1 H2. apply same_length; [apply NoDup_remove_dups|done|]. intros x. by rewrite elem_of_remove_dups, (H2 x). }
    rewrite (HR ns1 r1.2), (HR ns2 r2.2) in Hal by done.
    assert (same_set (uni r1.2 r2.2) (ns1 ++ ns2)) as HU.
    { intros x. by rewrite uni_elem, elem_of_app, (A2 x), (B2 x). }
    destruct (Nat.eqb_spec (length r1.2) (length r2.2)) as [Heq|Hne].
    - eexists. split; [done|]. split; [by apply uni_nodup|]. split; [done|]. cbn [fst snd].
      apply (shows_same _ _ _ (shows_plus _ _ _ _ A3 B3)). intros r.
      assert (length (uni r1.2 r2.2) = length r1.2) as ->.
      { apply same_length; [by apply uni_nodup|done|]. intros x. rewrite uni_elem, (A2 x), (B2 x).
        specialize (Hal Heq x). tauto. }
      rewrite <- Heq. ring.
    - destruct (shows_power (length (diff r2.2 r1.2))) as (pa & Ea & Sa).
      destruct (shows_power (length (diff r1.2 r2.2))) as (pb & Eb & Sb).
      rewrite Ea, Eb. cbn [rbind]. eexists. split; [done|]. split; [by apply uni_nodup|]. split; [done|]. cbn [fst snd].
      apply (shows_same _ _ _ (shows_plus _ _ _ _ (shows_times _ _ _ _ A3 Sa) (shows_times _ _ _ _ B3 Sb))). intros r. cbv beta.
      rewrite Qcmult_plus_distr_r. f_equal.
      + rewrite uni_length_diff, qpow_add. ring.
      + rewrite uni_length_diff' by done. rewrite qpow_add. ring.
  Qed.

  (** ** Averages *)
  Lemma M_dec els r : is_sdd (SDec els) -> (forall v, v ∈ svars (SDec els) -> v ∈ upto N) ->
    M (SDec els) r = qsum (map (fun ps : sdd * sdd => M ps.1 r * M ps.2 r)%Qc els).
  Proof. intros H1 H2. exact (mu_dec f i T bools (Env nob r) els H1 H2). Qed.

  Lemma M_fine n : is_sdd n -> (forall v, v ∈ svars n -> v ∈ upto N) -> fine (M n).
  Proof.
    induction n using sdd_ind'; intros Hs Hv.
    - apply (fi_same _ _ _ _ HJ (fun _ => 1%Qc)); [|apply (fi_number _ _ _ _ HJ)]. intros r. symmetry. apply mu_true.
    - apply (fi_same _ _ _ _ HJ (fun _ => 0%Qc)); [|apply (fi_number _ _ _ _ HJ)]. intros r. symmetry. apply mu_false.
    - assert (Z.abs_nat z ∈ upto N) as Hz by (apply Hv; by left).
      destruct (mu_lit f i T bools HB (Env nob (fun _ => 0%Qc)) z Hz) as (m & Em & Hm). destruct m as [x|c].
      + apply (fi_same _ _ _ _ HJ (fun _ => half)); [|apply (fi_number _ _ _ _ HJ)]. intros r. symmetry.
        destruct (mu_lit f i T bools HB (Env nob r) z Hz) as (m & Em' & Hm'). rewrite Em in Em'. injection Em' as <-. apply Hm'.
      + destruct Hm as (Ht & _). destruct Ht as (a & b & Hc & Ha & Hb & Hoff).
        pose proof (fi_test _ _ _ _ HJ (if (z <? 0)%Z then mkNot c else c) a b nob) as Hft.
        apply (fi_same _ _ _ _ HJ (fun r => truth (Env nob r) (if (z <? 0)%Z then mkNot c else c))).
        * intros r. destruct (mu_lit f i T bools HB (Env nob r) z Hz) as (m & Em' & Hm'). rewrite Em in Em'. injection Em' as <-.
          destruct Hm' as (_ & _ & _ & v & Ev & E'). unfold M. rewrite E'. unfold truth.
          assert (eval (Env nob r) (if (z <? 0)%Z then mkNot c else c) = Some (VB (if (z <? 0)%Z then negb v else v))) as ->.
          { destruct (z <? 0)%Z; [|done]. rewrite (eval_mkNot_eq _ c _ Ev). cbn [eval]. by rewrite Ev. }
          destruct (if (z <? 0)%Z then negb v else v); [by rewrite bool_decide_eq_true_2|by rewrite bool_decide_eq_false_2].
        * apply Hft; try done. destruct (z <? 0)%Z; [by apply compares_mkNot|done].
    - inversion Hs as [| | |? HF HD _]; subst.
      apply (fi_same _ _ _ _ HJ (fun r => qsum (map (fun ps : sdd * sdd => M ps.1 r * M ps.2 r)%Qc els))).
      { intros r. symmetry. by apply M_dec. }
      assert (Forall (fun ps : sdd * sdd => fine (M ps.1) /\ fine (M ps.2)) els) as HX.
      { rewrite Forall_forall in *. intros [p s] Hin. destruct (H _ Hin) as [IH1 IH2], (HF _ Hin) as [F1 F2]. cbn [fst snd] in *.
        split; [apply IH1|apply IH2]; try done; intros v Hvv; apply Hv, (svars_els els p s); auto. }
      clear -HX HJ. induction HX as [|ps els [H1 H2] _ IH]; [exact (fi_number _ _ _ _ HJ 0%Qc)|].
      apply (fi_same _ _ _ _ HJ (fun r => M ps.1 r * M ps.2 r + qsum (map (fun ps : sdd * sdd => M ps.1 r * M ps.2 r) els))%Qc).
      { intros r. cbn [map]. by rewrite qsum_cons. }
      apply (fi_plus _ _ _ _ HJ); [by apply (fi_times _ _ _ _ HJ)|done].
  Qed.

  Lemma M_keeps n z v (P : Qc -> bool) : entails n z -> (forall e, lit_true (number_world i e) z = true -> P (er e v) = true) ->
    keeps v P (M n).
  Proof.
    intros He HPz r Hr. destruct (P (r v)) eqn:EP; [done|]. destruct Hr. unfold M.
    rewrite (mean_ext _ _ _ (fun _ => 0%Qc)); [apply mean_const|]. intros b. unfold F. cbn [er].
    destruct (sat (number_world i (Env b r)) n) eqn:Esat; [|done]. apply He, HPz in Esat. cbn in Esat. congruence.
  Qed.

  Lemma M_free n g v : is_sdd n -> trimmed n -> (forall v, v ∈ svars n -> v ∈ upto N) -> g ∉ tg l2g n -> v ∈ (gr groups g).1 -> free_of v (M n).
  Proof.
    intros Hs Ht Hv Hg Hin. revert Hs Ht Hv Hg. induction n using sdd_ind'; intros Hs Ht Hv Hg r r' Hr.
    - by unfold M; rewrite !mu_true.
    - by unfold M; rewrite !mu_false.
    - assert (Z.abs_nat z ∈ upto N) as Hz by (apply Hv; by left). unfold M.
      destruct (mu_lit f i T bools HB (Env nob r) z Hz) as (m & Em & Hm), (mu_lit f i T bools HB (Env nob r') z Hz) as (m' & Em' & Hm').
      rewrite Em in Em'. injection Em' as <-. destruct m as [x|c].
      + destruct Hm as (_ & _ & ->), Hm' as (_ & _ & ->). done.
      + destruct Hm as (Ht' & _ & _ & u & Eu & ->), Hm' as (_ & _ & _ & u' & Eu' & ->).
        destruct (Hl2g z c Hz Em) as (d & Hd & Hgs).
        assert (Some (VB u) = Some (VB u')) as [= ->]; [|done]. rewrite <- Eu, <- Eu'. apply (test_free f c d); try done.
        intros y Hy. cbn. apply Hr. intros ->. apply Hg, Hgs. eauto.
    - inversion Hs as [| | |? HF HD _]; subst. inversion Ht as [| | |? HT _]; subst. rewrite !M_dec by done. f_equal.
      apply map_ext_in. intros [p s] Hps%elem_of_list_In. cbn [fst snd]. rewrite Forall_forall in H, HF, HT.
      destruct (H _ Hps) as [IH1 IH2], (HF _ Hps) as [S1 S2], (HT _ Hps) as [T1 T2]. cbn [fst snd] in *.
      destruct (live (p, s)) eqn:Hl.
      + f_equal; [apply IH1|apply IH2]; try done; try (intros u Hu; apply Hv, (svars_els els p s); auto);
          intros Hg'; apply Hg, tg_dec; exists p, s; auto.
      + unfold live in Hl. cbn [fst snd] in Hl. apply negb_false_iff, orb_true_iff in Hl as [Hl|Hl].
        * destruct p; try done. unfold M. rewrite !mu_false. ring.
        * destruct s; try done. unfold M. rewrite !mu_false. ring.
  Qed.

  Lemma gr_bound g v : v ∈ (gr groups g).1 -> g < length groups.
  Proof.
    unfold gr. destruct (groups !! g) eqn:Eg; [intros _; by apply lookup_lt_Some in Eg|]. intros H. by apply elem_of_nil in H.
  Qed.
  Lemma tg_var n g : (forall v, v ∈ svars n -> v ∈ upto N) -> g ∈ tg l2g n -> exists v, v ∈ (gr groups g).1.
  Proof.
    induction n using sdd_ind'; intros Hv Hg; try by apply elem_of_nil in Hg.
    - assert (Z.abs_nat z ∈ upto N) as Hz by (apply Hv; by left).
      destruct (number_meaning f i T _ Hz) as (lit & m & _ & _ & _ & _ & Em & _). rewrite <- number_val_abs in Em. destruct m as [x|c].
      + rewrite (Hl2b z x Hz Em) in Hg. by apply elem_of_nil in Hg.
      + destruct (Hl2g z c Hz Em) as (d & _ & Hgs). apply Hgs in Hg as (v & _ & Hin). eauto.
    - apply tg_dec in Hg as (p & s & Hin & _ & Hg). rewrite Forall_forall in H. destruct (H _ Hin) as [H1 H2]. cbn [fst snd] in *.
      destruct Hg as [Hg|Hg]; [apply H1|apply H2]; try done; intros v Hvv; apply Hv, (svars_els els p s); auto.
  Qed.

  (** ** What is needed of a node *)
  Definition confined (n : sdd) (v : string) (g : nat) : Prop :=
    exists zl zh lo hi, entails n zl /\ entails n zh /\
      (forall e, lit_true (number_world i e) zl = true -> qle lo (er e v) = true) /\
      (forall e, lit_true (number_world i e) zh = true -> qle (er e v) hi = true) /\
      g ∈ tg l2g (SLit zl) /\ g ∈ tg l2g (SLit zh).

  Record pre (n : sdd) (ts : list nat) : Prop := {
    pr_below : below n root;
    pr_sdd : is_sdd n;
    pr_trim : trimmed n;
    pr_align : live_aligned i n;
    pr_vars : forall v, v ∈ svars n -> v ∈ upto N;
    pr_live : n <> SFalse;
    pr_nodup : NoDup ts;
    pr_tags : forall g, g ∈ ts -> g ∈ tg l2g n;
    pr_conf : forall g v, g ∈ ts -> v ∈ (gr groups g).1 -> confined n v g }.

  Lemma pre_fit n ts : pre n ts -> fit (tvars ts) (M n).
  Proof.
    intros H. split; [apply M_fine; apply H|]. intros v Hv. apply tvars_in in Hv as (g & Hg & Hv).
    destruct (pr_conf _ _ H g v Hg Hv) as (zl & zh & lo & hi & El & Eh & Pl & Ph & _).
    apply (keeps_within v lo hi); [by apply (M_keeps n zl)|by apply (M_keeps n zh)].
  Qed.

  Lemma frozen_perm n ts : pre n ts -> frozen groups ts ≡ₚ ts.
  Proof.
    intros H. unfold frozen. apply NoDup_Permutation; [apply NoDup_filter, NoDup_ListNoDup, seq_NoDup|apply H|]. intros g.
    rewrite elem_of_list_filter. split; [by intros [? _]|]. intros Hg. split; [done|]. apply elem_of_list_In, in_seq.
    destruct (tg_var n g (pr_vars _ _ H) (pr_tags _ _ H g Hg)) as [v Hv]. apply gr_bound in Hv. lia.
  Qed.

  (** ** Integrating over groups *)
  Lemma integrate_groups_ok ts : NoDup ts -> (forall g, g ∈ ts -> exists v, v ∈ (gr groups g).1) -> forall (h : rfn) x,
    fit (tvars ts) h -> shows h x -> exists y, integrate_groups A integrate groups x ts = Ok y /\ shows (NT ts h) y.
  Proof.
    unfold integrate_groups. induction ts as [|g ts IH]; intros Hnd Hb h x Hh Hx; cbn [fold_left].
    - exists x. split; [done|]. apply (shows_same h); [done|]. intros r. unfold Factor_Integral.NT. cbn. unfold tpol. cbn. ring.
    - assert (NoDup ts /\ g ∉ ts) as [Hnd' Hg] by by apply NoDup_cons in Hnd as [? ?].
      destruct (Hb g) as [v0 Hv0]; [by left|].
      destruct (lookup_lt_is_Some_2 groups g) as [[vs p] Eg]; [by apply gr_bound in Hv0|]. cbn [rbind]. rewrite Eg.
      assert (gr groups g = (vs, p)) as Egr by (unfold gr; by rewrite Eg).
      assert (vs <> []) as Hne by (intros ->; rewrite Egr in Hv0; cbn in Hv0; by apply elem_of_nil in Hv0).
      assert (forall v, v ∈ vs -> v ∈ tvars (g :: ts)) as Hin.
      { intros v Hv. apply tvars_in. exists g. split; [by left|]. by rewrite Egr. }
      destruct HG as (G1 & G2 & G3 & G4).
      pose proof (G4 g) as G4g. pose proof (G1 g) as G1g. rewrite Egr in G4g, G1g. cbn [fst snd] in G4g, G1g.
      destruct (HInt vs (fun r => h r * pval p r)%Qc (alg_times A x (to_expression A p))) as (y & Ey & Sy); [done|done| | |].
      { rewrite Forall_forall. intros v Hv. apply within_mul_l. apply Hh. by apply Hin. }
      { apply shows_times; [done|]. by apply shows_poly. }
      rewrite Ey. fold (joint J vs (fun r => h r * pval p r)%Qc) in *.
      assert (NoDup (ts ++ [g])) as Hnd2.
      { rewrite <- Permutation_cons_append. done. }
      assert (ts ++ [g] ≡ₚ g :: ts) as Hperm by by rewrite <- Permutation_cons_append.
      assert (fit (tvars (ts ++ [g])) h) as Hh2.
      { apply (fit_sub fine (tvars (g :: ts))); [|done]. intros v. apply tvars_mono. intros k Hk. by rewrite <- Hperm. }
      assert (fit (tvars ts ++ tvars [g]) h) as Hh3 by by rewrite <- (tvars_app groups).
      assert (forall r, joint J vs (fun r => h r * pval p r)%Qc r = NT [g] h r) as HNT.
      { intros r. unfold Factor_Integral.NT, Factor_Integral.tvars. cbn [map concat]. rewrite app_nil_r, Egr. cbn [fst].
        apply (joint_point _ _ _ _ HJ); [|  |done].
        - apply (fi_times _ _ _ _ HJ); [apply Hh|done].
        - intros q. unfold tpol. cbn [fold_right]. rewrite Egr. cbn [snd]. ring. }
      destruct (IH Hnd' (fun k Hk => Hb k (elem_of_list_further k g ts Hk)) (NT [g] h) y) as (y' & Ey' & Sy').
      + apply (NT_fit _ _ _ _ HJ groups HG); [apply NoDup_singleton| |done].
        intros v Hv Hv'. revert Hv'. apply (tvars_disj fine groups HG ts); [|done]. intros k Hk Hk'.
        apply elem_of_list_singleton in Hk' as ->. done.
      + by apply (shows_same _ _ _ Sy).
      + exists y'. split; [done|]. apply (shows_ae _ _ _ Sy').
        * apply (NT_fine _ _ _ _ HJ groups HG); done.
        * apply (ae_trans _ _ _ _ HJ _ (NT (ts ++ [g]) h)); [by apply (NT_app _ _ _ _ HJ groups HG)|].
          by apply (NT_perm _ _ _ _ HJ groups HG).
  Qed.

  Lemma extend_ok ts sh0 : NoDup ts -> NoDup sh0 -> (forall g, g ∈ sh0 -> g ∈ ts) -> (forall g, g ∈ ts -> g < length groups) ->
    exists sh, extend_shared order ts sh0 = Ok sh /\ NoDup sh /\ (forall g, g ∈ sh0 -> g ∈ sh) /\ (forall g, g ∈ sh -> g ∈ ts) /\
      shared_order iter order sh ≡ₚ sh.
  Proof.
    intros Hts Hsh Hsub Hb.
    assert (forall sh, NoDup sh -> (forall g, g ∈ sh -> g ∈ ts) -> shared_order iter order sh ≡ₚ sh) as HO.
    { intros sh Hnd Hs. unfold shared_order. destruct order as [[|g0 o']|]; [apply Hiter| |apply Hiter].
      pose proof (Horder _ eq_refl) as Ho. apply NoDup_Permutation; [|done|].
      - apply NoDup_filter. rewrite Ho. apply NoDup_ListNoDup, seq_NoDup.
      - intros g. rewrite elem_of_list_filter. split; [by intros [? _]|]. intros Hg. split; [done|]. rewrite Ho.
        apply elem_of_list_In, in_seq. specialize (Hb g (Hs g Hg)). lia. }
    assert (forall sh, extend_shared order ts sh0 = Ok sh -> NoDup sh -> (forall g, g ∈ sh0 -> g ∈ sh) -> (forall g, g ∈ sh -> g ∈ ts) ->
      exists sh, extend_shared order ts sh0 = Ok sh /\ NoDup sh /\ (forall g, g ∈ sh0 -> g ∈ sh) /\ (forall g, g ∈ sh -> g ∈ ts) /\
      shared_order iter order sh ≡ₚ sh) as HH.
    { intros sh E1 E2 E3 E4. exists sh. split_and!; auto. }
    unfold extend_shared in *. destruct order as [[|g0 o']|]; [by apply (HH sh0)| |by apply (HH sh0)].
    pose proof (Horder _ eq_refl) as Ho.
    destruct sh0 as [|g sh0]; [by apply (HH [])|]. remember (g :: sh0) as l.
    destruct (rmapM_index (g0 :: o') l) as (ks & Ek & Lk).
    { intros h Hh. rewrite Ho. apply elem_of_list_In, in_seq. specialize (Hb h (Hsub h Hh)). lia. }
    rewrite Ek in *. cbn [rbind] in *. destruct ks as [|k ks]; [by apply (HH l)|].
    eapply HH; [done| | |].
    - apply tuni_nodup; [done|]. by apply NoDup_filter.
    - intros h Hh. apply tuni_elem. by left.
    - intros h Hh. apply tuni_elem in Hh as [Hh|Hh]; [auto|]. by apply tinter_elem in Hh as [? _].
  Qed.

  (** ** The recursion *)
  Notation rec := (recursive A parse_condition integrate iter i [] groups n2g order).
  Notation cache := (list (sdd * list nat * (E * list string))).
  Definition cok (c : cache) : Prop :=
    forall n K r, dget c (n, K) = Some r -> counted (NT K (M n)) (live_names i n) r.

  Definition rgo (tags : list nat) := fix go (els : list (sdd * sdd)) (acc : E * list string) (c : cache) : Res (E * list string * cache) :=
    match els with
    | [] => Ok (acc, c)
    | (prime, sub) :: els =>
        let! (wa, c1) :=
          (if is_false_node prime || is_false_node sub then Ok ((alg_zero A, []), c)
           else
             let! gp := dlookup n2g prime in
             let! gs := dlookup n2g sub in
             let tags_prime := tinter gp tags in
             let tags_sub := tinter gs tags in
             let! shared := extend_shared order tags (tinter tags_prime tags_sub) in
             let! (rp, c1) := rec prime (tdiff tags_prime shared) c in
             let! (rs, c2) := rec sub (tdiff tags_sub shared) c1 in
             let! x := integrate_groups A integrate groups (alg_times A rp.1 rs.1) (shared_order iter order shared) in
             Ok ((x, uni rp.2 rs.2), c2)) in
        let! acc' := nonconvex_plus A acc wa in
        go els acc' c1
    end.
  Definition relem (tags : list nat) (prime sub : sdd) (c : cache) : Res (E * list string * cache) :=
    if is_false_node prime || is_false_node sub then Ok ((alg_zero A, []), c)
    else
      let! gp := dlookup n2g prime in
      let! gs := dlookup n2g sub in
      let tags_prime := tinter gp tags in
      let tags_sub := tinter gs tags in
      let! shared := extend_shared order tags (tinter tags_prime tags_sub) in
      let! (rp, c1) := rec prime (tdiff tags_prime shared) c in
      let! (rs, c2) := rec sub (tdiff tags_sub shared) c1 in
      let! x := integrate_groups A integrate groups (alg_times A rp.1 rs.1) (shared_order iter order shared) in
      Ok ((x, uni rp.2 rs.2), c2).
  Lemma rgo_cons tags p s els acc c : rgo tags ((p, s) :: els) acc c =
    let! (wa, c1) := relem tags p s c in let! acc' := nonconvex_plus A acc wa in rgo tags els acc' c1.
  Proof. reflexivity. Qed.
  Lemma rec_dec els tags c : dget c (SDec els, frozen groups tags) = None ->
    rec (SDec els) tags c = let! (r, c1) := rgo tags els (alg_zero A, []) c in Ok (r, dset c1 (SDec els, frozen groups tags) r).
  Proof. intros H. cbn [recursive]. rewrite H. reflexivity. Qed.

  Lemma cok_dset (c : cache) n K r : cok c -> counted (NT K (M n)) (live_names i n) r -> cok (dset c (n, K) r).
  Proof.
    intros Hc Hr n' K' r'. rewrite dget_dset. destruct (decide ((n, K) = (n', K'))) as [[= <- <-]|]; [by intros [= <-]|apply Hc].
  Qed.

  Definition rec_good (n : sdd) : Prop := forall ts c, pre n ts -> cok c ->
    exists r c', rec n ts c = Ok (r, c') /\ counted (NT ts (M n)) (live_names i n) r /\ cok c'.

  Lemma counted_frozen n ts r : pre n ts -> counted (NT ts (M n)) (live_names i n) r ->
    counted (NT (frozen groups ts) (M n)) (live_names i n) r.
  Proof.
    intros Hp Hr. pose proof (pre_fit n ts Hp) as Hf. pose proof (frozen_perm n ts Hp) as HF. revert Hr. apply counted_ae.
    - apply (NT_fine _ _ _ _ HJ groups HG); [rewrite HF; apply Hp|]. apply (fit_sub fine (tvars ts)); [|done].
      intros v. apply tvars_mono. intros g Hg. by rewrite <- HF.
    - apply (NT_perm _ _ _ _ HJ groups HG); [done|apply Hp|done].
  Qed.
  Lemma frozen_counted n ts r : pre n ts -> counted (NT (frozen groups ts) (M n)) (live_names i n) r ->
    counted (NT ts (M n)) (live_names i n) r.
  Proof.
    intros Hp Hr. pose proof (pre_fit n ts Hp) as Hf. pose proof (frozen_perm n ts Hp) as HF. revert Hr. apply counted_ae.
    - apply (NT_fine _ _ _ _ HJ groups HG); [apply Hp|done].
    - apply (ae_sym _ _ _ _ HJ). apply (NT_perm _ _ _ _ HJ groups HG); [done|apply Hp|done].
  Qed.

  (** One element. *)
  Section element.
    Context (els : list (sdd * sdd)) (ts : list nat) (Hpre : pre (SDec els) ts) (p s : sdd) (Hin : (p, s) ∈ els) (Hl : live (p, s) = true).
    Context (a b c : list nat).
    Hypothesis Hc : NoDup c /\ (forall g, g ∈ c -> g ∈ ts) /\ (forall g, g ∈ ts -> g ∈ tg l2g p -> g ∈ tg l2g s -> g ∈ c).
    Hypothesis Ha : NoDup a /\ forall g, g ∈ a <-> g ∈ tg l2g p /\ g ∈ ts /\ g ∉ c.
    Hypothesis Hb : NoDup b /\ forall g, g ∈ b <-> g ∈ tg l2g s /\ g ∈ ts /\ g ∉ c.

    Lemma el_parts : is_sdd p /\ is_sdd s /\ trimmed p /\ trimmed s /\ p <> SFalse /\ s <> SFalse /\
      (forall v, v ∈ svars p -> v ∉ svars s) /\ (forall v, v ∈ svars p -> v ∈ upto N) /\ (forall v, v ∈ svars s -> v ∈ upto N).
    Proof.
      destruct (elem_parts els (pr_sdd _ _ Hpre) (pr_trim _ _ Hpre) p s Hin Hl) as (S1 & S2 & T1 & T2 & N1 & N2 & D).
      split_and!; try done; intros v Hv; apply (pr_vars _ _ Hpre), (svars_els els p s); auto.
    Qed.
    Lemma el_entails z : entails (SDec els) z -> entails p z \/ entails s z.
    Proof. apply (elem_entails els (pr_sdd _ _ Hpre) (pr_trim _ _ Hpre) p s Hin Hl). Qed.
    Lemma pos_upto v : v ∈ upto N -> v <> 0.
    Proof. intros Hv ->. unfold upto in Hv. apply elem_of_list_In, in_seq in Hv. lia. Qed.
    Lemma el_tags_p z g : entails p z -> g ∈ tg l2g (SLit z) -> g ∈ tg l2g p.
    Proof.
      destruct el_parts as (S1 & S2 & T1 & T2 & N1 & N2 & D & V1 & V2). intros He. apply entails_tags; try done.
      intros v Hv. by apply pos_upto, V1.
    Qed.
    Lemma el_tags_s z g : entails s z -> g ∈ tg l2g (SLit z) -> g ∈ tg l2g s.
    Proof.
      destruct el_parts as (S1 & S2 & T1 & T2 & N1 & N2 & D & V1 & V2). intros He. apply entails_tags; try done.
      intros v Hv. by apply pos_upto, V2.
    Qed.
    Lemma el_cover g : g ∈ ts -> g ∈ tg l2g p \/ g ∈ tg l2g s.
    Proof.
      intros Hg. destruct (tg_var _ g (pr_vars _ _ Hpre) (pr_tags _ _ Hpre g Hg)) as [v Hv].
      destruct (pr_conf _ _ Hpre g v Hg Hv) as (zl & zh & lo & hi & El & _ & _ & _ & Gl & _).
      destruct (el_entails zl El) as [H|H]; [left; by apply (el_tags_p zl)|right; by apply (el_tags_s zl)].
    Qed.
    Lemma el_nodup : NoDup (c ++ a ++ b).
    Proof.
      destruct Hc as (Nc & C1 & C2), Ha as [Na A1], Hb as [Nb B1]. apply NoDup_app. split_and!; [done| |].
      - intros g Hg Hg'. apply elem_of_app in Hg' as [Hg'|Hg']; [apply A1 in Hg'|apply B1 in Hg']; tauto.
      - apply NoDup_app. split_and!; [done| |done]. intros g Hg Hg'. apply A1 in Hg. apply B1 in Hg'.
        destruct Hg as (G1 & G2 & G3), Hg' as (G4 & _ & _). by apply G3, C2.
    Qed.
    Lemma el_perm : c ++ a ++ b ≡ₚ ts.
    Proof.
      destruct Hc as (Nc & C1 & C2), Ha as [Na A1], Hb as [Nb B1].
      apply NoDup_Permutation; [apply el_nodup|apply Hpre|]. intros g. rewrite !elem_of_app, A1, B1. split.
      - intros [H|[H|H]]; [auto|tauto|tauto].
      - intros Hg. destruct (decide (g ∈ c)); [by left|right]. destruct (el_cover g Hg); [left|right]; tauto.
    Qed.
    Lemma el_pre_p : pre p a.
    Proof.
      destruct el_parts as (S1 & S2 & T1 & T2 & N1 & N2 & D & V1 & V2).
      destruct Hc as (Nc & C1 & C2), Ha as [Na A1].
      split; try done.
      - pose proof (pr_below _ _ Hpre) as HBl. clear -HBl Hin. remember (SDec els) as n. induction HBl; subst.
        + apply (bl_prime _ els p s); [done|constructor].
        + eapply bl_prime; [done|by apply IHHBl].
        + eapply bl_sub; [done|by apply IHHBl].
      - pose proof (pr_align _ _ Hpre) as HX. inversion HX as [| | |? HF _]; subst. rewrite Forall_forall in HF. by destruct (HF _ Hin).
      - intros g Hg. by apply A1 in Hg as [? _].
      - intros g v Hg Hv. apply A1 in Hg as (G1 & G2 & G3).
        destruct (pr_conf _ _ Hpre g v G2 Hv) as (zl & zh & lo & hi & El & Eh & Pl & Ph & Gl & Gh).
        exists zl, zh, lo, hi. split_and!; try done.
        + destruct (el_entails zl El) as [H|H]; [done|]. destruct G3. apply C2; [done|done|by apply (el_tags_s zl)].
        + destruct (el_entails zh Eh) as [H|H]; [done|]. destruct G3. apply C2; [done|done|by apply (el_tags_s zh)].
    Qed.
    Lemma el_pre_s : pre s b.
    Proof.
      destruct el_parts as (S1 & S2 & T1 & T2 & N1 & N2 & D & V1 & V2).
      destruct Hc as (Nc & C1 & C2), Hb as [Nb B1].
      split; try done.
      - pose proof (pr_below _ _ Hpre) as HBl. clear -HBl Hin. remember (SDec els) as n. induction HBl; subst.
        + apply (bl_sub _ els p s); [done|constructor].
        + eapply bl_prime; [done|by apply IHHBl].
        + eapply bl_sub; [done|by apply IHHBl].
      - pose proof (pr_align _ _ Hpre) as HX. inversion HX as [| | |? HF _]; subst. rewrite Forall_forall in HF. by destruct (HF _ Hin).
      - intros g Hg. by apply B1 in Hg as [? _].
      - intros g v Hg Hv. apply B1 in Hg as (G1 & G2 & G3).
        destruct (pr_conf _ _ Hpre g v G2 Hv) as (zl & zh & lo & hi & El & Eh & Pl & Ph & Gl & Gh).
        exists zl, zh, lo, hi. split_and!; try done.
        + destruct (el_entails zl El) as [H|H]; [|done]. destruct G3. apply C2; [done|by apply (el_tags_p zl)|done].
        + destruct (el_entails zh Eh) as [H|H]; [|done]. destruct G3. apply C2; [done|by apply (el_tags_p zh)|done].
    Qed.
    Lemma el_fit : fit (tvars ts) (fun r => M p r * M s r)%Qc.
    Proof.
      destruct el_parts as (S1 & S2 & T1 & T2 & N1 & N2 & D & V1 & V2).
      split; [apply (fi_times _ _ _ _ HJ); by apply M_fine|]. intros v Hv. apply tvars_in in Hv as (g & Hg & Hv).
      destruct (pr_conf _ _ Hpre g v Hg Hv) as (zl & zh & lo & hi & El & Eh & Pl & Ph & Gl & Gh).
      apply (keeps_within v lo hi).
      - destruct (el_entails zl El) as [H|H]; [apply keeps_mul_l|apply keeps_mul_r]; by apply (M_keeps _ zl).
      - destruct (el_entails zh Eh) as [H|H]; [apply keeps_mul_l|apply keeps_mul_r]; by apply (M_keeps _ zh).
    Qed.
    Lemma el_fit_c : fit (tvars c) (fun r => NT a (M p) r * NT b (M s) r)%Qc.
    Proof.
      pose proof el_nodup as Hnd. apply NoDup_app in Hnd as (Nc & Dc & Nab). apply NoDup_app in Nab as (Na & _ & Nb).
      split.
      - apply (fi_times _ _ _ _ HJ); apply (NT_fine _ _ _ _ HJ groups HG); try done; [apply (pre_fit p a el_pre_p)|apply (pre_fit s b el_pre_s)].
      - intros v Hv.
        assert (v ∉ tvars a) as Va.
        { apply (tvars_disj fine groups HG c a v); [|done]. intros g Hg Hg'. apply (Dc g Hg), elem_of_app. by left. }
        assert (v ∉ tvars b) as Vb.
        { apply (tvars_disj fine groups HG c b v); [|done]. intros g Hg Hg'. apply (Dc g Hg), elem_of_app. by right. }
        apply tvars_in in Hv as (g & Hg & Hv). destruct Hc as (_ & C1 & _).
        destruct (pr_conf _ _ Hpre g v (C1 g Hg) Hv) as (zl & zh & lo & hi & El & Eh & Pl & Ph & Gl & Gh).
        apply (keeps_within v lo hi).
        + destruct (el_entails zl El) as [H|H]; [apply keeps_mul_l|apply keeps_mul_r];
            (apply (NT_keeps _ _ _ _ HJ groups); [done|]); by apply (M_keeps _ zl).
        + destruct (el_entails zh Eh) as [H|H]; [apply keeps_mul_l|apply keeps_mul_r];
            (apply (NT_keeps _ _ _ _ HJ groups); [done|]); by apply (M_keeps _ zh).
    Qed.
    Lemma el_value : ae (NT c (fun r => NT a (M p) r * NT b (M s) r)%Qc) (NT ts (fun r => M p r * M s r)%Qc).
    Proof.
      destruct el_parts as (S1 & S2 & T1 & T2 & N1 & N2 & D & V1 & V2).
      pose proof el_fit as Hf. pose proof el_perm as Hp. destruct Hc as (Nc & C1 & C2), Ha as [Na A1], Hb as [Nb B1].
      assert (fit (tvars (c ++ a ++ b)) (fun r => M p r * M s r)%Qc) as Hf'.
      { apply (fit_sub fine (tvars ts)); [|done]. intros v. apply tvars_mono. intros g Hg. by rewrite <- Hp. }
      apply (ae_trans _ _ _ _ HJ _ (NT (c ++ a ++ b) (fun r => M p r * M s r)%Qc)).
      - apply (NT_split _ _ _ _ HJ groups HG); [apply el_nodup|apply (pre_fit p a el_pre_p)|apply (pre_fit s b el_pre_s)|done| | |apply el_fit_c].
        + intros v Hv. apply tvars_in in Hv as (g & Hg & Hv). apply A1 in Hg as (G1 & G2 & G3).
          apply (M_free s g v); try done. intros G4. by apply G3, C2.
        + intros v Hv. apply tvars_in in Hv as (g & Hg & Hv). apply B1 in Hg as (G1 & G2 & G3).
          apply (M_free p g v); try done. intros G4. by apply G3, C2.
      - apply (NT_perm _ _ _ _ HJ groups HG); [done|apply el_nodup|done].
    Qed.
  End element.

  Lemma M_0 n r : n = SFalse -> M n r = 0%Qc.
  Proof. intros ->. apply mu_false. Qed.
  Lemma dead_0 p s r : live (p, s) = false -> (M p r * M s r = 0)%Qc.
  Proof.
    intros Hl. unfold live in Hl. cbn [fst snd] in Hl. apply negb_false_iff, orb_true_iff in Hl as [Hl|Hl].
    - rewrite (M_0 p) by by destruct p. ring.
    - rewrite (M_0 s) by by destruct s. ring.
  Qed.
  Lemma elem_fit els ts ps : pre (SDec els) ts -> ps ∈ els -> fit (tvars ts) (fun r => M ps.1 r * M ps.2 r)%Qc.
  Proof.
    intros Hpre Hin. destruct ps as [p s]. cbn [fst snd]. destruct (live (p, s)) eqn:Hl.
    - exact (el_fit els ts Hpre p s Hin Hl).
    - apply (fit_same _ _ _ _ HJ _ (fun _ => 0%Qc)); [|apply (fit_0 _ _ _ _ HJ)]. intros r. symmetry. by apply dead_0.
  Qed.

  (** The sum over the elements. *)
  Lemma sum_elems els ts : pre (SDec els) ts -> forall l, (forall ps, ps ∈ l -> ps ∈ els) ->
    fit (tvars ts) (fun r => qsum (map (fun ps : sdd * sdd => M ps.1 r * M ps.2 r)%Qc l)) /\
    ae (fun r => qsum (map (fun ps : sdd * sdd => NT ts (fun r => M ps.1 r * M ps.2 r)%Qc r) l))
       (NT ts (fun r => qsum (map (fun ps : sdd * sdd => M ps.1 r * M ps.2 r)%Qc l))).
  Proof.
    intros Hpre l. induction l as [|ps l IH]; intros Hl.
    - split; [apply (fit_0 _ _ _ _ HJ)|]. apply (ae_point _ _ _ _ HJ). intros r. symmetry. by apply (NT_zero _ _ _ _ HJ groups).
    - destruct IH as [IH1 IH2]; [intros qt Hqt; apply Hl; by right|].
      pose proof (elem_fit els ts ps Hpre (Hl ps (elem_of_list_here _ _))) as Hps.
      assert (forall r, (M ps.1 r * M ps.2 r + qsum (map (fun ps : sdd * sdd => M ps.1 r * M ps.2 r) l) =
        qsum (map (fun ps : sdd * sdd => M ps.1 r * M ps.2 r) (ps :: l)))%Qc) as HE.
      { intros r. cbn [map]. by rewrite qsum_cons. }
      pose proof (fit_plus _ _ _ _ HJ _ _ _ Hps IH1) as Hf. pose proof (pr_nodup _ _ Hpre) as Hnd.
      split; [by apply (fit_same _ _ _ _ HJ _ _ _ HE)|].
      apply (ae_trans _ _ _ _ HJ _ (fun r => NT ts (fun r => M ps.1 r * M ps.2 r)%Qc r +
        NT ts (fun r => qsum (map (fun ps : sdd * sdd => M ps.1 r * M ps.2 r)%Qc l)) r)%Qc).
      { apply (ae_trans _ _ _ _ HJ _ (fun r => NT ts (fun r => M ps.1 r * M ps.2 r)%Qc r +
          qsum (map (fun ps : sdd * sdd => NT ts (fun r => M ps.1 r * M ps.2 r)%Qc r) l))%Qc).
        - apply (ae_point _ _ _ _ HJ). intros r. cbn [map]. by rewrite qsum_cons.
        - apply (ig_plus _ _ _ _ HJ); [apply (ae_refl _ _ _ _ HJ)|done]. }
      apply (ae_trans _ _ _ _ HJ _ (NT ts (fun r => M ps.1 r * M ps.2 r + qsum (map (fun ps : sdd * sdd => M ps.1 r * M ps.2 r) l))%Qc)).
      + apply (ae_sym _ _ _ _ HJ). by apply (NT_plus _ _ _ _ HJ groups HG).
      + apply (NT_ae _ _ _ _ HJ groups HG); [done|done|by apply (fit_same _ _ _ _ HJ _ _ _ HE)|by apply (ae_point _ _ _ _ HJ)].
  Qed.

  Lemma rec_value n : rec_good n.
  Proof.
    induction n using sdd_ind'; intros ts c Hpre Hc.
    - (* true *)
      assert (ts = []) as ->.
      { destruct ts as [|g ts]; [done|]. pose proof (pr_tags _ _ Hpre g (elem_of_list_here _ _)) as H. by apply elem_of_nil in H. }
      assert (counted (NT [] (M STrue)) [] (alg_one A, [])) as H1.
      { split; [constructor|]. split; [done|]. apply (shows_same (fun _ => 1%Qc)); [apply shows_real|]. intros r.
        unfold Factor_Integral.NT. cbn. unfold tpol, M. cbn. rewrite mu_true. ring. }
      cbn [recursive]. destruct (dget c _) as [r|] eqn:Ec.
      + exists r, c. split; [done|]. split; [|done]. apply frozen_counted; [done|]. by apply Hc in Ec.
      + eexists _, _. split; [done|]. split; [done|]. apply cok_dset; [done|]. by apply counted_frozen.
    - by destruct (pr_live _ _ Hpre).
    - (* literal *)
      cbn [recursive]. destruct (dget c _) as [r|] eqn:Ec.
      { exists r, c. split; [done|]. split; [|done]. apply frozen_counted; [done|]. by apply Hc in Ec. }
      assert (Z.abs_nat z ∈ upto N) as Hz by (apply (pr_vars _ _ Hpre); by left).
      assert (exists x vs, walk_literal A parse_condition i [] z = Ok (x, vs) /\ counted (M (SLit z)) (live_names i (SLit z)) (x, vs)) as (x & vs & Ew & Cw).
      { destruct (mu_lit f i T bools HB (Env nob (fun _ => 0%Qc)) z Hz) as (m & Em & Hm). unfold walk_literal, lit_meaning.
        cbn [live_names]. rewrite Em. cbn [rbind]. destruct m as [x|t].
        - eexists _, _. split; [done|]. split; [apply NoDup_singleton|]. split; [done|].
          apply (shows_same (fun _ => 1%Qc)); [apply shows_real|]. intros r.
          destruct (mu_lit f i T bools HB (Env nob r) z Hz) as (m & E' & Hm'). rewrite Em in E'. injection E' as <-.
          unfold M. destruct Hm' as (_ & _ & ->). cbn [length snd qpow]. transitivity (qz 2 * half)%Qc; [by rewrite half_2|ring].
        - destruct Hm as (Ht & _). pose proof Ht as (a & b & Hcmp & Hla & Hlb & Hoff).
          destruct (HP (if (z <? 0)%Z then mkNot t else t) a b) as (y & h & Ey & Vy & Hy); try done.
          { destruct (z <? 0)%Z; [by apply compares_mkNot|done]. }
          rewrite Ey. cbn [rbind]. eexists _, _. split; [done|]. split; [constructor|]. split; [done|]. cbn [fst snd length qpow].
          assert (fine (M (SLit z))) as HMf by (apply M_fine; apply Hpre).
          apply (shows_same (M (SLit z))); [|intros r; ring]. split; [done|]. exists h. split; [done|].
          apply (ig_null _ _ _ _ HJ). intros r Hr. specialize (Hy (Env nob r) (Hoff _ (Hgen r nob Hr))). cbn [er] in Hy. rewrite Hy.
          destruct (mu_lit f i T bools HB (Env nob r) z Hz) as (m & E' & Hm'). rewrite Em in E'. injection E' as <-.
          destruct Hm' as (_ & _ & _ & v & Ev & E'). unfold M. rewrite E'. unfold truth.
          assert (eval (Env nob r) (if (z <? 0)%Z then mkNot t else t) = Some (VB (if (z <? 0)%Z then negb v else v))) as ->.
          { destruct (z <? 0)%Z; [|done]. rewrite (eval_mkNot_eq _ t _ Ev). cbn [eval]. by rewrite Ev. }
          destruct (if (z <? 0)%Z then negb v else v); [by rewrite bool_decide_eq_true_2|by rewrite bool_decide_eq_false_2]. }
      rewrite Ew. cbn [rbind]. destruct Cw as (C1 & C2 & C3). cbn [fst snd] in *.
      pose proof (pre_fit _ _ Hpre) as Hf.
      assert (forall g, g ∈ ts -> g < length groups) as Hbd.
      { intros g Hg. destruct (tg_var _ g (pr_vars _ _ Hpre) (pr_tags _ _ Hpre g Hg)) as [v Hv]. by apply gr_bound in Hv. }
      set (h := fun r => (qpow (qz 2) (length vs) * M (SLit z) r)%Qc) in *.
      assert (fit (tvars ts) h) as Hfh by (apply (fit_mul_r _ _ _ _ HJ); [apply (fi_number _ _ _ _ HJ)|done]).
      destruct (integrate_groups_ok (iter ts)) with (h := h) (x := x) as (y & Ey & Sy); [rewrite Hiter; apply Hpre| | |done|].
      { intros g. rewrite Hiter. intros Hg. apply (tg_var _ g (pr_vars _ _ Hpre) (pr_tags _ _ Hpre g Hg)). }
      { apply (fit_sub fine (tvars ts)); [|done]. intros v. apply tvars_mono. intros g. by rewrite Hiter. }
      rewrite Ey. cbn [rbind].
      assert (counted (NT ts (M (SLit z))) (live_names i (SLit z)) (y, vs)) as HC.
      { split; [done|]. split; [done|]. cbn [fst snd]. apply (shows_ae _ _ _ Sy).
        - apply (fi_times _ _ _ _ HJ); [apply (fi_number _ _ _ _ HJ)|]. apply (NT_fine _ _ _ _ HJ groups HG); [apply Hpre|done].
        - apply (ae_trans _ _ _ _ HJ _ (NT ts h)).
          + apply (NT_perm _ _ _ _ HJ groups HG); [apply Hiter|rewrite Hiter; apply Hpre|].
            apply (fit_sub fine (tvars ts)); [|done]. intros v. apply tvars_mono. intros g. by rewrite Hiter.
          + apply (NT_scale _ _ _ _ HJ groups HG); [apply Hpre|done]. }
      eexists _, _. split; [done|]. split; [done|]. apply cok_dset; [done|]. by apply counted_frozen.
    - (* decision *)
      destruct (dget c (SDec els, frozen groups ts)) as [r|] eqn:Ec.
      { exists r, c. cbn [recursive]. rewrite Ec. split; [done|]. split; [|done]. apply frozen_counted; [done|]. by apply Hc in Ec. }
      rewrite (rec_dec _ _ _ Ec).
      assert (forall g, g ∈ ts -> g < length groups) as Hbd.
      { intros g Hg. destruct (tg_var _ g (pr_vars _ _ Hpre) (pr_tags _ _ Hpre g Hg)) as [v Hv]. by apply gr_bound in Hv. }
      pose proof (pr_nodup _ _ Hpre) as Hnd.
      assert (forall rest before acc c, els = before ++ rest -> cok c ->
        counted (fun r => qsum (map (fun ps : sdd * sdd => NT ts (fun r => M ps.1 r * M ps.2 r)%Qc r) before)) (live_names i (SDec before)) acc ->
        exists r c', rgo ts rest acc c = Ok (r, c') /\ cok c' /\
          counted (fun r => qsum (map (fun ps : sdd * sdd => NT ts (fun r => M ps.1 r * M ps.2 r)%Qc r) els)) (live_names i (SDec els)) r) as HL.
      { clear c Hc Ec. induction rest as [|[p s] rest IH]; intros before acc c Hels Hc Hacc.
        - rewrite app_nil_r in Hels. subst before. exists acc, c. done.
        - assert ((p, s) ∈ els) as Hin by (rewrite Hels; apply elem_of_app; right; by left). rewrite rgo_cons.
          assert (exists wa c1, relem ts p s c = Ok (wa, c1) /\ cok c1 /\
            counted (NT ts (fun r => M p r * M s r)%Qc) (live_names i (SDec [(p, s)])) wa) as (wa & c1 & E1 & Hc1 & Hwa).
          { unfold relem. destruct (is_false_node p || is_false_node s) eqn:Hl.
            - eexists _, _. split; [done|]. split; [done|].
              assert (live (p, s) = false) as Hl' by (unfold live; cbn [fst snd]; by rewrite Hl).
              eapply counted_same; [|apply (counted_ae (fun _ => 0%Qc)); [| |apply counted_zero]].
              + intros x. rewrite live_names_dec. split; [intros Hx; by apply elem_of_nil in Hx|].
                intros (p' & s' & Hps & Hl2 & _). apply elem_of_list_singleton in Hps as [= -> ->]. congruence.
              + apply (fi_same _ _ _ _ HJ (fun _ => 0%Qc)); [|apply (fi_number _ _ _ _ HJ)]. intros r. symmetry.
                apply (NT_zero _ _ _ _ HJ groups). intros q. by apply dead_0.
              + apply (ae_point _ _ _ _ HJ). intros r. symmetry. apply (NT_zero _ _ _ _ HJ groups). intros q. by apply dead_0.
            - assert (live (p, s) = true) as Hl' by (unfold live; cbn [fst snd]; by rewrite Hl).
              assert (below p root /\ below s root) as [Bp Bs].
              { pose proof (pr_below _ _ Hpre) as HBl. clear -HBl Hin. remember (SDec els) as n. induction HBl as [|els0 p0 s0 ? ? IHH|els0 p0 s0 ? ? IHH]; subst.
                - split; [apply (bl_prime _ els p s)|apply (bl_sub _ els p s)]; try done; constructor.
                - destruct IHH. split; by eapply bl_prime.
                - destruct IHH. split; by eapply bl_sub. }
              destruct (Hn2g p Bp) as (Lp & -> & NLp & GLp), (Hn2g s Bs) as (Ls & -> & NLs & GLs). cbn [rbind].
              destruct (extend_ok ts (tinter (tinter Lp ts) (tinter Ls ts))) as (sh & -> & Nsh & Sh1 & Sh2 & Sh3); [done| | |done|].
              { apply NoDup_filter. by apply NoDup_filter. }
              { intros g. rewrite !tinter_elem. tauto. }
              cbn [rbind].
              set (a := tdiff (tinter Lp ts) sh). set (b := tdiff (tinter Ls ts) sh).
              assert (NoDup sh /\ (forall g, g ∈ sh -> g ∈ ts) /\ (forall g, g ∈ ts -> g ∈ tg l2g p -> g ∈ tg l2g s -> g ∈ sh)) as HC.
              { split; [done|]. split; [done|]. intros g G1 G2 G3. apply Sh1. rewrite !tinter_elem, GLp, GLs. tauto. }
              assert (NoDup a /\ forall g, g ∈ a <-> g ∈ tg l2g p /\ g ∈ ts /\ g ∉ sh) as HAa.
              { split; [by apply NoDup_filter, NoDup_filter|]. intros g. unfold a. rewrite tdiff_elem, tinter_elem, GLp. tauto. }
              assert (NoDup b /\ forall g, g ∈ b <-> g ∈ tg l2g s /\ g ∈ ts /\ g ∉ sh) as HBb.
              { split; [by apply NoDup_filter, NoDup_filter|]. intros g. unfold b. rewrite tdiff_elem, tinter_elem, GLs. tauto. }
              rewrite Forall_forall in H. destruct (H _ Hin) as [IHp IHs]. cbn [fst snd] in IHp, IHs.
              pose proof (el_pre_p els ts Hpre p s Hin Hl' a sh HC HAa) as Pp. pose proof (el_pre_s els ts Hpre p s Hin Hl' b sh HC HBb) as Ps.
              destruct (IHp a c Pp Hc) as (rp & cp & -> & Cp & Hcp). cbn [rbind].
              destruct (IHs b cp Ps Hcp) as (rs & cs & -> & Cs & Hcs). cbn [rbind].
              destruct Cp as (P1 & P2 & P3), Cs as (Q1 & Q2 & Q3).
              pose proof (el_fit_c els ts Hpre p s Hin Hl' a b sh HC HAa HBb) as Hfc.
              set (h := fun r => (NT a (M p) r * NT b (M s) r)%Qc) in *.
              set (k := length (uni rp.2 rs.2)).
              assert (shows (fun r => qpow (qz 2) k * h r)%Qc (alg_times A rp.1 rs.1)) as Sh.
              { apply (shows_same _ _ _ (shows_times _ _ _ _ P3 Q3)). intros r. unfold h, k. rewrite uni_disjoint_length, qpow_add; [ring|].
                intros x Hx Hx'. apply P2, live_names_names in Hx. apply Q2, live_names_names in Hx'.
                destruct (el_parts els ts Hpre p s Hin Hl') as (_ & _ & _ & _ & _ & _ & D & V1 & V2).
                by apply (names_disjoint f i T p s V1 V2 D x). }
              assert (fit (tvars sh) (fun r => qpow (qz 2) k * h r)%Qc) as Hfk.
              { apply (fit_mul_r _ _ _ _ HJ); [apply (fi_number _ _ _ _ HJ)|done]. }
              assert (fit (tvars (shared_order iter order sh)) (fun r => qpow (qz 2) k * h r)%Qc) as Hfk'.
              { apply (fit_sub fine (tvars sh)); [|done]. intros v. apply tvars_mono. intros g. by rewrite Sh3. }
              destruct (integrate_groups_ok (shared_order iter order sh)) with (h := fun r => (qpow (qz 2) k * h r)%Qc) (x := alg_times A rp.1 rs.1)
                as (y & -> & Sy); [by rewrite Sh3| |done|done|].
              { intros g. rewrite Sh3. intros Hg. apply (tg_var _ g (pr_vars _ _ Hpre)). apply (pr_tags _ _ Hpre). by apply HC. }
              cbn [rbind]. eexists _, _. split; [done|]. split; [done|]. split; [by apply uni_nodup|]. cbn [fst snd]. split.
              + intros x. rewrite uni_elem, live_names_dec, (P2 x), (Q2 x). split.
                * intros Hx. exists p, s. split; [by left|]. done.
                * intros (p' & s' & Hps & _ & Hx). apply elem_of_list_singleton in Hps as [= -> ->]. done.
              + fold k. apply (shows_ae _ _ _ Sy).
                * apply (fi_times _ _ _ _ HJ); [apply (fi_number _ _ _ _ HJ)|]. apply (NT_fine _ _ _ _ HJ groups HG); [done|].
                  by apply (el_fit els ts Hpre p s Hin Hl').
                * apply (ae_trans _ _ _ _ HJ _ (NT sh (fun r => qpow (qz 2) k * h r)%Qc)).
                  { apply (NT_perm _ _ _ _ HJ groups HG); [done|by rewrite Sh3|done]. }
                  apply (ae_trans _ _ _ _ HJ _ (fun r => qpow (qz 2) k * NT sh h r)%Qc); [by apply (NT_scale _ _ _ _ HJ groups HG)|].
                  apply (ae_mul_l _ _ _ _ HJ (fun _ => qpow (qz 2) k)). exact (el_value els ts Hpre p s Hin Hl' a b sh HC HAa HBb). }
          rewrite E1. cbn [rbind].
          pose proof (pr_align _ _ Hpre) as HX. inversion HX as [| | |? _ HXa]; subst els0.
          destruct (counted_plus _ _ _ _ _ _ Hacc Hwa) as (r1 & -> & C1).
          { apply (HXa before p s rest). done. }
          cbn [rbind]. apply (IH (before ++ [(p, s)])); [by rewrite <- app_assoc|done|].
          eapply counted_same; [|eapply counted_ae; [| |exact C1]].
          + intros x. rewrite elem_of_app, !live_names_dec. split.
            * intros [(p' & s' & H1 & H2)|(p' & s' & H1 & H2)]; exists p', s'; (split; [apply elem_of_app|done]); [by left|by right].
            * intros (p' & s' & H1 & H2). apply elem_of_app in H1 as [H1|H1]; [left|right]; exists p', s'; done.
          + destruct Hacc as (_ & _ & [Hacc _]).
            assert (fine (fun r => qsum (map (fun ps : sdd * sdd => NT ts (fun r => M ps.1 r * M ps.2 r)%Qc r) (before ++ [(p, s)])))) as HFF.
            { assert (forall l, (forall ps, ps ∈ l -> ps ∈ els) -> fine (fun r => qsum (map (fun ps : sdd * sdd => NT ts (fun r => M ps.1 r * M ps.2 r)%Qc r) l))) as HFl.
              { clear -HJ HG Hpre Hnd Hgen HB T Hl2g Hl2b. induction l as [|ps l IHl]; intros Hl; [exact (fi_number _ _ _ _ HJ 0%Qc)|].
                apply (fi_same _ _ _ _ HJ (fun r => NT ts (fun r => M ps.1 r * M ps.2 r)%Qc r +
                  qsum (map (fun ps : sdd * sdd => NT ts (fun r => M ps.1 r * M ps.2 r)%Qc r) l))%Qc).
                { intros r. cbn [map]. by rewrite qsum_cons. }
                apply (fi_plus _ _ _ _ HJ); [|apply IHl; intros; apply Hl; by right].
                apply (NT_fine _ _ _ _ HJ groups HG); [done|]. apply (elem_fit els ts); [done|]. apply Hl. by left. }
              apply HFl. intros ps Hps. rewrite Hels. apply elem_of_app in Hps as [Hps|Hps]; apply elem_of_app; [by left|right].
              apply elem_of_list_singleton in Hps as ->. by left. }
            done.
          + apply (ae_point _ _ _ _ HJ). intros r. rewrite map_app, qsum_app. cbn [map]. rewrite qsum_cons. change (qsum []) with 0%Qc. cbn [fst snd]. ring. }
      destruct (HL els [] (alg_zero A, []) c eq_refl Hc) as (r & c' & -> & Hc' & Cr).
      { eapply counted_same; [|apply counted_zero]. done. }
      cbn [rbind].
      assert (counted (NT ts (M (SDec els))) (live_names i (SDec els)) r) as HC.
      { destruct (sum_elems els ts Hpre els (fun ps H => H)) as [F1 F2]. pose proof (pre_fit _ _ Hpre) as Hf.
        revert Cr. apply counted_ae; [by apply (NT_fine _ _ _ _ HJ groups HG)|]. apply (ae_trans _ _ _ _ HJ _ _ _ F2).
        apply (NT_ae _ _ _ _ HJ groups HG); try done. apply (ae_point _ _ _ _ HJ). intros q. symmetry. apply M_dec; apply Hpre. }
      eexists _, _. split; [done|]. split; [done|]. apply cok_dset; [done|]. by apply counted_frozen.
  Qed.
End value.
