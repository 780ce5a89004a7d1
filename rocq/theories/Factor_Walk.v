(** The walks of the factorized integrator: which groups a node mentions, and the
    value of the recursion (C37). *)

From Verif Require Import Base Dict Smt Smt_Facts Walk_Model Math_Model Math_Spec Poly_Proofs Linear_Proofs Arith_Proofs.
From Verif Require Import Engine_Spec Lit_Model Lit_Spec Lit_Proofs Lit_Tests Sdd_Model Sdd_Spec Sdd_Proofs.
From Verif Require Import Piecewise_Model Multimap_Model Resolve_Model Xsdd_Model Factor_Model Factor_Spec Factor_Integral.

(** * Tests and their variables *)

Lemma poly_val_only e e' (d : pdict) : (forall v, v ∈ li_variables d -> er e v = er e' v) -> poly_val e d = poly_val e' d.
Proof.
  unfold li_variables. intros H. unfold poly_val. f_equal. apply map_ext_in. intros [k q] Hin%elem_of_list_In. cbn [fst snd].
  f_equal. unfold mono_val. f_equal. apply map_ext_in. intros x Hx%elem_of_list_In. apply H. apply elem_of_remove_dups.
  apply elem_of_list_In, in_concat. exists k. split; [|by apply elem_of_list_In].
  apply in_map_iff. exists (k, q). split; [done|by apply elem_of_list_In].
Qed.

Lemma compares_diff c a b e e' x y x' y' : compares c a b -> eval e a = Some (VN x) -> eval e b = Some (VN y) ->
  eval e' a = Some (VN x') -> eval e' b = Some (VN y') -> (x - y = x' - y')%Qc -> eval e c = eval e' c.
Proof.
  intros Hc Hx Hy Hx' Hy' E. induction Hc as [a b|a b|c a b Hc IH].
  - cbn [eval]. rewrite Hx, Hy, Hx', Hy'. cbn. do 2 f_equal. apply eq_iff_eq_true. rewrite !qle_spec.
    split; intros H; apply Qcle_minus_iff in H; apply Qcle_minus_iff.
    + replace (y' + - x')%Qc with (y + - x)%Qc; [done|]. transitivity (- (x - y))%Qc; [ring|]. rewrite E. ring.
    + replace (y + - x)%Qc with (y' + - x')%Qc; [done|]. transitivity (- (x' - y'))%Qc; [ring|]. rewrite <- E. ring.
  - cbn [eval]. rewrite Hx, Hy, Hx', Hy'. cbn. do 2 f_equal. apply eq_iff_eq_true. rewrite !qlt_spec.
    split; intros H; apply Qclt_minus_iff in H; apply Qclt_minus_iff.
    + replace (y' + - x')%Qc with (y + - x)%Qc; [done|]. transitivity (- (x - y))%Qc; [ring|]. rewrite E. ring.
    + replace (y + - x)%Qc with (y' + - x')%Qc; [done|]. transitivity (- (x' - y'))%Qc; [ring|]. rewrite <- E. ring.
  - cbn [eval]. by rewrite IH.
Qed.

Lemma test_free f c d e e' : test_of f c -> li_from_smt c = Ok d ->
  (forall v, v ∈ li_variables d -> er e v = er e' v) -> eval e c = eval e' c.
Proof.
  intros (a & b & Hc & Ha & Hb & _) Hd Hv.
  destruct (linear_value a e Ha) as [x Hx], (linear_value b e Hb) as [y Hy].
  destruct (linear_value a e' Ha) as [x' Hx'], (linear_value b e' Hb) as [y' Hy'].
  apply (compares_diff c a b e e' x y x' y'); try done.
  pose proof (poly_val_only e e' d Hv) as E.
  unfold li_from_smt, math_walk in Hd. destruct (walk _ _ c) as [d'|] eqn:Ew; [|done]. injection Hd as <-.
  destruct (walk_compares _ _ _ _ _ Hc Ew (linear_expr_real _ Ha) (linear_expr_real _ Hb)) as (_ & k & Hk & V).
  unfold li_make in E. rewrite !pv_filter in E. rewrite (V _ _ _ Hx Hy), (V _ _ _ Hx' Hy') in E.
  assert (k <> 0%Qc) as Hk0 by (intros ->; by apply Qclt_not_eq in Hk).
  set (s := if negs c then (-1)%Qc else 1%Qc) in *.
  assert (s * s = 1)%Qc as Hs by (unfold s; destruct (negs c); ring).
  assert (forall t, / k * s * (s * k * t) = t)%Qc as Hinv.
  { intros t. transitivity ((s * s) * (k * / k) * t)%Qc; [ring|]. rewrite Hs, Qcmult_inv_r by done. ring. }
  rewrite <- (Hinv (x - y)%Qc), <- (Hinv (x' - y')%Qc). by rewrite E.
Qed.

(** * The groups of a node *)

Lemma tuni_elem a b g : g ∈ tuni a b <-> g ∈ a \/ g ∈ b.
Proof. unfold tuni. rewrite elem_of_app, elem_of_list_filter. destruct (decide (g ∈ a)); tauto. Qed.
Lemma tuni_nodup a b : NoDup a -> NoDup b -> NoDup (tuni a b).
Proof.
  intros Ha Hb. unfold tuni. apply NoDup_app. split_and!; [done| |by apply NoDup_filter].
  intros x Hx Hx'. by apply elem_of_list_filter in Hx' as [? _].
Qed.
Lemma tinter_elem a b g : g ∈ tinter a b <-> g ∈ a /\ g ∈ b.
Proof. unfold tinter. rewrite elem_of_list_filter. tauto. Qed.
Lemma tdiff_elem a b g : g ∈ tdiff a b <-> g ∈ a /\ g ∉ b.
Proof. unfold tdiff. rewrite elem_of_list_filter. tauto. Qed.

Definition live (ps : sdd * sdd) : bool := negb (is_false_node ps.1 || is_false_node ps.2).

Section tags.
  Context (l2g : list (Z * list nat)).
  Notation tw := (tag_analysis l2g).
  Fixpoint tg (n : sdd) : list nat :=
    match n with
    | STrue | SFalse => []
    | SLit z => default [] (dget l2g z)
    | SDec els => concat (map (fun ps : sdd * sdd =>
        if is_false_node ps.1 || is_false_node ps.2 then [] else tg ps.1 ++ tg ps.2) els)
    end.

  Lemma tg_dec els g : g ∈ tg (SDec els) <-> exists p s, (p, s) ∈ els /\ live (p, s) = true /\ (g ∈ tg p \/ g ∈ tg s).
  Proof.
    cbn [tg]. induction els as [|[p s] els IH]; cbn [map concat fst snd].
    - split; [intros H; by apply elem_of_nil in H|]. intros (p & s & H & _). by apply elem_of_nil in H.
    - rewrite elem_of_app, IH. split.
      + intros [H|(p' & s' & H1 & H2)]; [|exists p', s'; split; [by right|done]].
        exists p, s. split; [by left|]. unfold live. cbn [fst snd]. destruct (_ || _); [by apply elem_of_nil in H|].
        split; [done|]. by apply elem_of_app.
      + intros (p' & s' & H1 & H2 & H3). apply elem_of_cons in H1 as [[= -> ->]|H1]; [left|right; eauto].
        unfold live in H2. cbn [fst snd] in H2. destruct (_ || _); [done|]. by apply elem_of_app.
  Qed.

  Lemma trimmed_sat n : trimmed n -> n <> SFalse -> exists w, sat w n = true.
  Proof.
    intros Ht Hn. inversion Ht as [| |z|els HF Hw]; subst; try done.
    - by exists (fun _ => false).
    - exists (fun _ => negb (z <? 0)%Z). cbn. unfold lit_true. by destruct (z <? 0)%Z.
  Qed.
  Lemma sat_live w els : sat w (SDec els) = true -> exists p s, (p, s) ∈ els /\ live (p, s) = true /\ sat w p = true /\ sat w s = true.
  Proof.
    cbn [sat]. intros ([p s] & Hin & H)%existsb_exists. apply andb_true_iff in H as [H1 H2]. exists p, s. cbn [fst snd] in *.
    split; [by apply elem_of_list_In|]. split; [|done]. unfold live. by destruct p, s.
  Qed.

  Lemma tag_fold n : trimmed n -> exists L, sfold tw n = Ok (negb (is_false_node n), L) /\ NoDup L /\ forall g, g ∈ L <-> g ∈ tg n.
  Proof.
    induction n using sdd_ind'; intros Ht.
    - exists []. split; [done|]. split; [constructor|done].
    - exists []. split; [done|]. split; [constructor|done].
    - eexists. split; [done|]. split; [apply NoDup_remove_dups|]. intros g. by rewrite elem_of_remove_dups.
    - inversion Ht as [| | |? HF Hw]; subst.
      pose (go1 := (fix go (els : list (sdd * sdd)) : Res (list ((bool * list nat) * (bool * list nat) * sdd * sdd)) :=
            match els with
            | [] => Ok []
            | (p, s) :: els =>
                let! rp := sfold tw p in let! rs := sfold tw s in let! rest := go els in
                Ok ((rp, rs, p, s) :: rest)
            end)).
      assert (exists rs, go1 els = Ok rs /\ Forall2 (fun (ps : sdd * sdd) (r : (bool * list nat) * (bool * list nat) * sdd * sdd) =>
        r.1.1.1.1 = negb (is_false_node ps.1) /\ r.1.1.2.1 = negb (is_false_node ps.2) /\
        NoDup r.1.1.1.2 /\ NoDup r.1.1.2.2 /\
        (forall g, g ∈ r.1.1.1.2 <-> g ∈ tg ps.1) /\ (forall g, g ∈ r.1.1.2.2 <-> g ∈ tg ps.2)) els rs) as (rs & E & H2).
      { clear Hw Ht. induction H as [|[p s] els [Hp Hs] _ IH]; [exists []; split; [done|constructor]|].
        apply Forall_cons in HF as [[T1 T2] HF]. cbn [fst snd] in *.
        destruct (Hp T1) as (Lp & Ep & Np & Gp), (Hs T2) as (Ls & Es & Ns & Gs), (IH HF) as (rs & E & H2).
        cbn [go1]. fold go1. rewrite Ep, Es, E. cbn [rbind]. eexists. split; [done|]. constructor; [|done]. done. }
      change (sfold tw (SDec els)) with (let! rs := go1 els in
        let! cr := rmapM (fun x : (bool * list nat) * (bool * list nat) * sdd * sdd => k_and tw x.1.1.1 x.1.1.2 x.1.2 x.2) rs in
        k_or tw cr (SDec els)).
      rewrite E. cbn [rbind].
      assert (exists cr, rmapM (fun x : (bool * list nat) * (bool * list nat) * sdd * sdd => k_and tw x.1.1.1 x.1.1.2 x.1.2 x.2) rs = Ok cr /\
        Forall2 (fun (ps : sdd * sdd) (r : bool * list nat) => r.1 = live ps /\ NoDup r.2 /\
          forall g, g ∈ r.2 <-> live ps = true /\ (g ∈ tg ps.1 \/ g ∈ tg ps.2)) els cr) as (cr & Ecr & H3).
      { clear -H2. induction H2 as [|[p s] [[[[bp Lp] [bs Ls]] p'] s'] els rs (E1 & E2 & N1 & N2 & G1 & G2) _ IH];
          [exists []; split; [done|constructor]|].
        destruct IH as (cr & Ecr & H3). cbn [fst snd] in *. cbn [rmapM]. rewrite Ecr. cbn [fst snd].
        change (k_and tw (bp, Lp) (bs, Ls) p' s') with (Ok (bp && bs, if bp && bs then tuni Lp Ls else [])).
        cbn [rbind]. eexists. split; [done|]. constructor; [|done]. cbn [fst snd]. unfold live. cbn [fst snd].
        rewrite E1, E2, negb_orb. destruct (is_false_node p), (is_false_node s); cbn [negb andb]; (split; [done|]);
          (split; [try constructor; by apply tuni_nodup|]); intros g; try (rewrite elem_of_nil; split; [done|by intros [? _]]).
        rewrite tuni_elem, G1, G2. tauto. }
      rewrite Ecr. cbn [rbind tag_analysis k_or is_false_node negb].
      assert (existsb fst cr = true) as ->.
      { destruct Hw as [w Hw]. destruct (sat_live w els Hw) as (p & s & Hin & Hl & _).
        clear -H3 Hin Hl. apply existsb_exists. induction H3 as [|ps r els cr (E1 & _) _ IH]; [by apply elem_of_nil in Hin|].
        apply elem_of_cons in Hin as [<-|Hin]; [exists r; split; [by left|by rewrite E1]|].
        destruct (IH Hin) as (x & H1 & H2). exists x. split; [by right|done]. }
      eexists. split; [done|].
      assert (forall acc, NoDup acc -> NoDup (fold_left (fun groups (r : bool * list nat) => tuni groups r.2) cr acc) /\
        forall g, g ∈ fold_left (fun groups (r : bool * list nat) => tuni groups r.2) cr acc <-> g ∈ acc \/ g ∈ tg (SDec els)) as HH.
      { clear -H3. induction H3 as [|[p s] r els cr (E1 & N1 & G) _ IH]; intros acc Hacc; cbn [fold_left].
        - split; [done|]. intros g. cbn. rewrite elem_of_nil. tauto.
        - destruct (IH (tuni acc r.2)) as [I1 I2]; [by apply tuni_nodup|]. split; [done|]. intros g. rewrite I2, tuni_elem, G.
          rewrite !tg_dec. cbn [fst snd]. split.
          + intros [[H|[H1 H2]]|(p' & s' & H1 & H2)]; [by left|right; exists p, s; split; [by left|done]|right; exists p', s'; split; [by right|done]].
          + intros [H|(p' & s' & H1 & H2 & H4)]; [by left; left|]. apply elem_of_cons in H1 as [[= -> ->]|H1]; [by left; right|right; eauto]. }
      destruct (HH []) as [H1 H4]; [constructor|]. split; [done|]. intros g. rewrite H4, elem_of_nil. tauto.
  Qed.
End tags.

(** * Every node that was walked is in the cache *)
Inductive below (m : sdd) : sdd -> Prop :=
| bl_self : below m m
| bl_prime els p s : (p, s) ∈ els -> below m p -> below m (SDec els)
| bl_sub els p s : (p, s) ∈ els -> below m s -> below m (SDec els).

Section cached.
  Context {R : Type} (w : sddwalker R).
  Notation cache := (list (sdd * R)).
  Definition has (c : cache) (n : sdd) : Prop := is_Some (dget c n).
  Definition closed (c : cache) : Prop := forall n m, has c n -> below m n -> has c m.

  Lemma has_dset (c : cache) n r m : has (dset c n r) m <-> n = m \/ has c m.
  Proof. unfold has. rewrite dget_dset. destruct (decide (n = m)); [|tauto]. split; [by left|]. intros _. by eexists. Qed.

  Lemma iterator_closed n : forall c r c', closed c -> depth_first_rec w n c = Ok (r, c') ->
    closed c' /\ has c' n /\ forall m, has c m -> has c' m.
  Proof.
    assert (forall n (c : cache) r, (forall m, below m n -> m = n \/ has c m) -> closed c -> closed (dset c n r) /\ has (dset c n r) n /\
      forall m, has c m -> has (dset c n r) m) as HL.
    { intros n0 c r Hn Hc. split_and!.
      - intros a b Ha Hb. apply has_dset. apply has_dset in Ha as [<-|Ha].
        + destruct (Hn b Hb) as [->|]; [by left|by right].
        + right. by apply (Hc a).
      - apply has_dset. by left.
      - intros m Hm. apply has_dset. by right. }
    induction n using sdd_ind'; intros c r c' Hc Hr; cbn [depth_first_rec] in Hr.
    1-3: destruct (dget c _) as [r0|] eqn:E; [injection Hr as <- <-; split; [done|]; split; [by exists r0|done]|];
      match type of Hr with (rbind ?k _ = _) => destruct k as [r1|]; [|done] end; injection Hr as <- <-;
      apply HL; [|done]; intros m Hm; inversion Hm; by left.
    destruct (dget c (SDec els)) as [r0|] eqn:E; [injection Hr as <- <-; split; [done|]; split; [by exists r0|done]|].
    set (go2 := (fix go (els : list (sdd * sdd)) (c : cache) : Res (list (R * R * sdd * sdd) * cache) :=
                match els with
                | [] => Ok ([], c)
                | (prime, sub) :: els =>
                    let! (rp, c1) := depth_first_rec w prime c in
                    let! (rs, c2) := depth_first_rec w sub c1 in
                    let! (rest, c3) := go els c2 in
                    Ok ((rp, rs, prime, sub) :: rest, c3)
                end)) in Hr.
    assert (forall l c rs c', Forall (fun ps : sdd * sdd =>
       (forall c r c', closed c -> depth_first_rec w ps.1 c = Ok (r, c') -> closed c' /\ has c' ps.1 /\ forall m, has c m -> has c' m) /\
       (forall c r c', closed c -> depth_first_rec w ps.2 c = Ok (r, c') -> closed c' /\ has c' ps.2 /\ forall m, has c m -> has c' m)) l ->
      closed c -> go2 l c = Ok (rs, c') -> closed c' /\ (forall p s, (p, s) ∈ l -> has c' p /\ has c' s) /\ forall m, has c m -> has c' m) as HG.
    { clear. induction l as [|[p s] l IH]; intros c rs c' HF Hc Hr; cbn [go2] in Hr.
      - injection Hr as <- <-. split; [done|]. split; [|done]. intros p s H. by apply elem_of_nil in H.
      - apply Forall_cons in HF as [[Hp Hs] HF]. cbn [fst snd] in Hp, Hs. fold go2 in Hr.
        destruct (depth_first_rec w p c) as [[rp c1]|] eqn:E1; [|done]. cbn [rbind] in Hr.
        destruct (depth_first_rec w s c1) as [[rs' c2]|] eqn:E2; [|done]. cbn [rbind] in Hr.
        destruct (go2 l c2) as [[rest c3]|] eqn:E3; [|done]. injection Hr as <- <-.
        destruct (Hp _ _ _ Hc E1) as (C1 & P1 & M1). destruct (Hs _ _ _ C1 E2) as (C2 & P2 & M2).
        destruct (IH _ _ _ HF C2 E3) as (C3 & P3 & M3). split; [done|]. split; [|auto].
        intros p' s' Hin. apply elem_of_cons in Hin as [[= -> ->]|Hin]; [split; auto|by apply P3]. }
    destruct (go2 els c) as [[rvs c1]|] eqn:E1; [|done]. cbn [rbind] in Hr.
    destruct (rmapM _ rvs) as [cr|]; [|done]. cbn [rbind] in Hr. destruct (k_or w cr _) as [r1|]; [|done]. injection Hr as <- <-.
    destruct (HG els c rvs c1 H Hc E1) as (C1 & P1 & M1).
    destruct (HL (SDec els) c1 r1) as (X1 & X2 & X3); [|done|].
    { intros m Hm. inversion Hm as [|? p s Hin Hb|? p s Hin Hb]; subst; [by left|right|right];
        destruct (P1 p s Hin) as [Hp Hs]; [by apply (C1 p)|by apply (C1 s)]. }
    split; [done|]. split; [done|]. auto.
  Qed.

  Lemma walk_has n r c m : walk_sdd_cache w n = Ok (r, c) -> below m n -> exists x, dget c m = Some x /\ sfold w m = Ok x.
  Proof.
    intros H Hm. unfold walk_sdd_cache in H.
    destruct (iterator_closed n [] r c) as (C1 & C2 & _); [intros a b [x Hx]; done|done|].
    destruct (C1 n m C2 Hm) as [x Hx]. exists x. split; [done|].
    assert (agrees w (sfold w n) (depth_first_rec w n [])) as HA by by apply iterator_fold.
    destruct (sfold w n) as [y|]; cbn [agrees] in HA; [|congruence]. destruct HA as (c' & E & Hc'). rewrite H in E. injection E as -> ->.
    by apply Hc'.
  Qed.
End cached.

Lemma trimmed_below m n : below m n -> trimmed n -> trimmed m.
Proof.
  induction 1 as [|els p s Hin _ IH|els p s Hin _ IH]; intros Ht; [done| |];
    inversion Ht as [| | |? HF _]; subst; rewrite Forall_forall in HF; destruct (HF _ Hin); auto.
Qed.

Lemma node_groups_ok l2g n : trimmed n -> exists n2g, node_groups l2g n = Ok n2g /\
  forall m, below m n -> exists L, dlookup n2g m = Ok L /\ NoDup L /\ forall g, g ∈ L <-> g ∈ tg l2g m.
Proof.
  intros Ht. destruct (tag_fold l2g n Ht) as (L & E & _). unfold node_groups.
  assert (agrees (tag_analysis l2g) (sfold (tag_analysis l2g) n) (depth_first_rec (tag_analysis l2g) n [])) as HA by by apply iterator_fold.
  rewrite E in HA. destruct HA as (c & Ec & _). fold (walk_sdd_cache (tag_analysis l2g) n) in Ec. rewrite Ec. cbn [rbind].
  eexists. split; [done|]. intros m Hm. destruct (walk_has _ _ _ _ m Ec Hm) as (x & Hx & Es).
  destruct (tag_fold l2g m (trimmed_below m n Hm Ht)) as (L' & E' & N' & G'). rewrite E' in Es. injection Es as <-.
  exists L'. split; [|done]. unfold dlookup.
  assert (forall (c : list (sdd * (bool * list nat))), dget (map (fun kv : sdd * (bool * list nat) => (kv.1, kv.2.2)) c) m =
    option_map snd (dget c m)) as ->.
  { clear. induction c as [|[k v] c IH]; [done|]. cbn. destruct (decide (k = m)); [done|]. apply IH. }
  by rewrite Hx.
Qed.
