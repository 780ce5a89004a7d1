(** Proofs for C30-C33. *)

From Verif Require Import Base Dict Smt Smt_Facts Walk_Model Math_Model Math_Spec Poly_Proofs Linear_Proofs Arith_Proofs.
From Verif Require Import Engine_Spec Lit_Model Lit_Spec Lit_Proofs Lit_Tests Sdd_Model Sdd_Spec.

(** * The iterator with its cache is a fold *)

Section fold.
  Context {R : Type} (w : sddwalker R).
  Fixpoint sfold (node : sdd) : Res R :=
    match node with
    | SFalse => k_false w node
    | STrue => k_true w node
    | SLit z => k_lit w z node
    | SDec els =>
        let! rs :=
          (fix go (els : list (sdd * sdd)) : Res (list (R * R * sdd * sdd)) :=
            match els with
            | [] => Ok []
            | (p, s) :: els =>
                let! rp := sfold p in let! rs := sfold s in let! rest := go els in
                Ok ((rp, rs, p, s) :: rest)
            end) els in
        let! cr := rmapM (fun x : R * R * sdd * sdd => k_and w x.1.1.1 x.1.1.2 x.1.2 x.2) rs in
        k_or w cr node
    end.

  Notation cache := (list (sdd * R)).
  Definition cinv (c : cache) : Prop := forall n r, dget c n = Some r -> sfold n = Ok r.

  Definition agrees {X} (x : Res X) (y : Res (X * cache)) : Prop :=
    match x with
    | Ok r => exists c, y = Ok (r, c) /\ cinv c
    | Err e => y = Err e
    end.

  Lemma cinv_dset c n r : cinv c -> sfold n = Ok r -> cinv (dset c n r).
  Proof.
    intros Hc Hn m q. rewrite dget_dset. destruct (decide (n = m)) as [<-|]; [congruence|apply Hc].
  Qed.

  Lemma iterator_fold node : forall c, cinv c -> agrees (sfold node) (depth_first_rec w node c).
  Proof.
    induction node using sdd_ind'; intros c Hc.
    1-3: cbn [depth_first_rec]; destruct (dget c _) as [r|] eqn:E;
      [rewrite (Hc _ _ E); cbn [agrees]; eauto|].
    - cbn [sfold]. destruct (k_true w STrue) as [r|] eqn:K; cbn [rbind agrees]; [|done].
      eexists. split; [done|]. by apply cinv_dset.
    - cbn [sfold]. destruct (k_false w SFalse) as [r|] eqn:K; cbn [rbind agrees]; [|done].
      eexists. split; [done|]. by apply cinv_dset.
    - cbn [sfold]. destruct (k_lit w z (SLit z)) as [r|] eqn:K; cbn [rbind agrees]; [|done].
      eexists. split; [done|]. by apply cinv_dset.
    - pose (go1 := (fix go (els : list (sdd * sdd)) : Res (list (R * R * sdd * sdd)) :=
            match els with
            | [] => Ok []
            | (p, s) :: els =>
                let! rp := sfold p in let! rs := sfold s in let! rest := go els in
                Ok ((rp, rs, p, s) :: rest)
            end)).
      pose (go2 := (fix go (els : list (sdd * sdd)) (c : cache) : Res (list (R * R * sdd * sdd) * cache) :=
                match els with
                | [] => Ok ([], c)
                | (prime, sub) :: els =>
                    let! (rp, c1) := depth_first_rec w prime c in
                    let! (rs, c2) := depth_first_rec w sub c1 in
                    let! (rest, c3) := go els c2 in
                    Ok ((rp, rs, prime, sub) :: rest, c3)
                end)).
      assert (forall c, cinv c -> agrees (go1 els) (go2 els c)) as HG.
      { clear c Hc. induction H as [|[p s] l [Hp Hs] _ IH]; intros c Hc; cbn [go1 go2]; [cbn; eauto|].
        cbn in Hp, Hs. specialize (Hp c Hc). destruct (sfold p) as [rp|]; cbn [agrees rbind] in *; [|by rewrite Hp].
        destruct Hp as (c1 & -> & Hc1). cbn [rbind]. specialize (Hs c1 Hc1).
        destruct (sfold s) as [rs|]; cbn [agrees rbind] in *; [|by rewrite Hs].
        destruct Hs as (c2 & -> & Hc2). cbn [rbind]. specialize (IH c2 Hc2). fold go1 go2.
        destruct (go1 l) as [rest|]; cbn [agrees rbind] in *; [|by rewrite IH].
        destruct IH as (c3 & -> & Hc3). cbn [rbind]. eauto. }
      assert (sfold (SDec els) = let! rs := go1 els in
        let! cr := rmapM (fun x : R * R * sdd * sdd => k_and w x.1.1.1 x.1.1.2 x.1.2 x.2) rs in
        k_or w cr (SDec els)) as E1 by done.
      cbn [depth_first_rec]. destruct (dget c (SDec els)) as [r|] eqn:E.
      { rewrite (Hc _ _ E). cbn [agrees]. eauto. }
      fold go2. specialize (HG c Hc). rewrite E1.
      destruct (go1 els) as [rs|]; cbn [agrees rbind] in *; [|by rewrite HG].
      destruct HG as (c1 & -> & Hc1). cbn [rbind].
      destruct (rmapM _ rs) as [cr|]; cbn [agrees rbind] in *; [|done].
      destruct (k_or w cr (SDec els)) as [r|] eqn:K; cbn [agrees rbind]; [|done].
      eexists. split; [done|]. by apply cinv_dset.
  Qed.

  Lemma walk_sdd_fold node : walk_sdd w node = sfold node.
  Proof.
    unfold walk_sdd, walk_sdd_cache.
    assert (agrees (sfold node) (depth_first_rec w node [])) as H by by apply iterator_fold.
    destruct (sfold node) as [r|]; cbn [agrees] in H; [|by rewrite H]. by destruct H as (c & -> & _).
  Qed.
End fold.

(** The fold of a semiring, when every element gives a value. *)
Section amc.
  Context {R : Type} (S : semiring R).

  Lemma amc_true : amc S STrue = Ok (r_one S).
  Proof. unfold amc. by rewrite walk_sdd_fold. Qed.
  Lemma amc_false : amc S SFalse = Ok (r_zero S).
  Proof. unfold amc. by rewrite walk_sdd_fold. Qed.
  Lemma amc_lit z : amc S (SLit z) = r_weight S z.
  Proof. unfold amc. by rewrite walk_sdd_fold. Qed.
  Lemma amc_dec els xs : Forall2 (fun (ps : sdd * sdd) x => exists a b,
      amc S ps.1 = Ok a /\ amc S ps.2 = Ok b /\ r_times S a b = Ok x) els xs ->
    amc S (SDec els) = or_fold S xs.
  Proof.
    intros H. unfold amc. rewrite walk_sdd_fold. cbn [sfold].
    match goal with |- context [?F els] => set (go := F) end.
    assert (exists rs, go els = Ok rs /\
      rmapM (fun x : R * R * sdd * sdd => k_and (semiring_walker S) x.1.1.1 x.1.1.2 x.1.2 x.2) rs = Ok xs)
      as (rs & -> & H2).
    { induction H as [|[p s] x els xs (a & b & Ha & Hb & Hx) _ (rs & IH1 & IH2)]; [by exists []|].
      unfold amc in Ha, Hb. rewrite walk_sdd_fold in Ha, Hb. cbn in Ha, Hb.
      exists ((a, b, p, s) :: rs). cbn [go]. rewrite Ha, Hb. cbn [rbind]. fold go. rewrite IH1.
      cbn [rbind]. split; [done|]. rewrite rmapM_cons, IH2. cbn [k_and semiring_walker fst snd]. by rewrite Hx. }
    cbn [rbind]. rewrite H2. done.
  Qed.
  Lemma amc_dec_inv els r : amc S (SDec els) = Ok r -> exists xs,
    Forall2 (fun (ps : sdd * sdd) x => exists a b,
      amc S ps.1 = Ok a /\ amc S ps.2 = Ok b /\ r_times S a b = Ok x) els xs /\ or_fold S xs = Ok r.
  Proof.
    unfold amc. rewrite walk_sdd_fold. cbn [sfold].
    match goal with |- context [?F els] => set (go := F) end.
    destruct (go els) as [rs|] eqn:E; cbn [rbind]; [|done].
    destruct (rmapM _ rs) as [xs|] eqn:E2; cbn [rbind]; [|done]. intros Hr. exists xs. split; [|done].
    clear Hr. revert rs xs E E2. induction els as [|[p s] els IH]; intros rs xs.
    - intros [= <-] [= <-]. constructor.
    - cbn [go]. fold go. destruct (sfold _ p) as [a|] eqn:Ea; cbn [rbind]; [|done].
      destruct (sfold _ s) as [b|] eqn:Eb; cbn [rbind]; [|done].
      destruct (go els) as [rest|] eqn:E; cbn [rbind]; [|done]. intros [= <-].
      rewrite rmapM_cons. cbn [k_and semiring_walker fst snd].
      destruct (r_times S a b) as [x|] eqn:Ex; cbn [rbind]; [|done].
      destruct (rmapM _ rest) as [xs'|] eqn:E2; cbn [rbind]; [|done]. intros [= <-].
      constructor; [|by apply (IH rest)]. exists a, b. cbn [fst snd]. by rewrite !walk_sdd_fold, Ea, Eb.
  Qed.
End amc.

(** * Averages over assignments *)

Section mean.
  Context {K : Type} `{EqDecision K}.
  Definition upd (w : K -> bool) (v : K) (b : bool) : K -> bool := fun x => if decide (x = v) then b else w x.
  Fixpoint mean (p : K -> Qc) (vs : list K) (f : (K -> bool) -> Qc) : Qc :=
    match vs with
    | [] => f (fun _ => false)
    | v :: vs => (p v * mean p vs (fun w => f (upd w v true)) +
                  (1 - p v) * mean p vs (fun w => f (upd w v false)))%Qc
    end.
  (** [f] looks only at the values of [P]. *)
  Definition dep (P : list K) (f : (K -> bool) -> Qc) : Prop :=
    forall w w', (forall x, x ∈ P -> w x = w' x) -> f w = f w'.

  Variable p : K -> Qc.
  Lemma mean_ext vs f g : (forall w, f w = g w) -> mean p vs f = mean p vs g.
  Proof.
    revert f g. induction vs as [|v vs IH]; intros f g H; cbn [mean]; [done|].
    f_equal; f_equal; apply IH; auto.
  Qed.
  Lemma mean_add vs f g : mean p vs (fun w => f w + g w)%Qc = (mean p vs f + mean p vs g)%Qc.
  Proof.
    revert f g. induction vs as [|v vs IH]; intros f g; cbn [mean]; [done|].
    rewrite !IH. ring.
  Qed.
  Lemma mean_const vs c : mean p vs (fun _ => c) = c.
  Proof. induction vs as [|v vs IH]; cbn [mean]; [done|]. rewrite !IH. ring. Qed.
  Lemma mean_sum {X} vs (l : list X) (f : X -> (K -> bool) -> Qc) :
    mean p vs (fun w => qsum (map (fun x => f x w) l)) = qsum (map (fun x => mean p vs (f x)) l).
  Proof.
    induction l as [|x l IH]; cbn [map]; [apply mean_const|]. rewrite qsum_cons, <- IH, <- mean_add.
    apply mean_ext. intros w. by rewrite qsum_cons.
  Qed.
  Lemma dep_upd P f v b : dep P f -> dep P (fun w => f (upd w v b)).
  Proof. intros H w w' Hw. apply H. intros x Hx. unfold upd. destruct (decide (x = v)); auto. Qed.
  Lemma dep_irrelevant P f v b w : dep P f -> v ∉ P -> f (upd w v b) = f w.
  Proof. intros H Hv. apply H. intros x Hx. unfold upd. by destruct (decide (x = v)) as [->|]. Qed.
  Lemma mean_skip P vs f v : dep P f -> v ∉ P -> mean p (v :: vs) f = mean p vs f.
  Proof.
    intros H Hv. cbn [mean]. rewrite (mean_ext vs (fun w => f (upd w v true)) f), (mean_ext vs (fun w => f (upd w v false)) f).
    - ring.
    - intros w. by apply (dep_irrelevant P).
    - intros w. by apply (dep_irrelevant P).
  Qed.
  Lemma mean_mul P Q vs f g : dep P f -> dep Q g -> (forall x, x ∈ P -> x ∉ Q) ->
    mean p vs (fun w => f w * g w)%Qc = (mean p vs f * mean p vs g)%Qc.
  Proof.
    revert f g. induction vs as [|v vs IH]; intros f g Hf Hg Hd; [done|].
    destruct (decide (v ∈ P)) as [Hv|Hv].
    - rewrite (mean_skip Q vs g v Hg (Hd v Hv)). cbn [mean].
      assert (forall b, mean p vs (fun w => f (upd w v b) * g (upd w v b))%Qc =
        (mean p vs (fun w => f (upd w v b)) * mean p vs g)%Qc) as H.
      { intros b. rewrite <- IH; [|by apply dep_upd|done|done]. apply mean_ext. intros w. f_equal.
        apply (dep_irrelevant Q); auto. }
      rewrite !H. ring.
    - rewrite (mean_skip P vs f v Hf Hv). cbn [mean].
      assert (forall b, mean p vs (fun w => f (upd w v b) * g (upd w v b))%Qc =
        (mean p vs f * mean p vs (fun w => g (upd w v b)))%Qc) as H.
      { intros b. rewrite <- IH; [|done|by apply dep_upd|done]. apply mean_ext. intros w. f_equal.
        by apply (dep_irrelevant P). }
      rewrite !H. ring.
  Qed.
  Lemma mean_value vs v (g : bool -> Qc) : v ∈ vs -> mean p vs (fun w => g (w v)) = (p v * g true + (1 - p v) * g false)%Qc.
  Proof.
    induction vs as [|u vs IH]; intros Hv; [by apply elem_of_nil in Hv|]. cbn [mean]. unfold upd.
    destruct (decide (v = u)) as [->|Hne].
    - by rewrite !mean_const.
    - apply elem_of_cons in Hv as [?|Hv]; [done|]. rewrite !IH by done. ring.
  Qed.
End mean.

(** The sum over the assignments is an average. *)
Lemma assignments_cons v vs : assignments (v :: vs) =
  map (fun w => upd w v true) (assignments vs) ++ map (fun w => upd w v false) (assignments vs).
Proof. done. Qed.

Lemma model_weight_upd p vs w v b : v ∉ vs -> model_weight p vs (upd w v b) = model_weight p vs w.
Proof.
  intros Hv. unfold model_weight. f_equal. apply map_ext_in. intros x Hx%elem_of_list_In.
  unfold upd. by destruct (decide (x = v)) as [->|].
Qed.

Lemma qsum_scale {X} (l : list X) c (f : X -> Qc) : qsum (map (fun x => c * f x)%Qc l) = (c * qsum (map f l))%Qc.
Proof. induction l as [|x l IH]; cbn [map]; [cbn; ring|]. rewrite !qsum_cons, IH. ring. Qed.

Lemma sum_assignments p vs f : NoDup vs ->
  qsum (map (fun w => f w * model_weight p vs w)%Qc (assignments vs)) = mean p vs f.
Proof.
  revert f. induction vs as [|v vs IH]; intros f Hnd.
  - cbn. unfold model_weight. cbn. ring.
  - apply NoDup_cons in Hnd as [Hv Hnd]. rewrite assignments_cons, map_app, qsum_app, !map_map.
    cbn [mean]. f_equal.
    + rewrite <- (IH (fun w => f (upd w v true))) by done. rewrite <- qsum_scale. f_equal. apply map_ext. intros w.
      unfold model_weight at 1. cbn [map]. rewrite qprod_cons. fold (model_weight p vs (upd w v true)).
      rewrite model_weight_upd by done. unfold upd at 2. rewrite decide_True by done. ring.
    + rewrite <- (IH (fun w => f (upd w v false))) by done. rewrite <- qsum_scale. f_equal. apply map_ext. intros w.
      unfold model_weight at 1. cbn [map]. rewrite qprod_cons. fold (model_weight p vs (upd w v false)).
      rewrite model_weight_upd by done. unfold upd at 2. rewrite decide_True by done. ring.
Qed.

Definition half : Qc := Q2Qc (1 # 2).
Lemma half_2 : (qz 2 * half = 1)%Qc.
Proof. apply Qc_is_canon. reflexivity. Qed.
Lemma half_2' : (half + half = 1)%Qc.
Proof. apply Qc_is_canon. reflexivity. Qed.

Lemma sum_worlds vs f : qsum (map f (worlds vs)) = (qpow (qz 2) (length vs) * mean (fun _ => half) vs f)%Qc.
Proof.
  revert f. induction vs as [|v vs IH]; intros f.
  - cbn. ring.
  - cbn [worlds]. rewrite map_app, qsum_app, !map_map.
    change (qsum (map (fun w => f (upd w v true)) (worlds vs)) + qsum (map (fun w => f (upd w v false)) (worlds vs)) =
      qpow (qz 2) (length (v :: vs)) * mean (fun _ => half) (v :: vs) f)%Qc.
    rewrite (IH (fun w => f (upd w v true))), (IH (fun w => f (upd w v false))).
    cbn [mean length qpow]. set (a := mean _ vs _). set (b := mean _ vs _). set (c := qpow _ _). clearbody a b c.
    pose proof half_2 as H2. replace (1 - half)%Qc with half by (rewrite <- half_2'; ring).
    transitivity (qz 2 * half * c * (a + b))%Qc; [rewrite H2; ring|ring].
Qed.

(** * Truth of diagrams *)

Definition ind (b : bool) : Qc := if b then 1%Qc else 0%Qc.

Lemma sat_agree n : forall w w', (forall v, v ∈ svars n -> w v = w' v) -> sat w n = sat w' n.
Proof.
  induction n using sdd_ind'; intros w w' Hw; cbn [sat]; [done|done| |].
  - unfold lit_true. cbn [svars] in Hw. rewrite Hw by by left. done.
  - cbn [svars] in Hw. induction H as [|[p s] l [Hp Hs] _ IH]; [done|]. cbn [map concat] in Hw.
    cbn [existsb fst snd] in *. rewrite (Hp w w'), (Hs w w'), IH; [done|..].
    + intros v Hv. apply Hw. rewrite elem_of_app. by right.
    + intros v Hv. apply Hw. rewrite !elem_of_app. left. by right.
    + intros v Hv. apply Hw. rewrite !elem_of_app. left. by left.
Qed.

Lemma existsb_exclusive {X} (f : X -> bool) l :
  (forall i j x y, l !! i = Some x -> l !! j = Some y -> i <> j -> f x = true -> f y = true -> False) ->
  ind (existsb f l) = qsum (map (fun x => ind (f x)) l).
Proof.
  induction l as [|x l IH]; intros H; [done|]. cbn [existsb map]. rewrite qsum_cons, <- IH.
  2:{ intros i j a b Ha Hb Hij. apply (H (S i) (S j)); [done|done|lia]. }
  destruct (f x) eqn:Hx; cbn [orb ind]; [|ring].
  destruct (existsb f l) eqn:Hl; cbn [ind]; [|ring].
  apply existsb_exists in Hl as (y & Hy & Hf). apply elem_of_list_In, elem_of_list_lookup in Hy as [j Hj].
  destruct (H 0 (S j) x y); done.
Qed.

Lemma ind_and a b : ind (a && b) = (ind a * ind b)%Qc.
Proof. destruct a, b; cbn [ind andb]; ring. Qed.

Lemma svars_els els p s v : (p, s) ∈ els -> v ∈ svars p \/ v ∈ svars s -> v ∈ svars (SDec els).
Proof.
  intros Hin Hv. cbn [svars]. apply elem_of_list_In, in_concat. exists (svars p ++ svars s).
  split.
  - apply in_map_iff. exists (p, s). split; [done|]. by apply elem_of_list_In.
  - apply elem_of_list_In. by apply elem_of_app.
Qed.

(** Truth of a decision node, as a number. *)
Lemma sat_dec els w : is_sdd (SDec els) ->
  ind (sat w (SDec els)) = qsum (map (fun ps : sdd * sdd => ind (sat w ps.1) * ind (sat w ps.2))%Qc els).
Proof.
  intros H. inversion H as [| | |? _ _ HX]; subst. cbn [sat]. rewrite existsb_exclusive.
  - f_equal. apply map_ext. intros [p s]. apply ind_and.
  - intros i j [p s] [q t] Hi Hj Hij Hx Hy. cbn [fst snd] in *. apply andb_prop in Hx as [Hx _], Hy as [Hy _].
    exact (HX i j p s q t w Hi Hj Hij Hx Hy).
Qed.

(** * C31 *)

Lemma or_fold_qsum (weights : list (Z * Qc)) l : or_fold (wmc_semiring weights) l = Ok (qsum l).
Proof.
  destruct l as [|r [|r' l]]; [done|cbn; f_equal; ring|].
  unfold or_fold. assert (forall l a, fold_left (fun acc x => let! a := acc in r_plus (wmc_semiring weights) a x) l (Ok a) =
    Ok (a + qsum l)%Qc) as H.
  { clear. induction l as [|x l IH]; intros a; cbn [fold_left]; [cbn; f_equal; ring|].
    cbn [rbind]. cbn [r_plus wmc_semiring]. rewrite IH, qsum_cons. f_equal. ring. }
  rewrite H. by rewrite (qsum_cons r).
Qed.

Lemma dep_sat n : dep (svars n) (fun w => ind (sat w n)).
Proof. intros w w' H. by rewrite (sat_agree n w w'). Qed.

Lemma wmc_mean weights p vs n : is_sdd n ->
  (forall v, v ∈ svars n -> v ∈ vs /\ v <> 0 /\ dget weights (Z.of_nat v) = Some (p v)) ->
  amc (wmc_semiring weights) n = Ok (mean p vs (fun w => ind (sat w n))).
Proof.
  induction n using sdd_ind'; intros Hs Hv.
  - rewrite amc_true. f_equal. symmetry. exact (mean_const p vs 1%Qc).
  - rewrite amc_false. f_equal. symmetry. exact (mean_const p vs 0%Qc).
  - rewrite amc_lit. cbn [sat r_weight wmc_semiring svars] in *.
    destruct (Hv (Z.abs_nat z)) as (Hin & H0 & Hw); [by left|]. unfold default_weight, lit_true.
    destruct (Z.ltb_spec z 0).
    + replace (- z)%Z with (Z.of_nat (Z.abs_nat z)) by lia. rewrite Hw. cbn [rbind]. f_equal.
      rewrite (mean_value p vs (Z.abs_nat z) (fun b => ind (negb b))) by done. cbn. ring.
    + replace z with (Z.of_nat (Z.abs_nat z)) at 1 by lia. rewrite Hw. f_equal.
      rewrite (mean_value p vs (Z.abs_nat z) ind) by done. cbn. ring.
  - rewrite (amc_dec _ els (map (fun ps : sdd * sdd => mean p vs (fun w => ind (sat w ps.1) * ind (sat w ps.2))%Qc) els)).
    + rewrite or_fold_qsum. f_equal. rewrite <- mean_sum. apply mean_ext. intros w. by rewrite sat_dec.
    + inversion Hs as [| | |? HF HD _]; subst.
      assert (forall p0 s0, (p0, s0) ∈ els -> amc (wmc_semiring weights) p0 = Ok (mean p vs (fun w => ind (sat w p0))) /\
        amc (wmc_semiring weights) s0 = Ok (mean p vs (fun w => ind (sat w s0)))) as HV.
      { intros p0 s0 Hin. rewrite Forall_forall in H, HF. destruct (H _ Hin) as [IH1 IH2], (HF _ Hin) as [F1 F2].
        split; [apply IH1|apply IH2]; try done; intros v Hvv; apply Hv, (svars_els els p0 s0); auto. }
      apply Forall2_fmap_r, Forall2_same_length_lookup. split; [done|].
      intros k [p0 s0] y Hk Hk'. assert (y = (p0, s0)) as -> by congruence. cbn [fst snd].
      apply elem_of_list_lookup_2 in Hk. destruct (HV _ _ Hk) as [E1 E2].
      eexists _, _. split; [exact E1|]. split; [exact E2|]. cbn [r_times wmc_semiring]. f_equal.
      symmetry. apply (mean_mul p (svars p0) (svars s0)); [apply dep_sat|apply dep_sat|].
      intros x Hx. by apply (HD p0 s0).
Qed.

Lemma model_count_mean p vs n : NoDup vs -> model_count p vs n = mean p vs (fun w => ind (sat w n)).
Proof.
  intros H. rewrite <- sum_assignments by done. unfold model_count. f_equal. apply map_ext. intros w.
  destruct (sat w n); cbn [ind]; ring.
Qed.

(** * C30: compilation *)

(** Propositional formulas whose symbols satisfy [P]. *)
Inductive prop_over (P : string -> Prop) : fm -> Prop :=
| po_const b : prop_over P (BoolC b)
| po_sym x : P x -> prop_over P (Sym x TBool)
| po_and l : l <> [] -> Forall (prop_over P) l -> prop_over P (AndN l)
| po_or l : l <> [] -> Forall (prop_over P) l -> prop_over P (OrN l)
| po_not f : prop_over P f -> prop_over P (NotN f)
| po_imp f g : prop_over P f -> prop_over P g -> prop_over P (ImpN f g)
| po_iff f g : prop_over P f -> prop_over P g -> prop_over P (IffN f g)
| po_ite c f g : prop_over P c -> prop_over P f -> prop_over P g -> prop_over P (IteN c f g).

Lemma po_mkAnd P l : Forall (prop_over P) l -> prop_over P (mkAnd l).
Proof.
  intros H. destruct l as [|f [|g l]]; [constructor|by inversion H|by apply po_and].
Qed.
Lemma po_mkOr P l : Forall (prop_over P) l -> prop_over P (mkOr l).
Proof.
  intros H. destruct l as [|f [|g l]]; [constructor|by inversion H|by apply po_or].
Qed.
Lemma po_mkNot P f : prop_over P f -> prop_over P (mkNot f).
Proof. intros H. destruct f; try (by apply po_not). by inversion H. Qed.

Lemma smapM_prop l : Forall (fun f => forall s g s', recurse f s = Ok (g, s') -> prop_over (fun _ => True) g) l ->
  forall s gs s', smapM recurse l s = Ok (gs, s') -> Forall (prop_over (fun _ => True)) gs.
Proof.
  induction 1 as [|f l Hf _ IH]; intros s gs s'; cbn [smapM].
  - intros [= <- <-]. constructor.
  - destruct (recurse f s) as [[g s1]|] eqn:E1; [|done]. cbn [rbind].
    destruct (smapM recurse l s1) as [[gs' s2]|] eqn:E2; [|done]. cbn [rbind]. intros [= <- <-].
    constructor; [by apply (Hf s g s1)|by apply (IH s1 gs' s2)].
Qed.

Lemma recurse_prop f : forall s g s', recurse f s = Ok (g, s') -> prop_over (fun _ => True) g.
Proof.
  assert (forall f a b s g s', rec_test f a b s = Ok (g, s') -> prop_over (fun _ => True) g) as HT.
  { intros h a b s g s'. unfold rec_test. destruct (is_all_real a && is_all_real b); [|done].
    destruct (to_canonical h) as [c|]; [|done]. cbn [rbind]. destruct (dget (s_abs s) c); intros [= <- <-]; by constructor. }
  induction f using fm_ind'; intros s g' s'; cbn [recurse]; try done.
  - unfold rec_symbol. case_bool_decide; [|done]. destruct (dget (s_bools s) n); intros [= <- <-]; by constructor.
  - intros [= <- <-]. constructor.
  - destruct (smapM recurse l s) as [[gs s1]|] eqn:E; [|done]. cbn [rbind]. intros [= <- <-].
    apply po_mkAnd. by apply (smapM_prop l H s gs s1).
  - destruct (smapM recurse l s) as [[gs s1]|] eqn:E; [|done]. cbn [rbind]. intros [= <- <-].
    apply po_mkOr. by apply (smapM_prop l H s gs s1).
  - destruct (recurse f s) as [[g s1]|] eqn:E; [|done]. cbn [rbind]. intros [= <- <-].
    apply po_mkNot. by apply (IHf s g s1).
  - destruct (recurse f1 s) as [[g1 s1]|] eqn:E1; [|done]. cbn [rbind].
    destruct (recurse f2 s1) as [[g2 s2]|] eqn:E2; [|done]. cbn [rbind]. intros [= <- <-].
    apply po_imp; eauto.
  - destruct (recurse f1 s) as [[g1 s1]|] eqn:E1; [|done]. cbn [rbind].
    destruct (recurse f2 s1) as [[g2 s2]|] eqn:E2; [|done]. cbn [rbind]. intros [= <- <-].
    apply po_iff; eauto.
  - destruct (recurse f1 s) as [[g1 s1]|] eqn:E1; [|done]. cbn [rbind].
    destruct (recurse f2 s1) as [[g2 s2]|] eqn:E2; [|done]. cbn [rbind].
    destruct (recurse f3 s2) as [[g3 s3]|] eqn:E3; [|done]. cbn [rbind]. intros [= <- <-].
    apply po_ite; eauto.
  - apply HT.
  - apply HT.
  - apply HT.
Qed.

Lemma prop_syms (P : string -> Prop) f : prop_over (fun _ => True) f -> (forall y t, (y, t) ∈ syms f -> P y) -> prop_over P f.
Proof.
  induction f using fm_ind'; intros Hp Hs; inversion Hp; subst; cbn [syms] in Hs.
  - apply po_sym. apply (Hs n TBool). by left.
  - constructor.
  - apply po_and; [done|]. rewrite Forall_forall in *. intros g Hg. apply H; [done|auto|].
    intros y t Hy. apply (Hs y t). by apply (in_concat_syms l g).
  - apply po_or; [done|]. rewrite Forall_forall in *. intros g Hg. apply H; [done|auto|].
    intros y t Hy. apply (Hs y t). by apply (in_concat_syms l g).
  - apply po_not; auto.
  - apply po_imp; [apply IHf1|apply IHf2]; try done; intros y t Hy; apply (Hs y t); rewrite elem_of_app; auto.
  - apply po_iff; [apply IHf1|apply IHf2]; try done; intros y t Hy; apply (Hs y t); rewrite elem_of_app; auto.
  - apply po_ite; [apply IHf1|apply IHf2|apply IHf3]; try done; intros y t Hy; apply (Hs y t); rewrite !elem_of_app; auto.
Qed.

(** The assignment of the literal names behind an assignment of the numbers. *)
Definition name_env (varnums : list (string * nat)) (w : nat -> bool) : env :=
  Env (fun lit => match dget varnums lit with Some k => w k | None => false end) (fun _ => 0%Qc).

Lemma eval_prop e f (P : string -> Prop) : prop_over P f -> exists b, eval e f = Some (VB b).
Proof.
  induction f using fm_ind'; intros Hp; inversion Hp; subst; cbn [eval]; try by eexists.
  - assert (exists bs, mapM (fun g => vbool (eval e g)) l = Some bs) as [bs ->]; [|by eexists].
    clear H1 Hp. induction H as [|g l Hg _ IH]; [by exists []|].
    apply Forall_cons_1 in H2 as [H2 H3]. destruct (Hg H2) as [b E], (IH H3) as [bs E'].
    exists (b :: bs). cbn. rewrite E. cbn. cbn in E'. by rewrite E'.
  - assert (exists bs, mapM (fun g => vbool (eval e g)) l = Some bs) as [bs ->]; [|by eexists].
    clear H1 Hp. induction H as [|g l Hg _ IH]; [by exists []|].
    apply Forall_cons_1 in H2 as [H2 H3]. destruct (Hg H2) as [b E], (IH H3) as [bs E'].
    exists (b :: bs). cbn. rewrite E. cbn. cbn in E'. by rewrite E'.
  - destruct IHf as [b E]; [done|]. rewrite E. by eexists.
  - destruct IHf1 as [b E]; [done|]. destruct IHf2 as [b' E']; [done|]. rewrite E, E'. by eexists.
  - destruct IHf1 as [b E]; [done|]. destruct IHf2 as [b' E']; [done|]. rewrite E, E'. by eexists.
  - destruct IHf1 as [b E]; [done|]. destruct IHf2 as [b' E']; [done|]. destruct IHf3 as [b'' E'']; [done|].
    rewrite E. cbn. rewrite E', E''. destruct b; by eexists.
Qed.

Lemma eval_and_list e l bs : Forall2 (fun g b => eval e g = Some (VB b)) l bs ->
  eval e (AndN l) = Some (VB (forallb id bs)) /\ eval e (OrN l) = Some (VB (existsb id bs)).
Proof.
  intros H. cbn [eval]. assert (mapM (fun g => vbool (eval e g)) l = Some bs) as ->; [|done].
  induction H as [|g b l bs Hg _ IH]; [done|]. cbn. rewrite Hg. cbn. cbn in IH. by rewrite IH.
Qed.

Section compile.
  Context (vs : list nat) (M : manager) (own : sdd -> Prop) (HM : sound_manager vs M own).
  Context (varnums : list (string * nat)).
  Notation P := (fun x : string => exists k, dget varnums x = Some k /\ k ∈ vs).
  Notation conv := (sdd_converter M varnums).
  Definition compiled (g : fm) (node : sdd) : Prop :=
    own node /\ forall w, eval (name_env varnums w) g = Some (VB (sat w node)).

  Lemma reduce_conjoin l ns : Forall2 compiled l ns -> l <> [] ->
    exists node, reduce1 (m_conjoin M) ns = Ok node /\ compiled (AndN l) node.
  Proof.
    intros H Hne. inversion H as [|g n l' ns' [Ho Hg] H']; subst; [done|]. cbn [reduce1].
    eexists. split; [done|].
    assert (forall w, Forall2 (fun g b => eval (name_env varnums w) g = Some (VB b)) (g :: l') (map (sat w) (n :: ns'))) as HE.
    { intros w. apply Forall2_fmap_r. eapply Forall2_impl; [exact H|]. intros ? ? [_ Hq]. apply Hq. }
    assert (own (fold_left (m_conjoin M) ns' n) /\ forall w, sat w (fold_left (m_conjoin M) ns' n) =
      forallb id (map (sat w) (n :: ns'))) as [F1 F2].
    { clear HE H Hg Hne. revert n Ho. induction H' as [|g' n' l' ns' [Ho' _] _ IH]; intros n Ho.
      - split; [done|]. intros w. cbn. by rewrite andb_true_r.
      - cbn [fold_left]. destruct (sm_conjoin _ _ _ HM n n' Ho Ho') as [C1 C2].
        destruct (IH _ C1) as [I1 I2]. split; [done|]. intros w. rewrite I2. cbn [map forallb id].
        rewrite C2. unfold id. by rewrite andb_assoc. }
    split; [done|]. intros w. rewrite F2. by apply eval_and_list.
  Qed.
  Lemma reduce_disjoin l ns : Forall2 compiled l ns -> l <> [] ->
    exists node, reduce1 (m_disjoin M) ns = Ok node /\ compiled (OrN l) node.
  Proof.
    intros H Hne. inversion H as [|g n l' ns' [Ho Hg] H']; subst; [done|]. cbn [reduce1].
    eexists. split; [done|].
    assert (forall w, Forall2 (fun g b => eval (name_env varnums w) g = Some (VB b)) (g :: l') (map (sat w) (n :: ns'))) as HE.
    { intros w. apply Forall2_fmap_r. eapply Forall2_impl; [exact H|]. intros ? ? [_ Hq]. apply Hq. }
    assert (own (fold_left (m_disjoin M) ns' n) /\ forall w, sat w (fold_left (m_disjoin M) ns' n) =
      existsb id (map (sat w) (n :: ns'))) as [F1 F2].
    { clear HE H Hg Hne. revert n Ho. induction H' as [|g' n' l' ns' [Ho' _] _ IH]; intros n Ho.
      - split; [done|]. intros w. cbn. by rewrite orb_false_r.
      - cbn [fold_left]. destruct (sm_disjoin _ _ _ HM n n' Ho Ho') as [C1 C2].
        destruct (IH _ C1) as [I1 I2]. split; [done|]. intros w. rewrite I2. cbn [map existsb id].
        rewrite C2. unfold id. by rewrite orb_assoc. }
    split; [done|]. intros w. rewrite F2. by apply eval_and_list.
  Qed.

  Lemma rmapM_compiled n l :
    (forall g, g ∈ l -> exists node, walk conv n g = Ok node /\ compiled g node) ->
    exists ns, rmapM (walk conv n) l = Ok ns /\ Forall2 compiled l ns.
  Proof.
    induction l as [|g l IH]; intros H; [exists []; split; [done|constructor]|].
    destruct (H g) as (node & E & C); [by left|]. destruct IH as (ns & E' & C').
    { intros g' Hg'. apply H. by right. }
    exists (node :: ns). rewrite rmapM_cons, E. cbn [rbind]. rewrite E'. split; [done|by constructor].
  Qed.

  Lemma msize_elem l g : g ∈ l -> msize g <= list_sum (map msize l).
  Proof.
    induction 1 as [|? ? l Hin IH]; cbn [map list_sum fold_right]; [lia|]. unfold list_sum in *. lia.
  Qed.
  Lemma msize_mkNot f : msize (mkNot f) <= S (msize f).
  Proof. destruct f; cbn [mkNot msize]; lia. Qed.

  Lemma compiled_imp a b node : compiled (imp_expand a b) node -> prop_over P a -> prop_over P b -> compiled (ImpN a b) node.
  Proof.
    intros [Ho H] Ha Hb. split; [done|]. intros w. rewrite <- (H w). unfold imp_expand, mkOr.
    destruct (eval_prop (name_env varnums w) a _ Ha) as [x Ex], (eval_prop (name_env varnums w) b _ Hb) as [y Ey].
    assert (Forall2 (fun g b => eval (name_env varnums w) g = Some (VB b)) [mkNot a; b] [negb x; y]) as HF.
    { constructor; [|by constructor]. rewrite (eval_mkNot_eq _ _ _ Ex). cbn [eval]. by rewrite Ex. }
    rewrite (proj2 (eval_and_list _ _ _ HF)). cbn [eval]. rewrite Ex, Ey. cbn. by destruct x, y.
  Qed.

  Lemma compile_ok n : forall g, msize g <= n -> prop_over P g ->
    exists node, walk conv n g = Ok node /\ compiled g node.
  Proof.
    induction n as [|n IH]; intros g Hn Hp; [destruct g; cbn in Hn; lia|].
    assert (forall l, list_sum (map msize l) <= n -> Forall (prop_over P) l ->
      exists ns, rmapM (walk conv n) l = Ok ns /\ Forall2 compiled l ns) as HL.
    { intros l Hl HP. apply rmapM_compiled. intros g' Hg'. rewrite Forall_forall in HP.
      apply IH; [|by apply HP]. apply msize_elem in Hg'. lia. }
    assert (forall a b, 3 + msize a + msize b <= S n -> prop_over P a -> prop_over P b ->
      exists node, walk conv n (imp_expand a b) = Ok node /\ compiled (ImpN a b) node) as HI.
    { intros a b Hs Ha Hb. destruct (IH (imp_expand a b)) as (node & E & C).
      - unfold imp_expand, mkOr. cbn [msize map list_sum fold_right]. pose proof (msize_mkNot a). lia.
      - apply po_or; [done|]. constructor; [by apply po_mkNot|by constructor].
      - exists node. split; [done|]. by apply compiled_imp. }
    inversion Hp as [b|x [k [Hk Hv]]|l Hne HF|l Hne HF|f Hf|a b Ha Hb|a b Ha Hb|c a b Hc Ha Hb]; subst;
      cbn [msize] in Hn; cbn [walk dispatch sdd_converter w_const w_symbol w_and w_or w_not w_ite].
    - destruct b.
      + eexists. split; [done|]. destruct (sm_true _ _ _ HM) as [Ho Hs]. split; [done|]. intros w. by rewrite Hs.
      + eexists. split; [done|]. destruct (sm_false _ _ _ HM) as [Ho Hs]. split; [done|]. intros w. by rewrite Hs.
    - rewrite bool_decide_true by done. rewrite Hk. eexists. split; [done|].
      destruct (sm_l _ _ _ HM k Hv) as [Ho Hs]. split; [done|]. intros w. rewrite Hs. cbn. by rewrite Hk.
    - destruct (HL l) as (ns & E & C); [lia|done|]. rewrite E. cbn [rbind]. by apply reduce_conjoin.
    - destruct (HL l) as (ns & E & C); [lia|done|]. rewrite E. cbn [rbind]. by apply reduce_disjoin.
    - destruct (IH f) as (node & E & Ho & Hs); [lia|done|]. rewrite E. cbn [rbind]. eexists. split; [done|].
      destruct (sm_negate _ _ _ HM node Ho) as [N1 N2]. split; [done|]. intros w. cbn [eval]. rewrite Hs, N2. done.
    - by apply HI.
    - destruct n as [|n]; [lia|]. rewrite !rmapM_cons, rmapM_nil. cbn [walk dispatch].
      assert (exists node, walk conv n (imp_expand a b) = Ok node /\ compiled (ImpN a b) node) as (n1 & E1 & C1).
      { destruct (IH (ImpN a b)) as (n1 & E1 & C1); [cbn; lia|by constructor|]. exists n1. split; [exact E1|done]. }
      assert (exists node, walk conv n (imp_expand b a) = Ok node /\ compiled (ImpN b a) node) as (n2 & E2 & C2).
      { destruct (IH (ImpN b a)) as (n2 & E2 & C2); [cbn; lia|by constructor|]. exists n2. split; [exact E2|done]. }
      rewrite E1, E2. cbn [rbind].
      destruct (reduce_conjoin [ImpN a b; ImpN b a] [n1; n2]) as (node & E & Ho & Hs); [constructor; [done|]; constructor; [done|]; constructor|done|].
      exists node. split; [done|]. split; [done|]. intros w. rewrite <- Hs. cbn [eval mapM].
      destruct (eval_prop (name_env varnums w) a _ Ha) as [x ->], (eval_prop (name_env varnums w) b _ Hb) as [y ->].
      cbn. by destruct x, y.
    - destruct (IH c) as (nc & Ec & Oc & Sc); [lia|done|]. destruct (IH a) as (na & Ea & Oa & Sa); [lia|done|].
      destruct (IH b) as (nb & Eb & Ob & Sb); [lia|done|]. rewrite Ec, Ea, Eb. cbn [rbind]. eexists. split; [done|].
      destruct (sm_conjoin _ _ _ HM nc na Oc Oa) as [A1 A2]. destruct (sm_negate _ _ _ HM nc Oc) as [N1 N2].
      destruct (sm_conjoin _ _ _ HM (m_negate M nc) nb N1 Ob) as [B1 B2].
      destruct (sm_disjoin _ _ _ HM _ _ A1 B1) as [D1 D2]. split; [done|]. intros w. rewrite D2, A2, B2, N2.
      cbn [eval]. rewrite Sc. cbn. rewrite Sa, Sb. cbn. destruct (sat w nc), (sat w na), (sat w nb); done.
  Qed.
End compile.

(** Numbers and literals of an extraction. *)
Lemma number_world_lit f i e lit k : table_ok f i -> dget (numbered i) lit = Some k ->
  number_world i e k = eb (literal_env e (Lit_Model.literals i)) lit.
Proof.
  intros T Hk. destruct (numbers_facts i (to_nodup _ _ T)) as (N1 & N2 & N3 & N4).
  destruct (proj1 (N1 lit) (ex_intro _ k Hk)) as [m Hm]. unfold number_world, number_to_val.
  rewrite (proj1 (N2 lit k) Hk). cbn [rbind]. rewrite Hm. cbn. by rewrite Hm.
Qed.

Lemma compile_extract f g i M own : logic_formula f -> extract_literals f = Ok (g, i) ->
  sound_manager (upto (length (Lit_Model.literals i))) M own ->
  exists node, compile_to_sdd M g i = Ok node /\ own node /\
    (forall e, off_tests e f -> eval e f = Some (VB (sat (number_world i e) node))).
Proof.
  intros Hl He HM. pose proof (extract_table f g i Hl He) as T.
  destruct (extract_sem f Hl) as (g' & i' & E & V & Y). rewrite He in E. injection E as <- <-.
  destruct (numbers_facts i (to_nodup _ _ T)) as (N1 & N2 & N3 & N4).
  set (P := fun x : string => exists k, dget (numbered i) x = Some k /\ k ∈ upto (length (Lit_Model.literals i))).
  assert (prop_over P g) as Hp.
  { destruct (extract_inv f g i He) as (s & Er & _). apply prop_syms; [exact (recurse_prop f _ _ _ Er)|].
    intros y t Hy. destruct (Y y t Hy) as [_ HY]. apply N1 in HY as [k Hk]. exists k. split; [done|].
    assert (1 <= k <= length (Lit_Model.literals i)) as Hr by (apply N3; by exists y).
    unfold upto. apply elem_of_list_In, in_seq. lia. }
  destruct (compile_ok _ M own HM (numbered i) (msize g) g) as (node & Ec & Ho & Hs); [done|exact Hp|].
  exists node. split; [exact Ec|]. split; [done|]. intros e Hoff. rewrite <- (V e Hoff), <- (Hs (number_world i e)).
  apply eval_agree. intros y t Hy. destruct (Y y t Hy) as [-> HY]. cbn [name_env eb].
  apply N1 in HY as [k Hk]. rewrite Hk. symmetry. by apply (number_world_lit f).
Qed.

(** * Literals of the diagrams *)

Section table.
  Context (f : fm) (i : linfo) (T : table_ok f i).
  Notation lits := (Lit_Model.literals i).
  Notation N := (length lits).

  Lemma number_meaning v : v ∈ upto N -> exists lit m, v <> 0 /\
    dget (inv_numbered i) v = Some lit /\ dget (numbered i) lit = Some v /\ dget lits lit = Some m /\
    number_to_val i (Z.of_nat v) = Ok m /\
    match m with
    | MBool x => dget (booleans i) x = Some lit /\ (x, TBool) ∈ syms f
    | MTest c => test_of f c
    end.
  Proof.
    intros Hv. unfold upto in Hv. apply elem_of_list_In, in_seq in Hv.
    destruct (numbers_facts i (to_nodup _ _ T)) as (N1 & N2 & N3 & N4).
    destruct (proj2 (N3 v)) as [lit Hl]; [lia|]. exists lit.
    destruct (proj1 (N1 lit) (ex_intro _ v Hl)) as [m Hm]. exists m. split; [lia|].
    pose proof (proj1 (N2 lit v) Hl) as Hn. split.
    - unfold number_to_lit in Hn. rewrite Zabs2Nat.id in Hn. destruct (dget (inv_numbered i) v); congruence.
    - split; [done|]. split; [done|]. split; [unfold number_to_val; rewrite Hn; cbn [rbind]; by rewrite Hm|].
      destruct m as [x|c].
      + split; [by apply (to_two _ _ T)|by apply (to_bool _ _ T lit)].
      + by apply (to_test _ _ T lit).
  Qed.

  Lemma number_val_abs z : number_to_val i z = number_to_val i (Z.of_nat (Z.abs_nat z)).
  Proof. unfold number_to_val, number_to_lit. by rewrite Zabs2Nat.id. Qed.

  Lemma number_name_inj v1 v2 x : v1 ∈ upto N -> v2 ∈ upto N ->
    number_to_val i (Z.of_nat v1) = Ok (MBool x) -> number_to_val i (Z.of_nat v2) = Ok (MBool x) -> v1 = v2.
  Proof.
    intros H1 H2 E1 E2. destruct (number_meaning v1 H1) as (l1 & m1 & _ & _ & N1 & _ & V1 & M1).
    destruct (number_meaning v2 H2) as (l2 & m2 & _ & _ & N2 & _ & V2 & M2).
    rewrite V1 in E1. injection E1 as ->. rewrite V2 in E2. injection E2 as ->.
    destruct M1 as [M1 _], M2 as [M2 _]. assert (l1 = l2) as -> by congruence. congruence.
  Qed.

  (** * C30: reading back *)
  Lemma smt_weight z : Z.abs_nat z ∈ upto N -> exists h, r_weight (smt_semiring i) z = Ok h /\
    forall e, eval e h = Some (VB (lit_true (number_world i e) z)).
  Proof.
    intros Hv. destruct (number_meaning _ Hv) as (lit & m & H0 & Hinv & Hnum & Hlit & Hval & Hm).
    assert (exists h, smt_positive_weight i (Z.of_nat (Z.abs_nat z)) = Ok h /\
      forall e, eval e h = Some (VB (number_world i e (Z.abs_nat z)))) as (h & Eh & Vh).
    { unfold smt_positive_weight. destruct (Z.ltb_spec (Z.of_nat (Z.abs_nat z)) 0); [lia|].
      rewrite Nat2Z.id, Hinv, Hlit. destruct m as [x|c].
      - destruct Hm as [Hb _]. rewrite bool_decide_true by by rewrite Hb. eexists. split; [done|].
        intros e. unfold number_world. by rewrite Hval.
      - eexists. split; [done|]. intros e. unfold number_world. rewrite Hval. cbn [meaning_true].
        destruct (test_value f c e Hm) as [[] ->]; [by rewrite bool_decide_true|by rewrite bool_decide_false]. }
    cbn [r_weight smt_semiring]. unfold default_weight, lit_true. destruct (Z.ltb_spec z 0).
    - replace (- z)%Z with (Z.of_nat (Z.abs_nat z)) by lia. rewrite Eh. cbn [rbind]. eexists. split; [done|].
      intros e. rewrite (eval_mkNot_eq e h _ (Vh e)). cbn [eval]. by rewrite Vh.
    - assert (Z.of_nat (Z.abs_nat z) = z) as Hz by lia. rewrite Hz in Eh. rewrite Eh. eauto.
  Qed.

  Lemma or_fold_or xs (v : env -> fm -> bool) : (forall x e, x ∈ xs -> eval e x = Some (VB (v e x))) ->
    exists h, or_fold (smt_semiring i) xs = Ok h /\ forall e, eval e h = Some (VB (existsb (v e) xs)).
  Proof.
    destruct xs as [|x [|y xs]]; intros Hx.
    - eexists. split; [done|]. done.
    - eexists. split; [done|]. intros e. rewrite Hx by by left. cbn. by rewrite orb_false_r.
    - unfold or_fold.
      assert (forall l a (u : env -> bool), (forall x e, x ∈ l -> eval e x = Some (VB (v e x))) ->
        (forall e, eval e a = Some (VB (u e))) ->
        exists h, fold_left (fun acc x => let! a := acc in r_plus (smt_semiring i) a x) l (Ok a) = Ok h /\
          forall e, eval e h = Some (VB (u e || existsb (v e) l))) as H.
      { clear. induction l as [|x l IH]; intros a u Hl Ha; cbn [fold_left].
        - eexists. split; [done|]. intros e. rewrite Ha. cbn. by rewrite orb_false_r.
        - cbn [rbind]. cbn [r_plus smt_semiring].
          destruct (IH (OrN [a; x]) (fun e => u e || v e x)) as (h & E & V).
          + intros x' e Hx'. apply Hl. by right.
          + intros e. cbn [eval mapM]. rewrite Ha, (Hl x e) by by left. cbn. unfold id. by rewrite orb_false_r.
          + exists h. split; [done|]. intros e. rewrite V. cbn [existsb]. by rewrite orb_assoc. }
      destruct (H (y :: xs) x (fun e => v e x)) as (h & E & V).
      + intros x' e Hx'. apply Hx. by right.
      + intros e. apply Hx. by left.
      + exists h. split; [done|]. intros e. by rewrite V.
  Qed.

  Lemma recover_amc n : (forall v, v ∈ svars n -> v ∈ upto N) ->
    exists h, amc (smt_semiring i) n = Ok h /\ forall e, eval e h = Some (VB (sat (number_world i e) n)).
  Proof.
    induction n using sdd_ind'; intros Hv.
    - rewrite amc_true. eexists. split; [done|]. done.
    - rewrite amc_false. eexists. split; [done|]. done.
    - rewrite amc_lit. apply smt_weight. apply Hv. by left.
    - assert (exists xs : list (fm * (sdd * sdd)), map snd xs = els /\
        Forall2 (fun (ps : sdd * sdd) x => exists a b, amc (smt_semiring i) ps.1 = Ok a /\
          amc (smt_semiring i) ps.2 = Ok b /\ r_times (smt_semiring i) a b = Ok x) els (map fst xs) /\
        Forall (fun x : fm * (sdd * sdd) => forall e, eval e x.1 =
          Some (VB (sat (number_world i e) x.2.1 && sat (number_world i e) x.2.2))) xs) as (xs & HS & H2 & HV).
      { revert Hv. induction H as [|[p s] els [Hp Hs] _ IH]; intros Hv.
        - exists []. split; [done|]. split; constructor.
        - destruct IH as (xs & HS & H2 & HV).
          { intros v Hin. apply Hv. cbn [svars map concat]. rewrite elem_of_app. by right. }
          destruct Hp as (a & Ea & Va).
          { intros v Hin. apply Hv. cbn [svars map concat fst snd]. rewrite !elem_of_app. by left; left. }
          destruct Hs as (b & Eb & Vb).
          { intros v Hin. apply Hv. cbn [svars map concat fst snd]. rewrite !elem_of_app. by left; right. }
          exists ((AndN [a; b], (p, s)) :: xs). cbn [map fst snd]. rewrite HS. split; [done|]. split.
          + constructor; [|done]. exists a, b. done.
          + constructor; [|done]. intros e. cbn [fst snd]. rewrite eval_AndN2, Va, Vb. done. }
      rewrite (amc_dec _ els (map fst xs) H2).
      destruct (or_fold_or (map fst xs) (fun e x => match eval e x with Some (VB b) => b | _ => false end)) as (h & E & V).
      { intros x e Hin. apply elem_of_list_In, in_map_iff in Hin as ([x' ps] & <- & Hin). rewrite Forall_forall in HV.
        rewrite (HV (x', ps)) by by apply elem_of_list_In. done. }
      exists h. split; [done|]. intros e. rewrite V. f_equal. f_equal. cbn [sat]. rewrite <- HS. clear HS H2 H E V h Hv els.
      induction HV as [|[x ps] xs Hx _ IH]; [done|]. cbn [map existsb fst snd] in *. by rewrite Hx, IH.
  Qed.
End table.

Lemma recover_compiled f g i node simplify : logic_formula f -> extract_literals f = Ok (g, i) ->
  (forall v, v ∈ svars node -> v ∈ upto (length (Lit_Model.literals i))) ->
  (forall h e, eval e (simplify h) = eval e h) ->
  exists h, recover_formula simplify node i = Ok h /\ forall e, eval e h = Some (VB (sat (number_world i e) node)).
Proof.
  intros Hl He Hv Hs. pose proof (extract_table f g i Hl He) as T.
  destruct (recover_amc f i T node Hv) as (h & E & V). exists (simplify h). unfold recover_formula. rewrite E. cbn [rbind].
  split; [done|]. intros e. by rewrite Hs.
Qed.

(** * Counting boolean worlds *)

Lemma uni_elem a b x : x ∈ uni a b <-> x ∈ a \/ x ∈ b.
Proof.
  unfold uni. rewrite elem_of_app, elem_of_list_filter. destruct (decide (x ∈ a)); tauto.
Qed.
Lemma uni_nodup a b : NoDup a -> NoDup b -> NoDup (uni a b).
Proof.
  intros Ha Hb. unfold uni. apply NoDup_app. split; [done|]. split; [|by apply NoDup_filter].
  intros x Hx Hx'. by apply elem_of_list_filter in Hx' as [? _].
Qed.
Lemma diff_elem a b x : x ∈ diff a b <-> x ∈ a /\ x ∉ b.
Proof. unfold diff. rewrite elem_of_list_filter. tauto. Qed.
Lemma same_length (a b : list string) : NoDup a -> NoDup b -> same_set a b -> length a = length b.
Proof. intros Ha Hb H. apply Permutation_length, NoDup_Permutation; done. Qed.
Lemma uni_length_diff a b : length (uni a b) = length a + length (diff b a).
Proof. unfold uni, diff. by rewrite app_length. Qed.
Lemma uni_length_diff' a b : NoDup a -> NoDup b -> length (uni a b) = length b + length (diff a b).
Proof.
  intros Ha Hb. rewrite <- uni_length_diff. apply same_length; [by apply uni_nodup|by apply uni_nodup|].
  intros x. rewrite !uni_elem. tauto.
Qed.
Lemma uni_disjoint_length a b : (forall x, x ∈ a -> x ∉ b) -> length (uni a b) = length a + length b.
Proof.
  intros H. rewrite uni_length_diff. f_equal. unfold diff. f_equal. induction b as [|x b IH]; [done|].
  rewrite filter_cons, decide_True.
  - f_equal. apply IH. intros y Hy Hy'. apply (H y Hy). by right.
  - intros Hx. apply (H x Hx). by left.
Qed.

Lemma names_els i els p s x : (p, s) ∈ els -> x ∈ names i p \/ x ∈ names i s -> x ∈ names i (SDec els).
Proof.
  unfold names. intros Hin Hx.
  assert (forall l, (forall v, v ∈ l -> v ∈ svars (SDec els)) ->
    x ∈ flat_map (fun v => match number_to_val i (Z.of_nat v) with Ok (MBool y) => [y] | _ => [] end) l ->
    x ∈ flat_map (fun v => match number_to_val i (Z.of_nat v) with Ok (MBool y) => [y] | _ => [] end) (svars (SDec els))) as HH.
  { intros l Hl Hf. apply elem_of_list_In, in_flat_map in Hf as (v & Hv & Hxv). apply elem_of_list_In, in_flat_map.
    exists v. split; [|done]. apply elem_of_list_In, Hl. by apply elem_of_list_In. }
  destruct Hx as [Hx|Hx]; refine (HH _ _ Hx); intros v Hv; apply (svars_els els p s); auto.
Qed.
Lemma names_in i n x : x ∈ names i n <-> exists v, v ∈ svars n /\ number_to_val i (Z.of_nat v) = Ok (MBool x).
Proof.
  unfold names. rewrite elem_of_list_In, in_flat_map. split.
  - intros (v & Hv & Hx). exists v. split; [by apply elem_of_list_In|].
    destruct (number_to_val i (Z.of_nat v)) as [[y|]|]; [|done..]. by destruct Hx as [->|[]].
  - intros (v & Hv & E). exists v. split; [by apply elem_of_list_In|]. rewrite E. by left.
Qed.
Lemma names_app i els els' x : x ∈ names i (SDec (els ++ els')) <-> x ∈ names i (SDec els) \/ x ∈ names i (SDec els').
Proof.
  unfold names. cbn [svars]. rewrite map_app, concat_app, flat_map_app. apply elem_of_app.
Qed.
Lemma names_one i p s x : x ∈ names i (SDec [(p, s)]) <-> x ∈ names i p \/ x ∈ names i s.
Proof.
  unfold names. cbn [svars map concat fst snd]. rewrite app_nil_r, flat_map_app. apply elem_of_app.
Qed.

Section worlds.
  Context (f : fm) (i : linfo) (T : table_ok f i) (bools : list string).
  Hypothesis HB : forall x, (x, TBool) ∈ syms f -> x ∈ bools.
  Notation lits := (Lit_Model.literals i).
  Notation N := (length lits).
  Definition F (e : env) (n : sdd) (b : string -> bool) : Qc := ind (sat (number_world i (Env b (er e))) n).
  Notation mu := (mean (fun _ => half) bools).

  Lemma dep_F e n : (forall v, v ∈ svars n -> v ∈ upto N) -> dep (names i n) (F e n).
  Proof.
    intros Hv b b' Hb. unfold F. f_equal. apply sat_agree. intros v Hin. unfold number_world.
    destruct (number_meaning f i T v (Hv v Hin)) as (lit & m & _ & _ & _ & _ & E & Hm). rewrite E.
    destruct m as [x|c]; cbn [meaning_true].
    - apply Hb. apply names_in. eauto.
    - by rewrite (test_reals f c _ (Env b' (er e)) Hm).
  Qed.

  Lemma names_disjoint p s : (forall v, v ∈ svars p -> v ∈ upto N) -> (forall v, v ∈ svars s -> v ∈ upto N) ->
    (forall v, v ∈ svars p -> v ∉ svars s) -> forall x, x ∈ names i p -> x ∉ names i s.
  Proof.
    intros Hp Hs Hd x Hx Hx'. apply names_in in Hx as (v & Hv & Ev), Hx' as (v' & Hv' & Ev').
    assert (v = v') as -> by (apply (number_name_inj f i T v v' x); auto). by apply (Hd v').
  Qed.

  (** The averages for the nodes. *)
  Lemma mu_true e : mu (F e STrue) = 1%Qc.
  Proof. exact (mean_const _ bools 1%Qc). Qed.
  Lemma mu_false e : mu (F e SFalse) = 0%Qc.
  Proof. exact (mean_const _ bools 0%Qc). Qed.
  Lemma mu_lit e z : Z.abs_nat z ∈ upto N -> exists m, number_to_val i z = Ok m /\
    match m with
    | MBool x => x ∈ bools /\ names i (SLit z) = [x] /\ mu (F e (SLit z)) = half
    | MTest c => test_of f c /\ c ∈ dkeys (abstractions i) /\ names i (SLit z) = [] /\ exists v, eval e c = Some (VB v) /\
        mu (F e (SLit z)) = ind (if (z <? 0)%Z then negb v else v)
    end.
  Proof.
    intros Hv. destruct (number_meaning f i T _ Hv) as (lit & m & _ & _ & _ & Hl & E & Hm). exists m.
    rewrite number_val_abs, E. split; [done|]. unfold names. cbn [svars flat_map]. rewrite E, app_nil_r. destruct m as [x|c].
    - destruct Hm as [_ Hx]. split; [by apply HB|]. split; [done|]. unfold F. cbn [sat].
      rewrite (mean_ext _ _ _ (fun b => (fun y => ind (if (z <? 0)%Z then negb y else y)) (b x))).
      + rewrite (mean_value _ bools x (fun y => ind (if (z <? 0)%Z then negb y else y))) by by apply HB. destruct (z <? 0)%Z; cbn [ind negb]; [|ring].
        transitivity (1 - half)%Qc; [ring|]. rewrite <- half_2'. ring.
      + intros b. unfold lit_true, number_world. rewrite E. done.
    - split; [done|]. split.
      { destruct (to_two _ _ T) as [_ T2]. apply T2 in Hl. apply dget_is_Some. by eexists. }
      split; [done|]. destruct (test_value f c e Hm) as [v Ev]. exists v. split; [done|].
      unfold F. cbn [sat]. rewrite (mean_ext _ _ _ (fun _ => ind (if (z <? 0)%Z then negb v else v))).
      + apply mean_const.
      + intros b. unfold lit_true, number_world. rewrite E. cbn [meaning_true].
        rewrite (test_reals f c (Env b (er e)) e Hm) by done. rewrite Ev.
        assert (bool_decide (Some (VB v) = Some (VB true)) = v) as ->.
        { destruct v; [by apply bool_decide_eq_true_2|by apply bool_decide_eq_false_2]. }
        done.
  Qed.
  Lemma mu_dec e els : is_sdd (SDec els) -> (forall v, v ∈ svars (SDec els) -> v ∈ upto N) ->
    mu (F e (SDec els)) = qsum (map (fun ps : sdd * sdd => mu (F e ps.1) * mu (F e ps.2))%Qc els).
  Proof.
    intros Hs Hv. unfold F at 1. rewrite (mean_ext _ _ _ (fun b =>
      qsum (map (fun ps : sdd * sdd => F e ps.1 b * F e ps.2 b)%Qc els))).
    2:{ intros b. by rewrite sat_dec. }
    rewrite mean_sum. f_equal. apply map_ext_in. intros [p s] Hin%elem_of_list_In. cbn [fst snd].
    inversion Hs as [| | |? _ HD _]; subst.
    assert (forall v, v ∈ svars p -> v ∈ upto N) as Hp by (intros; apply Hv, (svars_els els p s); auto).
    assert (forall v, v ∈ svars s -> v ∈ upto N) as Hq by (intros; apply Hv, (svars_els els p s); auto).
    apply (mean_mul _ (names i p) (names i s)); [by apply dep_F|by apply dep_F|].
    apply names_disjoint; try done. intros v Hvp. by apply (HD p s).
  Qed.

  Lemma world_count_mu e n : world_count i bools e n = (qpow (qz 2) (length bools) * mu (F e n))%Qc.
  Proof. unfold world_count. by rewrite <- sum_worlds. Qed.

  (** * C33 *)
  Definition region_value (e : env) (l : list (fm * list string)) : Qc :=
    qsum (map (fun r : fm * list string =>
      ind (bool_decide (eval e r.1 = Some (VB true))) * qpow half (length r.2))%Qc l).
  Definition region_ok (n : sdd) (r : fm * list string) : Prop :=
    conj_of_tests (dkeys (abstractions i)) r.1 /\ NoDup r.2 /\ (forall x, x ∈ r.2 -> x ∈ names i n) /\
    forall e, exists v, eval e r.1 = Some (VB v).

  Lemma region_value_app e a b : region_value e (a ++ b) = (region_value e a + region_value e b)%Qc.
  Proof. unfold region_value. by rewrite map_app, qsum_app. Qed.

  Lemma bd_true u : bool_decide (Some (VB u) = Some (VB true)) = u.
  Proof. destruct u; [by apply bool_decide_eq_true_2|by apply bool_decide_eq_false_2]. Qed.
  Lemma region_value_one e g S u : eval e g = Some (VB u) -> region_value e [(g, S)] = (ind u * qpow half (length S))%Qc.
  Proof. intros E. unfold region_value. cbn [map fst snd]. rewrite E, bd_true, qsum_cons. change (qsum []) with 0%Qc. ring. Qed.

  Lemma region_value_times e p s a b :
    (forall x, x ∈ names i p -> x ∉ names i s) -> Forall (region_ok p) a -> Forall (region_ok s) b ->
    region_value e (convex_times a b) = (region_value e a * region_value e b)%Qc.
  Proof.
    intros Hd Ha Hb. induction Ha as [|[g S] a (_ & _ & H3 & H4) _ IH].
    - cbn. ring.
    - cbn [convex_times flat_map]. fold (convex_times a b). rewrite region_value_app, IH.
      assert (region_value e (map (fun p2 : fm * list string => (AndN [g; p2.1], uni S p2.2)) b) =
        (ind (bool_decide (eval e g = Some (VB true))) * qpow half (length S) * region_value e b)%Qc) as HE.
      { clear IH. unfold region_value at 1. rewrite map_map. cbn [fst snd] in *. destruct (H4 e) as [v Ev].
        unfold region_value. induction Hb as [|[h S'] b (_ & _ & K3 & K4) _ IH]; [cbn; ring|].
        cbn [map fst snd] in *. rewrite !qsum_cons, IH. cbn [fst snd]. rewrite uni_disjoint_length.
        2:{ intros x Hx Hx'. apply (Hd x); auto. }
        rewrite qpow_add, eval_AndN2, Ev. destruct (K4 e) as [v' Ev']. rewrite Ev'. cbn.
        assert (forall u, bool_decide (Some (VB u) = Some (VB true)) = u) as HU.
        { intros []; [by apply bool_decide_eq_true_2|by apply bool_decide_eq_false_2]. }
        rewrite !HU, ind_and. ring. }
      etransitivity; [apply (f_equal (fun q => q + _)%Qc); exact HE|]. 
      assert (region_value e ((g, S) :: a) =
        ind (bool_decide (eval e g = Some (VB true))) * qpow half (length S) + region_value e a)%Qc as -> by
        (unfold region_value; cbn [map]; by rewrite qsum_cons).
      ring.
  Qed.

  Lemma or_fold_concat xs : or_fold (convex_semiring i) xs = Ok (concat xs).
  Proof.
    destruct xs as [|x [|y xs]]; [done|cbn; by rewrite app_nil_r|]. unfold or_fold.
    assert (forall l a, fold_left (fun acc x => let! a := acc in r_plus (convex_semiring i) a x) l (Ok a) =
      Ok (a ++ concat l)) as H.
    { clear. induction l as [|x l IH]; intros a; cbn [fold_left]; [cbn; by rewrite app_nil_r|].
      cbn [rbind]. cbn [r_plus convex_semiring]. rewrite IH. cbn [concat]. by rewrite app_assoc. }
    by rewrite H.
  Qed.

  Lemma region_ok_mono n n' r : (forall x, x ∈ names i n -> x ∈ names i n') -> region_ok n r -> region_ok n' r.
  Proof. intros H (H1 & H2 & H3 & H4). split; [done|]. split; [done|]. split; auto. Qed.

  Lemma convex_regions n : is_sdd n -> (forall v, v ∈ svars n -> v ∈ upto N) ->
    exists l, amc (convex_semiring i) n = Ok l /\ Forall (region_ok n) l /\
      forall e, region_value e l = mu (F e n).
  Proof.
    induction n using sdd_ind'; intros Hs Hv.
    - rewrite amc_true. eexists. split; [done|]. split.
      + apply Forall_cons. split; [|constructor]. split; [constructor|]. split; [constructor|].
        split; [intros x Hx; by apply elem_of_nil in Hx|]. by eexists.
      + intros e. rewrite mu_true. cbn [r_one convex_semiring]. rewrite (region_value_one e (BoolC true) _ true eq_refl). cbn [ind length qpow]. ring.
    - rewrite amc_false. eexists. split; [done|]. split; [constructor|]. intros e. by rewrite mu_false.
    - rewrite amc_lit. cbn [r_weight convex_semiring]. unfold convex_weight, lit_meaning.
      assert (Z.abs_nat z ∈ upto N) as Hz by (apply Hv; by left).
      destruct (mu_lit (Env (fun _ => false) (fun _ => 0%Qc)) z Hz) as (m & E & Hm). rewrite E. cbn [rbind].
      destruct m as [x|c].
      + destruct Hm as (Hx & Hn & _). eexists. split; [done|]. split.
        * apply Forall_cons. split; [|constructor]. split; [constructor|]. split; [apply NoDup_singleton|].
          split; [by rewrite Hn|]. by eexists.
        * intros e. destruct (mu_lit e z Hz) as (m & E' & Hm'). rewrite E in E'. injection E' as <-.
          destruct Hm' as (_ & _ & ->). rewrite (region_value_one e (BoolC true) _ true eq_refl). cbn [ind length qpow]. ring.
      + destruct Hm as (Ht & Hk & Hn & _). eexists. split; [done|]. split.
        * apply Forall_cons. split; [|constructor]. cbn [region_ok fst snd]. split; [destruct (z <? 0)%Z; by constructor|].
          split; [constructor|]. split; [intros x Hx; by apply elem_of_nil in Hx|]. intros e. cbn [fst].
          destruct (test_value f c e Ht) as [v Ev]. destruct (z <? 0)%Z; [|by eexists].
          rewrite (eval_mkNot_eq e c _ Ev). cbn [eval]. rewrite Ev. by eexists.
        * intros e. destruct (mu_lit e z Hz) as (m & E' & Hm'). rewrite E in E'. injection E' as <-.
          destruct Hm' as (_ & _ & _ & v & Ev & ->).
          rewrite (region_value_one e _ _ (if (z <? 0)%Z then negb v else v)); [cbn [length qpow]; ring|].
          destruct (z <? 0)%Z; [|done]. rewrite (eval_mkNot_eq e c _ Ev). cbn [eval]. by rewrite Ev.
    - inversion Hs as [| | |? HF HD _]; subst.
      assert (exists xs, Forall2 (fun (ps : sdd * sdd) x => exists a b, amc (convex_semiring i) ps.1 = Ok a /\
          amc (convex_semiring i) ps.2 = Ok b /\ r_times (convex_semiring i) a b = Ok x) els xs /\
        Forall2 (fun (ps : sdd * sdd) x => Forall (region_ok (SDec els)) x /\
          forall e, region_value e x = (mu (F e ps.1) * mu (F e ps.2))%Qc) els xs) as (xs & H2 & H3).
      { assert (forall ps, ps ∈ els -> exists x, (exists a b, amc (convex_semiring i) ps.1 = Ok a /\
          amc (convex_semiring i) ps.2 = Ok b /\ r_times (convex_semiring i) a b = Ok x) /\
          Forall (region_ok (SDec els)) x /\ forall e, region_value e x = (mu (F e ps.1) * mu (F e ps.2))%Qc) as HX.
        { intros [p s] Hin. rewrite Forall_forall in H, HF. destruct (H _ Hin) as [IH1 IH2], (HF _ Hin) as [F1 F2].
          cbn [fst snd] in *.
          assert (forall v, v ∈ svars p -> v ∈ upto N) as Hp by (intros; apply Hv, (svars_els els p s); auto).
          assert (forall v, v ∈ svars s -> v ∈ upto N) as Hq by (intros; apply Hv, (svars_els els p s); auto).
          destruct (IH1 F1 Hp) as (a & Ea & Oa & Va). destruct (IH2 F2 Hq) as (b & Eb & Ob & Vb).
          assert (forall x, x ∈ names i p -> x ∉ names i s) as Hdis.
          { apply names_disjoint; try done. intros v Hvp. by apply (HD p s). }
          exists (convex_times a b). split; [by exists a, b|]. split.
          - rewrite Forall_forall. intros r Hr. unfold convex_times in Hr.
            apply elem_of_list_In, in_flat_map in Hr as (r1 & Hr1 & Hr). apply in_map_iff in Hr as (r2 & <- & Hr2).
            rewrite Forall_forall in Oa, Ob. destruct (Oa r1) as (A1 & A2 & A3 & A4); [by apply elem_of_list_In|].
            destruct (Ob r2) as (B1 & B2 & B3 & B4); [by apply elem_of_list_In|]. split; [by constructor|].
            split; [by apply uni_nodup|]. split.
            + intros x Hx. cbn [snd] in Hx. apply uni_elem in Hx as [Hx|Hx]; apply (names_els i els p s); auto.
            + intros e. cbn [fst]. rewrite eval_AndN2. destruct (A4 e) as [v ->], (B4 e) as [v' ->]. by eexists.
          - intros e. rewrite (region_value_times e p s) by done. by rewrite Va, Vb. }
        clear H HF HD Hv Hs. revert HX. generalize (region_ok (SDec els)) as RO. intros RO.
        induction els as [|ps els IH]; intros HX.
        - exists []. split; constructor.
        - destruct IH as (xs & X1 & X2); [intros qt Hqt; apply HX; by right|].
          destruct (HX ps) as (x & Y1 & Y2); [by left|]. exists (x :: xs). split; constructor; auto. }
      rewrite (amc_dec _ els xs H2), or_fold_concat. exists (concat xs). split; [done|]. split.
      + clear H2. generalize (SDec els) as n0, H3. intros n0 H4. clear -H4. induction H4 as [|? ? ? ? [H1 _] _ IH]; [constructor|].
        cbn [concat]. by apply Forall_app.
      + intros e. rewrite mu_dec by done. clear -H3. revert H3. generalize (region_ok (SDec els)) as RO. intros RO H3.
        induction H3 as [|ps x els xs [_ H1] _ IH]; [done|]. cbn [concat map]. rewrite region_value_app, qsum_cons, IH, H1. done.
  Qed.

  Lemma region_count_value e l : NoDup bools -> Forall (fun r : fm * list string => NoDup r.2 /\ forall x, x ∈ r.2 -> x ∈ bools) l ->
    region_count bools e l = (qpow (qz 2) (length bools) * region_value e l)%Qc.
  Proof.
    intros Hnd H. unfold region_count, region_value. rewrite <- qsum_scale. f_equal. apply map_ext_in.
    intros [g S] Hin%elem_of_list_In. rewrite Forall_forall in H. destruct (H _ Hin) as [H1 H2]. cbn [fst snd] in *.
    destruct (bool_decide _); cbn [ind]; [|ring].
    assert (length S <= length bools) as Hle.
    { apply submseteq_length. by apply NoDup_submseteq. }
    replace (length bools) with ((length bools - length S) + length S) at 2 by lia. rewrite qpow_add.
    transitivity (qpow (qz 2) (length bools - length S) * qpow (qz 2 * half) (length S))%Qc.
    - rewrite half_2. clear. assert (forall n, qpow 1 n = 1%Qc) as ->; [|ring].
      induction n as [|n IH]; cbn [qpow]; [done|]. rewrite IH. ring.
    - rewrite qpow_mul. ring.
  Qed.

  Lemma names_bools n x : (forall v, v ∈ svars n -> v ∈ upto N) -> x ∈ names i n -> x ∈ bools.
  Proof.
    intros Hv Hx. apply names_in in Hx as (v & Hin & E).
    destruct (number_meaning f i T v (Hv v Hin)) as (lit & m & _ & _ & _ & _ & E' & Hm).
    rewrite E in E'. injection E' as <-. apply HB, Hm.
  Qed.
End worlds.

(** * C32 *)

Lemma compares_mkNot c a b : compares c a b -> compares (mkNot c) a b.
Proof. intros H. inversion H; subst; cbn [mkNot]; [by repeat constructor|by repeat constructor|done]. Qed.

Lemma li_value c a b : compares c a b -> linear_expr a -> linear_expr b ->
  exists d, li_from_smt c = Ok d /\ dwf d /\
    forall e, off e a b -> eval e c = Some (VB (qle (poly_val e d) 0)).
Proof.
  intros Hc Ha Hb. destruct (li_from_smt_ok c a b Hc Ha Hb) as [d Hd]. exists d. split; [done|].
  destruct (li_half_space c a b d Hc (linear_expr_real _ Ha) (linear_expr_real _ Hb) Hd) as (g & h & Hg & _ & V).
  assert (dwf d /\ forall e, off e a b -> poly_val e d <> 0%Qc) as [Wd Hoff].
  { unfold li_from_smt, math_walk in Hd. destruct (walk _ _ c) as [d'|] eqn:E; [|done]. injection Hd as <-.
    pose proof (walk_compares _ _ _ _ _ Hc E (linear_expr_real _ Ha) (linear_expr_real _ Hb)) as Hdiff.
    split; [apply dwf_lfilter; apply Hdiff|]. intros e (x & y & Hx & Hy & Hne).
    destruct (diff_holds _ _ _ _ _ _ _ Hdiff Hx Hy Hne) as [Hnz _]. unfold li_make. by rewrite pv_filter. }
  split; [done|]. intros e He. destruct (li_to_smt_sound d Wd) as (g' & Hg' & Vg).
  assert (g' = g) as -> by congruence. rewrite <- (proj1 (V e He)), Vg. do 2 f_equal.
  rewrite li_holds_off by by apply Hoff. apply eq_iff_eq_true. rewrite qle_spec, qlt_spec.
  split; [apply Qclt_le_weak|]. intros H. apply Qcle_lt_or_eq in H as [H|H]; [done|]. by apply Hoff in H.
Qed.

Section nonconvex.
  Context {E : Type} (A : alg E) (den : E -> env -> option Qc).
  Hypothesis HA : sound_arith (a_real A) (a_symbol A) (a_eq A) (a_mul A) (a_add A) den.
  Hypothesis HI : sound_indicator (a_le A) (a_lt A) den.
  Context (f : fm) (i : linfo) (T : table_ok f i) (bools : list string).
  Hypothesis HB : forall x, (x, TBool) ∈ syms f -> x ∈ bools.
  Notation lits := (Lit_Model.literals i).
  Notation N := (length lits).
  Notation mu := (mean (fun _ => half) bools).
  Notation S := (nonconvex_semiring A i).

  Lemma li_indicator e d : dwf d -> den (li_to_expression A d) e = Some (ind (qle (poly_val e d) 0)).
  Proof.
    intros Wd. pose (cond := fun x e => match den x e with
      | Some q => if qeq q 1 then Some true else if qeq q 0 then Some false else None | None => None end).
    assert (sound_comp (a_le A) (a_lt A) den cond) as HC.
    { split; intros a b e' x y Hx Hy; unfold cond.
      - rewrite (si_le _ _ _ HI _ _ _ _ _ Hx Hy). by destruct (qle x y).
      - rewrite (si_lt _ _ _ HI _ _ _ _ _ Hx Hy). by destruct (qlt x y). }
    pose proof (li_to_expression_value A den cond HA e HC d Wd) as H. unfold cond in H.
    destruct (den (li_to_expression A d) e) as [q|]; [|done]. destruct (qeq q 1) eqn:E1.
    - apply qeq_spec in E1 as ->. injection H as <-. done.
    - destruct (qeq q 0) eqn:E0; [|done]. apply qeq_spec in E0 as ->. injection H as <-. done.
  Qed.

  (** [r] is the result for a node whose average is [m], mentioning [ns]. *)
  Definition counts (m : env -> Qc) (ns : list string) (r : E * list string) : Prop :=
    NoDup r.2 /\ same_set r.2 ns /\
    forall e, off_tests e f -> den r.1 e = Some (qpow (qz 2) (length r.2) * m e)%Qc.

  Lemma counts_same m ns ns' r : same_set ns ns' -> counts m ns r -> counts m ns' r.
  Proof. intros H (H1 & H2 & H3). split; [done|]. split; [|done]. intros x. by rewrite (H2 x). Qed.
  Lemma counts_ext m m' ns r : (forall e, m e = m' e) -> counts m ns r -> counts m' ns r.
  Proof. intros H (H1 & H2 & H3). split; [done|]. split; [done|]. intros e He. by rewrite <- H, H3. Qed.

  Lemma counts_times m1 m2 ns1 ns2 r1 r2 : counts m1 ns1 r1 -> counts m2 ns2 r2 ->
    (forall x, x ∈ ns1 -> x ∉ ns2) ->
    exists r, r_times S r1 r2 = Ok r /\ counts (fun e => m1 e * m2 e)%Qc (ns1 ++ ns2) r.
  Proof.
    intros (A1 & A2 & A3) (B1 & B2 & B3) Hd. eexists. split; [done|]. split; cbn [fst snd].
    - by apply uni_nodup.
    - split.
      + intros x. by rewrite uni_elem, elem_of_app, (A2 x), (B2 x).
      + intros e He. rewrite (alg_times_value A den HA e _ _ _ _ (A3 e He) (B3 e He)). f_equal.
        rewrite uni_disjoint_length.
        2:{ intros x Hx Hx'. apply (Hd x); [by apply A2|by apply B2]. }
        rewrite qpow_add. ring.
  Qed.

  Lemma remove_dups_length (ns l : list string) : NoDup l -> same_set l ns -> length (remove_dups ns) = length l.
  Proof.
    intros H1 H2. apply same_length; [apply NoDup_remove_dups|done|]. intros x. by rewrite elem_of_remove_dups, (H2 x).
  Qed.

  Lemma counts_plus m1 m2 ns1 ns2 r1 r2 : counts m1 ns1 r1 -> counts m2 ns2 r2 ->
    (length (remove_dups ns1) = length (remove_dups ns2) -> same_set ns1 ns2) ->
    exists r, r_plus S r1 r2 = Ok r /\ counts (fun e => m1 e + m2 e)%Qc (ns1 ++ ns2) r.
  Proof.
    intros (A1 & A2 & A3) (B1 & B2 & B3) Hal. cbn [r_plus nonconvex_semiring]. unfold nonconvex_plus.
    rewrite (remove_dups_length ns1 r1.2), (remove_dups_length ns2 r2.2) in Hal by done.
    assert (same_set (uni r1.2 r2.2) (ns1 ++ ns2)) as HU.
    { intros x. by rewrite uni_elem, elem_of_app, (A2 x), (B2 x). }
    destruct (Nat.eqb_spec (length r1.2) (length r2.2)) as [Heq|Hne].
    - eexists. split; [done|]. split; [by apply uni_nodup|]. split; [done|]. cbn [fst snd]. intros e He.
      rewrite (alg_plus_value A den HA e _ _ _ _ (A3 e He) (B3 e He)). f_equal.
      assert (length (uni r1.2 r2.2) = length r1.2) as ->.
      { apply same_length; [by apply uni_nodup|done|]. intros x. rewrite uni_elem, (A2 x), (B2 x).
        specialize (Hal Heq x). tauto. }
      rewrite <- Heq. ring.
    - destruct (alg_power_value A den HA (Env (fun _ => false) (fun _ => 0%Qc)) (a_real A (qz 2)) (qz 2) (length (diff r2.2 r1.2)))
        as (pa & Ea & _); [apply (sa_real _ _ _ _ _ _ HA)|].
      destruct (alg_power_value A den HA (Env (fun _ => false) (fun _ => 0%Qc)) (a_real A (qz 2)) (qz 2) (length (diff r1.2 r2.2)))
        as (pb & Eb & _); [apply (sa_real _ _ _ _ _ _ HA)|].
      rewrite Ea, Eb. cbn [rbind]. eexists. split; [done|]. split; [by apply uni_nodup|]. split; [done|]. cbn [fst snd].
      intros e He.
      assert (den pa e = Some (qpow (qz 2) (length (diff r2.2 r1.2)))) as Va.
      { destruct (alg_power_value A den HA e (a_real A (qz 2)) (qz 2) (length (diff r2.2 r1.2)))
          as (pa' & Ea' & V); [apply (sa_real _ _ _ _ _ _ HA)|]. congruence. }
      assert (den pb e = Some (qpow (qz 2) (length (diff r1.2 r2.2)))) as Vb.
      { destruct (alg_power_value A den HA e (a_real A (qz 2)) (qz 2) (length (diff r1.2 r2.2)))
          as (pb' & Eb' & V); [apply (sa_real _ _ _ _ _ _ HA)|]. congruence. }
      erewrite (alg_plus_value A den HA e).
      2: exact (alg_times_value A den HA e _ _ _ _ (A3 e He) Va).
      2: exact (alg_times_value A den HA e _ _ _ _ (B3 e He) Vb).
      f_equal. rewrite Qcmult_plus_distr_r. f_equal.
      + rewrite uni_length_diff, qpow_add. ring.
      + rewrite uni_length_diff' by done. rewrite qpow_add. ring.
  Qed.

  Lemma counts_zero : counts (fun _ => 0%Qc) [] (r_zero S).
  Proof.
    split; [constructor|]. split; [done|]. intros e _. cbn. unfold alg_zero. rewrite (sa_real _ _ _ _ _ _ HA). f_equal; ring.
  Qed.

  Lemma nonconvex_counts n : is_sdd n -> (forall v, v ∈ svars n -> v ∈ upto N) -> aligned i n ->
    exists r, amc S n = Ok r /\ counts (fun e => mu (F i e n)) (names i n) r.
  Proof.
    induction n using sdd_ind'; intros Hs Hv Hal.
    - rewrite amc_true. eexists. split; [done|]. split; [constructor|]. split; [done|]. intros e _. cbn. unfold alg_one.
      rewrite (sa_real _ _ _ _ _ _ HA), mu_true. f_equal; ring.
    - rewrite amc_false. eexists. split; [done|]. apply (counts_ext (fun _ => 0%Qc)); [|apply counts_zero].
      intros e. by rewrite mu_false.
    - rewrite amc_lit. cbn [r_weight nonconvex_semiring]. unfold nonconvex_weight, lit_meaning.
      assert (Z.abs_nat z ∈ upto N) as Hz by (apply Hv; by left).
      destruct (mu_lit f i T bools HB (Env (fun _ => false) (fun _ => 0%Qc)) z Hz) as (m & Em & Hm). rewrite Em. cbn [rbind].
      destruct m as [x|c].
      + destruct Hm as (Hx & Hn & _). eexists. split; [done|]. rewrite Hn. split; [apply NoDup_singleton|]. split; [done|].
        intros e _. destruct (mu_lit f i T bools HB e z Hz) as (m & E' & Hm'). rewrite Em in E'. injection E' as <-.
        destruct Hm' as (_ & _ & ->). cbn [fst snd]. unfold alg_one. rewrite (sa_real _ _ _ _ _ _ HA).
        cbn [length qpow]. f_equal. transitivity (qz 2 * half)%Qc; [by rewrite half_2|ring].
      + destruct Hm as (Ht & _ & Hn & _). destruct Ht as (a & b & Hc & Ha & Hb & Hoff).
        assert (exists d, li_from_smt (if (z <? 0)%Z then mkNot c else c) = Ok d /\ dwf d /\
          forall e, off e a b -> eval e (if (z <? 0)%Z then mkNot c else c) = Some (VB (qle (poly_val e d) 0))) as (d & Ed & Wd & Vd).
        { apply li_value; [|done|done]. destruct (z <? 0)%Z; [by apply compares_mkNot|done]. }
        rewrite Ed. cbn [rbind]. eexists. split; [done|]. rewrite Hn. split; [constructor|]. split; [done|].
        intros e He. cbn [fst snd]. rewrite li_indicator by done.
        destruct (mu_lit f i T bools HB e z Hz) as (m & E' & Hm'). rewrite Em in E'. injection E' as <-.
        destruct Hm' as (_ & _ & _ & v & Ev & ->). specialize (Vd e (Hoff e He)).
        assert (qle (poly_val e d) 0 = if (z <? 0)%Z then negb v else v) as ->.
        { destruct (z <? 0)%Z; [|congruence]. rewrite (eval_mkNot_eq e c _ Ev) in Vd. cbn [eval] in Vd. rewrite Ev in Vd.
          cbn in Vd. congruence. }
        f_equal. cbn [length qpow]. ring.
    - inversion Hs as [| | |? HF HD _]; subst. inversion Hal as [| | |? HAl HX]; subst.
      assert (forall ps, ps ∈ els -> exists x, (exists a b, amc S ps.1 = Ok a /\ amc S ps.2 = Ok b /\ r_times S a b = Ok x) /\
        counts (fun e => mu (F i e ps.1) * mu (F i e ps.2))%Qc (names i (SDec [ps])) x) as Hels.
      { intros [p s] Hin. rewrite Forall_forall in H, HF, HAl. destruct (H _ Hin) as [IH1 IH2], (HF _ Hin) as [F1 F2], (HAl _ Hin) as [A1 A2].
        cbn [fst snd] in *.
        assert (forall v, v ∈ svars p -> v ∈ upto N) as Hp by (intros; apply Hv, (svars_els els p s); auto).
        assert (forall v, v ∈ svars s -> v ∈ upto N) as Hq by (intros; apply Hv, (svars_els els p s); auto).
        destruct (IH1 F1 Hp A1) as (a & Ea & Ca). destruct (IH2 F2 Hq A2) as (b & Eb & Cb).
        destruct (counts_times _ _ _ _ _ _ Ca Cb) as (x & Ex & Cx).
        { apply (names_disjoint f i T); try done. intros v Hvp. by apply (HD p s). }
        exists x. split; [by exists a, b|]. revert Cx. apply counts_same. intros y. by rewrite names_one, elem_of_app. }
      assert (exists xs, Forall2 (fun (ps : sdd * sdd) x => exists a b, amc S ps.1 = Ok a /\
          amc S ps.2 = Ok b /\ r_times S a b = Ok x) els xs /\
        Forall2 (fun (ps : sdd * sdd) x => counts (fun e => mu (F i e ps.1) * mu (F i e ps.2))%Qc (names i (SDec [ps])) x) els xs)
        as (xs & H2 & H3).
      { clear -Hels. induction els as [|ps els IH].
        - exists []. split; constructor.
        - destruct IH as (xs & X1 & X2); [intros qt Hqt; apply Hels; by right|].
          destruct (Hels ps) as (x & Y1 & Y2); [by left|]. exists (x :: xs). split; constructor; auto. }
      rewrite (amc_dec _ els xs H2).
      enough (exists r, or_fold S xs = Ok r /\ counts (fun e => qsum (map (fun ps : sdd * sdd => mu (F i e ps.1) * mu (F i e ps.2))%Qc els)) (names i (SDec els)) r)
        as (r & Er & Cr).
      { exists r. split; [done|]. revert Cr. apply counts_ext. intros e. symmetry. by apply (mu_dec f i T). }
      clear H2 Hels H HF HD Hs Hv Hal HAl.
      destruct H3 as [|ps x els xs Hx H3].
      + eexists. split; [done|]. apply counts_zero.
      + assert (or_fold S (x :: xs) = fold_left (fun acc x => let! a := acc in r_plus S a x) xs (Ok x)) as -> by by destruct xs.
        assert (forall rest xs, Forall2 (fun (ps : sdd * sdd) x => counts (fun e => mu (F i e ps.1) * mu (F i e ps.2))%Qc
            (names i (SDec [ps])) x) rest xs ->
          forall before r0, before <> [] -> before ++ rest = ps :: els ->
          counts (fun e => qsum (map (fun ps : sdd * sdd => mu (F i e ps.1) * mu (F i e ps.2))%Qc before)) (names i (SDec before)) r0 ->
          exists r, fold_left (fun acc x => let! a := acc in r_plus S a x) xs (Ok r0) = Ok r /\
            counts (fun e => qsum (map (fun ps : sdd * sdd => mu (F i e ps.1) * mu (F i e ps.2))%Qc (ps :: els))) (names i (SDec (ps :: els))) r) as HFold.
        { clear Hx H3 x xs. induction 1 as [|[p s] y rest ys Hy _ IH]; intros before r0 Hne Happ Hr0; cbn [fold_left].
          - rewrite app_nil_r in Happ. subst before. eauto.
          - cbn [rbind]. destruct (counts_plus _ _ _ _ _ _ Hr0 Hy) as (r1 & E1 & C1).
            { apply (HX before p s rest); [by rewrite Happ|done]. }
            rewrite E1. apply (IH (before ++ [(p, s)])).
            + by destruct before.
            + by rewrite <- app_assoc.
            + eapply counts_ext; [|eapply counts_same; [|exact C1]].
              * intros e. cbn [fst snd]. rewrite map_app, qsum_app. cbn [map]. rewrite qsum_cons. change (qsum []) with 0%Qc. cbn [fst snd]. ring.
              * intros z. by rewrite names_app, elem_of_app. }
        apply (HFold els xs H3 [ps]); [done|done|].
        revert Hx. apply counts_ext. intros e. cbn [map]. rewrite qsum_cons. change (qsum []) with 0%Qc. ring.
  Qed.
End nonconvex.

(** Sufficient conditions. *)
Lemma uniform_aligned i n : uniform i n -> aligned i n.
Proof.
  induction n using sdd_ind'; intros Hu; inversion Hu as [| | |? HF HU]; subst; try constructor.
  - rewrite Forall_forall in *. intros ps Hin. destruct (H ps Hin) as [H1 H2], (HF ps Hin) as [F1 F2]. auto.
  - intros before p s after -> Hne _ x.
    assert (forall bb, bb <> [] -> (forall ps, ps ∈ bb -> same_set (names i (SDec [ps])) (names i (SDec [(p, s)]))) ->
      (x ∈ names i (SDec bb) <-> x ∈ names i (SDec [(p, s)]))) as HH.
    { clear. induction bb as [|ps bb IH]; intros Hne Hall; [done|]. rewrite (names_app i [ps] bb x).
      assert (x ∈ names i (SDec [ps]) <-> x ∈ names i (SDec [(p, s)])) as Hps by (apply Hall; by left).
      rewrite Hps. destruct bb as [|qt bb].
      - split; [|by left]. intros [?|Hin]; [done|]. by apply elem_of_nil in Hin.
      - rewrite IH; [tauto|done|]. intros y Hy. apply Hall. by right. }
    apply HH; [done|]. intros ps Hps. apply HU; rewrite elem_of_app, ?elem_of_cons; auto.
Qed.

Lemma single_aligned i n v : (forall x, x ∈ names i n -> x = v) -> aligned i n.
Proof.
  induction n using sdd_ind'; intros Hx; constructor.
  - rewrite Forall_forall in *. intros [p s] Hin. destruct (H _ Hin) as [H1 H2]. cbn [fst snd].
    split; [apply H1|apply H2]; intros x Hin'; apply Hx, (names_els i els p s); auto.
  - intros before p s after -> _ Hlen.
    assert (forall bb, (forall x, x ∈ names i (SDec bb) -> x = v) -> names i (SDec bb) = [] \/ v ∈ names i (SDec bb)) as HH.
    { intros bb Hbb. destruct (names i (SDec bb)) as [|y l] eqn:E; [by left|right]. rewrite <- (Hbb y) by by left. by left. }
    assert (forall bb, length (remove_dups (names i (SDec bb))) = 0 -> names i (SDec bb) = []) as HZ.
    { intros bb Hl. destruct (names i (SDec bb)) as [|y l] eqn:E; [done|]. exfalso.
      assert (y ∈ remove_dups (y :: l)) as Hin by (apply elem_of_remove_dups; by left).
      apply nil_length_inv in Hl. rewrite Hl in Hin. by apply elem_of_nil in Hin. }
    assert (forall x, x ∈ names i (SDec before) -> x = v) as H1.
    { intros x Hin. apply Hx, names_app. by left. }
    assert (forall x, x ∈ names i (SDec [(p, s)]) -> x = v) as H2.
    { intros x Hin. apply Hx, names_app. right. by apply (names_app i [(p, s)] after); left. }
    destruct (HH before H1) as [E1|V1].
    + rewrite E1 in Hlen. cbn [remove_dups length] in Hlen. symmetry in Hlen. apply HZ in Hlen. rewrite E1, Hlen. done.
    + destruct (HH [(p, s)] H2) as [E2|V2].
      * rewrite E2 in Hlen. cbn [remove_dups length] in Hlen. apply HZ in Hlen. rewrite Hlen in V1. by apply elem_of_nil in V1.
      * intros x. split; intros Hin; [rewrite (H1 x Hin)|rewrite (H2 x Hin)]; done.
Qed.
