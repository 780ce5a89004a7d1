(** Proofs about the formula transformations (C56, C57). *)

From Verif Require Import Base Dict Smt Walk_Model Math_Model Math_Spec Poly_Proofs Linear_Proofs Arith_Proofs
  Lit_Model Lit_Proofs Lit_Tests Walk_Proofs Transform_Model Transform_Spec.

(** * Induction over a walk *)

Lemma abs_is_qabs q : (if qlt q 0 then (- q)%Qc else q) = qabs q.
Proof.
  unfold qabs. destruct (qlt q 0) eqn:E1, (qle 0 q) eqn:E2; try done.
  - apply qlt_spec in E1. apply qle_spec in E2. by apply Qclt_not_le in E1.
  - apply qlt_false in E1. apply qle_false in E2. by apply Qclt_not_le in E2.
Qed.

Lemma abs_mkNot a : abs_consts (mkNot a) = mkNot (abs_consts a).
Proof. by destruct a. Qed.
Lemma abs_imp_expand a b : abs_consts (imp_expand a b) = imp_expand (abs_consts a) (abs_consts b).
Proof. unfold imp_expand. cbn [mkOr abs_consts map]. by rewrite abs_mkNot. Qed.

Lemma abs_msize f : msize (abs_consts f) = msize f.
Proof.
  assert (forall l, Forall (fun f => msize (abs_consts f) = msize f) l ->
    map msize (map abs_consts l) = map msize l) as HL.
  { induction 1 as [|g l Hf Hl IH]; [done|]. cbn. by rewrite Hf, IH. }
  induction f using fm_ind'; cbn [abs_consts msize]; rewrite ?HL by done; auto; by rewrite ?IHf, ?IHf1, ?IHf2, ?IHf3.
Qed.

Lemma abs_typeof f : typeof (abs_consts f) = typeof f.
Proof.
  assert (forall l, Forall (fun f => typeof (abs_consts f) = typeof f) l ->
    map typeof (map abs_consts l) = map typeof l) as HL.
  { induction 1 as [|g l Hf Hl IH]; [done|]. cbn. by rewrite Hf, IH. }
  induction f using fm_ind'; cbn [abs_consts typeof]; rewrite ?HL by done; auto; by rewrite ?IHf, ?IHf1, ?IHf2, ?IHf3.
Qed.

Lemma abs_is_const f : is_const (abs_consts f) = is_const f.
Proof. by destruct f. Qed.

Lemma abs_forallb (P : fm -> bool) l : Forall (fun f => P (abs_consts f) = P f) l ->
  forallb P (map abs_consts l) = forallb P l.
Proof. induction 1 as [|f l Hf Hl IH]; [done|]. cbn. by rewrite Hf, IH. Qed.

Lemma abs_wf f : wf_fm (abs_consts f) = wf_fm f.
Proof.
  induction f using fm_ind'; cbn [abs_consts wf_fm]; rewrite ?abs_forallb, ?map_length, ?abs_is_const by done; auto;
    by rewrite ?IHf, ?IHf1, ?IHf2, ?IHf3.
Qed.
Lemma abs_plain f : plain (abs_consts f) = plain f.
Proof.
  induction f using fm_ind'; cbn [abs_consts plain]; rewrite ?abs_forallb, ?map_length, ?abs_is_const by done; auto;
    by rewrite ?IHf, ?IHf1, ?IHf2, ?IHf3.
Qed.
Lemma abs_core f : core (abs_consts f) = core f.
Proof.
  induction f using fm_ind'; cbn [abs_consts core]; rewrite ?abs_forallb, ?map_length, ?abs_is_const by done; auto;
    rewrite ?IHf, ?IHf1, ?IHf2, ?IHf3; try done. by destruct f.
Qed.

Lemma positive_walk n f : walk positive_walker n f = walk identity_walker n (abs_consts f).
Proof.
  revert f. induction n as [|n IH]; intros f; [done|].
  assert (forall l, rmapM (walk positive_walker n) l = rmapM (walk identity_walker n) (map abs_consts l)) as HL.
  { induction l as [|g l IHl]; [done|]. cbn [map]. by rewrite !rmapM_cons, IH, IHl. }
  cbn [walk]. destruct f; cbn [dispatch positive_walker identity_walker abs_consts
    w_and w_or w_plus w_minus w_times w_not w_ite w_pow w_lte w_lt
    w_equals w_symbol w_const w_cannot]; rewrite ?HL, ?IH; try done.
  - by rewrite abs_is_qabs.
  - by rewrite abs_imp_expand.
Qed.

Lemma positive_is f : make_coefficients_positive f = identity_walk (abs_consts f).
Proof. unfold make_coefficients_positive, identity_walk. by rewrite positive_walk, abs_msize. Qed.

(** * The identity walker keeps core formulas, and only produces those *)

Lemma core_list l : (2 <=? length l)%nat && forallb core l = true ->
  2 <= length l /\ Forall (fun f => core f = true) l.
Proof.
  rewrite andb_true_iff, Nat.leb_le. intros [H1 H2]. split; [done|].
  apply Forall_forall. intros f Hf. rewrite forallb_forall in H2. apply H2. by apply elem_of_list_In.
Qed.
Lemma core_list_intro l : 2 <= length l -> Forall (fun f => core f = true) l ->
  (2 <=? length l)%nat && forallb core l = true.
Proof.
  intros H1 H2. rewrite andb_true_iff, Nat.leb_le. split; [done|].
  apply forallb_forall. rewrite Forall_forall in H2. intros f Hf. apply H2. by apply elem_of_list_In.
Qed.

Lemma core_good f : core f = true -> wf_fm f = true /\ plain f = true.
Proof.
  assert (forall l, Forall (fun f => core f = true -> wf_fm f = true /\ plain f = true) l ->
    (2 <=? length l)%nat && forallb core l = true ->
    (2 <=? length l)%nat && forallb wf_fm l = true /\ forallb plain l = true) as HL.
  { intros l Hl Hc. apply andb_true_iff in Hc as [H1 H2]. rewrite H1. cbn. clear H1.
    induction Hl as [|g l Hf Hl IH]; [done|]. cbn in *. apply andb_true_iff in H2 as [? ?].
    destruct Hf as [-> ->]; [done|]. by destruct IH as [-> ->]. }
  induction f using fm_ind'; cbn [core wf_fm plain]; try done; try (by apply HL);
    rewrite ?andb_true_iff; intros Hc; repeat match goal with H : _ /\ _ |- _ => destruct H end;
    repeat match goal with IH : ?c = true -> _, H : ?c = true |- _ => destruct (IH H); clear IH end;
    by split_and!.
Qed.

Lemma rmapM_fixed {A} (W : A -> Res A) l : Forall (fun f => W f = Ok f) l -> rmapM W l = Ok l.
Proof. induction 1 as [|f l Hf Hl IH]; [done|]. by rewrite rmapM_cons, Hf, IH. Qed.

Lemma core_fixed n f : msize f <= n -> core f = true -> typed f -> walk identity_walker n f = Ok f.
Proof.
  revert f. induction n as [|n IH]; intros f Hn Hc Ht.
  { pose proof (msize_pos f). lia. }
  destruct (core_good f Hc) as [Hw Hp]. assert (good f) as Hg by by split_and!.
  assert (HL : forall l t, S (list_sum (map msize l)) <= S n -> Forall (fun f => core f = true) l ->
            Forall (fun f => good f /\ typeof f = Some t) l -> rmapM (walk identity_walker n) l = Ok l).
  { intros l t Hs Hl Hl'. apply rmapM_fixed. apply Forall_forall. intros x Hx.
    rewrite Forall_forall in Hl, Hl'. apply IH; [|by apply Hl|by apply Hl'].
    pose proof (msize_in x l Hx). lia. }
  cbn [walk].
  destruct f as [x t|b|q|z|l|l|a|a b|a b|c a b|l|a b|l|a b|a b|a b|a b|a|a];
    cbn [dispatch identity_walker w_and w_or w_plus w_minus w_times w_not w_ite w_pow w_lte w_lt
         w_equals w_symbol w_const w_cannot] in *; cbn [msize] in Hn; try done.
  - apply core_list in Hc as [Hlen Hc]. rewrite (HL l TBool); [|done|done|by apply good_and].
    cbn [rbind]. destruct l as [|? [|? ?]]; cbn in Hlen; try lia. by apply chk_typed.
  - apply core_list in Hc as [Hlen Hc]. rewrite (HL l TBool); [|done|done|by apply good_or].
    cbn [rbind]. destruct l as [|? [|? ?]]; cbn in Hlen; try lia. by apply chk_typed.
  - cbn [core] in Hc. apply andb_true_iff in Hc as [Hc1 Hc2]. destruct (good_not _ Hg) as [Ha Ta].
    rewrite IH; [|lia|done|by apply Ha]. cbn [rbind]. rewrite chk_typed by done. cbn [rbind]. by destruct a.
  - cbn [core] in Hc. rewrite !andb_true_iff in Hc. destruct Hc as [[? ?] ?].
    destruct (good_ite _ _ _ Hg) as ([Gc _] & Ga & Gb & _).
    rewrite !IH; try done; try lia; [|by apply Gb|by apply Ga|by apply Gc]. cbn [rbind]. by apply chk_typed.
  - apply core_list in Hc as [Hlen Hc]. destruct (good_plus _ Hg) as (_ & t & _ & Hl).
    rewrite (HL l t); [|done|done|done]. cbn [rbind].
    destruct l as [|? [|? ?]]; cbn in Hlen; try lia. by apply chk_typed.
  - cbn [core] in Hc. apply andb_true_iff in Hc as [? ?]. destruct (good_minus _ _ Hg) as (t & _ & [Ga _] & [Gb _]).
    rewrite !IH; try done; try lia; [|by apply Gb|by apply Ga]. cbn [rbind]. by apply chk_typed.
  - apply core_list in Hc as [Hlen Hc]. destruct (good_times _ Hg) as (_ & t & _ & Hl).
    rewrite (HL l t); [|done|done|done]. cbn [rbind].
    destruct l as [|? [|? ?]]; cbn in Hlen; try lia. by apply chk_typed.
  - cbn [core] in Hc. rewrite !andb_true_iff in Hc. destruct Hc as [[[Ca Ka] Kb] Cb]. apply negb_true_iff in Ka.
    destruct (good_pow _ _ Hg) as (t & _ & [Ga _] & [Gb _] & _).
    rewrite !IH; try done; try lia; [|by apply Gb|by apply Ga]. cbn [rbind].
    assert (mkPow a b = Ok (PowN a b)) as -> by (unfold mkPow; rewrite Kb; by destruct a).
    cbn [rbind]. by apply chk_typed.
  - cbn [core] in Hc. apply andb_true_iff in Hc as [? ?]. destruct (good_le _ _ Hg) as (t & _ & [Ga _] & [Gb _]).
    rewrite !IH; try done; try lia; [|by apply Gb|by apply Ga]. cbn [rbind]. by apply chk_typed.
  - cbn [core] in Hc. apply andb_true_iff in Hc as [? ?]. destruct (good_le a b Hg) as (t & _ & [Ga _] & [Gb _]).
    rewrite !IH; try done; try lia; [|by apply Gb|by apply Ga]. cbn [rbind]. by apply chk_typed.
  - cbn [core] in Hc. apply andb_true_iff in Hc as [? ?]. destruct (good_le a b Hg) as (t & _ & [Ga _] & [Gb _]).
    rewrite !IH; try done; try lia; [|by apply Gb|by apply Ga]. cbn [rbind]. by apply chk_typed.
Qed.

Definition settled (f f' : fm) : Prop :=
  core f' = true /\ (abs_consts f = f -> abs_consts f' = f').

Lemma settled_list (W : fm -> Res fm) l l' : rmapM W l = Ok l' ->
  Forall (fun f => forall f', W f = Ok f' -> settled f f') l ->
  length l' = length l /\ Forall (fun f => core f = true) l' /\ (map abs_consts l = l -> map abs_consts l' = l').
Proof.
  intros H Hl. revert l' H. induction Hl as [|f l Hf Hl IH]; intros l' H.
  - by injection H as <-.
  - rewrite rmapM_cons in H. destruct (W f) as [f'|] eqn:E; [|done]. cbn [rbind] in H.
    destruct (rmapM W l) as [l1|] eqn:E1; [|done]. injection H as <-.
    destruct (IH l1) as (I1 & I2 & I3); [done|]. destruct (Hf f') as [F1 F2]; [done|].
    split; [cbn; by rewrite I1|]. split; [by constructor|]. cbn. intros [= H1 H2]. by rewrite F2, I3.
Qed.

Lemma chk_ok f g : chk f = Ok g -> g = f.
Proof. unfold chk. destruct (typeof f); [|done]. by intros [= <-]. Qed.

Lemma identity_settled n f f' : msize f <= n -> good f -> walk identity_walker n f = Ok f' -> settled f f'.
Proof.
  revert f f'. induction n as [|n IH]; intros f f' Hn Hg Hf.
  { pose proof (msize_pos f). lia. }
  assert (HL : forall l t, S (list_sum (map msize l)) <= S n ->
            Forall (fun f => good f /\ typeof f = Some t) l ->
            Forall (fun f => forall f', walk identity_walker n f = Ok f' -> settled f f') l).
  { intros l t Hs Hl. apply Forall_forall. intros x Hx f1 E.
    rewrite Forall_forall in Hl. apply IH; [|by apply Hl|done].
    pose proof (msize_in x l Hx). lia. }
  cbn [walk] in Hf.
  destruct f as [x t|b|q|z|l|l|a|a b|a b|c a b|l|a b|l|a b|a b|a b|a b|a|a];
    cbn [dispatch identity_walker w_and w_or w_plus w_minus w_times w_not w_ite w_pow w_lte w_lt
         w_equals w_symbol w_const w_cannot] in Hf; cbn [msize] in Hn; try done.
  - injection Hf as <-. destruct Hg as (_ & Hp & _). by split.
  - by injection Hf as <-.
  - by injection Hf as <-.
  - destruct (good_and _ Hg) as [Hlen Hl]. destruct (rmapM _ l) as [l'|] eqn:E; [|done]. cbn [rbind] in Hf.
    destruct (settled_list _ _ _ E (HL l _ Hn Hl)) as (S1 & S2 & S3). apply chk_ok in Hf as ->.
    assert (mkAnd l' = AndN l') as -> by (destruct l' as [|? [|? ?]]; simpl in *; (lia || done)).
    split; [cbn [core]; apply core_list_intro; [lia|done]|]. cbn [abs_consts]. intros [= H]. by rewrite S3.
  - destruct (good_or _ Hg) as [Hlen Hl]. destruct (rmapM _ l) as [l'|] eqn:E; [|done]. cbn [rbind] in Hf.
    destruct (settled_list _ _ _ E (HL l _ Hn Hl)) as (S1 & S2 & S3). apply chk_ok in Hf as ->.
    assert (mkOr l' = OrN l') as -> by (destruct l' as [|? [|? ?]]; simpl in *; (lia || done)).
    split; [cbn [core]; apply core_list_intro; [lia|done]|]. cbn [abs_consts]. intros [= H]. by rewrite S3.
  - destruct (good_not _ Hg) as [Ha Ta]. destruct (walk _ n a) as [a'|] eqn:E; [|done]. cbn [rbind] in Hf.
    destruct (chk (NotN a')) as [u|]; [|done]. cbn [rbind] in Hf. injection Hf as <-.
    destruct (IH a a') as [I1 I2]; [lia|done|done|]. split.
    + destruct a'; cbn [mkNot]; try (cbn [core] in *; by rewrite ?I1).
      cbn [core] in I1. by apply andb_true_iff in I1 as [? ?].
    + cbn [abs_consts]. intros [= H]. rewrite abs_mkNot. by rewrite I2.
  - destruct (IH (imp_expand a b) f') as [I1 I2]; [|by apply good_imp_expand|done|].
    { pose proof (msize_imp a b) as H. cbn [msize] in H. lia. }
    split; [done|]. cbn [abs_consts]. intros [= H1 H2]. apply I2. by rewrite abs_imp_expand, H1, H2.
  - destruct (good_iff_args _ _ Hg) as [G1 G2]. rewrite !rmapM_cons in Hf.
    destruct (walk _ n (ImpN a b)) as [f1|] eqn:E1; [|done]. cbn [rbind] in Hf.
    destruct (walk _ n (ImpN b a)) as [f2|] eqn:E2; [|done]. cbn [rbind rmapM mkAnd] in Hf.
    apply chk_ok in Hf as ->.
    destruct (IH (ImpN a b) f1) as [I1 I2]; [cbn [msize]; lia|done|done|].
    destruct (IH (ImpN b a) f2) as [J1 J2]; [cbn [msize]; lia|done|done|].
    split; [cbn [core forallb length]; by rewrite I1, J1|].
    cbn [abs_consts map] in *. intros [= H1 H2]. rewrite I2, J2; [done|by rewrite H1, H2|by rewrite H1, H2].
  - destruct (good_ite _ _ _ Hg) as ([Gc _] & Ga & Gb & _).
    destruct (walk _ n c) as [c'|] eqn:Ec; [|done]. cbn [rbind] in Hf.
    destruct (walk _ n a) as [a'|] eqn:Ea; [|done]. cbn [rbind] in Hf.
    destruct (walk _ n b) as [b'|] eqn:Eb; [|done]. cbn [rbind] in Hf. apply chk_ok in Hf as ->.
    destruct (IH c c') as [C1 C2]; [lia|done|done|]. destruct (IH a a') as [A1 A2]; [lia|done|done|].
    destruct (IH b b') as [B1 B2]; [lia|done|done|].
    split; [cbn [core]; by rewrite C1, A1, B1|]. cbn [abs_consts]. intros [= H1 H2 H3]. by rewrite C2, A2, B2.
  - destruct (good_plus _ Hg) as [Hlen (t & _ & Hl)]. destruct (rmapM _ l) as [l'|] eqn:E; [|done]. cbn [rbind] in Hf.
    destruct (settled_list _ _ _ E (HL l _ Hn Hl)) as (S1 & S2 & S3).
    assert (mkPlus l' = Ok (PlusN l')) as Hm by (destruct l' as [|? [|? ?]]; simpl in *; (lia || done)).
    rewrite Hm in Hf. cbn [rbind] in Hf. apply chk_ok in Hf as ->.
    split; [cbn [core]; apply core_list_intro; [lia|done]|]. cbn [abs_consts]. intros [= H]. by rewrite S3.
  - destruct (good_minus _ _ Hg) as (t & _ & [Ga _] & [Gb _]).
    destruct (walk _ n a) as [a'|] eqn:Ea; [|done]. cbn [rbind] in Hf.
    destruct (walk _ n b) as [b'|] eqn:Eb; [|done]. cbn [rbind] in Hf. apply chk_ok in Hf as ->.
    destruct (IH a a') as [A1 A2]; [lia|done|done|]. destruct (IH b b') as [B1 B2]; [lia|done|done|].
    split; [cbn [core]; by rewrite A1, B1|]. cbn [abs_consts]. intros [= H2 H3]. by rewrite A2, B2.
  - destruct (good_times _ Hg) as [Hlen (t & _ & Hl)]. destruct (rmapM _ l) as [l'|] eqn:E; [|done]. cbn [rbind] in Hf.
    destruct (settled_list _ _ _ E (HL l _ Hn Hl)) as (S1 & S2 & S3).
    assert (mkTimes l' = Ok (TimesN l')) as Hm by (destruct l' as [|? [|? ?]]; simpl in *; (lia || done)).
    rewrite Hm in Hf. cbn [rbind] in Hf. apply chk_ok in Hf as ->.
    split; [cbn [core]; apply core_list_intro; [lia|done]|]. cbn [abs_consts]. intros [= H]. by rewrite S3.
  - destruct (good_pow _ _ Hg) as (t & Hnt & [Ga Ta] & [Gb Tb] & Ka & Kb).
    destruct (identity_ok n a) as (a0 & Ea & _ & _ & _ & _ & Ra); [lia|done|].
    destruct (identity_ok n b) as (b0 & Eb & _ & _ & _ & Rb & _); [lia|done|].
    rewrite Ea, Eb in Hf. cbn [rbind] in Hf. rewrite (Rb Kb) in *. pose proof (Ra t Ta Hnt Ka) as Ka'.
    assert (mkPow a0 b = Ok (PowN a0 b)) as Hm by (unfold mkPow; rewrite Kb; by destruct a0).
    rewrite Hm in Hf. cbn [rbind] in Hf. apply chk_ok in Hf as ->.
    destruct (IH a a0) as [A1 A2]; [lia|done|done|]. destruct (IH b b) as [B1 B2]; [lia|done|done|].
    split; [cbn [core]; by rewrite A1, B1, Ka', Kb|]. cbn [abs_consts]. intros [= H2 H3]. by rewrite A2, H3.
  - destruct (good_le _ _ Hg) as (t & _ & [Ga _] & [Gb _]).
    destruct (walk _ n a) as [a'|] eqn:Ea; [|done]. cbn [rbind] in Hf.
    destruct (walk _ n b) as [b'|] eqn:Eb; [|done]. cbn [rbind] in Hf. apply chk_ok in Hf as ->.
    destruct (IH a a') as [A1 A2]; [lia|done|done|]. destruct (IH b b') as [B1 B2]; [lia|done|done|].
    split; [cbn [core]; by rewrite A1, B1|]. cbn [abs_consts]. intros [= H2 H3]. by rewrite A2, B2.
  - destruct (good_le a b Hg) as (t & _ & [Ga _] & [Gb _]).
    destruct (walk _ n a) as [a'|] eqn:Ea; [|done]. cbn [rbind] in Hf.
    destruct (walk _ n b) as [b'|] eqn:Eb; [|done]. cbn [rbind] in Hf. apply chk_ok in Hf as ->.
    destruct (IH a a') as [A1 A2]; [lia|done|done|]. destruct (IH b b') as [B1 B2]; [lia|done|done|].
    split; [cbn [core]; by rewrite A1, B1|]. cbn [abs_consts]. intros [= H2 H3]. by rewrite A2, B2.
  - destruct (good_le a b Hg) as (t & _ & [Ga _] & [Gb _]).
    destruct (walk _ n a) as [a'|] eqn:Ea; [|done]. cbn [rbind] in Hf.
    destruct (walk _ n b) as [b'|] eqn:Eb; [|done]. cbn [rbind] in Hf. apply chk_ok in Hf as ->.
    destruct (IH a a') as [A1 A2]; [lia|done|done|]. destruct (IH b b') as [B1 B2]; [lia|done|done|].
    split; [cbn [core]; by rewrite A1, B1|]. cbn [abs_consts]. intros [= H2 H3]. by rewrite A2, B2.
Qed.

Lemma abs_idem f : abs_consts (abs_consts f) = abs_consts f.
Proof.
  assert (forall l, Forall (fun f => abs_consts (abs_consts f) = abs_consts f) l ->
    map abs_consts (map abs_consts l) = map abs_consts l) as HL.
  { induction 1 as [|g l Hf Hl IH]; [done|]. cbn. by rewrite Hf, IH. }
  induction f using fm_ind'; cbn [abs_consts]; rewrite ?HL by done; auto; rewrite ?IHf, ?IHf1, ?IHf2, ?IHf3; try done.
  rewrite !abs_is_qabs. unfold qabs. destruct (qle 0 q) eqn:E; rewrite ?E; [done|].
  apply qle_false in E. assert (qle 0 (- q) = true) as ->; [|done]. apply qle_spec. qclra.
Qed.

(** C57. *)
Lemma positive_correct f : wf_fm f = true -> plain f = true -> typed f ->
  exists f', make_coefficients_positive f = Ok f' /\ typeof f' = typeof f /\ fequiv f' (abs_consts f) /\
    abs_consts f' = f' /\ make_coefficients_positive f' = Ok f'.
Proof.
  intros Hw Hp Ht. rewrite positive_is.
  assert (typed (abs_consts f)) as Ht' by (unfold typed in *; by rewrite abs_typeof).
  destruct (identity_preserves (abs_consts f)) as (f' & E & T & V); [by rewrite abs_wf|by rewrite abs_plain|done|].
  exists f'. split; [done|]. rewrite abs_typeof in T. split; [done|]. split; [done|].
  destruct (identity_settled _ _ _ (Nat.le_refl _) (conj (eq_trans (abs_wf f) Hw) (conj (eq_trans (abs_plain f) Hp) Ht')) E)
    as [Hc Ha].
  specialize (Ha (abs_idem f)). split; [done|]. rewrite positive_is, Ha. unfold identity_walk.
  apply core_fixed; [done|done|]. unfold typed in *. congruence.
Qed.

Lemma positive_core f : core f = true -> typed f -> make_coefficients_positive f = Ok (abs_consts f).
Proof.
  intros Hc Ht. rewrite positive_is. apply core_fixed; [done|by rewrite abs_core|].
  unfold typed in *. by rewrite abs_typeof.
Qed.

(** * normalize_formula *)

Lemma li_normalize_scaled d : all_nonzero d -> exists q, (0 < q)%Qc /\ li_normalize d = scaled q d.
Proof.
  intros Hnz. destruct d as [|kv d]; [by exists 1%Qc|].
  assert (0 < max_abs (kv :: d))%Qc as Hm by by apply max_abs_pos.
  exists (/ max_abs (kv :: d))%Qc. split; [by apply qinv_pos|].
  unfold li_normalize. assert (qeq (max_abs (kv :: d)) 0 = false) as ->.
  { apply qeq_false. intros H. rewrite H in Hm. done. }
  rewrite scale_is_scaled, li_make_id; [done|].
  apply scaled_nonzero; [|done]. pose proof (qinv_pos _ Hm) as H. intros H0. rewrite H0 in H. done.
Qed.

Lemma plain_int f : plain f = true -> typeof f <> Some TInt.
Proof.
  assert (forall l, Forall (fun f => plain f = true -> typeof f <> Some TInt) l ->
    forallb plain l = true -> nary_num (map typeof l) <> Some TInt) as HL.
  { intros l Hl Hp Hn. apply nary_num_Forall in Hn as (_ & Hne & Hn).
    destruct l as [|g l]; [done|]. inversion Hl; subst. inversion Hn; subst.
    cbn in Hp. apply andb_true_iff in Hp as [Hp _]. by apply (H1 Hp). }
  induction f using fm_ind'; cbn [plain typeof]; try done; auto.
  - by destruct t.
  - by destruct (all_ty _ _).
  - by destruct (all_ty _ _).
  - by case_bool_decide.
  - intros _. by destruct (_ && _).
  - intros _. by destruct (_ && _).
  - rewrite !andb_true_iff. intros [[_ H] _]. destruct (_ && _); [auto|done].
  - intros Hp. apply (HL [f1; f2]); [by repeat constructor|]. cbn. by rewrite andb_true_r.
  - intros Hp. apply (HL [f1; f2]); [by repeat constructor|]. cbn. by rewrite andb_true_r.
  - intros _. by destruct (nary_num _).
  - intros _. by destruct (nary_num _).
  - intros _. by destruct (nary_num _).
Qed.
Lemma plain_num f t : plain f = true -> typeof f = Some t -> ty_num t = true -> t = TReal.
Proof. intros Hp Ht Hn. destruct t; [done|done|]. by apply plain_int in Hp. Qed.

Section Normalize.
  Variable e : env.
  Variable O : Prop.

  (** As [rebuilt], at one point, if [O] holds. *)
  Definition kept (f f' : fm) : Prop :=
    typeof f' = typeof f /\ (O -> eval e f' = eval e f) /\ (is_const f = true -> f' = f) /\
    (forall t, typeof f = Some t -> ty_num t = true -> is_const f = false -> is_const f' = false).

  Lemma kept_list (W : fm -> Res fm) l :
    Forall (fun f => exists f', W f = Ok f' /\ kept f f') l ->
    exists l', rmapM W l = Ok l' /\ Forall2 kept l l'.
  Proof.
    induction 1 as [|f l (f' & Hf & Hr) Hl (l' & Hl' & H2)].
    - exists []. split; [done|constructor].
    - exists (f' :: l'). rewrite rmapM_cons, Hf. cbn [rbind]. rewrite Hl'. split; [done|].
      by constructor.
  Qed.
  Lemma kept_mapM_b l l' : O -> Forall2 kept l l' ->
    mapM (fun g => vbool (eval e g)) l' = mapM (fun g => vbool (eval e g)) l.
  Proof. intros o. induction 1 as [|f f' l l' (_ & H & _) Hl IH]; [done|]. simpl. by rewrite (H o), IH. Qed.
  Lemma kept_mapM_n l l' : O -> Forall2 kept l l' ->
    mapM (fun g => vnum (eval e g)) l' = mapM (fun g => vnum (eval e g)) l.
  Proof. intros o. induction 1 as [|f f' l l' (_ & H & _) Hl IH]; [done|]. simpl. by rewrite (H o), IH. Qed.
  Lemma kept_types l l' : Forall2 kept l l' -> map typeof l' = map typeof l.
  Proof. induction 1 as [|f f' l l' (H & _) Hl IH]; [done|]. simpl. by rewrite H, IH. Qed.

  Lemma kept_node f f' : typeof f' = typeof f -> (O -> eval e f' = eval e f) -> is_const f = false ->
    is_const f' = false -> kept f f'.
  Proof. intros. split_and!; try done. congruence. Qed.
  Lemma kept_bool f f' : typeof f = Some TBool -> typeof f' = Some TBool -> (O -> eval e f' = eval e f) ->
    is_const f = false -> kept f f'.
  Proof. intros H1 H2 H3 H4. split_and!; [congruence|done|congruence|]. intros t. rewrite H1. by intros [= <-]. Qed.

  Lemma linear_compares_typeof f a b : compares f a b -> linear_expr a -> linear_expr b -> typeof f = Some TBool.
  Proof.
    intros Hc Ha Hb. apply linear_expr_real in Ha, Hb.
    induction Hc; cbn [typeof nary_num ty_num all_ty forallb andb]; rewrite ?Ha, ?Hb; try done.
    rewrite IHHc by done. done.
  Qed.

  (** The code accepts every comparison of the formula. *)
  Definition accepted (f : fm) : Prop := forall g, g ∈ tests f -> exists h, normalize_inequality g = Ok h.

  Lemma normalize_sound f a b h : compares f a b -> typeof a = Some TReal -> typeof b = Some TReal ->
    normalize_inequality f = Ok h -> typeof h = Some TBool /\ (off e a b -> eval e h = eval e f).
  Proof.
    intros Hc Ta Tb. unfold normalize_inequality. destruct (li_from_smt f) as [d|] eqn:Hd; [|done]. cbn [rbind].
    intros Hh. destruct (li_half_space f a b d Hc Ta Tb Hd) as (g & g2 & Hg & _ & Vg).
    pose proof (li_linear f d Hd) as Hlin.
    assert (dwf d) as Wd.
    { unfold li_from_smt, math_walk in Hd. destruct (walk _ _ f) as [d'|] eqn:E; [|done]. injection Hd as <-.
      apply dwf_lfilter. apply (walk_compares _ _ _ _ _ Hc E Ta Tb). }
    assert (all_nonzero d) as Hnz by (intros k v Hin; exact (proj2 (Hlin k v Hin))).
    destruct (li_normalize_same d g Wd Hnz Hg) as (g' & Hg' & Vg'). rewrite Hg' in Hh. injection Hh as ->.
    split; [|intros Ho; rewrite Vg'; by apply Vg].
    destruct (li_normalize_scaled d Hnz) as (q & Hq & Hn). rewrite Hn in Hg'.
    destruct (li_to_smt_compares (scaled q d) h) as (a' & b' & C1 & C2 & C3 & _); [| |done|].
    - unfold dwf, dkeys, scaled in *. by rewrite map_map.
    - intros k v Hin. unfold scaled in Hin. apply elem_of_list_In, in_map_iff in Hin as ([k' v'] & [= <- <-] & Hin).
      apply elem_of_list_In in Hin. by apply (Hlin k' v').
    - by eapply linear_compares_typeof.
  Qed.

  Lemma normalize_test g a b : accepted g -> (O -> off_all e g) -> tests g = [g] -> compares g a b ->
    typeof a = Some TReal -> typeof b = Some TReal ->
    exists h, normalize_inequality g = Ok h /\ typeof h = Some TBool /\ (O -> eval e h = eval e g).
  Proof.
    intros Hl Ho Ht Hc Ta Tb. assert (g ∈ tests g) as Hin by (rewrite Ht; by left).
    destruct (Hl g Hin) as (h & Eh). exists h. split; [done|].
    destruct (normalize_sound g a b h Hc Ta Tb Eh) as [H1 H2]. split; [done|]. intros o. apply H2. by apply (Ho o g).
  Qed.

  Lemma tests_mkNot a : tests (mkNot a) = tests a.
  Proof. by destruct a. Qed.
  Lemma tests_imp_expand a b : tests (imp_expand a b) = tests (ImpN a b).
  Proof. unfold imp_expand. cbn [mkOr tests flat_map]. by rewrite tests_mkNot, app_nil_r. Qed.

  Lemma sub_tests f g : (forall t, t ∈ tests g -> t ∈ tests f) -> accepted f -> (O -> off_all e f) ->
    accepted g /\ (O -> off_all e g).
  Proof. intros H Hl Ho. split; [intros t Ht; by apply Hl, H|]. intros o t a b Ht. by apply (Ho o), H. Qed.

  Lemma list_tests l x : x ∈ l -> forall t, t ∈ tests x -> t ∈ flat_map tests l.
  Proof.
    intros Hx t Ht. apply elem_of_list_In, in_flat_map. exists x. split; by apply elem_of_list_In.
  Qed.

  Lemma normalized_ok n f : msize f <= n -> good f -> accepted f -> (O -> off_all e f) ->
    exists f', walk normalization_walker n f = Ok f' /\ kept f f'.
  Proof.
    revert f. induction n as [|n IH]; intros f Hn Hg HT HO.
    { pose proof (msize_pos f). lia. }
    assert (IS : forall g, msize g <= n -> good g -> (forall t, t ∈ tests g -> t ∈ tests f) ->
              exists g', walk normalization_walker n g = Ok g' /\ kept g g').
    { intros g Hs Hgg Hsub. destruct (sub_tests f g Hsub HT HO). by apply IH. }
    assert (HL : forall l t, S (list_sum (map msize l)) <= S n -> tests f = flat_map tests l ->
              Forall (fun f => good f /\ typeof f = Some t) l ->
              exists l', rmapM (walk normalization_walker n) l = Ok l' /\ Forall2 kept l l').
    { intros l t Hs Hfl Hl. apply kept_list. apply Forall_forall. intros x Hx.
      rewrite Forall_forall in Hl. apply IS; [|by apply Hl|].
      - pose proof (msize_in x l Hx). lia.
      - rewrite Hfl. by apply list_tests. }
    cbn [walk].
    destruct f as [x t|b|q|z|l|l|a|a b|a b|c a b|l|a b|l|a b|a b|a b|a b|a|a];
      cbn [dispatch normalization_walker w_and w_or w_plus w_minus w_times w_not w_ite w_pow w_lte w_lt
           w_equals w_symbol w_const w_cannot] in *; cbn [msize] in Hn; cbn [tests] in IS, HL.
    - eexists; split; [done|]. by split_and!.
    - eexists; split; [done|]. by split_and!.
    - eexists; split; [done|]. by split_and!.
    - by destruct Hg as (_ & ? & _).
    - destruct (good_and _ Hg) as [Hlen Hl]. destruct (HL l _ Hn eq_refl Hl) as (l' & Hl' & H2).
      rewrite Hl'. cbn [rbind]. pose proof (Forall2_length _ _ _ H2) as Hlen'.
      assert (mkAnd l' = AndN l') as -> by (destruct l' as [|? [|? ?]]; simpl in *; (lia || done)).
      assert (typeof (AndN l') = typeof (AndN l)) as Ht by (cbn [typeof]; by rewrite (kept_types _ _ H2)).
      exists (AndN l'). split; [apply chk_typed; unfold typed; rewrite Ht; apply Hg|].
      apply kept_node; try done. intros o. cbn [eval]. by rewrite (kept_mapM_b _ _ o H2).
    - destruct (good_or _ Hg) as [Hlen Hl]. destruct (HL l _ Hn eq_refl Hl) as (l' & Hl' & H2).
      rewrite Hl'. cbn [rbind]. pose proof (Forall2_length _ _ _ H2) as Hlen'.
      assert (mkOr l' = OrN l') as -> by (destruct l' as [|? [|? ?]]; simpl in *; (lia || done)).
      assert (typeof (OrN l') = typeof (OrN l)) as Ht by (cbn [typeof]; by rewrite (kept_types _ _ H2)).
      exists (OrN l'). split; [apply chk_typed; unfold typed; rewrite Ht; apply Hg|].
      apply kept_node; try done. intros o. cbn [eval]. by rewrite (kept_mapM_b _ _ o H2).
    - destruct (good_not _ Hg) as [Ha Ta]. destruct (IS a) as (a' & Ha' & R1 & R2 & _); [lia|done|done|].
      rewrite Ha'. cbn [rbind]. assert (typeof a' = Some TBool) as Ta' by congruence.
      rewrite (chk_some (NotN a') TBool) by (cbn [typeof]; by rewrite Ta').
      cbn [rbind]. eexists; split; [done|].
      apply kept_bool; [cbn [typeof]; by rewrite Ta|by apply typeof_mkNot| |done].
      intros o. rewrite eval_mkNot by done. cbn [eval]. by rewrite (R2 o).
    - destruct (IS (imp_expand a b)) as (f' & Hf & R1 & R2 & _).
      { pose proof (msize_imp a b) as H. cbn [msize] in H. lia. }
      { by apply good_imp_expand. }
      { intros t. by rewrite tests_imp_expand. }
      exists f'. split; [done|]. destruct Hg as (_ & _ & Ht). apply typed_imp in Ht as Ht'.
      apply kept_bool; [apply typeof_imp; apply Ht'| |intros o; rewrite (R2 o); by apply eval_imp_expand|done].
      rewrite R1. by apply typeof_imp_expand.
    - destruct (good_iff_args _ _ Hg) as [G1 G2].
      destruct (IS (ImpN a b)) as (f1 & Hf1 & R1 & V1 & _); [simpl; lia|done|done|].
      destruct (IS (ImpN b a)) as (f2 & Hf2 & R2 & V2 & _); [simpl; lia|done| |].
      { intros t. cbn [tests]. rewrite !elem_of_app. tauto. }
      rewrite !rmapM_cons, Hf1, Hf2. cbn [rbind rmapM mkAnd].
      pose proof (good_imp _ _ G1) as [[_ Ta] [_ Tb]].
      assert (typeof (AndN [f1; f2]) = Some TBool) as Ht.
      { cbn [typeof map]. rewrite R1, R2. by rewrite !typeof_imp. }
      exists (AndN [f1; f2]). split; [by eapply chk_some|].
      apply kept_bool; [cbn [typeof]; by rewrite !bool_decide_true|done| |done].
      intros o. rewrite <- eval_iff_expand, !eval_and2. by rewrite (V1 o), (V2 o).
    - destruct (good_ite _ _ _ Hg) as ([Hc Tc] & Ha & Hb & Hty).
      destruct (IS c) as (c' & Ec & Rc1 & Rc2 & _); [lia|done|intros ?; rewrite !elem_of_app; tauto|].
      destruct (IS a) as (a' & Ea & Ra1 & Ra2 & _); [lia|done|intros ?; rewrite !elem_of_app; tauto|].
      destruct (IS b) as (b' & Eb & Rb1 & Rb2 & _); [lia|done|intros ?; rewrite !elem_of_app; tauto|].
      rewrite Ec, Ea, Eb. cbn [rbind].
      assert (typeof (IteN c' a' b') = typeof (IteN c a b)) as Ht by (cbn [typeof]; by rewrite Rc1, Ra1, Rb1).
      exists (IteN c' a' b'). split; [apply chk_typed; unfold typed; rewrite Ht; apply Hg|].
      apply kept_node; try done. intros o. cbn [eval]. by rewrite (Rc2 o), (Ra2 o), (Rb2 o).
    - destruct (good_plus _ Hg) as [Hlen (t & Hnt & Hl)]. destruct (HL l _ Hn eq_refl Hl) as (l' & Hl' & H2).
      rewrite Hl'. cbn [rbind]. pose proof (Forall2_length _ _ _ H2) as Hlen'.
      assert (mkPlus l' = Ok (PlusN l')) as -> by (destruct l' as [|? [|? ?]]; simpl in *; (lia || done)).
      assert (typeof (PlusN l') = typeof (PlusN l)) as Ht by (cbn [typeof]; by rewrite (kept_types _ _ H2)).
      exists (PlusN l'). split; [apply chk_typed; unfold typed; rewrite Ht; apply Hg|].
      apply kept_node; try done. intros o. cbn [eval]. by rewrite (kept_mapM_n _ _ o H2).
    - destruct (good_minus _ _ Hg) as (t & Hnt & [Ha _] & [Hb _]).
      destruct (IS a) as (a' & Ea & Ra1 & Ra2 & _); [lia|done|intros ?; rewrite !elem_of_app; tauto|].
      destruct (IS b) as (b' & Eb & Rb1 & Rb2 & _); [lia|done|intros ?; rewrite !elem_of_app; tauto|].
      rewrite Ea, Eb. cbn [rbind].
      assert (typeof (MinusN a' b') = typeof (MinusN a b)) as Ht by (cbn [typeof]; by rewrite Ra1, Rb1).
      exists (MinusN a' b'). split; [apply chk_typed; unfold typed; rewrite Ht; apply Hg|].
      apply kept_node; try done. intros o. cbn [eval]. by rewrite (Ra2 o), (Rb2 o).
    - destruct (good_times _ Hg) as [Hlen (t & Hnt & Hl)]. destruct (HL l _ Hn eq_refl Hl) as (l' & Hl' & H2).
      rewrite Hl'. cbn [rbind]. pose proof (Forall2_length _ _ _ H2) as Hlen'.
      assert (mkTimes l' = Ok (TimesN l')) as -> by (destruct l' as [|? [|? ?]]; simpl in *; (lia || done)).
      assert (typeof (TimesN l') = typeof (TimesN l)) as Ht by (cbn [typeof]; by rewrite (kept_types _ _ H2)).
      exists (TimesN l'). split; [apply chk_typed; unfold typed; rewrite Ht; apply Hg|].
      apply kept_node; try done. intros o. cbn [eval]. by rewrite (kept_mapM_n _ _ o H2).
    - destruct (good_pow _ _ Hg) as (t & Hnt & [Ha Ta] & [Hb Tb] & Hca & Hcb).
      destruct (IS a) as (a' & Ea & Ra1 & Ra2 & _ & Ra5); [lia|done|intros ?; rewrite !elem_of_app; tauto|].
      destruct (IS b) as (b' & Eb & Rb1 & Rb2 & Rb4 & _); [lia|done|intros ?; rewrite !elem_of_app; tauto|].
      rewrite Ea, Eb. cbn [rbind]. rewrite (Rb4 Hcb) in *.
      pose proof (Ra5 t Ta Hnt Hca) as Hca'.
      assert (mkPow a' b = Ok (PowN a' b)) as ->.
      { unfold mkPow. rewrite Hcb. by destruct a'. }
      cbn [rbind].
      assert (typeof (PowN a' b) = typeof (PowN a b)) as Ht by (cbn [typeof]; by rewrite Ra1).
      exists (PowN a' b). split; [apply chk_typed; unfold typed; rewrite Ht; apply Hg|].
      apply kept_node; try done. intros o. cbn [eval]. by rewrite (Ra2 o).
    - destruct (good_le _ _ Hg) as (t & Hnt & [Ga Ta] & [Gb Tb]).
      pose proof (plain_num a t (proj1 (proj2 Ga)) Ta Hnt) as ->.
      destruct (normalize_test (LeN a b) a b) as (h & Eh & Th & Vh); [done|done|done|constructor|done|done|].
      exists h. split; [done|].
      apply kept_bool; try done. cbn [typeof nary_num]. rewrite Ta, Tb. cbn [all_ty forallb].
      rewrite Hnt, !bool_decide_true by done. done.
    - destruct (good_le a b Hg) as (t & Hnt & [Ga Ta] & [Gb Tb]).
      pose proof (plain_num a t (proj1 (proj2 Ga)) Ta Hnt) as ->.
      destruct (normalize_test (LtN a b) a b) as (h & Eh & Th & Vh); [done|done|done|constructor|done|done|].
      exists h. split; [done|].
      apply kept_bool; try done. cbn [typeof nary_num]. rewrite Ta, Tb. cbn [all_ty forallb].
      rewrite Hnt, !bool_decide_true by done. done.
    - destruct (good_le a b Hg) as (t & Hnt & [Ha _] & [Hb _]).
      destruct (IS a) as (a' & Ea & Ra1 & Ra2 & _); [lia|done|intros ?; rewrite !elem_of_app; tauto|].
      destruct (IS b) as (b' & Eb & Rb1 & Rb2 & _); [lia|done|intros ?; rewrite !elem_of_app; tauto|].
      rewrite Ea, Eb. cbn [rbind].
      assert (typeof (EqN a' b') = typeof (EqN a b)) as Ht by (cbn [typeof]; by rewrite Ra1, Rb1).
      exists (EqN a' b'). split; [apply chk_typed; unfold typed; rewrite Ht; apply Hg|].
      apply kept_node; try done. intros o. cbn [eval]. by rewrite (Ra2 o), (Rb2 o).
    - by destruct Hg as (_ & ? & _).
    - by destruct Hg as (_ & ? & _).
  Qed.
End Normalize.

(** When the walk succeeds, every comparison was accepted. *)
Lemma rmapM_each {A B} (W : A -> Res B) l l' x : rmapM W l = Ok l' -> x ∈ l -> exists y, W x = Ok y.
Proof.
  revert l'. induction l as [|y l IH]; intros l' H Hx; [by apply elem_of_nil in Hx|].
  rewrite rmapM_cons in H. destruct (W y) as [y'|] eqn:E; [|done]. cbn [rbind] in H.
  destruct (rmapM W l) as [l1|] eqn:E1; [|done]. apply elem_of_cons in Hx as [->|Hx]; [by exists y'|].
  by apply (IH l1).
Qed.

Lemma walk_accepted n f f' : walk normalization_walker n f = Ok f' -> accepted f.
Proof.
  revert f f'. induction n as [|n IH]; intros f f' Hf; [done|].
  assert (HL : forall l l', rmapM (walk normalization_walker n) l = Ok l' ->
    forall g, g ∈ flat_map tests l -> exists h, normalize_inequality g = Ok h).
  { intros l l' Hl g Hg. apply elem_of_list_In, in_flat_map in Hg as (x & Hx & Hg).
    apply elem_of_list_In in Hx, Hg. destruct (rmapM_each _ _ _ _ Hl Hx) as (x' & Ex).
    by apply (IH x x'). }
  cbn [walk] in Hf. intros g Hg.
  destruct f as [x t|b|q|z|l|l|a|a b|a b|c a b|l|a b|l|a b|a b|a b|a b|a|a];
    cbn [dispatch normalization_walker w_and w_or w_plus w_minus w_times w_not w_ite w_pow w_lte w_lt
         w_equals w_symbol w_const w_cannot] in Hf; cbn [tests] in Hg; try (by apply elem_of_nil in Hg).
  - destruct (rmapM _ l) as [l'|] eqn:E; [|done]. by apply (HL l l').
  - destruct (rmapM _ l) as [l'|] eqn:E; [|done]. by apply (HL l l').
  - destruct (walk _ n a) as [a'|] eqn:E; [|done]. by apply (IH a a').
  - apply (IH _ _ Hf). by rewrite tests_imp_expand.
  - rewrite !rmapM_cons in Hf. destruct (walk _ n (ImpN a b)) as [f1|] eqn:E1; [|done]. by apply (IH (ImpN a b) f1).
  - destruct (walk _ n c) as [c'|] eqn:Ec; [|done]. cbn [rbind] in Hf.
    destruct (walk _ n a) as [a'|] eqn:Ea; [|done]. cbn [rbind] in Hf.
    destruct (walk _ n b) as [b'|] eqn:Eb; [|done].
    rewrite !elem_of_app in Hg. destruct Hg as [Hg|[Hg|Hg]]; [by apply (IH c c')|by apply (IH a a')|by apply (IH b b')].
  - destruct (rmapM _ l) as [l'|] eqn:E; [|done]. by apply (HL l l').
  - destruct (walk _ n a) as [a'|] eqn:Ea; [|done]. cbn [rbind] in Hf.
    destruct (walk _ n b) as [b'|] eqn:Eb; [|done].
    rewrite !elem_of_app in Hg. destruct Hg as [Hg|Hg]; [by apply (IH a a')|by apply (IH b b')].
  - destruct (rmapM _ l) as [l'|] eqn:E; [|done]. by apply (HL l l').
  - destruct (walk _ n a) as [a'|] eqn:Ea; [|done]. cbn [rbind] in Hf.
    destruct (walk _ n b) as [b'|] eqn:Eb; [|done].
    rewrite !elem_of_app in Hg. destruct Hg as [Hg|Hg]; [by apply (IH a a')|by apply (IH b b')].
  - apply elem_of_list_singleton in Hg as ->. by exists f'.
  - apply elem_of_list_singleton in Hg as ->. by exists f'.
  - destruct (walk _ n a) as [a'|] eqn:Ea; [|done]. cbn [rbind] in Hf.
    destruct (walk _ n b) as [b'|] eqn:Eb; [|done].
    rewrite !elem_of_app in Hg. destruct Hg as [Hg|Hg]; [by apply (IH a a')|by apply (IH b b')].
  - done.
  - done.
Qed.

Lemma linear_accepted f : linear_tests f -> accepted f.
Proof.
  intros Hl g Hg. destruct (Hl g Hg) as (a & b & Hc & Ha & Hb).
  destruct (canonical_same g a b Hc Ha Hb) as (c & Ec & _). by exists c.
Qed.

(** C56. *)
Lemma normalize_value f f' : wf_fm f = true -> plain f = true -> typed f -> normalize_formula f = Ok f' ->
  typeof f' = typeof f /\ forall e, off_all e f -> eval e f' = eval e f.
Proof.
  intros Hw Hp Ht Hf. pose proof (walk_accepted _ _ _ Hf) as Ha.
  assert (good f) as Hg by by split_and!. unfold normalize_formula in Hf. split.
  - destruct (normalized_ok (Env (fun _ => true) (fun _ => 0%Qc)) False (msize f) f) as (g & E & T & _); try done.
    rewrite E in Hf. by injection Hf as ->.
  - intros e He. destruct (normalized_ok e True (msize f) f) as (g & E & _ & V & _); try done.
    rewrite E in Hf. injection Hf as ->. by apply V.
Qed.

Lemma normalize_total f : wf_fm f = true -> plain f = true -> typed f -> linear_tests f ->
  exists f', normalize_formula f = Ok f'.
Proof.
  intros Hw Hp Ht Hl. assert (good f) as Hg by by split_and!.
  destruct (normalized_ok (Env (fun _ => true) (fun _ => 0%Qc)) False (msize f) f) as (g & E & _);
    [done|done|by apply linear_accepted|done|]. by exists g.
Qed.
