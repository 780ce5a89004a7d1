(** Proofs for C25-C27 and C61. *)

From Verif Require Import Base Dict Smt Smt_Facts Walk_Model Check_Model Poly_Proofs Arith_Proofs
  Domain_Model Domain_Spec Domain_Proofs Engine_Spec Engine_Proofs Sample_Model Sample_Spec Sample_Proofs
  Adaptive_Model Adaptive_Spec.

(** * Splitting a box *)

Definition mid (b : abound) : Qc := (fst (fst b) + (fst (snd b) - fst (fst b)) / qz 2)%Qc.

Lemma mid_bounds b : (fst (fst b) <= fst (snd b))%Qc -> (fst (fst b) <= mid b)%Qc /\ (mid b <= fst (snd b))%Qc /\
  (mid b - fst (fst b) = (fst (snd b) - fst (fst b)) / qz 2)%Qc /\ (fst (snd b) - mid b = (fst (snd b) - fst (fst b)) / qz 2)%Qc.
Proof.
  unfold mid. destruct b as [[l cl] [u cu]]. cbn [fst snd]. intros H.
  assert (forall x : Qc, x / qz 2 = x * Q2Qc (1 # 2))%Qc as E by (intros x; reflexivity).
  rewrite E. repeat split; try (qc2q; lra).
Qed.

Section split.
  Context (bounds : list abound) (i : nat) (b : abound) (Hi : bounds !! i = Some b).

  Lemma left_insert : left_bounds (i, mid b) bounds = <[i := (fst b, (mid b, true))]> bounds.
  Proof.
    apply list_eq. intros j. unfold left_bounds. rewrite list_lookup_imap. cbn [fst snd].
    destruct (decide (j = i)) as [->|Hne].
    - rewrite Hi. unfold fmap, option_fmap, option_map. by rewrite list_lookup_insert by by eapply lookup_lt_Some.
    - rewrite list_lookup_insert_ne by done. unfold fmap, option_fmap, option_map. by destruct (bounds !! j).
  Qed.
  Lemma right_insert : right_bounds (i, mid b) bounds = <[i := ((mid b, false), snd b)]> bounds.
  Proof.
    apply list_eq. intros j. unfold right_bounds. rewrite list_lookup_imap. cbn [fst snd].
    destruct (decide (j = i)) as [->|Hne].
    - rewrite Hi. unfold fmap, option_fmap, option_map. by rewrite list_lookup_insert by by eapply lookup_lt_Some.
    - rewrite list_lookup_insert_ne by done. unfold fmap, option_fmap, option_map. by destruct (bounds !! j).
  Qed.

  Lemma in_box_insert p c x : p !! i = Some x ->
    (in_box p (<[i := c]> bounds) <-> between x c /\ forall j y b', j <> i -> p !! j = Some y -> bounds !! j = Some b' -> between y b') \/
    length p <> length bounds.
  Proof.
    intros Hx. destruct (decide (length p = length bounds)) as [HL|HL]; [left|by right]. unfold in_box. split.
    - intros HF. split.
      + destruct (Forall2_lookup_l _ _ _ _ _ HF Hx) as (c' & Hc & H). rewrite list_lookup_insert in Hc by by eapply lookup_lt_Some.
        by injection Hc as <-.
      + intros j y b' Hne Hy Hb. destruct (Forall2_lookup_l _ _ _ _ _ HF Hy) as (c' & Hc & H).
        rewrite list_lookup_insert_ne in Hc by done. rewrite Hb in Hc. by injection Hc as <-.
    - intros [H1 H2]. apply Forall2_same_length_lookup. rewrite insert_length. split; [done|].
      intros j y c' Hy Hc. destruct (decide (j = i)) as [->|Hne].
      + rewrite list_lookup_insert in Hc by by eapply lookup_lt_Some. injection Hc as <-. rewrite Hx in Hy. by injection Hy as <-.
      + rewrite list_lookup_insert_ne in Hc by done. by apply (H2 j).
  Qed.

  Hypothesis (Hc : closed_box bounds).

  Lemma b_closed : (fst (fst b) <= fst (snd b))%Qc /\ snd (snd b) = true.
  Proof. destruct Hc as [H1 H2]. rewrite Forall_lookup in H1, H2. split; [by eapply H1|by eapply H2]. Qed.

  Lemma left_closed : closed_box (left_bounds (i, mid b) bounds).
  Proof.
    rewrite left_insert. destruct b_closed as [H1 H2], Hc as [H3 H4]. split; apply Forall_insert; try done.
    cbn [fst snd]. by apply mid_bounds.
  Qed.
  Lemma right_closed : closed_box (right_bounds (i, mid b) bounds).
  Proof.
    rewrite right_insert. destruct b_closed as [H1 H2], Hc as [H3 H4]. split; apply Forall_insert; try done.
    cbn [fst snd]. by apply mid_bounds.
  Qed.

  (** A point of the box is in exactly one half. *)
  Lemma in_halves p : in_box p bounds <-> in_box p (left_bounds (i, mid b) bounds) \/ in_box p (right_bounds (i, mid b) bounds).
  Proof.
    rewrite left_insert, right_insert. destruct b_closed as [Hle Hfl].
    destruct (mid_bounds b Hle) as (M1 & M2 & _).
    assert (forall c, in_box p (<[i := c]> bounds) -> length p = length bounds) as HLen.
    { intros c H. apply Forall2_length in H. by rewrite insert_length in H. }
    split.
    - intros H. pose proof (Forall2_length _ _ _ H) as HL.
      destruct (Forall2_lookup_r _ _ _ _ _ H Hi) as (x & Hx & [B1 B2]).
      destruct (in_box_insert p (fst b, (mid b, true)) x Hx) as [E1|]; [|done].
      destruct (in_box_insert p ((mid b, false), snd b) x Hx) as [E2|]; [|done].
      assert (forall j y b', j <> i -> p !! j = Some y -> bounds !! j = Some b' -> between y b') as Hrest.
      { intros j y b' _ Hy Hb. destruct (Forall2_lookup_l _ _ _ _ _ H Hy) as (b2 & Hb2 & HB). congruence. }
      destruct (Qclt_le_dec (mid b) x) as [Hlt|Hge].
      + right. apply E2. split; [|done]. split; [done|]. exact B2.
      + left. apply E1. split; [|done]. split; [exact B1|done].
    - intros [H|H].
      + pose proof (HLen _ H) as HL. apply Forall2_same_length_lookup. split; [done|]. intros j y b' Hy Hb.
        destruct (decide (j = i)) as [->|Hne].
        * destruct (in_box_insert p (fst b, (mid b, true)) y Hy) as [E1|]; [|done]. apply E1 in H as [[H1 H2] _].
          rewrite Hi in Hb. injection Hb as <-. split; [exact H1|]. cbn in H2. rewrite Hfl. by eapply Qcle_trans.
        * destruct (Forall2_lookup_l _ _ _ _ _ H Hy) as (b2 & Hb2 & HB). rewrite list_lookup_insert_ne in Hb2 by done. congruence.
      + pose proof (HLen _ H) as HL. apply Forall2_same_length_lookup. split; [done|]. intros j y b' Hy Hb.
        destruct (decide (j = i)) as [->|Hne].
        * destruct (in_box_insert p ((mid b, false), snd b) y Hy) as [E1|]; [|done]. apply E1 in H as [[H1 H2] _].
          rewrite Hi in Hb. injection Hb as <-. split; [|exact H2]. cbn in H1.
          assert (fst (fst b) < y)%Qc by (by eapply Qcle_lt_trans). destruct (snd (fst b)); [by apply Qclt_le_weak|done].
        * destruct (Forall2_lookup_l _ _ _ _ _ H Hy) as (b2 & Hb2 & HB). rewrite list_lookup_insert_ne in Hb2 by done. congruence.
  Qed.

  Lemma halves_disjoint p : in_box p (left_bounds (i, mid b) bounds) -> in_box p (right_bounds (i, mid b) bounds) -> False.
  Proof.
    rewrite left_insert, right_insert. intros H1 H2.
    assert (<[i:=(fst b, (mid b, true))]> bounds !! i = Some (fst b, (mid b, true))) as Hl
      by (apply list_lookup_insert; by eapply lookup_lt_Some).
    destruct (Forall2_lookup_r _ _ _ _ _ H1 Hl) as (x & Hx & [_ B]).
    destruct (Forall2_lookup_l _ _ _ _ _ H2 Hx) as (c & Hc' & B').
    rewrite list_lookup_insert in Hc' by (by eapply lookup_lt_Some). injection Hc' as <-. destruct B' as [B' _].
    cbn in B, B'. by apply (Qcle_not_lt _ _ B).
  Qed.

  (** The halves in terms of the asserted split. *)
  Lemma in_left p : in_box p (left_bounds (i, mid b) bounds) <-> in_box p bounds /\ asserts p (i, mid b, true).
  Proof.
    split.
    - intros H. split; [apply in_halves; by left|]. rewrite left_insert in H.
      assert (<[i:=(fst b, (mid b, true))]> bounds !! i = Some (fst b, (mid b, true))) as Hl
        by (apply list_lookup_insert; by eapply lookup_lt_Some).
      destruct (Forall2_lookup_r _ _ _ _ _ H Hl) as (x & Hx & [_ B]). exists x. done.
    - intros [H (x & Hx & Hle)]. cbn in Hx, Hle. apply in_halves in H as [H|H]; [done|]. exfalso.
      rewrite right_insert in H. assert (<[i:=((mid b, false), snd b)]> bounds !! i = Some ((mid b, false), snd b)) as Hl
        by (apply list_lookup_insert; by eapply lookup_lt_Some).
      destruct (Forall2_lookup_r _ _ _ _ _ H Hl) as (y & Hy & [B _]). rewrite Hx in Hy. injection Hy as <-. cbn in B.
      by apply (Qcle_not_lt _ _ Hle).
  Qed.
  Lemma in_right p : in_box p (right_bounds (i, mid b) bounds) <-> in_box p bounds /\ asserts p (i, mid b, false).
  Proof.
    split.
    - intros H. split; [apply in_halves; by right|]. rewrite right_insert in H.
      assert (<[i:=((mid b, false), snd b)]> bounds !! i = Some ((mid b, false), snd b)) as Hl
        by (apply list_lookup_insert; by eapply lookup_lt_Some).
      destruct (Forall2_lookup_r _ _ _ _ _ H Hl) as (x & Hx & [B _]). exists x. done.
    - intros [H (x & Hx & Hlt)]. cbn in Hx, Hlt. apply in_halves in H as [H|H]; [|done]. exfalso.
      rewrite left_insert in H. assert (<[i:=(fst b, (mid b, true))]> bounds !! i = Some (fst b, (mid b, true))) as Hl
        by (apply list_lookup_insert; by eapply lookup_lt_Some).
      destruct (Forall2_lookup_r _ _ _ _ _ H Hl) as (y & Hy & [_ B]). rewrite Hx in Hy. injection Hy as <-. cbn in B.
      by apply (Qcle_not_lt _ _ B).
  Qed.

  Lemma size_insert c q : (fst (snd c) - fst (fst c) = (fst (snd b) - fst (fst b)) * q)%Qc ->
    size (<[i := c]> bounds) = (size bounds * q)%Qc.
  Proof.
    intros E. clear Hc. unfold size. revert i Hi. induction bounds as [|b0 bs IH]; intros [|k] Hk; cbn in Hk; try done.
    - injection Hk as ->. change (<[0:=c]> (b :: bs)) with (c :: bs). cbn [map]. rewrite !qprod_cons, E. ring.
    - change (<[S k:=c]> (b0 :: bs)) with (b0 :: <[k:=c]> bs). cbn [map]. rewrite !qprod_cons. rewrite (IH k Hk). ring.
  Qed.
  Lemma size_left : size (left_bounds (i, mid b) bounds) = (size bounds / qz 2)%Qc.
  Proof.
    rewrite left_insert. destruct b_closed as [Hle _]. destruct (mid_bounds b Hle) as (_ & _ & E & _).
    rewrite (size_insert _ (/ qz 2)%Qc); [done|]. cbn [fst snd]. exact E.
  Qed.
  Lemma size_right : size (right_bounds (i, mid b) bounds) = (size bounds / qz 2)%Qc.
  Proof.
    rewrite right_insert. destruct b_closed as [Hle _]. destruct (mid_bounds b Hle) as (_ & _ & _ & E).
    rewrite (size_insert _ (/ qz 2)%Qc); [done|]. cbn [fst snd]. exact E.
  Qed.
End split.

(** The chosen split is the middle of one of the intervals. *)
Lemma best_split_mid sc n rows labels bounds k best i v s :
  (forall i v s, best = Some (i, v, s) -> exists b, i < k /\ v = mid b) ->
  best_split sc n rows labels k bounds best = Some (i, v, s) ->
  (best = Some (i, v, s)) \/ exists b, k <= i /\ bounds !! (i - k) = Some b /\ v = mid b.
Proof.
  revert k best. induction bounds as [|b bounds IH]; intros k best Hb H; cbn [best_split] in H; [by left|].
  apply IH in H.
  - destruct H as [H|(b' & H1 & H2 & H3)].
    + set (c := (k, fst (fst b) + (fst (snd b) - fst (fst b)) / qz 2, split_score sc n rows labels k b)%Qc) in H.
      assert (Some c = Some (i, v, s) -> exists b0, k <= i /\ (b :: bounds) !! (i - k) = Some b0 /\ v = mid b0) as Hc.
      { intros [= <- <- _]. exists b. split; [lia|]. rewrite Nat.sub_diag. done. }
      destruct best as [[[i0 v0] s0]|]; [|right; by apply Hc].
      destruct (qlt _ _); [right; by apply Hc|by left].
    + right. exists b'. split; [lia|]. replace (i - k) with (S (i - S k)) by lia. done.
  - intros i0 v0 s0 E. destruct best as [[[i1 v1] s1]|].
    + destruct (qlt _ _); injection E as <- <- <-.
      * exists b. split; [lia|done].
      * destruct (Hb i1 v1 s1 eq_refl) as (b0 & ? & ?). exists b0. split; [lia|done].
    + injection E as <- <- _. exists b. split; [lia|done].
Qed.

Lemma best_split_ok sc n rows labels bounds i v s : best_split sc n rows labels 0 bounds None = Some (i, v, s) ->
  exists b, bounds !! i = Some b /\ v = mid b.
Proof.
  intros H. apply best_split_mid in H; [|done]. destruct H as [H|(b & _ & Hb & ->)]; [done|].
  rewrite Nat.sub_0_r in Hb. by exists b.
Qed.

(** * The builder *)

Section build.
  Context (d : domain) (formula : fm) (stopping : Qc -> Qc -> nat -> bool)
    (scoring : list (list Qc) -> list bool -> nat -> Qc -> Qc) (sat : list assertion -> bool) (sample_count : nat).
  Notation build := (build d formula stopping scoring sat sample_count).

  (** Case analysis of one successful call. *)
  Lemma build_inv fuel root bounds vol depth s t s' : build (S fuel) root bounds vol depth s = Ok (t, s') ->
    exists dom rows g labels, with_bounds d bounds = Ok dom /\ uniform dom sample_count None (gen s) = Ok (rows, g) /\
      check_rows d formula rows = Ok labels /\
      let s1 := AState (stack s) g (asked s) in
      let s2 := if 0 <? count_true labels then s1 else AState (stack s) g ((bounds, stack s) :: asked s) in
      (exists e, t = Leaf rows labels vol bounds e /\ ((e = false /\ s' = s1) \/
         (e = true /\ s' = s2 /\ count_true labels = 0 /\ sat (stack s) = false))) \/
      (exists i b t1 t2 s3, bounds !! i = Some b /\
         build fuel root (left_bounds (i, mid b) bounds) (vol / qz 2)%Qc (S depth) (add_split (i, mid b, true) s2) = Ok (t1, s3) /\
         build fuel root (right_bounds (i, mid b) bounds) (vol / qz 2)%Qc (S depth) (add_split (i, mid b, false) (remove_last_split s3)) = Ok (t2, s') /\
         t = Inner vol bounds (i, mid b) t1 t2).
  Proof.
    intros H. cbn [Adaptive_Model.build] in H.
    destruct (with_bounds d bounds) as [dom|] eqn:E1; [|done]. cbn [rbind] in H.
    destruct (uniform dom sample_count None (gen s)) as [[rows g]|] eqn:E2; [|done]. cbn [rbind fst snd stack gen asked] in H.
    destruct (check_rows d formula rows) as [labels|] eqn:E3; [|done]. cbn [rbind] in H.
    destruct (sample_count =? 0); [done|]. destruct (qeq root 0); [done|].
    exists dom, rows, g, labels. split; [done|]. split; [done|]. split; [done|]. cbv zeta.
    destruct (stopping _ _ _).
    { injection H as <- <-. left. exists false. split; [done|]. by left. }
    set (s2 := if 0 <? count_true labels then _ else _) in *.
    destruct ((0 <? count_true labels) || sat (stack s)) eqn:E4.
    - destruct (best_split _ _ _ _ _ _ _) as [[[i v] sc]|] eqn:E5; [|done]. apply best_split_ok in E5 as (b & Hb & ->).
      destruct (build fuel root (left_bounds (i, mid b) bounds) _ _ _) as [[t1 s3]|] eqn:E6; [|done]. cbn [rbind fst snd] in H.
      destruct (build fuel root (right_bounds (i, mid b) bounds) _ _ _) as [[t2 s4]|] eqn:E7; [|done]. cbn [rbind fst snd] in H.
      injection H as <- <-. right. by exists i, b, t1, t2, s3.
    - injection H as <- <-. left. exists true. split; [done|]. right. apply orb_false_iff in E4 as [E4 E5].
      apply Nat.ltb_ge in E4. repeat split; [lia|done].
  Qed.

  Lemma build_partition fuel root bounds vol depth s t s' : closed_box bounds -> build fuel root bounds vol depth s = Ok (t, s') ->
    (forall p, in_box p bounds -> exists k l, leaves t !! k = Some l /\ in_box p (l_box l) /\
       forall j l', leaves t !! j = Some l' -> in_box p (l_box l') -> j = k) /\
    (forall p k l, leaves t !! k = Some l -> in_box p (l_box l) -> in_box p bounds) /\
    qsum (map l_vol (leaves t)) = vol /\
    (vol = size bounds -> Forall (fun l => l_vol l = size (l_box l)) (leaves t)).
  Proof.
    revert bounds vol depth s t s'. induction fuel as [|fuel IH]; intros bounds vol depth s t s' Hc H; [done|].
    apply build_inv in H as (dom & rows & g & labels & _ & _ & _ & H). cbv zeta in H.
    destruct H as [(e & -> & _)|(i & b & t1 & t2 & s3 & Hb & H1 & H2 & ->)].
    - cbn [leaves]. split; [|split; [|split]].
      + intros p Hp. exists 0. eexists. split; [reflexivity|]. split; [exact Hp|]. intros [|j] l' Hl; done.
      + intros p [|k] l Hl; [|done]. injection Hl as <-. done.
      + cbn [map l_vol]. rewrite qsum_cons. cbn. ring.
      + intros ->. by repeat constructor.
    - apply IH in H1 as (P1 & Q1 & V1 & S1); [|by apply left_closed].
      apply IH in H2 as (P2 & Q2 & V2 & S2); [|by apply right_closed].
      cbn [leaves]. split; [|split; [|split]].
      + intros p Hp. apply (in_halves bounds i b Hb Hc) in Hp as [Hp|Hp].
        * destruct (P1 p Hp) as (k & l & Hk & Hl & Huniq). exists k, l. split; [by apply lookup_app_l_Some|]. split; [done|].
          intros j l' Hj Hl'. apply lookup_app_Some in Hj as [Hj|[_ Hj]]; [by eapply Huniq|]. exfalso.
          apply (halves_disjoint bounds i b Hb p Hp). by eapply Q2.
        * destruct (P2 p Hp) as (k & l & Hk & Hl & Huniq). exists (length (leaves t1) + k), l.
          split; [rewrite lookup_app_r by lia; by replace (length (leaves t1) + k - length (leaves t1)) with k by lia|]. split; [done|].
          intros j l' Hj Hl'. apply lookup_app_Some in Hj as [Hj|[Hge Hj]].
          -- exfalso. apply (halves_disjoint bounds i b Hb p); [by eapply Q1|done].
          -- specialize (Huniq _ _ Hj Hl'). lia.
      + intros p k l Hk Hl. apply (in_halves bounds i b Hb Hc). apply lookup_app_Some in Hk as [Hk|[_ Hk]]; [left; by eapply Q1|right; by eapply Q2].
      + rewrite map_app, qsum_app, V1, V2. assert (forall x : Qc, x / qz 2 = x * Q2Qc (1 # 2))%Qc as E by (intros x; reflexivity).
        rewrite E. apply Qc_is_canon. qc2q. lra.
      + intros ->. apply Forall_app. split; [apply S1; symmetry; by apply size_left|apply S2; symmetry; by apply size_right].
  Qed.

  (** The stack only grows over a call. *)
  Lemma build_stack fuel root bounds vol depth s t s' : build fuel root bounds vol depth s = Ok (t, s') ->
    (exists extra, stack s' = extra ++ stack s) /\
    (match t with Leaf _ _ _ _ _ => stack s' = stack s | _ => True end).
  Proof.
    revert bounds vol depth s t s'. induction fuel as [|fuel IH]; intros bounds vol depth s t s' H; [done|].
    apply build_inv in H as (dom & rows & g & labels & _ & _ & _ & H). cbv zeta in H.
    destruct H as [(e & -> & [[_ ->]|(_ & -> & _)])|(i & b & t1 & t2 & s3 & Hb & H1 & H2 & ->)].
    - split; [by exists []|done].
    - destruct (0 <? _); split; try done; by exists [].
    - apply IH in H1 as [[e1 H1] _]. apply IH in H2 as [[e2 H2] _]. split; [|done].
      cbn [add_split remove_last_split stack] in H1, H2. rewrite H1 in H2.
      assert (stack (if 0 <? count_true labels then AState (stack s) g (asked s)
        else AState (stack s) g ((bounds, stack s) :: asked s)) = stack s) as Es by (by destruct (0 <? _)).
      rewrite Es in H2. destruct e1 as [|a e1]; cbn [app tail] in H2.
      + exists (e2 ++ [(i, mid b, false)]). by rewrite <- app_assoc.
      + exists (e2 ++ (i, mid b, false) :: e1 ++ [(i, mid b, true)]).
        rewrite H2, <- !app_assoc. cbn. rewrite <- !app_assoc. done.
  Qed.

  (** Constraints asked about are at least those of the region. *)
  Lemma build_asked fuel root bounds vol depth s t s' (B : list abound) : closed_box bounds ->
    build fuel root bounds vol depth s = Ok (t, s') ->
    (forall p, in_box p B -> Forall (asserts p) (stack s) -> in_box p bounds) ->
    (forall r st, (r, st) ∈ asked s -> forall p, in_box p B -> Forall (asserts p) st -> in_box p r) ->
    forall r st, (r, st) ∈ asked s' -> forall p, in_box p B -> Forall (asserts p) st -> in_box p r.
  Proof.
    revert bounds vol depth s t s'. induction fuel as [|fuel IH]; intros bounds vol depth s t s' Hc H HS HA; [done|].
    apply build_inv in H as (dom & rows & g & labels & _ & _ & _ & H). cbv zeta in H.
    set (s2 := if 0 <? count_true labels then _ else _) in H.
    assert (forall r st, (r, st) ∈ asked s2 -> forall p, in_box p B -> Forall (asserts p) st -> in_box p r) as HA2.
    { unfold s2. destruct (0 <? _); [done|]. cbn [asked]. intros r st Hin. apply elem_of_cons in Hin as [E|Hin]; [|by apply HA].
      injection E as -> ->. done. }
    assert (stack s2 = stack s) as Es by (unfold s2; by destruct (0 <? _)).
    destruct H as [(e & -> & [[_ ->]|(_ & -> & _)])|(i & b & t1 & t2 & s3 & Hb & H1 & H2 & ->)]; [done|done|].
    pose proof (build_stack _ _ _ _ _ _ _ _ H1) as [[e1 Hst] _]. cbn [add_split stack] in Hst. rewrite Es in Hst.
    pose proof (fun Hs => IH _ _ _ _ _ _ (left_closed bounds i b Hb Hc) H1 Hs HA2) as J1. clear H1.
    lapply J1; [clear J1; intros J1|].
    2: { intros p Hp HF. cbn [add_split stack] in HF. rewrite Es in HF. inversion_clear HF as [|? ? Ha HF'].
         apply (in_left bounds i b Hb Hc). split; [by apply HS|done]. }
    apply (fun Hs => IH _ _ _ _ _ _ (right_closed bounds i b Hb Hc) H2 Hs J1).
    intros p Hp HF. cbn [add_split remove_last_split stack] in HF. rewrite Hst in HF. inversion_clear HF as [|? ? Ha HF'].
    apply (in_right bounds i b Hb Hc). split; [|done]. apply HS; [done|].
    destruct e1 as [|a e1]; cbn [app tail] in HF'; [done|]. apply Forall_app in HF' as [_ HF']. by inversion HF'.
  Qed.

  (** As long as no left child is split, they are exactly those of the region. *)
  Lemma build_exact fuel root bounds vol depth s t s' (B : list abound) : closed_box bounds ->
    build fuel root bounds vol depth s = Ok (t, s') -> left_leaves t ->
    (forall p, in_box p B -> (Forall (asserts p) (stack s) <-> in_box p bounds)) ->
    (forall r st, (r, st) ∈ asked s -> forall p, in_box p B -> (Forall (asserts p) st <-> in_box p r)) ->
    forall r st, (r, st) ∈ asked s' -> forall p, in_box p B -> (Forall (asserts p) st <-> in_box p r).
  Proof.
    revert bounds vol depth s t s'. induction fuel as [|fuel IH]; intros bounds vol depth s t s' Hc H HL HS HA; [done|].
    apply build_inv in H as (dom & rows & g & labels & _ & _ & _ & H). cbv zeta in H.
    set (s2 := if 0 <? count_true labels then _ else _) in H.
    assert (forall r st, (r, st) ∈ asked s2 -> forall p, in_box p B -> (Forall (asserts p) st <-> in_box p r)) as HA2.
    { unfold s2. destruct (0 <? _); [done|]. cbn [asked]. intros r st Hin. apply elem_of_cons in Hin as [E|Hin]; [|by apply HA].
      injection E as -> ->. done. }
    assert (stack s2 = stack s) as Es by (unfold s2; by destruct (0 <? _)).
    destruct H as [(e & -> & [[_ ->]|(_ & -> & _)])|(i & b & t1 & t2 & s3 & Hb & H1 & H2 & ->)]; [done|done|].
    pose proof (build_stack _ _ _ _ _ _ _ _ H1) as [_ Hst]. cbn [left_leaves] in HL.
    destruct t1 as [rows1 labels1 v1 b1 e1|]; [|done]. cbn [add_split stack] in Hst. rewrite Es in Hst.
    pose proof (fun Hs => IH _ _ _ _ _ _ (left_closed bounds i b Hb Hc) H1 I Hs HA2) as J1. clear H1.
    lapply J1; [clear J1; intros J1|].
    2: { intros p Hp. cbn [add_split stack]. rewrite Es, Forall_cons, (in_left bounds i b Hb Hc), <- HS by done. tauto. }
    apply (fun Hs => IH _ _ _ _ _ _ (right_closed bounds i b Hb Hc) H2 HL Hs J1).
    intros p Hp. cbn [add_split remove_last_split stack]. rewrite Hst. cbn [tail].
    rewrite Forall_cons, (in_right bounds i b Hb Hc), <- HS by done. tauto.
  Qed.
End build.

(** * Samples and labels *)

Definition box_ok (d : domain) (bounds : list abound) : Prop :=
  length bounds = length (names d TReal) /\ Forall (fun b => fst (fst b) <= fst (snd b))%Qc bounds.

Lemma real_in_vars d v : wf_domain d -> v ∈ names d TReal <-> (v, TReal) ∈ d_types d.
Proof.
  intros W. unfold names. rewrite elem_of_list_filter. split; [tauto|]. intros H. split; [done|].
  apply (wd_types_vars d W), elem_of_list_fmap. by exists (v, TReal).
Qed.

Lemma zip_names {A B} (f : A -> B) (rs : list string) (bs : list A) : length bs = length rs ->
  map fst (map (fun p => (fst p, f (snd p))) (zip rs bs)) = rs.
Proof.
  revert bs. induction rs as [|r rs IH]; intros [|b bs] H; try done. cbn. f_equal. apply IH. cbn in H. lia.
Qed.

Lemma with_bounds_ok d bounds : wf_domain d -> box_ok d bounds ->
  exists dom lens, with_bounds d bounds = Ok dom /\ wf_domain dom /\ finite_box dom lens /\
    d_vars dom = d_vars d /\ d_types dom = d_types d.
Proof.
  intros W [HL HF]. unfold with_bounds, real_vars. rewrite vars_of_type_ok by done. cbn [rbind].
  set (l := map (fun p : string * abound => (fst p, (Some (fst (fst (snd p))), Some (fst (snd (snd p)))))) (zip (names d TReal) bounds)).
  assert (map fst l = names d TReal) as Hn.
  { unfold l. apply (zip_names (fun b : abound => (Some (fst (fst b)), Some (fst (snd b))))). done. }
  assert (NoDup (names d TReal)) as Hnd by (apply NoDup_filter, W).
  rewrite dset_all_fresh by (cbn [app]; by rewrite Hn). cbn [app].
  exists (Dom (d_vars d) (d_types d) l), (map (fun p : string * abound => (fst p, fst (fst (snd p)), fst (snd (snd p)))) (zip (names d TReal) bounds)).
  split; [done|]. split; [|split; [|done]].
  - constructor; cbn [d_vars d_types d_doms]; try apply W.
    + by rewrite Hn.
    + intros v. rewrite Hn. by apply real_in_vars.
  - split.
    + unfold box, l. cbn [d_doms]. rewrite map_map. apply map_ext. by intros [? ?].
    + clear Hn l. apply Forall_forall. intros [[v x] y] Hin. apply elem_of_list_fmap in Hin as ([v' b] & [= -> -> ->] & Hin).
      cbn [fst snd]. rewrite Forall_forall in HF. apply HF. by eapply elem_of_zip_r.
Qed.

Lemma uniform_length d n g rows g' : uniform d n None g = Ok (rows, g') ->
  length rows = n /\ Forall (fun r => length r = length (d_vars d)) rows.
Proof.
  intros H. destruct (rmapM (column d) (d_vars d)) as [cs|e] eqn:E.
  - rewrite (uniform_plain d n g cs E) in H. injection H as <- _. unfold plain_rows. rewrite map_length, seq_length. split; [done|].
    apply Forall_forall. intros r Hr. apply elem_of_list_fmap in Hr as (k & -> & _).
    rewrite zip_with_length, table_row_length. apply rmapM_ok_length in E. lia.
  - unfold uniform in H. rewrite rand_table_ok, E in H. done.
Qed.

Lemma with_bounds_vars d bounds dom : with_bounds d bounds = Ok dom -> d_vars dom = d_vars d.
Proof. unfold with_bounds. destruct (real_vars d); [|done]. cbn [rbind]. by intros [= <-]. Qed.

Section labels.
  Context (d : domain) (formula : fm) (W : wf_domain d) (Q : bool_query d formula).

  Lemma check_rows_ok rows : Forall (fun r => length r = length (d_vars d)) rows ->
    check_rows d formula rows = Ok (map (holds (d_vars d) formula) rows).
  Proof. intros H. unfold check_rows. by destruct (eval_bool_len d formula rows W Q H) as (vs & -> & Hm). Qed.

  Definition filled (t : tree) : Prop := Forall (fun l => l_rows l <> []) (leaves t).

  Lemma labelled_app t1 t2 v b s : labelled d formula t1 -> labelled d formula t2 -> labelled d formula (Inner v b s t1 t2).
  Proof. intros H1 H2. unfold labelled. cbn [leaves]. by apply Forall_app. Qed.

  Lemma build_labelled stopping scoring sat n fuel root bounds vol depth s t s' :
    build d formula stopping scoring sat n fuel root bounds vol depth s = Ok (t, s') ->
    labelled d formula t /\ filled t /\ root <> 0%Qc.
  Proof.
    revert bounds vol depth s t s'. induction fuel as [|fuel IH]; intros bounds vol depth s t s' H; [done|].
    assert (n <> 0 /\ root <> 0%Qc) as [Hn Hr].
    { cbn [build] in H. destruct (with_bounds d bounds); [|done]. cbn [rbind] in H.
      destruct (uniform _ _ _ _) as [[? ?]|]; [|done]. cbn [rbind fst snd] in H. destruct (check_rows _ _ _); [|done]. cbn [rbind] in H.
      destruct (n =? 0) eqn:E; [done|]. apply Nat.eqb_neq in E. destruct (qeq root 0) eqn:E2; [done|]. by apply qeq_false in E2. }
    apply build_inv in H as (dom & rows & g & labels & E1 & E2 & E3 & H). cbv zeta in H.
    destruct (uniform_length _ _ _ _ _ E2) as [HL HF]. rewrite (with_bounds_vars _ _ _ E1) in HF.
    rewrite check_rows_ok in E3 by done. injection E3 as <-.
    destruct H as [(e & -> & _)|(i & b & t1 & t2 & s3 & _ & H1 & H2 & ->)].
    - split; [|split; [|done]].
      + unfold labelled. cbn [leaves]. repeat constructor; done.
      + unfold filled. cbn [leaves]. constructor; [|constructor]. cbn [l_rows]. by destruct rows.
    - apply IH in H1 as (? & ? & _). apply IH in H2 as (? & ? & _). split; [by apply labelled_app|]. split; [|done].
      unfold filled. cbn [leaves]. by apply Forall_app.
  Qed.

  Definition shape (l : leaf) : list abound * Qc * bool := (l_box l, l_vol l, l_empty l).

  Lemma top_up_inv desired t g t' g' : top_up d formula desired t g = Ok (t', g') -> labelled d formula t ->
    labelled d formula t' /\ map shape (leaves t') = map shape (leaves t) /\ (filled t -> filled t') /\
    Forall2 (fun l l' => exists extra, l_rows l' = l_rows l ++ extra /\ (l_empty l = false -> desired <= length (l_rows l'))) (leaves t) (leaves t').
  Proof.
    revert g t' g'. induction t as [rows labels v b e|v b s t1 IH1 t2 IH2]; intros g t' g' H HL.
    - cbn [top_up] in H. destruct e.
      { injection H as <- <-. repeat split; try done. constructor; [|constructor]. exists []. cbn. by rewrite app_nil_r. }
      destruct (length rows <? desired) eqn:E.
      + destruct (with_bounds d b) as [dom|] eqn:E1; [|done]. cbn [rbind] in H.
        destruct (uniform dom _ _ _) as [[new g2]|] eqn:E2; [|done]. cbn [rbind fst snd] in H.
        destruct (uniform_length _ _ _ _ _ E2) as [Hlen HF]. rewrite (with_bounds_vars _ _ _ E1) in HF.
        rewrite check_rows_ok in H by done. cbn [rbind] in H. injection H as <- <-.
        inversion_clear HL as [|? ? [Hl Hr] _]. cbn [l_rows l_labels] in Hl, Hr. apply Nat.ltb_lt in E.
        split; [|split; [done|split]].
        * unfold labelled. cbn [leaves]. constructor; [|constructor]. cbn [l_rows l_labels]. rewrite map_app, Hl. split; [done|]. by apply Forall_app.
        * unfold filled. cbn [leaves]. intros H. inversion_clear H as [|? ? H' _]. cbn [l_rows] in H'. constructor; [|constructor]. cbn [l_rows]. by destruct rows.
        * constructor; [|constructor]. exists new. cbn [l_rows]. split; [done|]. rewrite app_length. lia.
      + injection H as <- <-. apply Nat.ltb_ge in E. repeat split; try done. constructor; [|constructor]. exists []. cbn. by rewrite app_nil_r.
    - cbn [top_up] in H. destruct (top_up d formula desired t1 g) as [[u1 g1]|] eqn:E1; [|done]. cbn [rbind fst snd] in H.
      destruct (top_up d formula desired t2 g1) as [[u2 g2]|] eqn:E2; [|done]. cbn [rbind fst snd] in H. injection H as <- <-.
      unfold labelled in HL. cbn [leaves] in HL. apply Forall_app in HL as [HL1 HL2].
      destruct (IH1 _ _ _ E1 HL1) as (A1 & A2 & A3 & A4). destruct (IH2 _ _ _ E2 HL2) as (B1 & B2 & B3 & B4).
      split; [by apply labelled_app|]. cbn [leaves]. rewrite !map_app, A2, B2. split; [done|]. split.
      + unfold filled. cbn [leaves]. rewrite !Forall_app. tauto.
      + by apply Forall2_app.
  Qed.

  Lemma top_up_total desired t g : fair g -> Forall (fun l => box_ok d (l_box l)) (leaves t) ->
    exists t' g', top_up d formula desired t g = Ok (t', g') /\ fair g'.
  Proof.
    revert g. induction t as [rows labels v b e|v b s t1 IH1 t2 IH2]; intros g Hg HB.
    - cbn [top_up]. destruct e; [by eexists _, _|]. destruct (length rows <? desired); [|by eexists _, _].
      inversion_clear HB as [|? ? HB1 _]. cbn [l_box] in HB1. destruct (with_bounds_ok d b W HB1) as (dom & lens & -> & Wd & Hd & Hv & _). cbn [rbind].
      destruct (uniform_in dom lens (desired - length rows) g Wd Hd Hg) as (new & -> & _ & HI). cbn [rbind fst snd].
      rewrite check_rows_ok; [cbn [rbind]; eexists _, _; split; [done|]; by apply fair_adv|].
      apply in_domain_len in HI. by rewrite Hv in HI.
    - cbn [top_up]. cbn [leaves] in HB. apply Forall_app in HB as [HB1 HB2].
      destruct (IH1 g Hg HB1) as (u1 & g1 & -> & Hg1). cbn [rbind fst snd].
      destruct (IH2 g1 Hg1 HB2) as (u2 & g2 & -> & Hg2). cbn [rbind fst snd]. by eexists _, _.
  Qed.

  Lemma raw_volume_ok root q t : labelled d formula t -> filled t ->
    raw_volume root q t = Ok (estimate d None (holds (d_vars d) formula) (leaves t) / root)%Qc.
  Proof.
    revert q. induction t as [rows labels v b e|v b s t1 IH1 t2 IH2]; intros q HL HF.
    - cbn [raw_volume]. unfold estimate. cbn [leaves map l_empty]. destruct e.
      { f_equal. cbn. unfold Qcdiv. ring. }
      inversion_clear HL as [|? ? [Hl _] _]. cbn [l_rows l_labels] in Hl. subst labels.
      inversion_clear HF as [|? ? Hf _]. cbn [l_rows] in Hf. rewrite map_length.
      destruct rows as [|r rows]; [done|]. cbn [length]. f_equal. rewrite qsum_cons. cbn [qsum fold_right l_vol l_rows length].
      rewrite where_one, count_true_map. unfold Qcdiv. change (qsum []) with 0%Qc. ring.
    - unfold labelled in HL. unfold filled in HF. cbn [leaves] in HL, HF. apply Forall_app in HL as [HL1 HL2], HF as [HF1 HF2].
      cbn [raw_volume]. rewrite (IH1 None HL1 HF1), (IH2 None HL2 HF2). cbn [rbind]. f_equal. unfold estimate. cbn [leaves].
      rewrite map_app, qsum_app. unfold Qcdiv. ring.
  Qed.

  Definition test (q : option fm) (r : list Qc) : bool :=
    match q with None => true | Some q => holds (d_vars d) q r end.

  Lemma weighted_volume_ok root w q t : num_query d w -> (forall g, q = Some g -> bool_query d g) ->
    labelled d formula t -> filled t ->
    weighted_volume d root w q t =
      Ok (estimate d (Some w) (fun r => holds (d_vars d) formula r && test q r) (leaves t) / root)%Qc.
  Proof.
    intros Hw Hq. induction t as [rows labels v b e|v b s t1 IH1 t2 IH2]; intros HL HF.
    - cbn [weighted_volume]. unfold estimate. cbn [leaves map l_empty]. destruct e.
      { f_equal. cbn. unfold Qcdiv. ring. }
      inversion_clear HL as [|? ? [Hl Hr] _]. cbn [l_rows l_labels] in Hl, Hr. subst labels.
      inversion_clear HF as [|? ? Hf _]. cbn [l_rows] in Hf.
      assert ((match q with
               | None => Ok (map (holds (d_vars d) formula) rows)
               | Some q => let! vs := evaluate_rows d q rows in let! qs := mask vs in
                   Ok (zip_with andb qs (map (holds (d_vars d) formula) rows))
               end) = Ok (map (fun r => holds (d_vars d) formula r && test q r) rows)) as ->.
      { destruct q as [g|].
        - destruct (eval_bool_len d g rows W (Hq g eq_refl) Hr) as (vs & -> & Hm). cbn [rbind]. rewrite Hm. cbn [rbind]. f_equal.
          cbn [test]. clear. induction rows as [|r rows IH]; [done|]. cbn [map zip_with]. f_equal; [apply andb_comm|apply IH].
        - f_equal. apply map_ext. intros r. cbn [test]. by rewrite andb_true_r. }
      cbn [rbind]. rewrite select_filter.
      destruct (eval_num_len d w (filter (fun r => holds (d_vars d) formula r && test q r = true) rows) W Hw) as (ws & -> & Hn).
      { apply Forall_forall. intros r Hin. apply elem_of_list_filter in Hin as [_ Hin]. rewrite Forall_forall in Hr. by apply Hr. }
      cbn [rbind]. rewrite Hn. cbn [rbind]. destruct rows as [|r rows]; [done|]. cbn [length]. f_equal.
      rewrite qsum_cons. cbn [l_vol l_rows length]. rewrite where_filter. unfold Qcdiv. change (qsum []) with 0%Qc. ring.
    - unfold labelled in HL. unfold filled in HF. cbn [leaves] in HL, HF. apply Forall_app in HL as [HL1 HL2], HF as [HF1 HF2].
      cbn [weighted_volume]. rewrite (IH1 HL1 HF1), (IH2 HL2 HF2). cbn [rbind]. f_equal. unfold estimate. cbn [leaves].
      rewrite map_app, qsum_app. unfold Qcdiv. ring.
  Qed.
End labels.

(** * The builder succeeds *)

Lemma halves_ok d bounds i b : bounds !! i = Some b -> box_ok d bounds ->
  box_ok d (left_bounds (i, mid b) bounds) /\ box_ok d (right_bounds (i, mid b) bounds).
Proof.
  intros Hb [HL HF]. rewrite (left_insert _ _ _ Hb), (right_insert _ _ _ Hb). unfold box_ok. rewrite !insert_length.
  assert (fst (fst b) <= fst (snd b))%Qc as Hle by (rewrite Forall_lookup in HF; by eapply HF).
  destruct (mid_bounds b Hle) as (M1 & M2 & _). split; (split; [done|]); apply Forall_insert; done.
Qed.

Lemma best_split_some sc n rows labels k bounds best : (bounds <> [] \/ best <> None) ->
  exists i v s, best_split sc n rows labels k bounds best = Some (i, v, s).
Proof.
  revert k best. induction bounds as [|b bounds IH]; intros k best H; cbn [best_split].
  - destruct H as [H|H]; [done|]. destruct best as [[[i v] s]|]; [by exists i, v, s|done].
  - apply IH. right. destruct best as [[[i v] s]|]; [|done]. by destruct (qlt _ _).
Qed.

Lemma build_total d formula stopping scoring sat n D fuel root bounds vol depth s :
  wf_domain d -> bool_query d formula -> box_ok d bounds -> bounds <> [] -> 0 < n -> root <> 0%Qc ->
  (forall r v k, D <= k -> stopping r v k = true) -> D < fuel + depth -> 0 < fuel -> fair (gen s) ->
  exists t s', build d formula stopping scoring sat n fuel root bounds vol depth s = Ok (t, s') /\ fair (gen s').
Proof.
  intros W Q. revert bounds vol depth s. induction fuel as [|fuel IH]; intros bounds vol depth s HB Hne Hn Hr HS HD H0 Hg; [lia|].
  cbn [build]. destruct (with_bounds_ok d bounds W HB) as (dom & lens & -> & Wd & Hd & Hv & _). cbn [rbind].
  destruct (uniform_in dom lens n (gen s) Wd Hd Hg) as (rows & -> & _ & HI). cbn [rbind fst snd].
  apply in_domain_len in HI. rewrite Hv in HI. rewrite (check_rows_ok d formula W Q rows HI). cbn [rbind].
  destruct (n =? 0) eqn:E; [apply Nat.eqb_eq in E; lia|]. destruct (qeq root 0) eqn:E2; [by apply qeq_spec in E2|].
  destruct (stopping _ _ depth) eqn:E3; [eexists _, _; split; [done|]; by apply fair_adv|]. cbn [stack gen asked].
  set (labels := map _ rows). set (s2 := if 0 <? count_true labels then _ else _).
  assert (fair (gen s2)) as Hg2 by (unfold s2; destruct (0 <? _); by apply fair_adv).
  assert (depth < D) as Hdep. { destruct (decide (D <= depth)) as [Hd2|]; [|lia]. by rewrite HS in E3. }
  destruct ((0 <? count_true labels) || sat (stack s)); [|eexists _, _; split; [done|]; by apply Hg2].
  destruct (best_split_some scoring n rows labels 0 bounds None) as (i & v & sc & Eb); [by left|]. rewrite Eb.
  apply best_split_ok in Eb as (b & Hb & ->). destruct (halves_ok d bounds i b Hb HB) as [HB1 HB2].
  assert (forall c, <[i := c]> bounds <> []) as Hne2. { intros c E4. apply (f_equal length) in E4. rewrite insert_length in E4. by destruct bounds. }
  destruct (IH (left_bounds (i, mid b) bounds) (vol / qz 2)%Qc (S depth) (add_split (i, mid b, true) s2)) as (t1 & s3 & E4 & Hg3);
    [done|rewrite (left_insert _ _ _ Hb); by apply Hne2|done|done|done|lia|lia|exact Hg2|]. rewrite E4. cbn [rbind fst snd].
  destruct (IH (right_bounds (i, mid b) bounds) (vol / qz 2)%Qc (S depth) (add_split (i, mid b, false) (remove_last_split s3))) as (t2 & s4 & E5 & Hg4);
    [done|rewrite (right_insert _ _ _ Hb); by apply Hne2|done|done|done|lia|lia|exact Hg3|]. rewrite E5. cbn [rbind fst snd].
  by eexists _, _.
Qed.

Lemma build_boxes d formula stopping scoring sat n fuel root bounds vol depth s t s' : box_ok d bounds ->
  build d formula stopping scoring sat n fuel root bounds vol depth s = Ok (t, s') -> Forall (fun l => box_ok d (l_box l)) (leaves t).
Proof.
  revert bounds vol depth s t s'. induction fuel as [|fuel IH]; intros bounds vol depth s t s' HB H; [done|].
  apply build_inv in H as (dom & rows & g & labels & _ & _ & _ & H). cbv zeta in H.
  destruct H as [(e & -> & _)|(i & b & t1 & t2 & s3 & Hb & H1 & H2 & ->)].
  - constructor; [done|constructor].
  - destruct (halves_ok d bounds i b Hb HB) as [HB1 HB2]. cbn [leaves]. apply Forall_app. split; [exact (IH _ _ _ _ _ _ HB1 H1)|exact (IH _ _ _ _ _ _ HB2 H2)].
Qed.

(** * The root *)

(** The interval of each real variable, in the order of the variables. *)
Definition root_box (d : domain) (bs : list abound) : Prop :=
  Forall2 (fun v b => exists l u, (v, (Some l, Some u)) ∈ d_doms d /\ b = ((l, true), (u, true))) (names d TReal) bs.

Lemma root_bounds_ok d lens : wf_domain d -> finite_box d lens ->
  exists bs, root_bounds d = Ok bs /\ root_box d bs /\ closed_box bs /\ box_ok d bs.
Proof.
  intros W HB. unfold root_bounds, real_vars. rewrite vars_of_type_ok by done. cbn [rbind].
  destruct (rmapM_all (fun v => let! b := ditem (d_doms d) v in
      match b with (Some l, Some u) => Ok ((l, true), (u, true)) | _ => Err TypeError end)
    (fun v (b : abound) => exists l u, (v, (Some l, Some u)) ∈ d_doms d /\ b = ((l, true), (u, true)) /\ (l <= u)%Qc) (names d TReal)) as (bs & E & HF).
  { intros v Hv. apply real_in_vars in Hv; [|done]. destruct (dom_finite d lens v W HB Hv) as (l & u & Hd & Hle).
    rewrite (ditem_ok _ _ _ (wd_doms d W) Hd). cbn [rbind]. eexists. split; [done|]. by exists l, u. }
  exists bs. split; [exact E|]. split.
  { eapply Forall2_impl; [exact HF|]. intros v b (l & u & ? & ? & _). by exists l, u. }
  assert (Forall (fun b : abound => (fst (fst b) <= fst (snd b))%Qc /\ snd (snd b) = true) bs) as HA.
  { clear E. induction HF as [|v b vs bs (l & u & _ & -> & Hle) _ IH]; constructor; done. }
  split; [|split].
  - split; (eapply Forall_impl; [exact HA|]); by intros ? [? ?].
  - apply Forall2_length in HF. done.
  - eapply Forall_impl; [exact HA|]. by intros ? [? ?].
Qed.

Lemma fold_volume (bs : list abound) v :
  fold_left (fun v b => v * (fst (snd b) - fst (fst b)))%Qc bs v = (v * size bs)%Qc.
Proof.
  unfold size. revert v. induction bs as [|b bs IH]; intros v; cbn [fold_left map]; [cbn; ring|]. rewrite IH, qprod_cons. ring.
Qed.
Lemma bounds_volume_size bs v : bounds_volume bs = Some v -> v = size bs /\ bs <> [].
Proof. destruct bs as [|b bs]; [done|]. unfold bounds_volume. rewrite fold_volume. intros [= <-]. split; [ring|done]. Qed.

Lemma build_root_inv d formula stopping scoring sat n fuel g t v s : wf_domain d ->
  build_root d formula stopping scoring sat n fuel g = Ok (t, v, s) ->
  exists bs, root_bounds d = Ok bs /\ v = size bs /\ bs <> [] /\ build d formula stopping scoring sat n fuel v bs v 0 (AState [] g []) = Ok (t, s).
Proof.
  intros W H. unfold build_root in H. destruct (root_bounds d) as [bs|] eqn:E; [|done]. cbn [rbind] in H.
  destruct (bounds_volume bs) as [w|] eqn:E2; [|done]. destruct (build _ _ _ _ _ _ _ _ _ _ _ _) as [[t' s']|] eqn:E3; [|done].
  cbn [rbind fst snd] in H. injection H as <- <- <-. exists bs. destruct (bounds_volume_size _ _ E2) as [-> ?]. done.
Qed.

Lemma qprod_permutation (l l' : list Qc) : l ≡ₚ l' -> qprod l = qprod l'.
Proof. induction 1 as [|x l l' _ IH|x y l|l l' l'' _ IH1 _ IH2]; rewrite ?qprod_cons; [done|by rewrite IH|ring|congruence]. Qed.

(** The volume of the root is the product of the lengths of the intervals. *)
Lemma size_box d lens bs : wf_domain d -> box d lens -> root_box d bs -> size bs = box_size lens.
Proof.
  intros W HB HR. unfold size, box_size.
  set (len := fun v : string => match dget (d_doms d) v with Some (Some l, Some u) => (u - l)%Qc | _ => 0%Qc end).
  assert (map (fun b : abound => (fst (snd b) - fst (fst b))%Qc) bs = map len (names d TReal)) as ->.
  { unfold root_box in HR. induction HR as [|v b vs bs (l & u & Hd & ->) _ IH]; [done|]. cbn [map]. rewrite IH. f_equal.
    unfold len. by rewrite (In_dget _ _ _ (wd_doms d W) Hd). }
  assert (map (fun '(_, l, u) => (u - l)%Qc) lens = map len (map fst (d_doms d))) as ->.
  { pose proof (wd_doms d W) as Hnd. unfold len. unfold box in HB. rewrite HB in *. clear -Hnd. rewrite !map_map.
    apply map_ext_in. intros [[v l] u] Hin.
    rewrite (In_dget (map (fun '(v, l, u) => (v, (Some l, Some u))) lens) v (Some l, Some u)); [done|exact Hnd|].
    apply elem_of_list_fmap. exists (v, l, u). split; [done|]. by apply elem_of_list_In. }
  apply qprod_permutation. apply Permutation_map. apply NoDup_Permutation.
  - apply NoDup_filter, W.
  - apply W.
  - intros v. rewrite real_in_vars by done. symmetry. apply W.
Qed.

Lemma estimate_full d (t : list Qc -> bool) ls : Forall (fun l => l_rows l <> []) ls -> Forall (fun l => l_empty l = false) ls ->
  Forall (fun l => Forall (fun r => t r = true) (l_rows l)) ls -> estimate d None t ls = qsum (map l_vol ls).
Proof.
  unfold estimate. induction ls as [|l ls IH]; intros H1 H2 H3; [done|].
  inversion_clear H1 as [|? ? Ha1 Hb1]. inversion_clear H2 as [|? ? Ha2 Hb2]. inversion_clear H3 as [|? ? Ha3 Hb3].
  cbn [map]. rewrite !qsum_cons, (IH Hb1 Hb2 Hb3), Ha2, where_one. f_equal.
  assert (filter (fun x => t x = true) (l_rows l) = l_rows l) as ->.
  { clear -Ha3. induction Ha3 as [|r rs Hr _ IH]; [done|]. rewrite filter_cons, decide_True by done. by f_equal. }
  assert (qn (length (l_rows l)) <> 0%Qc) as Hnz.
  { assert (0 < qn (length (l_rows l)))%Qc as Hp by (apply qn_pos; destruct (l_rows l); [done|cbn; lia]). intros E. rewrite E in Hp. by apply (Qclt_not_eq _ _ Hp). }
  unfold Qcdiv. rewrite Qcmult_inv_r by done. ring.
Qed.

Lemma size_nonneg bounds : Forall (fun b : abound => fst (fst b) <= fst (snd b))%Qc bounds -> (0 <= size bounds)%Qc.
Proof.
  unfold size. induction 1 as [|b bounds Hb _ IH]; [by vm_compute|]. cbn [map]. rewrite qprod_cons. apply qmul_nonneg; [qclra|done].
Qed.

Lemma sum_mono (a b c e : Qc) : (0 <= a)%Qc -> (a <= b)%Qc -> (0 <= c)%Qc -> (c <= e)%Qc -> (0 <= a + c)%Qc /\ (a + c <= b + e)%Qc.
Proof. intros. split; qclra. Qed.

Lemma estimate_mono d w (t u : list Qc -> bool) ls : (forall r, t r = true -> u r = true) ->
  Forall (fun l => 0 <= l_vol l)%Qc ls -> Forall (fun l => l_rows l <> []) ls ->
  Forall (fun l => Forall (fun r => 0 <= weight_of (d_vars d) w r)%Qc (l_rows l)) ls ->
  (0 <= estimate d w t ls)%Qc /\ (estimate d w t ls <= estimate d w u ls)%Qc.
Proof.
  intros Htu. unfold estimate. induction ls as [|l ls IH]; intros H1 H2 H3; [split; by vm_compute|].
  inversion_clear H1 as [|? ? Ha1 Hb1]. inversion_clear H2 as [|? ? Ha2 Hb2]. inversion_clear H3 as [|? ? Ha3 Hb3].
  destruct (IH Hb1 Hb2 Hb3) as [I1 I2]. cbn [map]. rewrite !qsum_cons.
  assert (0 <= weight_where (d_vars d) w t (l_rows l) /\ weight_where (d_vars d) w t (l_rows l) <= weight_where (d_vars d) w u (l_rows l))%Qc as [W1 W2].
  { unfold weight_where. clear -Htu Ha3. induction Ha3 as [|r rs Hr _ IH]; [split; by vm_compute|]. cbn [map]. rewrite !qsum_cons.
    specialize (Htu r). destruct IH as [IH1 IH2]. destruct (t r); [rewrite Htu by done; qclra|]. destruct (u r); qclra. }
  destruct (l_empty l); [by apply sum_mono|].
  assert (0 < qn (length (l_rows l)))%Qc as Hp by (apply qn_pos; destruct (l_rows l); [done|cbn; lia]).
  assert (0 <= / qn (length (l_rows l)))%Qc as Hi by (by apply Qclt_le_weak, Qcinv_pos).
  unfold Qcdiv. generalize dependent (/ qn (length (l_rows l)))%Qc. intros k Hk.
  pose proof (qmul_nonneg _ _ Ha1 (qmul_nonneg _ _ W1 Hk)) as P1.
  assert (l_vol l * (weight_where (d_vars d) w t (l_rows l) * k) <= l_vol l * (weight_where (d_vars d) w u (l_rows l) * k))%Qc as P2.
  { revert Ha1 Hk W2. generalize (l_vol l), (weight_where (d_vars d) w t (l_rows l)), (weight_where (d_vars d) w u (l_rows l)). clear. intros. 
    assert (0 <= (q1 - q0))%Qc as Hd by qclra. pose proof (qmul_nonneg _ _ Ha1 (qmul_nonneg _ _ Hd Hk)) as P.
    assert (q * ((q1 - q0) * k) = q * (q1 * k) - q * (q0 * k))%Qc as E by ring. rewrite E in P. generalize dependent (q * (q1 * k))%Qc. generalize dependent (q * (q0 * k))%Qc. clear. intros. qclra. }
  by apply sum_mono.
Qed.

(** * Rows, points and regions *)

Lemma in_domain_closure d bs row : wf_domain d -> root_box d bs -> in_domain d row -> in_closure (reals d row) bs.
Proof.
  intros W HR [HL HI]. unfold in_closure, reals. unfold root_box in HR.
  assert (forall v, v ∈ names d TReal -> v ∈ d_vars d) as Hin by (intros v Hv; by apply elem_of_list_filter in Hv as [_ ?]).
  revert Hin. induction HR as [|v b vs bs (l & u & Hd & ->) _ IH]; intros Hin; [constructor|]. cbn [map]. constructor; [|apply IH; intros; apply Hin; by right].
  assert (v ∈ d_vars d) as Hv by (apply Hin; by left). apply elem_of_list_lookup in Hv as [k Hk].
  destruct (lookup_lt_is_Some_2 row k) as [x Hx]; [rewrite HL; by eapply lookup_lt_Some|].
  rewrite (value_lookup _ _ _ _ _ (wd_vars d W) Hk Hx). destruct (HI k v x Hk Hx) as [_ H]. destruct (H _ Hd) as [H1 H2].
  cbn [fst snd]. split; [by apply H1|by apply H2].
Qed.

Lemma closure_in_box p bs : Forall (fun b : abound => snd (fst b) = true /\ snd (snd b) = true) bs -> in_closure p bs -> in_box p bs.
Proof.
  intros HF H. induction H as [|x b p bs [H1 H2] _ IH]; [constructor|]. inversion_clear HF as [|? ? [E1 E2] HF'].
  constructor; [|by apply IH]. unfold between. by rewrite E1, E2.
Qed.

Lemma root_box_closed d bs : root_box d bs -> Forall (fun b : abound => snd (fst b) = true /\ snd (snd b) = true) bs.
Proof. unfold root_box. induction 1 as [|v b vs bs (l & u & _ & ->) _ IH]; constructor; done. Qed.

(** Rows drawn for a region lie in it. *)
Lemma uniform_region d bounds dom n g rows g' : wf_domain d -> box_ok d bounds -> with_bounds d bounds = Ok dom -> fair g ->
  uniform dom n None g = Ok (rows, g') -> Forall (fun r => in_closure (reals d r) bounds) rows /\ fair g'.
Proof.
  intros W HB E Hg EU. destruct (with_bounds_ok d bounds W HB) as (dom' & lens & E' & Wd & Hd & Hv & Ht).
  rewrite E in E'. injection E' as <-. destruct (uniform_in dom lens n g Wd Hd Hg) as (rows' & EU' & _ & HI).
  rewrite EU in EU'. injection EU' as <- ->. split; [|by apply fair_adv].
  eapply Forall_impl; [exact HI|]. intros r Hr.
  assert (names dom TReal = names d TReal) as Hn by (unfold names; by rewrite Hv, Ht).
  assert (root_box dom (map (fun b : abound => ((fst (fst b), true), (fst (snd b), true))) bounds)) as HR.
  { unfold root_box. rewrite Hn. destruct HB as [HL _]. unfold with_bounds, real_vars in E. rewrite vars_of_type_ok in E by done.
    cbn [rbind] in E. injection E as <-. cbn [d_doms].
    assert (NoDup (names d TReal)) as Hnd by (apply NoDup_filter, W).
    rewrite dset_all_fresh.
    2: { cbn [app]. by rewrite (zip_names (fun b : abound => (Some (fst (fst b)), Some (fst (snd b))))). }
    cbn [app]. apply Forall2_same_length_lookup. rewrite map_length. split; [done|]. intros k v b Hv' Hb.
    rewrite list_lookup_fmap in Hb. destruct (bounds !! k) as [b0|] eqn:Eb; [|done]. cbn in Hb. injection Hb as <-.
    eexists _, _. split; [|done]. apply elem_of_list_fmap. exists (v, b0). split; [done|].
    apply elem_of_list_lookup. exists k. apply lookup_zip_with_Some. by exists v, b0. }
  pose proof (in_domain_closure dom _ r Wd HR Hr) as HC. unfold reals in HC |- *. rewrite Hn, Hv in HC.
  unfold in_closure in HC |- *. rewrite Forall2_fmap_r in HC. exact HC.
Qed.

Definition sampled (d : domain) (t : tree) : Prop :=
  Forall (fun l => Forall (fun r => in_closure (reals d r) (l_box l)) (l_rows l)) (leaves t).

Lemma build_sampled d formula stopping scoring sat n fuel root bounds vol depth s t s' : wf_domain d -> box_ok d bounds -> fair (gen s) ->
  build d formula stopping scoring sat n fuel root bounds vol depth s = Ok (t, s') -> sampled d t /\ fair (gen s').
Proof.
  intros W. revert bounds vol depth s t s'. induction fuel as [|fuel IH]; intros bounds vol depth s t s' HB Hg H; [done|].
  apply build_inv in H as (dom & rows & g & labels & E1 & E2 & _ & H). cbv zeta in H.
  destruct (uniform_region d bounds dom n _ rows g W HB E1 Hg E2) as [HF Hg'].
  destruct H as [(e & -> & He)|(i & b & t1 & t2 & s3 & Hb & H1 & H2 & ->)].
  - split; [constructor; [done|constructor]|]. destruct He as [[_ ->]|(_ & -> & _)]; [done|]. by destruct (0 <? _).
  - destruct (halves_ok d bounds i b Hb HB) as [HB1 HB2].
    apply (IH _ _ _ _ _ _ HB1) in H1 as [S1 G1]; [|cbn [add_split gen]; by destruct (0 <? _)].
    apply (IH _ _ _ _ _ _ HB2) in H2 as [S2 G2]; [|exact G1].
    split; [|done]. unfold sampled. cbn [leaves]. by apply Forall_app.
Qed.

Lemma top_up_sampled d formula desired t g t' g' : wf_domain d -> fair g -> Forall (fun l => box_ok d (l_box l)) (leaves t) ->
  top_up d formula desired t g = Ok (t', g') -> sampled d t -> sampled d t' /\ fair g'.
Proof.
  intros W. revert g t' g'. induction t as [rows labels v b e|v b s t1 IH1 t2 IH2]; intros g t' g' Hg HB H HS.
  - cbn [top_up] in H. destruct e; [by injection H as <- <-|]. destruct (length rows <? desired); [|by injection H as <- <-].
    destruct (with_bounds d b) as [dom|] eqn:E1; [|done]. cbn [rbind] in H.
    destruct (uniform dom _ _ _) as [[new g2]|] eqn:E2; [|done]. cbn [rbind fst snd] in H.
    destruct (check_rows _ _ _); [|done]. cbn [rbind] in H. injection H as <- <-.
    inversion_clear HB as [|? ? HB1 _]. cbn [l_box] in HB1. inversion_clear HS as [|? ? HS1 _]. cbn [l_rows l_box] in HS1.
    destruct (uniform_region d b dom _ _ new g2 W HB1 E1 Hg E2) as [HF Hg2]. split; [|done].
    constructor; [|constructor]. cbn [l_rows l_box]. by apply Forall_app.
  - cbn [top_up] in H. destruct (top_up d formula desired t1 g) as [[u1 g1]|] eqn:E1; [|done]. cbn [rbind fst snd] in H.
    destruct (top_up d formula desired t2 g1) as [[u2 g2]|] eqn:E2; [|done]. cbn [rbind fst snd] in H. injection H as <- <-.
    cbn [leaves] in HB. unfold sampled in HS. cbn [leaves] in HS. apply Forall_app in HB as [HB1 HB2], HS as [HS1 HS2].
    destruct (IH1 _ _ _ Hg HB1 E1 HS1) as [A1 A2]. destruct (IH2 _ _ _ A2 HB2 E2 HS2) as [B1 B2]. split; [|done].
    unfold sampled. cbn [leaves]. by apply Forall_app.
Qed.

Section log.
  Context (d : domain) (formula : fm) (stopping : Qc -> Qc -> nat -> bool)
    (scoring : list (list Qc) -> list bool -> nat -> Qc -> Qc) (n : nat).

  Lemma asked_mono sat fuel root bounds vol depth s t s' : build d formula stopping scoring sat n fuel root bounds vol depth s = Ok (t, s') ->
    forall x, x ∈ asked s -> x ∈ asked s'.
  Proof.
    revert bounds vol depth s t s'. induction fuel as [|fuel IH]; intros bounds vol depth s t s' H x Hx; [done|].
    apply build_inv in H as (dom & rows & g & labels & _ & _ & _ & H). cbv zeta in H.
    destruct H as [(e & -> & [[_ ->]|(_ & -> & _)])|(i & b & t1 & t2 & s3 & Hb & H1 & H2 & ->)].
    - done.
    - destruct (0 <? _); [done|]. by right.
    - apply (IH _ _ _ _ _ _ H2). apply (IH _ _ _ _ _ _ H1). cbn [add_split asked]. destruct (0 <? _); [done|]. by right.
  Qed.

  (** A region declared empty was asked about and the answer was no. *)
  Lemma empty_asked sat fuel root bounds vol depth s t s' : build d formula stopping scoring sat n fuel root bounds vol depth s = Ok (t, s') ->
    Forall (fun l => l_empty l = true -> exists st, (l_box l, st) ∈ asked s' /\ sat st = false) (leaves t).
  Proof.
    revert bounds vol depth s t s'. induction fuel as [|fuel IH]; intros bounds vol depth s t s' H; [done|].
    apply build_inv in H as (dom & rows & g & labels & _ & _ & _ & H). cbv zeta in H.
    destruct H as [(e & -> & He)|(i & b & t1 & t2 & s3 & Hb & H1 & H2 & ->)].
    - constructor; [|constructor]. cbn [l_empty l_box]. intros ->. destruct He as [[He _]|(_ & -> & Hc & Hs)]; [done|].
      exists (stack s). rewrite Hc. cbn. split; [by left|done].
    - cbn [leaves]. apply Forall_app. split; [|by apply (IH _ _ _ _ _ _ H2)].
      eapply Forall_impl; [by apply (IH _ _ _ _ _ _ H1)|]. intros l Hl E. destruct (Hl E) as (st & Hst & Hs). exists st.
      split; [|done]. apply (asked_mono _ _ _ _ _ _ _ _ _ H2). done.
  Qed.

  (** The result only depends on the answers to the questions asked. *)
  Lemma build_ext sat sat' fuel root bounds vol depth s t s' :
    build d formula stopping scoring sat n fuel root bounds vol depth s = Ok (t, s') ->
    (forall r st, (r, st) ∈ asked s' -> sat st = sat' st) ->
    build d formula stopping scoring sat' n fuel root bounds vol depth s = Ok (t, s').
  Proof.
    revert bounds vol depth s t s'. induction fuel as [|fuel IH]; intros bounds vol depth s t s' H Hext; [done|].
    pose proof (asked_mono sat (S fuel) _ _ _ _ _ _ _ H) as _.
    cbn [build] in H |- *. destruct (with_bounds d bounds) as [dom|]; [|done]. cbn [rbind] in H |- *.
    destruct (uniform dom n None (gen s)) as [[rows g]|]; [|done]. cbn [rbind fst snd stack gen asked] in H |- *.
    destruct (check_rows d formula rows) as [labels|]; [|done]. cbn [rbind] in H |- *.
    destruct (n =? 0); [done|]. destruct (qeq root 0); [done|]. destruct (stopping _ _ _); [done|].
    destruct (0 <? count_true labels) eqn:E.
    - cbn [orb] in H |- *. destruct (best_split _ _ _ _ _ _ _) as [[[i v] sc]|]; [|done].
      destruct (build d formula stopping scoring sat n fuel root (left_bounds (i, v) bounds) _ _ _) as [[t1 s3]|] eqn:E1; [|done]. cbn [rbind fst snd] in H.
      destruct (build d formula stopping scoring sat n fuel root (right_bounds (i, v) bounds) _ _ _) as [[t2 s4]|] eqn:E2; [|done]. cbn [rbind fst snd] in H.
      injection H as <- <-. pose proof (asked_mono _ _ _ _ _ _ _ _ _ E2) as M2.
      apply IH in E1; [|intros r st Hin; apply (Hext r st), M2; exact Hin]. apply IH in E2; [|done]. rewrite E1. cbn [rbind fst snd]. rewrite E2. done.
    - cbn [orb] in H |- *. assert (sat' (stack s) = sat (stack s)) as Es.
      { symmetry. apply (Hext bounds). destruct (sat (stack s)).
        - destruct (best_split _ _ _ _ _ _ _) as [[[i v] sc]|]; [|done].
          destruct (build d formula stopping scoring sat n fuel root (left_bounds (i, v) bounds) _ _ _) as [[t1 s3]|] eqn:E1; [|done]. cbn [rbind fst snd] in H.
          destruct (build d formula stopping scoring sat n fuel root (right_bounds (i, v) bounds) _ _ _) as [[t2 s4]|] eqn:E2; [|done]. cbn [rbind fst snd] in H.
          injection H as <- <-. apply (asked_mono _ _ _ _ _ _ _ _ _ E2). apply (asked_mono _ _ _ _ _ _ _ _ _ E1). by left.
        - injection H as <- <-. by left. }
      rewrite Es. destruct (sat (stack s)); [|done].
      destruct (best_split _ _ _ _ _ _ _) as [[[i v] sc]|]; [|done].
      destruct (build d formula stopping scoring sat n fuel root (left_bounds (i, v) bounds) _ _ _) as [[t1 s3]|] eqn:E1; [|done]. cbn [rbind fst snd] in H.
      destruct (build d formula stopping scoring sat n fuel root (right_bounds (i, v) bounds) _ _ _) as [[t2 s4]|] eqn:E2; [|done]. cbn [rbind fst snd] in H.
      injection H as <- <-. pose proof (asked_mono _ _ _ _ _ _ _ _ _ E2) as M2.
      apply IH in E1; [|intros r st Hin; apply (Hext r st), M2; exact Hin]. apply IH in E2; [|done]. rewrite E1. cbn [rbind fst snd]. rewrite E2. done.
  Qed.
End log.
