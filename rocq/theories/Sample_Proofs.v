(** Proofs for C20-C24. *)

From Coq Require Import Qround.
From stdpp Require Import list_numbers.
From Verif Require Import Base Dict Smt Smt_Facts Walk_Model Check_Model Check_Spec Batch_Proofs Poly_Proofs Arith_Proofs
  Domain_Model Domain_Spec Domain_Proofs Engine_Spec Engine_Proofs Sample_Model Sample_Spec.

Lemma qmul_nonneg (x y : Qc) : (0 <= x)%Qc -> (0 <= y)%Qc -> (0 <= x * y)%Qc.
Proof. qcnra. Qed.

Lemma qmul_pos (x y : Qc) : (0 < x)%Qc -> (0 < y)%Qc -> (0 < x * y)%Qc.
Proof. qcnra. Qed.

(** * The random table *)

Definition adv (k : nat) (g : rng) : rng := Rng (draws g) (picks g) (pos g + k).

Lemma adv_0 g : adv 0 g = g.
Proof. destruct g. unfold adv. cbn. by rewrite Nat.add_0_r. Qed.
Lemma adv_adv a b g : adv b (adv a g) = adv (a + b) g.
Proof. unfold adv. cbn. f_equal. lia. Qed.
Lemma fair_adv k g : fair g -> fair (adv k g).
Proof. done. Qed.

Lemma rand_row_ok m g : rand_row m g = (map (fun j => draws g (pos g + j)) (seq 0 m), adv m g).
Proof.
  revert g. induction m as [|m IH]; intros g; cbn [rand_row]; [by rewrite adv_0|].
  cbn [rand]. unfold rand. rewrite IH. cbn [pos draws]. f_equal.
  - cbn [seq map]. rewrite Nat.add_0_r. f_equal. rewrite <- seq_shift, map_map. apply map_ext. intros j. f_equal. lia.
  - unfold adv. cbn. f_equal. lia.
Qed.

Definition table_row (m : nat) (g : rng) (i : nat) : list Qc := map (fun j => draws g (pos g + i * m + j)) (seq 0 m).

Lemma rand_table_ok n m g : rand_table n m g = (map (table_row m g) (seq 0 n), adv (n * m) g).
Proof.
  revert g. induction n as [|n IH]; intros g; cbn [rand_table]; [by rewrite adv_0|].
  rewrite rand_row_ok, IH. f_equal.
  - cbn [seq map]. f_equal.
    + unfold table_row. apply map_ext. intros j. f_equal. lia.
    + rewrite <- seq_shift, map_map. apply map_ext. intros i. unfold table_row. apply map_ext. intros j.
      cbn [adv draws pos]. f_equal. lia.
  - rewrite adv_adv. f_equal.
Qed.

Lemma table_row_length m g i : length (table_row m g i) = m.
Proof. unfold table_row. by rewrite map_length, seq_length. Qed.
Lemma table_row_lookup m g i j : j < m -> table_row m g i !! j = Some (draws g (pos g + i * m + j)).
Proof.
  intros H. unfold table_row. rewrite list_lookup_fmap, lookup_seq_lt by done. done.
Qed.

(** * Uniform *)

(** What a column may be. *)
Definition col_ok (d : domain) (v : string) (c : Qc -> Qc) : Prop :=
  ((v, TBool) ∈ d_types d /\ c = fun u => if qlt u (Q2Qc (1 # 2)) then 1%Qc else 0%Qc) \/
  exists l u, (v, TReal) ∈ d_types d /\ (v, (Some l, Some u)) ∈ d_doms d /\ (l <= u)%Qc /\
    c = fun x => (l + x * (u - l))%Qc.

Lemma type_unique d v t t' : wf_domain d -> (v, t) ∈ d_types d -> (v, t') ∈ d_types d -> t = t'.
Proof. intros W H1 H2. pose proof (ditem_ok _ _ _ (wd_types d W) H1). pose proof (ditem_ok _ _ _ (wd_types d W) H2). congruence. Qed.
Lemma dom_unique d v t t' : wf_domain d -> (v, t) ∈ d_doms d -> (v, t') ∈ d_doms d -> t = t'.
Proof. intros W H1 H2. pose proof (ditem_ok _ _ _ (wd_doms d W) H1). pose proof (ditem_ok _ _ _ (wd_doms d W) H2). congruence. Qed.

Lemma dom_finite d lens v : wf_domain d -> finite_box d lens -> (v, TReal) ∈ d_types d ->
  exists l u, (v, (Some l, Some u)) ∈ d_doms d /\ (l <= u)%Qc.
Proof.
  intros W [Hb Hl] Hv. apply (wd_doms_real d W) in Hv. unfold box in Hb. rewrite Hb in Hv |- *.
  rewrite map_map in Hv. apply elem_of_list_fmap in Hv as ([[v' l] u] & -> & Hin). cbn [fst].
  exists l, u. split.
  - apply elem_of_list_fmap. by exists (v', l, u).
  - rewrite Forall_forall in Hl. exact (Hl _ Hin).
Qed.

Lemma columns_ok d lens : wf_domain d -> finite_box d lens ->
  exists cs, rmapM (column d) (d_vars d) = Ok cs /\ Forall2 (col_ok d) (d_vars d) cs.
Proof.
  intros W HB. apply rmapM_all. intros v Hv. destruct (wf_lookup d v W Hv) as (t & Ht & Hin).
  unfold column. rewrite Ht. cbn [rbind]. destruct (decide (t = TBool)) as [->|Hne].
  - eexists. split; [reflexivity|]. left. done.
  - destruct (wd_type d W v t Hin) as [->| ->]; [done|].
    destruct (dom_finite d lens v W HB Hin) as (l & u & Hd & Hle).
    rewrite (ditem_ok _ _ _ (wd_doms d W) Hd). cbn [rbind]. eexists. split; [reflexivity|]. right. by exists l, u.
Qed.

Lemma col_in d v c x : wf_domain d -> col_ok d v c -> (0 <= x)%Qc -> (x < 1)%Qc ->
  ((v, TBool) ∈ d_types d -> c x = 0%Qc \/ c x = 1%Qc) /\ (forall b, (v, b) ∈ d_doms d -> inside (c x) b).
Proof.
  intros W [[Ht ->]|(l & u & Ht & Hd & Hle & ->)] H0 H1.
  - split.
    + intros _. destruct (qlt x _); [by right|by left].
    + intros b Hb. assert ((v, TReal) ∈ d_types d) as H2.
      { apply (wd_doms_real d W). apply elem_of_list_fmap. by exists (v, b). }
      pose proof (type_unique d v _ _ W Ht H2). done.
  - split; [intros H2; pose proof (type_unique d v _ _ W Ht H2); done|].
    intros b Hb. rewrite (dom_unique d v _ _ W Hb Hd). split; intros y [= <-].
    + assert (0 <= x * (u - l))%Qc by (apply qmul_nonneg; [done|qclra]). qclra.
    + assert (0 <= (1 - x) * (u - l))%Qc by (apply qmul_nonneg; qclra).
      assert (l + x * (u - l) = u - (1 - x) * (u - l))%Qc as -> by ring. qclra.
Qed.

(** The rows before the one-hot step. *)
Definition plain_rows (cs : list (Qc -> Qc)) (n m : nat) (g : rng) : list (list Qc) :=
  map (fun i => zip_with (fun c x => c x) cs (table_row m g i)) (seq 0 n).

Lemma uniform_plain d n g cs : rmapM (column d) (d_vars d) = Ok cs ->
  uniform d n None g = Ok (plain_rows cs n (length (d_vars d)) g, adv (n * length (d_vars d)) g).
Proof.
  intros H. unfold uniform. rewrite rand_table_ok, H. cbn [rbind]. unfold plain_rows. by rewrite map_map.
Qed.

Lemma plain_row_in d cs m g i : wf_domain d -> fair g -> Forall2 (col_ok d) (d_vars d) cs -> m = length (d_vars d) ->
  in_domain d (zip_with (fun c x => c x) cs (table_row m g i)).
Proof.
  intros W Hg Hcs Hm. pose proof (Forall2_length _ _ _ Hcs) as Hl. split.
  - rewrite zip_with_length, table_row_length. lia.
  - intros k v x Hv Hx. apply lookup_zip_with_Some in Hx as (c & u & -> & Hc & Hu).
    assert (k < m) as Hk by (rewrite Hm; by apply lookup_lt_Some in Hv).
    rewrite table_row_lookup in Hu by done. injection Hu as <-.
    destruct (Forall2_lookup_l _ _ _ _ _ Hcs Hv) as (c' & Hc' & Hok).
    rewrite Hc in Hc'. injection Hc' as <-. destruct (Hg (pos g + i * m + k)) as [H0 H1].
    by apply col_in.
Qed.

Lemma uniform_in d lens n g : wf_domain d -> finite_box d lens -> fair g ->
  exists rows, uniform d n None g = Ok (rows, adv (n * length (d_vars d)) g) /\
    length rows = n /\ Forall (in_domain d) rows.
Proof.
  intros W HB Hg. destruct (columns_ok d lens W HB) as (cs & Hcs & Hok).
  eexists. split; [by apply uniform_plain|]. unfold plain_rows. split; [by rewrite map_length, seq_length|].
  apply Forall_forall. intros row Hrow. apply elem_of_list_fmap in Hrow as (i & -> & _). by apply plain_row_in.
Qed.

(** Consecutive batches are one batch. *)
Lemma uniform_app d lens n m g : wf_domain d -> finite_box d lens ->
  exists r1 r2, uniform d n None g = Ok (r1, adv (n * length (d_vars d)) g) /\
    uniform d m None (adv (n * length (d_vars d)) g) = Ok (r2, adv ((n + m) * length (d_vars d)) g) /\
    uniform d (n + m) None g = Ok (r1 ++ r2, adv ((n + m) * length (d_vars d)) g).
Proof.
  intros W HB. destruct (columns_ok d lens W HB) as (cs & Hcs & Hok). set (k := length (d_vars d)).
  exists (plain_rows cs n k g), (plain_rows cs m k (adv (n * k) g)). rewrite !(uniform_plain d _ _ cs) by done.
  fold k. split; [done|]. split.
  - rewrite adv_adv. do 3 f_equal. lia.
  - do 2 f_equal. unfold plain_rows. rewrite seq_app, map_app. f_equal. symmetry. rewrite Nat.add_0_l.
    transitivity (map (fun i => zip_with (fun c x => c x) cs (table_row k g i)) (seq (n + 0) m)); [|by rewrite Nat.add_0_r].
    rewrite <- fmap_add_seq. change (Nat.add n <$> seq 0 m) with (map (Nat.add n) (seq 0 m)).
    rewrite map_map. apply map_ext. intros i. f_equal. unfold table_row. apply map_ext. intros j.
    cbn [adv draws pos]. f_equal. lia.
Qed.

(** * One-hot groups *)

Lemma clear_lookup (ohe : list nat) (row : list Qc) j :
  length (fold_left (fun row x => <[x := 0%Qc]> row) ohe row) = length row /\
  (j ∉ ohe -> fold_left (fun row x => <[x := 0%Qc]> row) ohe row !! j = row !! j) /\
  (j ∈ ohe -> j < length row -> fold_left (fun row x => <[x := 0%Qc]> row) ohe row !! j = Some 0%Qc).
Proof.
  revert row. induction ohe as [|x ohe IH]; intros row; cbn [fold_left].
  - split; [done|]. split; [done|]. intros H. by apply elem_of_nil in H.
  - destruct (IH (<[x := 0%Qc]> row)) as (H1 & H2 & H3). rewrite insert_length in H1, H3. split; [done|]. split.
    + intros Hj. apply not_elem_of_cons in Hj as [Hne Hj]. rewrite H2 by done. by apply list_lookup_insert_ne.
    + intros Hj Hlt. destruct (decide (j ∈ ohe)) as [Hin|Hin]; [by apply H3|].
      apply elem_of_cons in Hj as [->|Hj]; [|done]. rewrite H2 by done. by apply list_lookup_insert.
Qed.

(** The choice made for one group at a generator position. *)
Definition chosen (g : rng) (t : nat) (ohe : list nat) (x : nat) : Prop :=
  ohe !! (picks g (pos g + t) mod length ohe) = Some x.

Lemma chosen_exists g t ohe : ohe <> [] -> exists x, chosen g t ohe x /\ x ∈ ohe.
Proof.
  intros H. assert (picks g (pos g + t) mod length ohe < length ohe) as Hlt.
  { apply Nat.mod_upper_bound. by destruct ohe. }
  apply lookup_lt_is_Some in Hlt as [x Hx]. exists x. split; [done|]. by eapply elem_of_list_lookup_2.
Qed.

Lemma one_hot_ok row ohe g : ohe <> [] -> (forall j, j ∈ ohe -> j < length row) ->
  exists row' x, one_hot row ohe g = Ok (row', adv 1 g) /\ chosen g 0 ohe x /\ length row' = length row /\
    (forall j, j ∉ ohe -> row' !! j = row !! j) /\
    (forall j, j ∈ ohe -> row' !! j = Some (if decide (j = x) then 1%Qc else 0%Qc)).
Proof.
  intros Hne Hlt. destruct (chosen_exists g 0 ohe Hne) as (x & Hx & Hin).
  unfold one_hot, choice. pose proof Hx as Hx'. unfold chosen in Hx'. rewrite Nat.add_0_r in Hx'. rewrite Hx'. cbn [rbind fst snd].
  eexists _, x. split; [unfold adv; by rewrite Nat.add_1_r|]. split; [done|].
  destruct (clear_lookup ohe row 0) as (Hlen & _). split; [by rewrite insert_length|]. split.
  - intros j Hj. rewrite list_lookup_insert_ne by congruence. by apply (clear_lookup ohe row j).
  - intros j Hj. destruct (decide (j = x)) as [->|Hjx].
    + apply list_lookup_insert. rewrite Hlen. by apply Hlt.
    + rewrite list_lookup_insert_ne by done. apply (clear_lookup ohe row j); [done|by apply Hlt].
Qed.

Definition hot_row (g : rng) (groups : list (list nat)) (row row' : list Qc) : Prop :=
  length row' = length row /\ (forall j, j ∉ concat groups -> row' !! j = row !! j) /\
  forall t ohe, groups !! t = Some ohe -> exists x, chosen g t ohe x /\
    forall j, j ∈ ohe -> row' !! j = Some (if decide (j = x) then 1%Qc else 0%Qc).

Lemma one_hots_ok row groups g : Forall (fun o => o <> []) groups -> NoDup (concat groups) ->
  (forall j, j ∈ concat groups -> j < length row) ->
  exists row', one_hots row groups g = Ok (row', adv (length groups) g) /\ hot_row g groups row row'.
Proof.
  revert row g. induction groups as [|ohe groups IH]; intros row g Hne Hnd Hlt.
  - exists row. cbn. rewrite adv_0. split; [done|]. split; [done|]. split; [done|]. intros t o Ho. by rewrite lookup_nil in Ho.
  - inversion_clear Hne as [|? ? Ho Hne']. cbn [concat] in Hnd, Hlt. apply NoDup_app in Hnd as (Hn1 & Hn2 & Hn3).
    destruct (one_hot_ok row ohe g Ho) as (row1 & x & E1 & Hx & L1 & K1 & V1).
    { intros j Hj. apply Hlt. apply elem_of_app. by left. }
    destruct (IH row1 (adv 1 g) Hne' Hn3) as (row2 & E2 & L2 & K2 & V2).
    { intros j Hj. rewrite L1. apply Hlt. apply elem_of_app. by right. }
    exists row2. cbn [one_hots]. rewrite E1. cbn [rbind fst snd]. rewrite E2, adv_adv. split; [done|]. split; [congruence|]. split.
    + intros j Hj. cbn [concat] in Hj. rewrite elem_of_app in Hj. rewrite K2 by tauto. apply K1. tauto.
    + intros [|t] o Hto; cbn in Hto.
      * injection Hto as <-. exists x. split; [done|]. intros j Hj. rewrite K2 by (by apply Hn2). by apply V1.
      * destruct (V2 t o Hto) as (y & Hy & HV). exists y. split; [|done]. unfold chosen in *. cbn [adv picks pos] in Hy.
        rewrite <- Hy. do 3 f_equal. lia.
Qed.

Lemma one_hot_rows_ok rows groups g m : Forall (fun o => o <> []) groups -> NoDup (concat groups) ->
  (forall j, j ∈ concat groups -> j < m) -> Forall (fun row => length row = m) rows ->
  exists rows', one_hot_rows rows groups g = Ok (rows', adv (length rows * length groups) g) /\
    length rows' = length rows /\
    forall i row row', rows !! i = Some row -> rows' !! i = Some row' -> hot_row (adv (i * length groups) g) groups row row'.
Proof.
  intros Hne Hnd Hlt. revert g. induction rows as [|row rows IH]; intros g HL.
  - exists []. cbn. rewrite adv_0. done.
  - inversion_clear HL as [|? ? HLr HLs].
    destruct (one_hots_ok row groups g Hne Hnd) as (row' & E1 & HR). { rewrite HLr. done. }
    destruct (IH (adv (length groups) g) HLs) as (rows' & E2 & L2 & H2).
    exists (row' :: rows'). cbn [one_hot_rows]. rewrite E1. cbn [rbind fst snd]. rewrite E2. cbn [rbind fst snd length].
    rewrite adv_adv. split; [do 3 f_equal|]. split; [by rewrite L2|].
    intros [|i] r r' Hr Hr'; cbn in Hr, Hr'.
    + injection Hr as <-. injection Hr' as <-. cbn. by rewrite adv_0.
    + specialize (H2 i r r' Hr Hr'). rewrite adv_adv in H2. exact H2.
Qed.

(** * Values of a row *)

Lemma value_lookup vars row k v x : NoDup vars -> vars !! k = Some v -> row !! k = Some x -> value vars row v = x.
Proof.
  intros Hnd Hv Hx. unfold value.
  rewrite (In_dget (zip vars row) v x); [done| |].
  - clear -Hnd. revert row. induction Hnd as [|a vars Ha _ IH]; intros [|b r]; cbn; try constructor; [|apply IH].
    intros Hin. apply Ha. apply elem_of_list_fmap in Hin as ([a' q] & Ea & Hin). cbn in Ea. rewrite Ea.
    apply elem_of_list_lookup in Hin as [i Hi]. apply lookup_zip_with_Some in Hi as (y & z & Hyz & Hy & _).
    injection Hyz as -> _. by eapply elem_of_list_lookup_2.
  - apply elem_of_list_lookup. exists k. apply lookup_zip_with_Some. by exists v, x.
Qed.

Lemma index_names vars (gs : list (list string)) : (forall v, v ∈ concat gs -> v ∈ vars) ->
  exists idx, rmapM (rmapM (list_index vars)) gs = Ok idx /\
    Forall2 (Forall2 (fun v i => vars !! i = Some v)) gs idx.
Proof.
  intros H. apply rmapM_all. intros g Hg. apply rmapM_all. intros v Hv.
  assert (v ∈ vars) as Hin.
  { apply H. apply elem_of_list_In, in_concat. exists g. by split; apply elem_of_list_In. }
  clear -Hin. induction vars as [|a vars IH]; [by apply elem_of_nil in Hin|]. cbn.
  destruct (decide (a = v)) as [->|Hne]; [by exists 0|].
  apply elem_of_cons in Hin as [->|Hin]; [done|]. destruct (IH Hin) as (i & -> & Hi). by exists (S i).
Qed.

Lemma index_concat (vars : list string) (gs : list (list string)) (idx : list (list nat)) : Forall2 (Forall2 (fun v i => vars !! i = Some v)) gs idx ->
  Forall2 (fun v i => vars !! i = Some v) (concat gs) (concat idx).
Proof. induction 1 as [|g ix gs idx H _ IH]; cbn; [constructor|]. by apply Forall2_app. Qed.

Lemma index_nodup (vars l : list string) (idx : list nat) : Forall2 (fun v i => vars !! i = Some v) l idx -> NoDup l -> NoDup idx.
Proof.
  induction 1 as [|v i l idx H HF IH]; intros Hn; [constructor|]. inversion_clear Hn as [|? ? Hv Hn'].
  constructor; [|by apply IH]. intros Hin. apply Hv.
  apply elem_of_list_lookup in Hin as [k Hk]. destruct (Forall2_lookup_r _ _ _ _ _ HF Hk) as (v' & Hv' & Hi').
  rewrite H in Hi'. injection Hi' as ->. by eapply elem_of_list_lookup_2.
Qed.

Section ohe.
  Context (d : domain) (lens : list (string * Qc * Qc)) (gs : list (list string)).
  Hypotheses (W : wf_domain d) (HB : finite_box d lens) (HG : groups_ok d gs).

  Lemma group_indices : exists idx, rmapM (rmapM (list_index (d_vars d))) gs = Ok idx /\
    Forall2 (Forall2 (fun v i => d_vars d !! i = Some v)) gs idx /\
    Forall (fun o => o <> []) idx /\ NoDup (concat idx) /\ (forall j, j ∈ concat idx -> j < length (d_vars d)).
  Proof.
    destruct HG as (Hnd & Hne & Hin).
    destruct (index_names (d_vars d) gs) as (idx & E & HF).
    { intros v Hv. apply Hin in Hv. unfold names in Hv. by apply elem_of_list_filter in Hv as [_ Hv]. }
    exists idx. split; [done|]. split; [done|]. pose proof (index_concat _ _ _ HF) as HC. split; [|split].
    - clear -HF Hne. induction HF as [|g ix gs' idx H _ IH]; [constructor|]. inversion_clear Hne as [|? ? H1 H2].
      constructor; [|by apply IH]. intros ->. by inversion H; subst.
    - by eapply index_nodup.
    - intros j Hj. apply elem_of_list_lookup in Hj as [k Hk].
      destruct (Forall2_lookup_r _ _ _ _ _ HC Hk) as (v & _ & Hv). by eapply lookup_lt_Some.
  Qed.

  Lemma hot_one_of g idx row row' : Forall2 (Forall2 (fun v i => d_vars d !! i = Some v)) gs idx ->
    hot_row g idx row row' -> Forall (one_of (d_vars d) row') gs.
  Proof.
    intros HF (_ & _ & HV). apply Forall_lookup. intros t grp Ht.
    destruct (Forall2_lookup_l _ _ _ _ _ HF Ht) as (ohe & Ho & HFg).
    destruct (HV t ohe Ho) as (x & Hx & Hval). apply elem_of_list_lookup_2 in Hx as Hxin.
    pose proof (elem_of_list_lookup_1 _ _ Hxin) as [k Hk]. destruct (Forall2_lookup_r _ _ _ _ _ HFg Hk) as (v & Hv & Hvi).
    exists v. split; [by eapply elem_of_list_lookup_2|].
    split.
    - apply (value_lookup _ _ x); [apply W|done|]. rewrite Hval by done. by rewrite decide_True.
    - intros v' Hv' Hne. apply elem_of_list_lookup in Hv' as [k' Hk'].
      destruct (Forall2_lookup_l _ _ _ _ _ HFg Hk') as (j & Hj & Hvj).
      apply (value_lookup _ _ j); [apply W|done|]. rewrite Hval by (by eapply elem_of_list_lookup_2).
      rewrite decide_False; [done|]. intros ->. congruence.
  Qed.

  Lemma hot_in_domain g idx row row' : Forall2 (Forall2 (fun v i => d_vars d !! i = Some v)) gs idx ->
    hot_row g idx row row' -> in_domain d row -> in_domain d row'.
  Proof.
    intros HF (HL & HK & HV) [H1 H2]. split; [congruence|].
    intros k v x Hv Hx. destruct (decide (k ∈ concat idx)) as [Hk|Hk]; [|by rewrite HK in Hx; [apply (H2 k)|]].
    apply elem_of_list_In, in_concat in Hk as (ohe & Ho & Hk). apply elem_of_list_In in Ho, Hk.
    apply elem_of_list_lookup in Ho as [t Ho]. destruct (HV t ohe Ho) as (y & _ & Hval).
    rewrite Hval in Hx by done. injection Hx as <-. split.
    - intros _. case_decide; [by right|by left].
    - intros b Hb. destruct (Forall2_lookup_r _ _ _ _ _ HF Ho) as (grp & Hg & HFg).
      pose proof (elem_of_list_lookup_1 _ _ Hk) as [k' Hk']. destruct (Forall2_lookup_r _ _ _ _ _ HFg Hk') as (v' & Hv' & Hvi).
      rewrite Hv in Hvi. injection Hvi as ->.
      destruct HG as (_ & _ & Hin). assert (v' ∈ names d TBool) as Hb'.
      { apply Hin. apply elem_of_list_In, in_concat. exists grp.
        split; apply elem_of_list_In; by eapply elem_of_list_lookup_2. }
      unfold names in Hb'. apply elem_of_list_filter in Hb' as [Hb' _].
      assert ((v', TReal) ∈ d_types d) as H3.
      { apply (wd_doms_real d W). apply elem_of_list_fmap. by exists (v', b). }
      pose proof (type_unique d v' _ _ W Hb' H3). done.
  Qed.

  Lemma uniform_ohe n g : fair g ->
    exists rows, uniform d n (Some gs) g = Ok (rows, adv (n * length (d_vars d) + n * length gs) g) /\
      length rows = n /\ Forall (in_domain d) rows /\ Forall (fun row => Forall (one_of (d_vars d) row) gs) rows.
  Proof.
    intros Hg. destruct (columns_ok d lens W HB) as (cs & Hcs & Hok).
    destruct group_indices as (idx & Hidx & HF & Hne & Hnd & Hlt).
    pose proof (uniform_plain d n g cs Hcs) as HU. unfold uniform in *. rewrite rand_table_ok in *.
    rewrite Hcs in *. cbn [rbind] in *. injection HU as HU. rewrite HU, Hidx. cbn [rbind].
    set (rows0 := plain_rows cs n (length (d_vars d)) g).
    assert (length rows0 = n) as Hlen by (unfold rows0, plain_rows; by rewrite map_length, seq_length).
    assert (Forall (in_domain d) rows0) as Hin.
    { apply Forall_forall. intros row Hrow. unfold rows0, plain_rows in Hrow.
      apply elem_of_list_fmap in Hrow as (i & -> & _). by apply plain_row_in. }
    destruct (one_hot_rows_ok rows0 idx (adv (n * length (d_vars d)) g) (length (d_vars d)) Hne Hnd Hlt)
      as (rows & E & HL & HR).
    { eapply Forall_impl; [exact Hin|]. by intros row [H _]. }
    exists rows. rewrite E, adv_adv, Hlen. pose proof (Forall2_length _ _ _ HF) as <-. split; [done|].
    split; [congruence|]. rewrite !Forall_lookup.
    assert (forall i row, rows !! i = Some row -> exists row0 g', rows0 !! i = Some row0 /\ hot_row g' idx row0 row) as HX.
    { intros i row Hi. assert (i < length rows0) as Hlt' by (rewrite <- HL; by eapply lookup_lt_Some).
      apply lookup_lt_is_Some in Hlt' as [row0 H0]. eexists row0, _. split; [done|]. by eapply HR. }
    split; intros i row Hi; destruct (HX i row Hi) as (row0 & g' & H0 & Hhot).
    - eapply hot_in_domain; [done|done|]. rewrite Forall_lookup in Hin. by eapply Hin.
    - by eapply hot_one_of.
  Qed.
End ohe.

(** * Every row can occur *)

Lemma concat_lookup {A} (l : list (list A)) m i j : Forall (fun r => length r = m) l -> j < m ->
  concat l !! (i * m + j) = (l !! i) ≫= (fun r => r !! j).
Proof.
  intros H Hj. revert i. induction H as [|r l Hr _ IH]; intros i; [done|]. destruct i as [|i]; cbn [concat lookup list_lookup].
  - cbn. rewrite lookup_app_l by lia. done.
  - rewrite lookup_app_r by lia. rewrite <- IH. f_equal. lia.
Qed.

Definition unit_num (u : Qc) : Prop := (0 <= u)%Qc /\ (u < 1)%Qc.

Lemma col_onto d v c x : wf_domain d -> col_ok d v c ->
  ((v, TBool) ∈ d_types d -> x = 0%Qc \/ x = 1%Qc) -> (forall b, (v, b) ∈ d_doms d -> inside x b) ->
  (forall l u, (v, (Some l, Some u)) ∈ d_doms d -> l <> u -> (x < u)%Qc) ->
  exists u, unit_num u /\ c u = x.
Proof.
  intros W [[Ht ->]|(l & u & Ht & Hd & Hle & ->)] Hb Hi Hlt.
  - destruct (Hb Ht) as [->| ->]; [exists (Q2Qc (1 # 2))|exists 0%Qc]; by split.
  - destruct (Hi _ Hd) as [H1 H2]. specialize (H1 l eq_refl). specialize (H2 u eq_refl).
    destruct (Qc_eq_dec l u) as [->|Hne].
    + exists 0%Qc. split; [by split|]. assert (x = u) as -> by (apply qcle_antisym; done). ring.
    + specialize (Hlt _ _ Hd Hne). assert (0 < u - l)%Qc as Hpos by qclra.
      assert (u - l <> 0)%Qc as Hnz by (intros E; rewrite E in Hpos; done).
      exists ((x - l) / (u - l))%Qc. split; [|field; done]. pose proof (qinv_pos _ Hpos) as Hip.
      unfold Qcdiv. split.
      * apply qmul_nonneg; qclra.
      * assert (1 = (u - l) * / (u - l))%Qc as -> by (field; done).
        assert (0 < (u - x) * / (u - l))%Qc by (apply qmul_pos; [qclra|done]).
        assert ((u - l) * / (u - l) = (x - l) * / (u - l) + (u - x) * / (u - l))%Qc as -> by ring.
        generalize dependent ((u - x) * / (u - l))%Qc. generalize ((x - l) * / (u - l))%Qc. clear. qclra.
Qed.

Lemma row_onto d cs row : wf_domain d -> Forall2 (col_ok d) (d_vars d) cs -> in_half_open d row ->
  exists us, length us = length (d_vars d) /\ Forall unit_num us /\ zip_with (fun c x => c x) cs us = row.
Proof.
  intros W HF [[HL HI] HS].
  assert (forall vs cs row, Forall2 (col_ok d) vs cs -> length row = length vs ->
    (forall k v x, vs !! k = Some v -> row !! k = Some x ->
      ((v, TBool) ∈ d_types d -> x = 0%Qc \/ x = 1%Qc) /\ (forall b, (v, b) ∈ d_doms d -> inside x b) /\
      (forall l u, (v, (Some l, Some u)) ∈ d_doms d -> l <> u -> (x < u)%Qc)) ->
    exists us, length us = length vs /\ Forall unit_num us /\ zip_with (fun c x => c x) cs us = row) as H.
  { clear -W. intros vs cs row HF. revert row. induction HF as [|v c vs cs Hc _ IH]; intros [|x row] HL HX; try done.
    - exists []. done.
    - destruct (IH row) as (us & H1 & H2 & H3); [cbn in HL; lia|intros k; exact (HX (S k))|].
      destruct (HX 0 v x eq_refl eq_refl) as (HX1 & HX2 & HX3).
      destruct (col_onto d v c x W Hc HX1 HX2 HX3) as (u & Hu & <-).
      exists (u :: us). cbn [length zip_with]. rewrite H1, H3. split; [done|]. split; [by constructor|done]. }
  apply H; [done|done|]. intros k v x Hv Hx. destruct (HI k v x Hv Hx). split; [done|]. split; [done|].
  intros l u. by apply (HS k).
Qed.

(** A generator with given numbers and choices. *)
Definition scripted (us : list Qc) (ps : list nat) : rng :=
  Rng (fun k => default 0%Qc (us !! k)) (fun k => default 0 (ps !! (k - length us))) 0.

Lemma scripted_fair us ps : Forall unit_num us -> fair (scripted us ps).
Proof.
  intros H k. cbn. destruct (us !! k) as [u|] eqn:E; cbn; [|by split].
  rewrite Forall_lookup in H. exact (H k u E).
Qed.

Lemma table_row_scripted uss ps m i us : Forall (fun r => length r = m) uss -> uss !! i = Some us ->
  table_row m (scripted (concat uss) ps) i = us.
Proof.
  intros HL Hi. assert (length us = m) as Hm by (rewrite Forall_lookup in HL; by eapply HL).
  apply list_eq. intros j. destruct (decide (j < m)) as [Hj|Hj].
  - rewrite table_row_lookup by done. cbn [scripted draws pos]. rewrite Nat.add_0_l, (concat_lookup _ m) by done.
    rewrite Hi. cbn. assert (is_Some (us !! j)) as [u ->] by (apply lookup_lt_is_Some; lia). done.
  - rewrite !lookup_ge_None_2; [done|lia|rewrite table_row_length; lia].
Qed.

Lemma rows_onto d cs rows ps : wf_domain d -> Forall2 (col_ok d) (d_vars d) cs -> Forall (in_half_open d) rows ->
  exists us, length us = length rows * length (d_vars d) /\ Forall unit_num us /\
    plain_rows cs (length rows) (length (d_vars d)) (scripted us ps) = rows.
Proof.
  intros W HF HR.
  assert (exists uss, Forall2 (fun row us => length us = length (d_vars d) /\ Forall unit_num us /\
     zip_with (fun c x => c x) cs us = row) rows uss) as [uss HU].
  { induction HR as [|row rows Hr _ [uss IH]]; [by exists []|].
    destruct (row_onto d cs row W HF Hr) as (us & Hus). exists (us :: uss). by constructor. }
  assert (Forall (fun r => length r = length (d_vars d)) uss) as HL.
  { apply Forall_lookup. intros i us Hi. destruct (Forall2_lookup_r _ _ _ _ _ HU Hi) as (row & _ & H & _). done. }
  exists (concat uss). split; [|split].
  - rewrite (Forall2_length _ _ _ HU). clear -HL. induction HL as [|r l Hr _ IH]; cbn; [done|]. rewrite app_length. lia.
  - apply Forall_concat. apply Forall_lookup. intros i us Hi. destruct (Forall2_lookup_r _ _ _ _ _ HU Hi) as (row & _ & _ & H & _). done.
  - apply list_eq. intros i. unfold plain_rows. rewrite list_lookup_fmap.
    destruct (decide (i < length rows)) as [Hi|Hi].
    + rewrite lookup_seq_lt by done. cbn. apply lookup_lt_is_Some in Hi as [row Hrow]. rewrite Hrow.
      destruct (Forall2_lookup_l _ _ _ _ _ HU Hrow) as (us & Hus & _ & _ & Hz).
      by rewrite (table_row_scripted uss ps _ i us HL Hus), Hz.
    + rewrite lookup_seq_ge by lia. by rewrite lookup_ge_None_2 by lia.
Qed.

Section onto.
  Context (d : domain) (lens : list (string * Qc * Qc)) (gs : list (list string)).
  Hypotheses (W : wf_domain d) (HB : finite_box d lens) (HG : groups_ok d gs).

  Lemma uniform_onto rows : Forall (in_half_open d) rows ->
    exists g g', fair g /\ uniform d (length rows) None g = Ok (rows, g').
  Proof.
    intros HR. destruct (columns_ok d lens W HB) as (cs & Hcs & HF).
    destruct (rows_onto d cs rows [] W HF HR) as (us & _ & Hu & Hr).
    exists (scripted us []). eexists. split; [by apply scripted_fair|].
    rewrite (uniform_plain d _ _ cs Hcs), Hr. reflexivity.
  Qed.

  (** Positions of the hot variables of a row. *)
  Lemma hot_positions row : Forall (one_of (d_vars d) row) gs ->
    exists ps, length ps = length gs /\ forall t grp p, gs !! t = Some grp -> ps !! t = Some p ->
      p < length grp /\ exists v, grp !! p = Some v /\ value (d_vars d) row v = 1%Qc /\
        forall v', v' ∈ grp -> v' <> v -> value (d_vars d) row v' = 0%Qc.
  Proof.
    clear HG. intros H. induction H as [|grp l Hg _ (ps & HL & IH)]; [by exists []|].
    destruct Hg as (v & Hv & H1 & H0). apply elem_of_list_lookup in Hv as [p Hp].
    exists (p :: ps). split; [cbn; by rewrite HL|]. intros [|t] grp' p' Hg Hp'; cbn in Hg, Hp'.
    - injection Hg as <-. injection Hp' as <-. split; [by eapply lookup_lt_Some|]. exists v. done.
    - by apply (IH t).
  Qed.

  Lemma uniform_ohe_onto rows : Forall (in_half_open d) rows ->
    Forall (fun row => Forall (one_of (d_vars d) row) gs) rows ->
    exists g g', fair g /\ uniform d (length rows) (Some gs) g = Ok (rows, g').
  Proof.
    intros HR HO. destruct (columns_ok d lens W HB) as (cs & Hcs & HF).
    destruct (group_indices d gs HG) as (idx & Hidx & HFi & Hne & Hnd & Hlt).
    assert (exists pss, Forall2 (fun row ps => length ps = length gs /\
      forall t grp p, gs !! t = Some grp -> ps !! t = Some p ->
      p < length grp /\ exists v, grp !! p = Some v /\ value (d_vars d) row v = 1%Qc /\
        forall v', v' ∈ grp -> v' <> v -> value (d_vars d) row v' = 0%Qc) rows pss) as [pss HP].
    { clear -HO. induction HO as [|row rows Ho _ [pss IH]]; [by exists []|].
      destruct (hot_positions row Ho) as (ps & Hps). exists (ps :: pss). by constructor. }
    destruct (rows_onto d cs rows (concat pss) W HF HR) as (us & HLu & Hu & Hr).
    set (g := scripted us (concat pss)) in *. exists g.
    assert (fair g) as Hfair by by apply scripted_fair.
    unfold uniform. pose proof (uniform_plain d (length rows) g cs Hcs) as HU. unfold uniform in HU.
    rewrite rand_table_ok in *. rewrite Hcs in *. cbn [rbind] in *. injection HU as HU. rewrite HU, Hidx, Hr. cbn [rbind].
    destruct (one_hot_rows_ok rows idx (adv (length rows * length (d_vars d)) g) (length (d_vars d)) Hne Hnd Hlt)
      as (rows' & E & HL & HH).
    { eapply Forall_impl; [exact HR|]. by intros row [[H _] _]. }
    eexists. split; [done|]. rewrite E. do 2 f_equal.
    apply list_eq. intros i. destruct (rows !! i) as [row|] eqn:Hi.
    2: { apply lookup_ge_None_2. apply lookup_ge_None in Hi. lia. }
    assert (is_Some (rows' !! i)) as [row' Hi'].
    { apply lookup_lt_is_Some. rewrite HL. by eapply lookup_lt_Some. }
    rewrite Hi'. f_equal. destruct (HH i row row' Hi Hi') as (HLr & HK & HV).
    assert (length row = length (d_vars d)) as Hlen by (rewrite Forall_lookup in HR; by destruct (HR i row Hi) as [[? _] _]).
    apply list_eq. intros j. destruct (decide (j ∈ concat idx)) as [Hj|Hj]; [|by apply HK].
    assert (j < length (d_vars d)) as Hjlt by (by apply Hlt).
    apply elem_of_list_In, in_concat in Hj as (ohe & Ho & Hj). apply elem_of_list_In in Ho, Hj.
    apply elem_of_list_lookup in Ho as [t Ho]. destruct (HV t ohe Ho) as (x & Hx & Hval).
    rewrite Hval by done. destruct (Forall2_lookup_r _ _ _ _ _ HFi Ho) as (grp & Hg & HFg).
    destruct (Forall2_lookup_l _ _ _ _ _ HP Hi) as (ps & Hps & HLps & Hpos).
    assert (is_Some (ps !! t)) as [p Hp].
    { apply lookup_lt_is_Some. rewrite HLps. by eapply lookup_lt_Some. }
    destruct (Hpos t grp p Hg Hp) as (Hplt & v & Hv & H1 & H0).
    assert (length grp = length ohe) as Hglen by (by eapply Forall2_length).
    assert (ohe !! p = Some x) as Hpx.
    { unfold chosen in Hx. rewrite <- Hx. f_equal. cbn [adv g scripted picks pos].
      rewrite <- (Forall2_length _ _ _ HFi).
      replace (0 + length rows * length (d_vars d) + i * length gs + t - length us) with (i * length gs + t) by lia.
      rewrite (concat_lookup pss (length gs)).
      - rewrite Hps. cbn. rewrite Hp. cbn. symmetry. apply Nat.mod_small. lia.
      - apply Forall_lookup. intros k q Hk. destruct (Forall2_lookup_r _ _ _ _ _ HP Hk) as (? & _ & ? & _). done.
      - by eapply lookup_lt_Some. }
    destruct (Forall2_lookup_r _ _ _ _ _ HFg Hpx) as (v1 & Hv1 & Hx1). rewrite Hv in Hv1. injection Hv1 as <-.
    pose proof (elem_of_list_lookup_1 _ _ Hj) as [k Hk]. destruct (Forall2_lookup_r _ _ _ _ _ HFg Hk) as (v2 & Hv2 & Hj2).
    assert (is_Some (row !! j)) as [y Hy] by (apply lookup_lt_is_Some; lia). rewrite Hy. f_equal.
    rewrite <- (value_lookup (d_vars d) row j v2 y (wd_vars d W) Hj2 Hy).
    destruct (decide (j = x)) as [->|Hjx].
    - rewrite Hx1 in Hj2. injection Hj2 as <-. done.
    - symmetry. apply H0; [by eapply elem_of_list_lookup_2|]. intros ->. apply Hjx.
      apply (NoDup_lookup (d_vars d) j x v (wd_vars d W)); done.
  Qed.
End onto.

(** * Weighted resampling *)

Section weighted.
  Context {V : Type} (root : nat -> Qc -> Qc) (Hroot : root_ok root).

  Lemma qsum_nonneg (l : list Qc) : Forall (fun q => 0 <= q)%Qc l -> (0 <= qsum l)%Qc.
  Proof. induction 1 as [|q l Hq _ IH]; [by vm_compute|]. rewrite qsum_cons. qclra. Qed.

  Lemma skip_ok (rest : list (Qc * V)) (x w w0 : Qc) (v : V) :
    (0 <= x)%Qc -> (0 <= w)%Qc -> (w <= w0)%Qc -> Forall (fun p => 0 <= fst p)%Qc rest ->
    (x <= w + qsum (map fst rest))%Qc ->
    exists x' w' w0' v' rest' pre, skip x w v rest = Ok (x', w', v', rest') /\
      (w0, v) :: rest = pre ++ (w0', v') :: rest' /\ (0 <= x')%Qc /\ (x' <= w')%Qc /\ (w' <= w0')%Qc /\
      (w' - x' + qsum (map fst rest') = w + qsum (map fst rest) - x)%Qc /\ ((0 < x)%Qc -> (0 < x')%Qc) /\
      (x = 0%Qc -> pre = []).
  Proof.
    revert x w w0 v. induction rest as [|[w1 v1] rest IH]; intros x w w0 v Hx Hw Hw0 Hrest Hle; cbn [skip].
    - destruct (qlt w x) eqn:E.
      + apply qlt_spec in E. cbn in Hle. exfalso. qclra.
      + apply qlt_false in E. exists x, w, w0, v, [], []. repeat split; try done. cbn. ring.
    - cbn [map fst] in Hle. rewrite qsum_cons in Hle. inversion_clear Hrest as [|? ? H1 H2]. cbn [fst] in H1.
      destruct (qlt w x) eqn:E.
      + apply qlt_spec in E.
        destruct (IH (x - w)%Qc w1 w1 v1) as (x' & w' & w0' & v' & rest' & pre & E1 & E2 & H3 & H4 & H5 & H6 & H7 & H8);
          [qclra|done|qclra|done|qclra|].
        exists x', w', w0', v', rest', ((w0, v) :: pre). split; [done|]. split; [cbn; by f_equal|].
        split; [done|]. split; [done|]. split; [done|]. split.
        * rewrite H6. cbn [map fst]. rewrite qsum_cons. ring.
        * split; [intros _; apply H7; qclra|]. intros ->. exfalso. qclra.
      + apply qlt_false in E. exists x, w, w0, v, ((w1, v1) :: rest), []. repeat split; try done. cbn [map fst].
        rewrite qsum_cons. ring.
  Qed.

  (** Element [k] of the pool, of positive weight if [b]. *)
  Definition picked (pool : list (Qc * V)) (b : Prop) (k : nat) (v : V) : Prop :=
    exists w, pool !! k = Some (w, v) /\ (b -> 0 < w)%Qc.

  Lemma resample_ok n pool pre rest (total w w0 : Qc) (v : V) g (b : Prop) : fair g ->
    pool = pre ++ (w0, v) :: rest -> (0 <= w)%Qc -> (w <= w0)%Qc -> Forall (fun p => 0 <= fst p)%Qc rest ->
    total = (w + qsum (map fst rest))%Qc -> (b -> (0 < total)%Qc \/ (0 < w0)%Qc) ->
    exists vs ks, resample root n total w v rest g = Ok (vs, adv n g) /\ length vs = n /\
      Forall2 (picked pool b) ks vs /\ Forall (le (length pre)) ks /\ StronglySorted le ks.
  Proof.
    revert pre rest total w w0 v g. induction n as [|n IH]; intros pre rest total w w0 v g Hg Hpool Hw Hw0 Hrest Htot Hb.
    - exists [], []. cbn. rewrite adv_0. split; [done|]. split; [done|]. split; [constructor|]. split; constructor.
    - cbn [resample]. unfold rand. destruct (Hroot (S n) (draws g (pos g)) (proj1 (Hg _)) (proj2 (Hg _))) as [R0 R1].
      set (r := root (S n) (draws g (pos g))) in *.
      assert (0 <= qsum (map fst rest))%Qc as Hs.
      { apply qsum_nonneg. apply Forall_map. eapply Forall_impl; [exact Hrest|]. done. }
      assert (0 <= total)%Qc as Ht0 by (rewrite Htot; qclra).
      assert (0 <= total * (1 - r))%Qc as Hx0 by (apply qmul_nonneg; [done|qclra]).
      assert (0 <= total * r)%Qc as Hx1 by (by apply qmul_nonneg).
      destruct (skip_ok rest (total * (1 - r))%Qc w w0 v Hx0 Hw Hw0 Hrest)
        as (x' & w' & w0' & v' & rest' & pre' & E1 & E2 & H3 & H4 & H5 & H6 & H7 & H8).
      { rewrite <- Htot. assert (total * (1 - r) = total - total * r)%Qc as -> by ring. qclra. }
      rewrite E1. cbn [rbind].
      assert (b -> 0 < w0')%Qc as Hbw.
      { intros HB. destruct (Qclt_le_dec 0 total) as [Htp|Htn].
        - assert (0 < total * (1 - r))%Qc as Hxp by (apply qmul_pos; [done|qclra]). specialize (H7 Hxp). qclra.
        - destruct (Hb HB) as [Hp|Hp]; [exfalso; qclra|].
          assert (total = 0)%Qc as Hz by (apply qcle_antisym; done).
          rewrite H8 in E2 by (rewrite Hz; ring). cbn in E2. injection E2 as <- _ _. done. }
      destruct (IH (pre ++ pre') rest' (total - total * (1 - r))%Qc (w' - x')%Qc w0' v' (Rng (draws g) (picks g) (S (pos g))))
        as (vs & ks & Ers & HL & HF & Hge & HSS).
      { exact Hg. }
      { rewrite Hpool, <- app_assoc. f_equal. exact E2. }
      { qclra. } { qclra. }
      { assert (Forall (fun p => 0 <= fst p)%Qc rest \/ True) by by left.
        destruct pre' as [|p pre'].
        - cbn in E2. injection E2 as _ _ <-. done.
        - cbn in E2. injection E2 as _ ->. apply Forall_app in Hrest as [_ Hrest]. by inversion Hrest. }
      { rewrite H6, Htot. done. }
      { intros HB. right. by apply Hbw. }
      rewrite Ers. cbn [rbind fst snd]. exists (v' :: vs), (length pre + length pre' :: ks). split.
      + do 2 f_equal. unfold adv. cbn. f_equal. lia.
      + split; [cbn; by rewrite HL|]. split.
        * constructor; [|done]. exists w0'. split; [|done]. rewrite Hpool, E2, app_assoc.
          rewrite lookup_app_r by (rewrite app_length; lia). rewrite app_length, Nat.sub_diag. done.
        * rewrite app_length in Hge. split; constructor; try done; try lia.
          eapply Forall_impl; [exact Hge|]. intros k Hk. lia.
  Qed.

  Lemma weighted_ok (pool : list (Qc * V)) n g : fair g -> pool <> [] -> Forall (fun p => 0 <= fst p)%Qc pool ->
    exists vs ks, weighted_sample root pool n g = Ok (vs, adv n g) /\ length vs = n /\
      Forall2 (picked pool (0 < qsum (map fst pool))%Qc) ks vs /\ StronglySorted le ks.
  Proof.
    intros Hg Hne Hw. destruct pool as [|[w v] rest]; [done|]. inversion_clear Hw as [|? ? H1 H2]. cbn [fst] in H1.
    destruct (resample_ok n ((w, v) :: rest) [] rest (qsum (map fst ((w, v) :: rest))) w w v g
      (0 < qsum (map fst ((w, v) :: rest)))%Qc Hg eq_refl H1) as (vs & ks & E & HL & HF & _ & HS);
      [qclra|done|cbn [map fst]; by rewrite qsum_cons|by left|].
    exists vs, ks. cbn [weighted_sample]. done.
  Qed.
End weighted.

(** * Evaluation of formulas on rows *)

Lemma row_agrees vars rows i row : NoDup vars -> rows !! i = Some row -> Forall (fun r => length r = length vars) rows ->
  agrees_row vars (columns (length vars) rows) i (row_env vars row).
Proof.
  intros Hnd Hi HL k x Hk. rewrite Forall_lookup in HL. pose proof (HL i row Hi) as Hlen.
  assert (k < length vars) as Hlt by by eapply lookup_lt_Some.
  assert (is_Some (row !! k)) as [q Hq] by (apply lookup_lt_is_Some; lia).
  exists (map (fun row => default 0%Qc (row !! k)) rows), q. split; [|split].
  - unfold columns. rewrite list_lookup_fmap, lookup_seq_lt by done. done.
  - rewrite list_lookup_fmap, Hi. cbn. by rewrite Hq.
  - unfold gives. cbn [er eb row_env]. rewrite (value_lookup vars row k x q Hnd Hk Hq). done.
Qed.

Lemma evaluate_rows_ok d f rows vs : wf_domain d -> query d f ->
  Forall (fun r => length r = length (d_vars d)) rows ->
  Forall2 (fun row v => eval (row_env (d_vars d) row) f = Some v) rows vs ->
  evaluate_rows d f rows = Ok vs.
Proof.
  intros W Q HL HF. unfold evaluate_rows.
  assert (evaluate (d_vars d) f (Arr2 (length (map (row_env (d_vars d)) rows)) (columns (length (d_vars d)) rows)) = Ok (Array vs)) as H.
  { apply evaluate_table.
    - apply W.
    - unfold columns. by rewrite map_length, seq_length.
    - intros k col Hc. unfold columns in Hc. rewrite list_lookup_fmap in Hc.
      destruct (seq 0 (length (d_vars d)) !! k) as [j|]; [|done]. cbn in Hc. injection Hc as <-.
      by rewrite !map_length.
    - intros i e He. rewrite list_lookup_fmap in He. destruct (rows !! i) as [row|] eqn:Hi; [|done].
      cbn in He. injection He as <-. by apply row_agrees; [apply W|done|].
    - intros x t. apply (q_over d f Q).
    - apply Q.
    - apply Q.
    - apply Q.
    - clear -HF. induction HF; cbn; constructor; done. }
  rewrite map_length in H. rewrite H. done.
Qed.

Lemma eval_bool_len d f rows : wf_domain d -> bool_query d f -> Forall (fun r => length r = length (d_vars d)) rows ->
  exists vs, evaluate_rows d f rows = Ok vs /\ mask vs = Ok (map (holds (d_vars d) f) rows).
Proof.
  intros W [Q P] HI. exists (map (fun row => VB (holds (d_vars d) f row)) rows). split.
  - apply evaluate_rows_ok; [done|done|done|].
    clear HI. induction rows as [|row rows IH]; cbn; constructor; [|done]. unfold holds.
    destruct (P (row_env (d_vars d) row)) as [b ->]. done.
  - clear. induction rows as [|row rows IH]; [done|]. unfold mask in *. cbn [map]. rewrite rmapM_cons. cbn [rbind]. by rewrite IH.
Qed.

Lemma eval_num_len d w rows : wf_domain d -> num_query d w -> Forall (fun r => length r = length (d_vars d)) rows ->
  exists vs, evaluate_rows d w rows = Ok vs /\ numbers vs = Ok (map (weight_of (d_vars d) (Some w)) rows).
Proof.
  intros W [Q P] HI. exists (map (fun row => VN (weight_of (d_vars d) (Some w) row)) rows). split.
  - apply evaluate_rows_ok; [done|done|done|].
    clear HI. induction rows as [|row rows IH]; cbn [map]; constructor; [|done]. cbn [weight_of].
    destruct (P (row_env (d_vars d) row)) as [b ->]. done.
  - clear. induction rows as [|row rows IH]; [done|]. unfold numbers in *. cbn [map]. rewrite rmapM_cons. cbn [rbind]. by rewrite IH.
Qed.

Lemma in_domain_len d rows : Forall (in_domain d) rows -> Forall (fun r => length r = length (d_vars d)) rows.
Proof. intros H. eapply Forall_impl; [exact H|]. by intros row [? _]. Qed.

Lemma eval_bool d f rows : wf_domain d -> bool_query d f -> Forall (in_domain d) rows ->
  exists vs, evaluate_rows d f rows = Ok vs /\ mask vs = Ok (map (holds (d_vars d) f) rows).
Proof. intros W Q HI. apply eval_bool_len; [done|done|by apply in_domain_len]. Qed.

Lemma eval_num d w rows : wf_domain d -> num_query d w -> Forall (in_domain d) rows ->
  exists vs, evaluate_rows d w rows = Ok vs /\ numbers vs = Ok (map (weight_of (d_vars d) (Some w)) rows).
Proof. intros W Q HI. apply eval_num_len; [done|done|by apply in_domain_len]. Qed.

Lemma select_filter {A} (t : A -> bool) (l : list A) : select (map t l) l = filter (fun x => t x = true) l.
Proof.
  unfold select. induction l as [|x l IH]; [done|]. cbn [map zip zip_with]. rewrite !filter_cons. cbn [fst].
  destruct (t x); cbn [decide]; [rewrite !decide_True by done; cbn [map snd]; by rewrite IH|].
  rewrite !decide_False by done. done.
Qed.

(** * Samples of the support *)

Lemma qn_le a b : a <= b -> (qn a <= qn b)%Qc.
Proof. intros H. unfold qn, qz. apply Qcle_alt. change (Qle (this (Q2Qc (inject_Z (Z.of_nat a)))) (this (Q2Qc (inject_Z (Z.of_nat b))))).
  cbn [this Q2Qc]. rewrite !Qred_correct. rewrite <- Zle_Qle. lia. Qed.
Lemma qn_pos n : 0 < n -> (0 < qn n)%Qc.
Proof.
  intros H. apply Qclt_alt. change (Qlt (this 0%Qc) (this (Q2Qc (inject_Z (Z.of_nat n))))).
  cbn [this Q2Qc]. rewrite !Qred_correct. change 0%Q with (inject_Z 0). rewrite <- Zlt_Qlt. lia.
Qed.
Lemma qn_S n : qn (S n) = (qn n + 1)%Qc.
Proof. unfold qn, qz. apply Qc_is_canon. cbn [this Q2Qc Qcplus]. rewrite !Qred_correct. rewrite Nat2Z.inj_succ. unfold Z.succ. by rewrite inject_Z_plus. Qed.

Lemma next_count_pos pool found count max : found < pool -> found <= count -> 0 < count -> count < max ->
  0 < next_count pool found count max.
Proof.
  intros H1 H2 H3 H4. unfold next_count.
  set (ratio := (if qlt (qn found / qn count) (Q2Qc (1 # 1000)) then Q2Qc (1 # 1000) else (qn found / qn count))%Qc).
  assert (0 < ratio)%Qc as Hr0.
  { unfold ratio. destruct (qlt _ _) eqn:E; [by vm_compute|]. apply qlt_false in E. apply (Qclt_le_trans _ (Q2Qc (1 # 1000))); [by vm_compute|done]. }
  assert (ratio <= 1)%Qc as Hr1.
  { unfold ratio. destruct (qlt _ _) eqn:E; [by vm_compute|]. pose proof (qn_pos count H3) as Hp.
    rewrite <- (div_self (qn count) Hp). apply div_le_compat; [done|]. by apply qn_le. }
  assert (1 <= qn (pool - found) / ratio)%Qc as He.
  { assert (1 = ratio / ratio)%Qc as -> by (symmetry; by apply div_self).
    apply div_le_compat; [done|]. apply (Qcle_trans _ 1); [done|]. change 1%Qc with (qn 1). apply qn_le. lia. }
  assert (1 <= qn (pool - found) / ratio * Q2Qc (11 # 10))%Qc as Hf.
  { revert He. generalize (qn (pool - found) / ratio)%Qc. clear. intros q Hq. qc2q. lra. }
  assert (1 <= Qfloor (this (qn (pool - found) / ratio * Q2Qc (11 # 10)))%Qc)%Z as HF.
  { change 1%Z with (Qfloor 1). apply Qfloor_resp_le. exact Hf. }
  lia.
Qed.

Section positive.
  Context (d : domain) (lens : list (string * Qc * Qc)) (support : fm).
  Hypotheses (W : wf_domain d) (HB : finite_box d lens) (HS : bool_query d support).

  Notation good rows := (filter (fun row => holds (d_vars d) support row = true) rows).

  Lemma accepted_ok n g : fair g ->
    exists rows, uniform d n None g = Ok (rows, adv (n * length (d_vars d)) g) /\ length rows = n /\
      Forall (in_domain d) rows /\ accepted d support n g = Ok (good rows, adv (n * length (d_vars d)) g).
  Proof.
    intros Hg. destruct (uniform_in d lens n g W HB Hg) as (rows & E & HL & HI). exists rows.
    split; [done|]. split; [done|]. split; [done|]. unfold accepted. rewrite E. cbn [rbind fst snd].
    destruct (eval_bool d support rows W HS HI) as (vs & -> & Hm). cbn [rbind]. rewrite Hm. cbn [rbind].
    by rewrite select_filter.
  Qed.

  Lemma fill_ok fuel pool max count found dg : fair dg -> 0 < count -> length found <= count -> max <= fuel + count ->
    exists m rows, uniform d m None dg = Ok (rows, adv (m * length (d_vars d)) dg) /\ (m = 0 \/ count + m <= max) /\
      ((fill d support fuel pool max count found dg = Ok (found ++ good rows, count + m, adv (m * length (d_vars d)) dg) /\
        pool <= length (found ++ good rows)) \/
       (fill d support fuel pool max count found dg = Err SamplingError /\
        length (found ++ good rows) < pool /\ max <= count + m)).
  Proof.
    revert count found dg. induction fuel as [|fuel IH]; intros count found dg Hg Hc Hf Hfuel; cbn [fill].
    - destruct (uniform_in d lens 0 dg W HB Hg) as (rows & E & HL & HI). destruct rows; [|done].
      exists 0, []. split; [done|]. split; [by left|].
      change (filter (fun row => holds (d_vars d) support row = true) []) with (@nil (list Qc)). rewrite app_nil_r.
      destruct (length found <? pool) eqn:Ep; [apply Nat.ltb_lt in Ep|apply Nat.ltb_ge in Ep].
      + right. assert (max <=? count = true) as -> by (apply Nat.leb_le; lia). split; [done|]. lia.
      + left. cbn. rewrite adv_0, Nat.add_0_r. done.
    - destruct (length found <? pool) eqn:Ep; [apply Nat.ltb_lt in Ep|apply Nat.ltb_ge in Ep].
      + destruct (max <=? count) eqn:Em; [apply Nat.leb_le in Em|apply Nat.leb_gt in Em].
        * destruct (uniform_in d lens 0 dg W HB Hg) as (rows & E & HL & HI). destruct rows; [|done].
          exists 0, []. split; [done|]. split; [by left|].
          change (filter (fun row => holds (d_vars d) support row = true) []) with (@nil (list Qc)). rewrite app_nil_r.
          right. split; [done|]. lia.
        * destruct count as [|c]; [lia|]. set (m1 := next_count pool (length found) (S c) max).
          assert (0 < m1) as Hm1 by (by apply next_count_pos).
          assert (S c + m1 <= max) as Hmax by (unfold m1, next_count; lia).
          destruct (accepted_ok m1 dg Hg) as (rows1 & E1 & HL1 & HI1 & ->). cbn [rbind fst snd].
          destruct (IH (S c + m1) (found ++ good rows1) (adv (m1 * length (d_vars d)) dg))
            as (m2 & rows2 & E2 & Hm2 & Hres).
          { done. } { lia. } { rewrite app_length. pose proof (filter_length (fun row => holds (d_vars d) support row = true) rows1). lia. }
          { lia. }
          destruct (uniform_app d lens m1 m2 dg W HB) as (r1 & r2 & U1 & U2 & U3).
          rewrite E1 in U1. injection U1 as <-. rewrite E2 in U2. injection U2 as <- _.
          exists (m1 + m2), (rows1 ++ rows2). split; [done|]. split; [right; lia|].
          rewrite filter_app, app_assoc, Nat.add_assoc. rewrite adv_adv in Hres.
          replace (m1 * length (d_vars d) + m2 * length (d_vars d)) with ((m1 + m2) * length (d_vars d)) in Hres by lia.
          exact Hres.
      + destruct (uniform_in d lens 0 dg W HB Hg) as (rows & E & HL & HI). destruct rows; [|done].
        exists 0, []. split; [done|]. split; [by left|].
        change (filter (fun row => holds (d_vars d) support row = true) []) with (@nil (list Qc)). rewrite app_nil_r.
        left. cbn. rewrite adv_0, Nat.add_0_r. done.
  Qed.
End positive.

Lemma take_if {A} (n : nat) (l : list A) : (if n <? length l then take n l else l) = take n l.
Proof. destruct (n <? length l) eqn:E; [done|]. apply Nat.ltb_ge in E. by rewrite take_ge. Qed.

Section positive2.
  Context (d : domain) (lens : list (string * Qc * Qc)) (support : fm) (root : nat -> Qc -> Qc).
  Hypotheses (W : wf_domain d) (HB : finite_box d lens) (HS : bool_query d support).

  Notation good rows := (filter (fun row => holds (d_vars d) support row = true) rows).

  Definition pool_of (required : nat) (weight : option fm) (ps : option nat) : nat :=
    or_nat ps (match weight with None => required | Some _ => required * 10 end).

  Lemma positive_cases required weight ps sc ms rg dg : fair rg -> fair dg -> 0 < required ->
    let pool := pool_of required weight ps in let count := or_nat sc (pool * 2) in let max := or_nat ms (count * 10) in
    exists rows m rows', uniform d count None rg = Ok (rows, adv (count * length (d_vars d)) rg) /\
      uniform d m None dg = Ok (rows', adv (m * length (d_vars d)) dg) /\ (m = 0 \/ count + m <= max) /\
      Forall (in_domain d) (rows ++ rows') /\
      ((positive root d support required weight ps sc ms rg dg =
          (let found := take pool (good (rows ++ rows')) in
           let ratio := (qn (length (good (rows ++ rows'))) / qn (count + m))%Qc in
           match weight with
           | None => Ok (found, ratio)
           | Some w => let! vs := evaluate_rows d w found in let! ws := numbers vs in
               let! sg := weighted_sample root (zip ws found) required (adv (count * length (d_vars d)) rg) in
               Ok (fst sg, ratio)
           end) /\ 0 < pool /\ pool <= length (good (rows ++ rows'))) \/
       (positive root d support required weight ps sc ms rg dg = Err SamplingError /\
        length (good (rows ++ rows')) < pool /\ max <= count + m)).
  Proof.
    intros Hrg Hdg Hreq pool count max.
    assert (0 < pool) as Hpool by (unfold pool, pool_of, or_nat; destruct ps as [[]|], weight; lia).
    assert (0 < count) as Hcount by (unfold count, or_nat; destruct sc as [[]|]; lia).
    destruct (accepted_ok d lens support W HB HS count rg Hrg) as (rows & E & HL & HI & HA).
    destruct (fill_ok d lens support W HB HS max pool max count (good rows) dg Hdg Hcount) as (m & rows' & E' & Hm & Hres).
    { pose proof (filter_length (fun row => holds (d_vars d) support row = true) rows). lia. }
    { lia. }
    exists rows, m, rows'. split; [done|]. split; [done|]. split; [done|]. split.
    { apply Forall_app. split; [done|]. destruct (uniform_in d lens m dg W HB Hdg) as (r & E2 & _ & HI2).
      rewrite E' in E2. injection E2 as <-. done. }
    rewrite !filter_app.
    destruct Hres as [[Hfill Hle]|(Hfill & Hlt & Hmax)].
    - left. split; [|done]. unfold positive. fold (pool_of required weight ps). fold pool. fold count. fold max.
      rewrite HA. cbn [rbind fst snd]. rewrite Hfill. cbn [rbind].
      destruct (count + m) as [|c] eqn:Ec; [lia|]. cbn [rbind]. rewrite take_if. destruct weight; done.
    - right. split; [|done]. unfold positive. fold (pool_of required weight ps). fold pool. fold count. fold max.
      rewrite HA. cbn [rbind fst snd]. rewrite Hfill. done.
  Qed.
End positive2.

Lemma weighted_rows d lens w rows root required g : wf_domain d -> finite_box d lens -> num_query d w -> root_ok root -> fair g ->
  Forall (in_domain d) rows -> rows <> [] -> Forall (fun row => 0 <= weight_of (d_vars d) (Some w) row)%Qc rows ->
  exists out, (let! vs := evaluate_rows d w rows in let! ws := numbers vs in
      let! sg := weighted_sample root (zip ws rows) required g in Ok (fst sg)) = Ok out /\
    length out = required /\ Forall (fun row => row ∈ rows /\
      ((0 < qsum (map (weight_of (d_vars d) (Some w)) rows))%Qc -> (0 < weight_of (d_vars d) (Some w) row)%Qc)) out.
Proof.
  intros W HB Hw Hroot Hg HI Hne Hnn. destruct (eval_num d w rows W Hw HI) as (vs & -> & Hn). cbn [rbind]. rewrite Hn. cbn [rbind].
  set (wt := weight_of (d_vars d) (Some w)) in *. set (pool := zip (map wt rows) rows).
  assert (map fst pool = map wt rows) as Hfst.
  { unfold pool. clear. induction rows as [|r rows IH]; [done|]. cbn. f_equal. exact IH. }
  assert (forall k q row, pool !! k = Some (q, row) -> row ∈ rows /\ q = wt row) as Hpool.
  { intros k q row Hk. unfold pool in Hk. apply lookup_zip_with_Some in Hk as (a & b & Hab & Ha & Hb).
    injection Hab as -> ->. rewrite list_lookup_fmap, Hb in Ha. cbn in Ha. injection Ha as <-.
    split; [by eapply elem_of_list_lookup_2|done]. }
  destruct (weighted_ok root Hroot pool required g Hg) as (out & ks & E & HL & HF & _).
  { unfold pool. destruct rows; done. }
  { apply Forall_lookup. intros k [q row] Hk. destruct (Hpool k q row Hk) as [Hin ->]. cbn. rewrite Forall_forall in Hnn. by apply Hnn. }
  exists out. rewrite E. cbn [rbind fst]. split; [done|]. split; [done|]. rewrite Hfst in HF.
  apply Forall_lookup. intros i row Hi. destruct (Forall2_lookup_r _ _ _ _ _ HF Hi) as (k & _ & q & Hk & Hpos).
  destruct (Hpool k q row Hk) as [Hin Hq]. rewrite <- Hq. split; done.
Qed.

(** * Rejection sampling *)

Lemma select_map {A B} (t : A -> bool) (f : A -> B) (l : list A) :
  select (map t l) (map f l) = map f (filter (fun x => t x = true) l).
Proof.
  unfold select. induction l as [|x l IH]; [done|]. cbn [map zip zip_with]. rewrite !filter_cons. cbn [fst].
  destruct (t x); [rewrite !decide_True by done; cbn [map snd]; by rewrite IH|].
  rewrite !decide_False by done. done.
Qed.

Lemma count_true_map {A} (t : A -> bool) (l : list A) : count_true (map t l) = length (filter (fun x => t x = true) l).
Proof. unfold count_true. by rewrite select_map, map_length. Qed.

Lemma where_filter vars w t rows :
  weight_where vars w t rows = qsum (map (weight_of vars w) (filter (fun x => t x = true) rows)).
Proof.
  unfold weight_where. induction rows as [|r rows IH]; [done|]. cbn [map]. rewrite qsum_cons, IH, filter_cons.
  destruct (t r); [rewrite decide_True by done; cbn [map]; by rewrite qsum_cons|].
  rewrite decide_False by done. ring.
Qed.

Lemma where_one vars (t : list Qc -> bool) rows : weight_where vars None t rows = qn (length (filter (fun x => t x = true) rows)).
Proof.
  rewrite where_filter. induction (filter (fun x => t x = true) rows) as [|r l IH]; [done|].
  cbn [map length]. rewrite qsum_cons, IH, qn_S. cbn [weight_of]. ring.
Qed.

Lemma no_reals d lens : wf_domain d -> box d lens -> names d TReal = [] -> lens = [].
Proof.
  intros W Hb He. destruct lens as [|[[v l] u] lens]; [done|]. exfalso.
  assert (v ∈ names d TReal) as Hv; [|rewrite He in Hv; by apply elem_of_nil in Hv].
  assert ((v, TReal) ∈ d_types d) as Ht.
  { apply (wd_doms_real d W). unfold box in Hb. rewrite Hb. cbn. left. }
  apply elem_of_list_filter. split; [done|]. apply (wd_types_vars d W), elem_of_list_fmap. by exists (v, TReal).
Qed.

Lemma bound_none d lens : wf_domain d -> box d lens ->
  bound_volume d None = Ok (qpow (qz 2) (length (names d TBool)) * box_size lens)%Qc.
Proof.
  intros W Hb. unfold bound_volume, bool_vars, real_vars. rewrite !vars_of_type_ok by done. cbn [rbind].
  destruct (names d TReal) as [|v r] eqn:E.
  - rewrite (no_reals d lens W Hb E). cbn [box_size map]. unfold box_size. cbn. f_equal. ring.
  - rewrite (volume_ok d lens W) by (done || by rewrite E). cbn [rbind]. f_equal. ring.
Qed.

Lemma bound_some d lens gs : wf_domain d -> box d lens -> box_size lens <> 0%Qc ->
  bound_volume d (Some gs) = Ok (qpow (qz 2) (length (filter (fun v => v ∉ concat gs) (names d TBool))) *
    qprod (map (fun g => qn (length g)) gs) * box_size lens)%Qc.
Proof.
  intros W Hb Hnz. unfold bound_volume, bool_vars. rewrite !vars_of_type_ok by done. cbn [rbind].
  assert (forall b, fold_left (fun b g => b * qn (length g))%Qc gs b = (b * qprod (map (fun g => qn (length g)) gs))%Qc) as ->.
  { clear. induction gs as [|g gs IH]; intros b; cbn [fold_left map]; [cbn; ring|]. rewrite IH, qprod_cons. ring. }
  destruct (names d TReal) as [|v r] eqn:E.
  - unfold get_bounding_box_volume, real_vars. rewrite vars_of_type_ok by done. rewrite E. cbn [rbind].
    rewrite (no_reals d lens W Hb E). assert (qeq 0 0 = true) as -> by done. unfold box_size. cbn [map qprod fold_right]. f_equal. ring.
  - rewrite (box_volume d lens W) by (done || by rewrite E). cbn [rbind].
    assert (qeq (box_size lens) 0 = false) as -> by by apply qeq_false. done.
Qed.

Lemma filter_true_cons {A} (t : A -> bool) x (l : list A) :
  filter (fun x => t x = true) (x :: l) =
  if t x then x :: filter (fun x => t x = true) l else filter (fun x => t x = true) l.
Proof. rewrite filter_cons. destruct (t x); [by rewrite decide_True|by rewrite decide_False]. Qed.

Section rejection.
  Context (d : domain) (lens : list (string * Qc * Qc)) (support : fm) (weight : option fm).
  Hypotheses (W : wf_domain d) (HS : bool_query d support).
  Hypothesis (Hw : match weight with Some w => num_query d w | None => True end).

  Lemma volume_formula ohe n g g' rows b : uniform d n ohe g = Ok (rows, g') -> Forall (in_domain d) rows ->
    length rows = n -> 0 < n -> bound_volume d ohe = Ok b ->
    compute_volume d support weight n ohe g =
      Ok ((b * (weight_where (d_vars d) weight (holds (d_vars d) support) rows / qn n))%Qc, g').
  Proof.
    intros E HI HL Hn Hb. unfold compute_volume. rewrite E. cbn [rbind fst snd].
    destruct (eval_bool d support rows W HS HI) as (vs & -> & Hm). cbn [rbind]. rewrite Hm. cbn [rbind]. rewrite Hb. cbn [rbind].
    rewrite map_length, HL. destruct n as [|n]; [lia|]. cbn [rbind]. rewrite count_true_map, select_filter.
    destruct weight as [w|].
    - assert (Forall (in_domain d) (filter (fun row => holds (d_vars d) support row = true) rows)) as HI'.
      { apply Forall_forall. intros r Hr. apply elem_of_list_filter in Hr as [_ Hr]. rewrite Forall_forall in HI. by apply HI. }
      destruct (eval_num d w _ W Hw HI') as (ws & -> & Hnum). cbn [rbind]. rewrite Hnum. cbn [rbind].
      rewrite where_filter. pose proof (qn_pos (S n) Hn) as Hp. assert (qn (S n) <> 0)%Qc as Hnz by (intros E0; rewrite E0 in Hp; done).
      destruct (filter (fun x => holds (d_vars d) support x = true) rows) as [|r l].
      + cbn [length map qsum fold_right]. do 2 f_equal. field. done.
      + cbn [length]. pose proof (qn_pos (S (length l)) ltac:(lia)) as Hp2.
        assert (qn (S (length l)) <> 0)%Qc as Hnz2 by (intros E0; rewrite E0 in Hp2; done).
        do 2 f_equal. field. done.
    - rewrite where_one. do 2 f_equal. unfold Qcdiv. ring.
  Qed.

  Lemma where_bound M rows (t : list Qc -> bool) : (0 <= M)%Qc -> Forall (fun row => weight_of (d_vars d) weight row <= M)%Qc rows ->
    (weight_where (d_vars d) weight t rows <= qn (length rows) * M)%Qc.
  Proof.
    intros HM H. unfold weight_where. induction H as [|r rows Hr _ IH]; cbn [map length].
    - cbn. assert (qn 0 * M = 0)%Qc as -> by (change (qn 0) with 0%Qc; ring). by vm_compute.
    - rewrite qsum_cons, qn_S. assert (((qn (length rows) + 1) * M) = M + qn (length rows) * M)%Qc as -> by ring.
      assert ((if t r then weight_of (d_vars d) weight r else 0) <= M)%Qc by (destruct (t r); done). qclra.
  Qed.

  Lemma select_all {A} (t : A -> bool) (l : list A) : select (map t l) (map t l) = map (fun _ => true) (filter (fun x => t x = true) l).
  Proof.
    rewrite select_map. induction l as [|x l IH]; [done|]. rewrite filter_cons.
    destruct (t x) eqn:E; [rewrite decide_True by done; cbn [map]; by rewrite E, IH|]. rewrite decide_False by done. done.
  Qed.

  Lemma where_both vars w (t u : list Qc -> bool) rows :
    qsum (map (weight_of vars w) (filter (fun x => u x = true) (filter (fun x => t x = true) rows))) =
    weight_where vars w (fun r => t r && u r) rows.
  Proof.
    rewrite where_filter. do 2 f_equal. induction rows as [|r rows IH]; [done|]. rewrite !filter_true_cons.
    destruct (t r); cbn [andb]; [|done]. rewrite filter_true_cons. destruct (u r); [by f_equal|done].
  Qed.

  Lemma probabilities_formula n qs g g' rows : uniform d n None g = Ok (rows, g') -> Forall (in_domain d) rows ->
    Forall (bool_query d) qs ->
    rej_probabilities d support weight n qs g =
      Ok (map (fun q =>
        if qlt 0 (weight_where (d_vars d) weight (holds (d_vars d) support) rows) then
          Some (weight_where (d_vars d) weight (fun r => holds (d_vars d) support r && holds (d_vars d) q r) rows /
                weight_where (d_vars d) weight (holds (d_vars d) support) rows)%Qc
        else None) qs, g').
  Proof.
    intros E HI HQ. unfold rej_probabilities. rewrite E. cbn [rbind fst snd].
    destruct (eval_bool d support rows W HS HI) as (vs & -> & Hm). cbn [rbind]. rewrite Hm. cbn [rbind].
    rewrite select_filter, select_all. set (pos := filter (fun row => holds (d_vars d) support row = true) rows).
    assert (Forall (in_domain d) pos) as HI'.
    { apply Forall_forall. intros r Hr. apply elem_of_list_filter in Hr as [_ Hr]. rewrite Forall_forall in HI. by apply HI. }
    assert (forall q, zip_with andb (map (holds (d_vars d) q) pos) (map (fun _ => true) pos) = map (holds (d_vars d) q) pos) as Hz.
    { intros q. clear. induction pos as [|r pos IH]; [done|]. cbn. rewrite andb_true_r. by f_equal. }
    destruct weight as [w|].
    - destruct (eval_num d w _ W Hw HI') as (ws & -> & Hnum). cbn [rbind]. rewrite Hnum. cbn [rbind].
      assert (qsum (map (weight_of (d_vars d) (Some w)) pos) = weight_where (d_vars d) (Some w) (holds (d_vars d) support) rows) as Ht
        by (by rewrite where_filter). rewrite Ht.
      induction HQ as [|q qs Hq _ IH]; [done|]. cbn [map]. rewrite rmapM_cons.
      destruct (rmapM _ qs) as [rs|]; [|done]. cbn [rbind] in IH. injection IH as ->.
      destruct (qlt 0 _); [|done].
      destruct (eval_bool d q pos W Hq HI') as (vq & -> & Hmq). cbn [rbind]. rewrite Hmq. cbn [rbind].
      rewrite Hz, select_map. unfold pos at 1. by rewrite where_both.
    - cbn [rbind]. assert (qn (length pos) = weight_where (d_vars d) None (holds (d_vars d) support) rows) as Ht
        by (by rewrite where_one).
      assert ((0 <? length pos) = qlt 0 (weight_where (d_vars d) None (holds (d_vars d) support) rows)) as Hc.
      { rewrite <- Ht. destruct (length pos) as [|k]; [done|]. symmetry. apply qlt_spec, qn_pos. lia. }
      rewrite Hc, Ht. clear Hc.
      induction HQ as [|q qs Hq _ IH]; [done|]. cbn [map]. rewrite rmapM_cons.
      destruct (rmapM _ qs) as [rs|]; [|done]. cbn [rbind] in IH. injection IH as ->.
      destruct (qlt 0 _); [|done].
      destruct (eval_bool d q pos W Hq HI') as (vq & -> & Hmq). cbn [rbind]. rewrite Hmq. cbn [rbind].
      rewrite Hz, count_true_map. rewrite <- (where_both _ None). unfold pos at 1.
      do 5 f_equal. rewrite <- (where_filter (d_vars d) None (holds (d_vars d) q)), where_one. done.
  Qed.
End rejection.
