(** C20-C24 and C60: sampling and the rejection engine (pywmi/sample.py,
    pywmi/engines/rejection.py). *)

From Verif Require Import Base Dict Smt Smt_Facts Walk_Model Check_Model Domain_Model Domain_Spec Domain_Proofs
  Engine_Spec Engine_Proofs Sample_Model Sample_Spec Sample_Proofs.

(** Two booleans and a real between 0 and 2. *)
Definition s_dom : domain :=
  Dom ["a"; "b"; "x"] [("a", TBool); ("b", TBool); ("x", TReal)] [("x", (Some 0%Qc, Some (qz 2)))].
Definition s_lens : list (string * Qc * Qc) := [("x", 0%Qc, qz 2)].

Lemma s_dom_wf : wf_domain s_dom.
Proof.
  split; cbn [s_dom d_vars d_types d_doms map fst].
  - dec.
  - dec.
  - done.
  - intros v t. rewrite !elem_of_cons, elem_of_nil. intuition congruence.
  - dec.
  - intros v. rewrite !elem_of_cons, !elem_of_nil. intuition congruence.
Qed.
Lemma s_dom_box : finite_box s_dom s_lens.
Proof. split; [done|]. repeat constructor. by vm_compute. Qed.

(** The generator that repeats 1/4, 1/2, 3/4, 0 and always picks the second element. *)
Definition s_rng : rng :=
  Rng (fun k => match k mod 4 with 0 => Q2Qc (1 # 4) | 1 => Q2Qc (1 # 2) | 2 => Q2Qc (3 # 4) | _ => 0%Qc end) (fun _ => 1) 0.
Lemma s_rng_fair : fair s_rng.
Proof. intros k. cbn [s_rng draws]. destruct (k mod 4) as [|[|[|]]]; split; by vm_compute. Qed.

(** * C20 *)

(** For every domain with finite bounds, every count and every outcome of the random
    source: exactly [n] rows, each inside the domain. *)
Theorem C20_in_domain d lens n g : wf_domain d -> finite_box d lens -> fair g ->
  exists rows g', uniform d n None g = Ok (rows, g') /\ length rows = n /\ Forall (in_domain d) rows.
Proof. intros W HB Hg. destruct (uniform_in d lens n g W HB Hg) as (rows & H). by exists rows, (adv (n * length (d_vars d)) g). Qed.
Print Assumptions C20_in_domain.

(** With one-hot groups, in addition exactly one variable of each group is set. *)
Theorem C20_one_hot d lens gs n g : wf_domain d -> finite_box d lens -> groups_ok d gs -> fair g ->
  exists rows g', uniform d n (Some gs) g = Ok (rows, g') /\ length rows = n /\ Forall (in_domain d) rows /\
    Forall (fun row => Forall (one_of (d_vars d) row) gs) rows.
Proof.
  intros W HB HG Hg. destruct (uniform_ohe d lens gs W HB HG n g Hg) as (rows & H).
  by exists rows, (adv (n * length (d_vars d) + n * length gs) g).
Qed.
Print Assumptions C20_one_hot.

(** Every table of rows of the half-open domain is the outcome of some source. *)
Theorem C20_every_row d lens rows : wf_domain d -> finite_box d lens -> Forall (in_half_open d) rows ->
  exists g g', fair g /\ uniform d (length rows) None g = Ok (rows, g').
Proof. intros W HB. exact (uniform_onto d lens W HB rows). Qed.
Print Assumptions C20_every_row.

(** The same with one-hot groups: every combination of choices can occur. *)
Theorem C20_every_choice d lens gs rows : wf_domain d -> finite_box d lens -> groups_ok d gs ->
  Forall (in_half_open d) rows -> Forall (fun row => Forall (one_of (d_vars d) row) gs) rows ->
  exists g g', fair g /\ uniform d (length rows) (Some gs) g = Ok (rows, g').
Proof. intros W HB HG. exact (uniform_ohe_onto d lens gs W HB HG rows). Qed.
Print Assumptions C20_every_choice.

Example C20_example :
  wf_domain s_dom /\ finite_box s_dom s_lens /\ fair s_rng /\ groups_ok s_dom [["b"; "a"]] /\
  (exists g', uniform s_dom 2 None s_rng =
     Ok ([[1; 0; Q2Qc (3 # 2)]; [1; 1; qz 1]]%Qc, g')) /\
  (exists g', uniform s_dom 2 (Some [["b"; "a"]]) s_rng =
     Ok ([[1; 0; Q2Qc (3 # 2)]; [1; 0; qz 1]]%Qc, g')).
Proof.
  split; [exact s_dom_wf|]. split; [exact s_dom_box|]. split; [exact s_rng_fair|]. split.
  { split; [dec|]. split; [by repeat constructor|]. intros v Hv. vm_compute in Hv |- *.
    repeat (inversion Hv as [|? ? ? Hv']; subst; clear Hv; [by repeat constructor|rename Hv' into Hv]). inversion Hv. }
  split; eexists; vm_compute; reflexivity.
Qed.

(** When groups share a variable, a later group can clear the choice of an earlier one:
    no variable of the first group is set. *)
Theorem C20_overlapping_groups_refuted : exists rows g',
  uniform s_dom 1 (Some [["a"]; ["a"; "b"]]) s_rng = Ok (rows, g') /\
  ~ Forall (fun row => one_of (d_vars s_dom) row ["a"]) rows.
Proof.
  eexists _, _. split; [vm_compute; reflexivity|]. intros H. inversion_clear H as [|? ? (v & Hv & H1 & _) _].
  apply elem_of_list_singleton in Hv as ->. vm_compute in H1. discriminate.
Qed.
Print Assumptions C20_overlapping_groups_refuted.

(** * C21 *)

(** For every pool with non negative weights of positive total, every count and every
    outcome of the source: [n] elements, at non-decreasing positions of the pool, each
    of positive weight; the end of the pool is never passed. *)
Theorem C21_resample {V} root (pool : list (Qc * V)) n g : root_ok root -> fair g ->
  Forall (fun p => 0 <= fst p)%Qc pool -> (0 < qsum (map fst pool))%Qc ->
  exists vs g' ks, weighted_sample root pool n g = Ok (vs, g') /\ length vs = n /\
    Forall2 (fun k v => exists w, pool !! k = Some (w, v) /\ (0 < w)%Qc) ks vs /\ StronglySorted le ks.
Proof.
  intros Hr Hg Hw Hpos.
  destruct (weighted_ok root Hr pool n g Hg) as (vs & ks & E & HL & HF & HS); [|done|].
  - intros ->. by vm_compute in Hpos.
  - exists vs, (adv n g), ks. split; [done|]. split; [done|]. split; [|done].
    eapply Forall2_impl; [exact HF|]. intros k v (w & H1 & H2). exists w. split; [done|]. by apply H2.
Qed.
Print Assumptions C21_resample.

(** The first element of the pool has weight 0 and is never picked. *)
Example C21_example :
  root_ok (fun _ u => u) /\
  weighted_sample (fun _ u => u) [(0, "z"); (1, "p"); (qz 3, "q")]%Qc 3 s_rng = Ok (["q"; "q"; "q"], adv 3 s_rng) /\
  weighted_sample (fun _ u => u) [(0, "z"); (qz 4, "p"); (qz 3, "q")]%Qc 3 (adv 2 s_rng) = Ok (["p"; "q"; "q"], adv 5 s_rng).
Proof. split; [done|]. split; vm_compute; reflexivity. Qed.

(** * C22 *)

(** Either the request is met from the accepted rows of what was drawn, or it is
    refused after at least [max] rows were drawn of which too few were accepted.
    [pool], [count] and [max] are the sizes after the defaults are filled in. *)
Theorem C22_met_or_refused root d lens support required ps sc ms rg dg :
  wf_domain d -> finite_box d lens -> bool_query d support -> fair rg -> fair dg -> 0 < required ->
  let pool := or_nat ps required in let count := or_nat sc (pool * 2) in let max := or_nat ms (count * 10) in
  (exists out ratio, positive root d support required None ps sc ms rg dg = Ok (out, ratio) /\
     length out = pool /\ Forall (in_domain d) out /\ Forall (fun row => holds (d_vars d) support row = true) out) \/
  (positive root d support required None ps sc ms rg dg = Err SamplingError /\
     exists m rows rows' g1 g2, uniform d count None rg = Ok (rows, g1) /\ uniform d m None dg = Ok (rows', g2) /\
       max <= count + m /\ length (filter (fun row => holds (d_vars d) support row = true) (rows ++ rows')) < pool).
Proof.
  intros W HB HS Hrg Hdg Hreq.
  destruct (positive_cases d lens support root W HB HS required None ps sc ms rg dg Hrg Hdg Hreq)
    as (rows & m & rows' & E1 & E2 & Hm & HI & [(E & Hp & Hle)|(E & Hlt & Hmax)]).
  - left. eexists _, _. split; [exact E|]. split; [by rewrite take_length_le|]. split.
    + apply Forall_take. apply Forall_forall. intros r Hr. apply elem_of_list_filter in Hr as [_ Hr].
      rewrite Forall_forall in HI. by apply HI.
    + apply Forall_take. apply Forall_forall. intros r Hr. by apply elem_of_list_filter in Hr as [Hr _].
  - right. split; [done|]. by eexists m, rows, rows', _, _.
Qed.
Print Assumptions C22_met_or_refused.

(** With a weight: exactly the required number of rows, each of the support and of
    positive weight (unless every row of the pool has weight zero). *)
Theorem C22_weighted root d lens support w required ps sc ms rg dg :
  wf_domain d -> finite_box d lens -> bool_query d support -> num_query d w -> root_ok root ->
  (forall row, in_domain d row -> (0 <= weight_of (d_vars d) (Some w) row)%Qc) ->
  fair rg -> fair dg -> 0 < required ->
  let pool := or_nat ps (required * 10) in let count := or_nat sc (pool * 2) in let max := or_nat ms (count * 10) in
  (exists out ratio found, positive root d support required (Some w) ps sc ms rg dg = Ok (out, ratio) /\
     length out = required /\ length found = pool /\
     Forall (fun row => in_domain d row /\ holds (d_vars d) support row = true) found /\
     Forall (fun row => row ∈ found /\ ((exists row', row' ∈ found /\ (0 < weight_of (d_vars d) (Some w) row')%Qc) ->
        (0 < weight_of (d_vars d) (Some w) row)%Qc)) out) \/
  (positive root d support required (Some w) ps sc ms rg dg = Err SamplingError /\
     exists m rows rows' g1 g2, uniform d count None rg = Ok (rows, g1) /\ uniform d m None dg = Ok (rows', g2) /\
       max <= count + m /\ length (filter (fun row => holds (d_vars d) support row = true) (rows ++ rows')) < pool).
Proof.
  intros W HB HS Hw Hroot Hnn Hrg Hdg Hreq.
  destruct (positive_cases d lens support root W HB HS required (Some w) ps sc ms rg dg Hrg Hdg Hreq)
    as (rows & m & rows' & E1 & E2 & Hm & HI & [(E & Hp & Hle)|(E & Hlt & Hmax)]).
  - left. cbv zeta in E. set (found := take _ _) in E.
    assert (Forall (fun row => in_domain d row /\ holds (d_vars d) support row = true) found) as HF.
    { apply Forall_take. apply Forall_forall. intros r Hr. apply elem_of_list_filter in Hr as [Hh Hr].
      rewrite Forall_forall in HI. split; [by apply HI|done]. }
    assert (length found = or_nat ps (required * 10)) as HL by (by apply take_length_le).
    assert (Forall (in_domain d) found) as HD by (eapply Forall_impl; [exact HF|]; by intros ? [? _]).
    assert (Forall (fun row => 0 <= weight_of (d_vars d) (Some w) row)%Qc found) as HN.
    { eapply Forall_impl; [exact HD|]. exact Hnn. }
    destruct (weighted_rows d lens w found root required (adv (or_nat sc (pool_of required (Some w) ps * 2) * length (d_vars d)) rg)
      W HB Hw Hroot Hrg HD) as (out & Eo & HLo & HFo); [|done|].
    { intros E0. rewrite E0 in HL. cbn in HL. unfold pool_of in Hp. rewrite <- HL in Hp. lia. }
    destruct (evaluate_rows d w found) as [vs|]; [|done]. cbn [rbind] in E, Eo.
    destruct (numbers vs) as [ws|]; [|done]. cbn [rbind] in E, Eo.
    destruct (weighted_sample root (zip ws found) required _) as [sg|] eqn:Es; [|done]. cbn [rbind] in E, Eo.
    injection Eo as <-. eexists _, _, found. split; [exact E|]. split; [done|]. split; [done|]. split; [done|].
    eapply Forall_impl; [exact HFo|]. intros row [Hin Hpos]. split; [done|]. intros (row' & Hr' & Hp').
    apply Hpos. clear -Hr' Hp' HN. induction HN as [|r l Hr HN IH]; [by apply elem_of_nil in Hr'|].
    cbn [map]. rewrite Poly_Proofs.qsum_cons.
    assert (0 <= qsum (map (weight_of (d_vars d) (Some w)) l))%Qc as Hs.
    { apply qsum_nonneg. apply Forall_map. eapply Forall_impl; [exact HN|]. done. }
    apply elem_of_cons in Hr' as [->|Hr']; [qclra|]. specialize (IH Hr'). qclra.
  - right. split; [done|]. by eexists m, rows, rows', _, _.
Qed.
Print Assumptions C22_weighted.

Definition s_support : fm := OrN [Sym "a" TBool; LeN (Sym "x" TReal) (RealC (Q2Qc (1 # 4)))].
Definition s_weight : fm := IteN (Sym "b" TBool) (Sym "x" TReal) (RealC (qz 2)).
Lemma s_support_ok : bool_query s_dom s_support.
Proof.
  split; [split; try done|by intros e; eexists].
  intros x t Hx. cbn in Hx. repeat (apply elem_of_cons in Hx as [E|Hx]; [injection E as -> _; dec|]). by apply elem_of_nil in Hx.
Qed.
Lemma s_weight_ok : num_query s_dom s_weight.
Proof.
  split; [split; try done|].
  - intros x t Hx. cbn in Hx. repeat (apply elem_of_cons in Hx as [E|Hx]; [injection E as -> _; dec|]). by apply elem_of_nil in Hx.
  - intros e. cbn. destruct (eb e "b"); by eexists.
Qed.

Example C22_example :
  bool_query s_dom s_support /\ num_query s_dom s_weight /\
  positive (fun _ u => u) s_dom s_support 2 None None None None s_rng s_rng =
    Ok ([[1; 0; Q2Qc (3 # 2)]; [1; 1; qz 1]], Q2Qc (3 # 4))%Qc /\
  positive (fun _ u => u) s_dom (Sym "b" TBool) 3 None None (Some 3) (Some 4) s_rng s_rng = Err SamplingError /\
  positive (fun _ u => u) s_dom s_support 2 (Some s_weight) (Some 4) None None s_rng s_rng =
    Ok ([[1; 0; Q2Qc (3 # 2)]; [1; 0; Q2Qc (3 # 2)]], Q2Qc (6 # 8))%Qc.
Proof.
  split; [exact s_support_ok|]. split; [exact s_weight_ok|].
  split; [vm_compute; reflexivity|]. split; [vm_compute; reflexivity|]. vm_compute. reflexivity.
Qed.

(** Without a weight, a pool size other than the required number decides how many rows
    are returned. *)
Theorem C22_pool_size_refuted : exists out ratio,
  positive (fun _ u => u) s_dom s_support 1 None (Some 3) None None s_rng s_rng = Ok (out, ratio) /\ length out <> 1.
Proof. eexists _, _. split; [vm_compute; reflexivity|]. done. Qed.
Print Assumptions C22_pool_size_refuted.

(** Asking for no samples raises ZeroDivisionError. *)
Theorem C22_zero_refuted root d lens support rg dg : wf_domain d -> finite_box d lens -> bool_query d support -> fair rg ->
  positive root d support 0 None None None None rg dg = Err ZeroDivisionError.
Proof.
  intros W HB HS Hrg. destruct (accepted_ok d lens support W HB HS 0 rg Hrg) as (rows & _ & HL & _ & HA).
  destruct rows; [|done]. unfold positive. cbn [or_nat Nat.mul]. rewrite HA. done.
Qed.
Print Assumptions C22_zero_refuted.

(** * C23 *)

(** Box volume (with a factor 2 per boolean) times the average of weight times support
    over the rows drawn. *)
Theorem C23_volume d lens support weight n g rows g' : wf_domain d -> finite_box d lens -> bool_query d support ->
  match weight with Some w => num_query d w | None => True end -> fair g -> 0 < n ->
  uniform d n None g = Ok (rows, g') ->
  compute_volume d support weight n None g =
    Ok ((qpow (qz 2) (length (names d TBool)) * box_size lens *
         (weight_where (d_vars d) weight (holds (d_vars d) support) rows / qn n))%Qc, g').
Proof.
  intros W HB HS Hw Hg Hn HU. destruct (uniform_in d lens n g W HB Hg) as (r & E & HL & HI).
  rewrite HU in E. injection E as <- ->.
  apply (volume_formula d support weight W HS Hw None n g _ rows _ HU HI HL Hn). apply bound_none; [done|apply HB].
Qed.
Print Assumptions C23_volume.

(** With one-hot groups a group counts as many worlds as it has variables.  Missing:
    boxes of volume zero. *)
Theorem C23_volume_one_hot_partial d lens gs support weight n g rows g' : wf_domain d -> finite_box d lens ->
  groups_ok d gs -> bool_query d support ->
  match weight with Some w => num_query d w | None => True end -> fair g -> 0 < n -> box_size lens <> 0%Qc ->
  uniform d n (Some gs) g = Ok (rows, g') ->
  compute_volume d support weight n (Some gs) g =
    Ok ((qpow (qz 2) (length (filter (fun v => v ∉ concat gs) (names d TBool))) *
         qprod (map (fun grp => qn (length grp)) gs) * box_size lens *
         (weight_where (d_vars d) weight (holds (d_vars d) support) rows / qn n))%Qc, g').
Proof.
  intros W HB HG HS Hw Hg Hn Hnz HU. destruct (uniform_ohe d lens gs W HB HG n g Hg) as (r & E & HL & HI & _).
  rewrite HU in E. injection E as <- ->.
  apply (volume_formula d support weight W HS Hw (Some gs) n g _ rows _ HU HI HL Hn). apply bound_some; [done|apply HB|done].
Qed.
Print Assumptions C23_volume_one_hot_partial.

(** Nothing accepted, volume zero. *)
Theorem C23_zero d lens support weight n g rows g' : wf_domain d -> finite_box d lens -> bool_query d support ->
  match weight with Some w => num_query d w | None => True end -> fair g -> 0 < n ->
  uniform d n None g = Ok (rows, g') -> Forall (fun row => holds (d_vars d) support row = false) rows ->
  compute_volume d support weight n None g = Ok (0%Qc, g').
Proof.
  intros W HB HS Hw Hg Hn HU HF. rewrite (C23_volume d lens support weight n g rows g') by done. do 2 f_equal.
  assert (weight_where (d_vars d) weight (holds (d_vars d) support) rows = 0%Qc) as ->; [|unfold Qcdiv; ring].
  unfold weight_where. clear -HF. induction HF as [|r rows Hr _ IH]; [done|]. cbn [map].
  rewrite Poly_Proofs.qsum_cons, Hr, IH. ring.
Qed.
Print Assumptions C23_zero.

(** Never more than box volume times the largest weight. *)
Theorem C23_bound d lens support weight n g M : wf_domain d -> finite_box d lens -> bool_query d support ->
  match weight with Some w => num_query d w | None => True end -> fair g -> 0 < n -> (0 <= M)%Qc ->
  (forall row, in_domain d row -> (weight_of (d_vars d) weight row <= M)%Qc) ->
  exists v g', compute_volume d support weight n None g = Ok (v, g') /\
    (v <= qpow (qz 2) (length (names d TBool)) * box_size lens * M)%Qc.
Proof.
  intros W HB HS Hw Hg Hn HM HW. destruct (uniform_in d lens n g W HB Hg) as (rows & HU & HL & HI).
  rewrite (C23_volume d lens support weight n g rows _ W HB HS Hw Hg Hn HU). eexists _, _. split; [reflexivity|].
  assert (0 <= qpow (qz 2) (length (names d TBool)) * box_size lens)%Qc as Hb.
  { apply qmul_nonneg.
    - induction (length (names d TBool)) as [|k IH]; [by vm_compute|]. cbn [qpow]. apply qmul_nonneg; [by vm_compute|done].
    - destruct HB as [_ HB]. unfold box_size. clear -HB. induction HB as [|[[v l] u] lens H _ IH]; [by vm_compute|].
      cbn [map]. rewrite Poly_Proofs.qprod_cons. apply qmul_nonneg; [qclra|done]. }
  assert (weight_where (d_vars d) weight (holds (d_vars d) support) rows / qn n <= M)%Qc as HX.
  { pose proof (qn_pos n Hn) as Hp. assert (qn n <> 0)%Qc as Hnz by (intros E0; rewrite E0 in Hp; done).
    assert (M = (qn n * M) / qn n)%Qc as -> by (field; done). apply div_le_compat; [done|].
    rewrite <- HL. apply where_bound; [done|]. eapply Forall_impl; [exact HI|]. exact HW. }
  set (b := (qpow _ _ * _)%Qc) in *. set (x := (_ / _)%Qc) in *. clearbody b x. clear -Hb HX.
  assert (0 <= b * (M - x))%Qc by (apply qmul_nonneg; [done|qclra]). assert (b * M = b * x + b * (M - x))%Qc as -> by ring. qclra.
Qed.
Print Assumptions C23_bound.

Example C23_example :
  (exists v g', compute_volume s_dom s_support (Some s_weight) 4 None s_rng = Ok (v, g') /\ v = qz 10) /\
  (exists v g', compute_volume s_dom s_support None 4 None s_rng = Ok (v, g') /\ v = qz 6) /\
  (exists v g', compute_volume s_dom s_support None 4 (Some [["a"; "b"]]) s_rng = Ok (v, g') /\ v = qz 1).
Proof. split; [|split]; (eexists _, _; split; [vm_compute; reflexivity|apply Qc_is_canon; reflexivity]). Qed.

(** No samples: ZeroDivisionError. *)
Theorem C23_no_samples_refuted d lens support weight g : wf_domain d -> finite_box d lens -> bool_query d support -> fair g ->
  compute_volume d support weight 0 None g = Err ZeroDivisionError.
Proof.
  intros W HB HS Hg. destruct (uniform_in d lens 0 g W HB Hg) as (rows & HU & HL & HI). destruct rows; [|done].
  unfold compute_volume. rewrite HU. cbn [rbind fst snd].
  destruct (eval_bool d support [] W HS HI) as (vs & -> & Hm). cbn [rbind]. rewrite Hm. cbn [rbind].
  rewrite (bound_none d lens W (proj1 HB)). done.
Qed.
Print Assumptions C23_no_samples_refuted.

(** With one-hot groups a box of volume zero is treated as if there were no real
    variables: the volume of [TRUE] over a point is reported as 2. *)
Theorem C23_one_hot_degenerate_refuted :
  let d := Dom ["a"; "b"; "x"] [("a", TBool); ("b", TBool); ("x", TReal)] [("x", (Some 0%Qc, Some 0%Qc))] in
  wf_domain d /\ finite_box d [("x", 0, 0)]%Qc /\ box_size [("x", 0, 0)]%Qc = 0%Qc /\
  exists v g', compute_volume d (BoolC true) None 1 (Some [["a"; "b"]]) s_rng = Ok (v, g') /\ v = qz 2.
Proof.
  split; [split; cbn [d_vars d_types d_doms map fst]|].
  - dec.
  - dec.
  - done.
  - intros v t. rewrite !elem_of_cons, elem_of_nil. intuition congruence.
  - dec.
  - intros v. rewrite !elem_of_cons, !elem_of_nil. intuition congruence.
  - split; [split; [done|by repeat constructor]|]. split; [done|].
    eexists _, _. split; [vm_compute; reflexivity|apply Qc_is_canon; reflexivity].
Qed.
Print Assumptions C23_one_hot_degenerate_refuted.

(** * C24 *)

(** Each probability is the fraction of the accepted weight that satisfies the query;
    None for all queries when the accepted weight is not positive. *)
Theorem C24_fraction d lens support weight n qs g rows g' : wf_domain d -> finite_box d lens -> bool_query d support ->
  match weight with Some w => num_query d w | None => True end -> fair g -> Forall (bool_query d) qs ->
  uniform d n None g = Ok (rows, g') ->
  rej_probabilities d support weight n qs g =
    Ok (map (fun q =>
      if qlt 0 (weight_where (d_vars d) weight (holds (d_vars d) support) rows) then
        Some (weight_where (d_vars d) weight (fun r => holds (d_vars d) support r && holds (d_vars d) q r) rows /
              weight_where (d_vars d) weight (holds (d_vars d) support) rows)%Qc
      else None) qs, g').
Proof.
  intros W HB HS Hw Hg HQ HU. destruct (uniform_in d lens n g W HB Hg) as (r & E & HL & HI).
  rewrite HU in E. injection E as <- ->.
  by apply (probabilities_formula d support weight W HS Hw n qs g _ rows HU HI HQ).
Qed.
Print Assumptions C24_fraction.

Lemma where_le vars w (t u : list Qc -> bool) rows : Forall (fun row => 0 <= weight_of vars w row)%Qc rows ->
  (forall row, t row = true -> u row = true) -> (weight_where vars w t rows <= weight_where vars w u rows)%Qc.
Proof.
  intros HN Hi. unfold weight_where. induction HN as [|r rows Hr _ IH]; [by vm_compute|]. cbn [map]. rewrite !Poly_Proofs.qsum_cons.
  assert ((if t r then weight_of vars w r else 0) <= (if u r then weight_of vars w r else 0))%Qc.
  { destruct (t r) eqn:E; [by rewrite (Hi r E)|]. destruct (u r); [done|by vm_compute]. }
  qclra.
Qed.

(** Non negative weights: probabilities lie in [0, 1], a query and its negation sum to
    one, and an implied query is at least as probable. *)
Theorem C24_probability d lens support weight n q r g : wf_domain d -> finite_box d lens -> bool_query d support ->
  match weight with Some w => num_query d w | None => True end -> fair g ->
  bool_query d q -> bool_query d r -> bool_query d (NotN q) ->
  (forall row, in_domain d row -> (0 <= weight_of (d_vars d) weight row)%Qc) ->
  (exists g', rej_probabilities d support weight n [q; NotN q; r] g = Ok ([None; None; None], g')) \/
  exists p p' p'' g', rej_probabilities d support weight n [q; NotN q; r] g = Ok ([Some p; Some p'; Some p''], g') /\
    (0 <= p)%Qc /\ (p <= 1)%Qc /\ (p + p' = 1)%Qc /\
    (implies_on support q r -> (p <= p'')%Qc).
Proof.
  intros W HB HS Hw Hg Hq Hr Hnq HN. destruct (uniform_in d lens n g W HB Hg) as (rows & HU & HL & HI).
  rewrite (C24_fraction d lens support weight n [q; NotN q; r] g rows _ W HB HS Hw Hg ltac:(repeat (apply Forall_cons; split); done) HU).
  cbn [map]. destruct (qlt 0 _) eqn:E; [|left; by eexists]. right. apply qlt_spec in E.
  assert (Forall (fun row => 0 <= weight_of (d_vars d) weight row)%Qc rows) as HN' by (eapply Forall_impl; [exact HI|exact HN]).
  eexists _, _, _, _. split; [reflexivity|].
  set (T := weight_where _ _ (holds (d_vars d) support) rows) in *.
  split; [|split; [|split]].
  - rewrite <- (div_zero_l T). apply div_le_compat; [done|].
    unfold weight_where. apply qsum_nonneg. apply Forall_map. eapply Forall_impl; [exact HN'|].
    intros row Hrow. cbn. destruct (holds _ support row && holds _ q row); [done|by vm_compute].
  - rewrite <- (div_self T E). apply div_le_compat; [done|]. apply where_le; [done|]. intros row H. by apply andb_true_iff in H as [H _].
  - rewrite div_add. rewrite <- (div_self T E). f_equal. unfold T, weight_where. clear -Hq.
    induction rows as [|row rows IH]; [by vm_compute|]. cbn [map]. rewrite !Poly_Proofs.qsum_cons, <- IH.
    assert (holds (d_vars d) (NotN q) row = negb (holds (d_vars d) q row)) as ->.
    { unfold holds. cbn. destruct (proj2 Hq (row_env (d_vars d) row)) as [b ->]. done. }
    destruct (holds (d_vars d) support row), (holds (d_vars d) q row); cbn [andb negb]; ring.
  - intros Himp. apply div_le_compat; [done|]. apply where_le; [done|]. intros row H. apply andb_true_iff in H as [H1 H2].
    apply andb_true_iff. split; [done|]. unfold holds in *. specialize (Himp (row_env (d_vars d) row)).
    destruct (eval _ support) as [[[]|]|]; try done. destruct (eval _ q) as [[[]|]|]; try done. by rewrite Himp.
Qed.
Print Assumptions C24_probability.

Example C24_example :
  bool_query s_dom (Sym "b" TBool) /\
  exists p p' g', rej_probabilities s_dom s_support (Some s_weight) 4 [Sym "b" TBool; NotN (Sym "b" TBool)] s_rng =
    Ok ([Some p; Some p'], g') /\ p = Q2Qc (1 # 5) /\ p' = Q2Qc (4 # 5).
Proof.
  split.
  - split; [split; try done|by intros e; eexists]. intros x t Hx. cbn in Hx. apply elem_of_list_singleton in Hx as [= -> _]. dec.
  - eexists _, _, _. split; [vm_compute; reflexivity|]. split; apply Qc_is_canon; reflexivity.
Qed.

(** * C60 *)

(** [uniform] reads only its own generator: sources that agree on the numbers it
    consumes give the same table. *)
Theorem C60_uniform d lens n g1 g2 : wf_domain d -> finite_box d lens ->
  (forall k, k < n * length (d_vars d) -> draws g1 (pos g1 + k) = draws g2 (pos g2 + k)) ->
  exists rows g1' g2', uniform d n None g1 = Ok (rows, g1') /\ uniform d n None g2 = Ok (rows, g2').
Proof.
  intros W HB HA. destruct (columns_ok d lens W HB) as (cs & Hcs & _).
  rewrite !(uniform_plain d n _ cs Hcs). eexists _, _, _. split; [reflexivity|]. do 2 f_equal.
  unfold plain_rows. apply map_ext_in. intros i Hi. apply in_seq in Hi. f_equal. unfold table_row. apply map_ext_in.
  intros j Hj. apply in_seq in Hj. rewrite <- !Nat.add_assoc. symmetry. apply HA. nia.
Qed.
Print Assumptions C60_uniform.

(** [positive] with a seeded generator is not reproducible: once the first batch does
    not suffice, the rest is drawn from the global generator. *)
Theorem C60_positive_refuted : exists rg dg1 dg2,
  fair rg /\ fair dg1 /\ fair dg2 /\
  positive (fun _ u => u) s_dom (Sym "b" TBool) 3 None None (Some 3) None rg dg1 <>
  positive (fun _ u => u) s_dom (Sym "b" TBool) 3 None None (Some 3) None rg dg2.
Proof.
  exists s_rng, s_rng, (Rng (fun _ => 0%Qc) (fun _ => 0) 0).
  split; [exact s_rng_fair|]. split; [exact s_rng_fair|]. split; [by intros k; split|].
  vm_compute. discriminate.
Qed.
Print Assumptions C60_positive_refuted.
