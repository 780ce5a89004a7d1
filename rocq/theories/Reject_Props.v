(** C64: the rejection integrator used as a convex backend
    (pywmi/engines/rejection.py, pywmi/engines/convex_integrator.py). *)

From Verif Require Import Base Dict Smt Smt_Facts Walk_Model Check_Model Math_Model Math_Spec Domain_Model Domain_Spec Domain_Proofs
  Engine_Spec Engine_Proofs Sample_Model Sample_Spec Sample_Proofs Reject_Model Reject_Spec Reject_Proofs.

(** The unit square, the triangle x + y < 1 in it and the polynomial 1 + x y. *)
Definition j_dom : domain :=
  Dom ["x"; "y"] [("x", TReal); ("y", TReal)] [("x", (Some 0%Qc, Some 1%Qc)); ("y", (Some 0%Qc, Some 1%Qc))].
Definition j_lens : list (string * Qc * Qc) := [("x", 0%Qc, 1%Qc); ("y", 0%Qc, 1%Qc)].
Definition j_bounds : list pdict :=
  [[(["x"], 1%Qc); (["y"], 1%Qc); ([], (- 1)%Qc)]; [(["x"], (- 1)%Qc)]; [(["y"], (- 1)%Qc)]].
Definition j_poly : pdict := [([], 1%Qc); (["x"; "y"], 1%Qc)].
(** 1/4, 1/2, 3/4, 1/8, ... *)
Definition j_rng : rng :=
  Rng (fun k => match k mod 4 with 0 => Q2Qc (1 # 4) | 1 => Q2Qc (1 # 2) | 2 => Q2Qc (3 # 4) | _ => Q2Qc (1 # 8) end) (fun _ => 0) 0.

Lemma j_dom_wf : wf_domain j_dom.
Proof.
  split; cbn [j_dom d_vars d_types d_doms map fst]; [dec|dec|done| |dec|].
  - intros v t. rewrite !elem_of_cons, elem_of_nil. intuition congruence.
  - intros v. rewrite !elem_of_cons, !elem_of_nil. intuition congruence.
Qed.
Lemma j_dom_box : finite_box j_dom j_lens.
Proof. split; [done|]. repeat constructor; by vm_compute. Qed.
Lemma inequality_check d (b : pdict) : bool_decide (NoDup (map fst b)) &&
  forallb (fun kc => match kc.1 with [] => true | [v] => bool_decide (v ∈ names d TReal) | _ => false end) b = true -> inequality_over d b.
Proof.
  intros [H1 H2]%andb_true_iff. split; [by apply bool_decide_eq_true in H1|]. intros k c Hk. rewrite forallb_forall in H2.
  apply elem_of_list_In in Hk. specialize (H2 _ Hk). cbn in H2. destruct k as [|v [|]]; [by left| |done]. right. exists v.
  split; [done|]. by apply bool_decide_eq_true in H2.
Qed.
Lemma j_bounds_over : Forall (inequality_over j_dom) j_bounds.
Proof. repeat (apply Forall_cons; split); try apply Forall_nil; try done; apply inequality_check; by vm_compute. Qed.
Lemma j_poly_over : polynomial_over j_dom j_poly.
Proof.
  assert (names j_dom TReal = ["x"; "y"]) as E by by vm_compute. split; [done|]. intros k c Hk v Hv. rewrite E.
  unfold j_poly in Hk. rewrite !elem_of_cons, elem_of_nil in Hk. destruct Hk as [[= -> ->]|[[= -> ->]|[]]]; [by apply elem_of_nil in Hv|done].
Qed.
Lemma j_rng_fair : fair j_rng.
Proof. intros k. cbn [j_rng draws]. destruct (k mod 4) as [|[|[|]]]; split; by vm_compute. Qed.

(** * Without a bounding box *)

(** For every domain with finite bounds, every list of linear inequalities and every
    polynomial: the box volume times the average, over the [n] points drawn, of the
    polynomial counted inside the region only.  The kept generator is not used. *)
Theorem C64_estimate linprog std d lens bs p box n fresh rg : wf_domain d -> finite_box d lens ->
  Forall (inequality_over d) bs -> polynomial_over d p -> (box <= 0)%Z -> fair fresh -> 0 < n ->
  exists rows g', uniform d n None fresh = Ok (rows, g') /\ length rows = n /\ Forall (in_domain d) rows /\
    integrate linprog std d bs p box n fresh rg = Ok (estimate d lens bs p rows, rg).
Proof.
  intros W HB HI HP Hbox Hg Hn. destruct (bounds_formula_ok d bs HI) as (f & Ef & Qf & Vf).
  destruct (poly_to_smt_ok d p HP) as (w & Ew & Qw & Vw).
  destruct (engine_estimate d lens bs p f w n fresh W HB Qf Qw Vf Vw Hg Hn) as (rows & HU & HL & HR & HV).
  exists rows, (adv (n * length (d_vars d)) fresh). split; [done|]. split; [done|]. split; [done|].
  unfold integrate. rewrite Ef. cbn [rbind]. destruct (Z.ltb_spec 0 box); [lia|]. cbn [rbind fst snd]. rewrite Ew. cbn [rbind]. by rewrite HV.
Qed.
Print Assumptions C64_estimate.

Example C64_estimate_example :
  wf_domain j_dom /\ finite_box j_dom j_lens /\ Forall (inequality_over j_dom) j_bounds /\ polynomial_over j_dom j_poly /\ fair j_rng /\
  exists v, integrate (fun _ _ _ => None) (fun _ => 0%Qc) j_dom j_bounds j_poly 0 2 j_rng j_rng = Ok (v, j_rng) /\
    v = Q2Qc (71 # 64).
Proof.
  split; [exact j_dom_wf|]. split; [exact j_dom_box|]. split; [exact j_bounds_over|]. split; [exact j_poly_over|]. split; [exact j_rng_fair|].
  eexists. split; [vm_compute; reflexivity|]. apply Qc_is_canon. reflexivity.
Qed.

(** Handed to another engine, the region and the polynomial keep their meaning. *)
Theorem C64_engine_backend {A} (volume : domain -> fm -> fm -> Res A) d bs p : Forall (inequality_over d) bs -> polynomial_over d p ->
  exists f w, engine_integrate volume d bs p = volume d f w /\ bool_query d f /\ num_query d w /\
    (forall e, eval e f = Some (VB (region bs e))) /\ (forall e, eval e w = Some (VN (poly_val e p))).
Proof.
  intros HI HP. destruct (bounds_formula_ok d bs HI) as (f & Ef & Qf & Vf). destruct (poly_to_smt_ok d p HP) as (w & Ew & Qw & Vw).
  exists f, w. unfold engine_integrate. rewrite Ef. cbn [rbind]. by rewrite Ew.
Qed.
Print Assumptions C64_engine_backend.

(** * A box found by linear programming *)

(** If a result is returned, it is the estimate over a box that contains every point of
    the region without negative coordinates.  Missing: points with a negative
    coordinate, see below. *)
Theorem C64_linprog_partial linprog std d bs p n fresh rg v rg' : solver_sound linprog -> wf_domain d ->
  Forall (inequality_over d) bs -> polynomial_over d p -> fair fresh -> 0 < n ->
  integrate linprog std d bs p 1 n fresh rg = Ok (v, rg') ->
  exists d' lens rows g', same_variables d d' /\ wf_domain d' /\ finite_box d' lens /\
    (forall e, region bs e = true -> (forall x, x ∈ names d TReal -> 0 <= er e x)%Qc ->
       forall x b, (x, b) ∈ d_doms d' -> inside (er e x) b) /\
    uniform d' n None fresh = Ok (rows, g') /\ length rows = n /\ Forall (in_domain d') rows /\
    v = estimate d' lens bs p rows /\ rg' = rg.
Proof.
  intros HLP W HI HP Hg Hn. destruct (bounds_formula_ok d bs HI) as (f & Ef & Qf & Vf).
  destruct (poly_to_smt_ok d p HP) as (w & Ew & Qw & Vw). unfold integrate. rewrite Ef. cbn [rbind Z.ltb Z.compare Z.eqb Pos.eqb].
  destruct (box_linprog linprog d bs) as [doms|] eqn:Eb; [|done]. cbn [rbind fst snd]. rewrite Ew. cbn [rbind].
  destruct (box_linprog_ok linprog HLP d bs doms W HI Eb) as (lens & -> & Hm & HL & HR).
  set (d' := Dom (d_vars d) (d_types d) _).
  assert (wf_domain d') as W'.
  { apply rebuilt_wf; [done|]. rewrite <- Hm. rewrite map_map. apply map_ext. by intros [[? ?] ?]. }
  assert (finite_box d' lens) as HB'.
  { split; [done|]. eapply Forall_impl; [exact HL|]. intros [[? ?] ?] []. done. }
  assert (bool_query d' f) as Qf' by (destruct Qf as [[] ?]; split; [by split|done]).
  assert (num_query d' w) as Qw' by (destruct Qw as [[] ?]; split; [by split|done]).
  destruct (engine_estimate d' lens bs p f w n fresh W' HB' Qf' Qw' Vf Vw Hg Hn) as (rows & HU & HLn & HRw & HV).
  rewrite HV. intros [= <- <-]. exists d', lens, rows, (adv (n * length (d_vars d')) fresh).
  split; [done|]. split; [done|]. split; [done|]. split; [|done].
  intros e He Hp x b Hx. unfold d' in Hx. cbn [d_doms] in Hx. apply elem_of_list_In, in_map_iff in Hx as ([[x' l] u] & [= <- <-] & Hx).
  specialize (HR e He Hp). rewrite Forall_forall in HR. apply elem_of_list_In in Hx. specialize (HR _ Hx). cbn in HR.
  destruct HR as [HR1 HR2]. split; cbn [fst snd]; by intros ? [= <-].
Qed.
Print Assumptions C64_linprog_partial.

(** A solver of the one-dimensional problems over [0, 1]: it answers where the rows are
    those of x < 1 and the objective is x or -x. *)
Definition unit_lp (c : list Qc) (a : list (list Qc)) (b : list Qc) : option (list Qc) :=
  if decide (a = [[1%Qc]; [(- 1)%Qc]] /\ b = [1%Qc; 1%Qc]) then
    if decide (c = [1%Qc]) then Some [0%Qc] else if decide (c = [(- 1)%Qc]) then Some [1%Qc] else None
  else None.
Lemma unit_lp_sound : solver_sound unit_lp.
Proof.
  intros c a b x. unfold unit_lp. destruct (decide _) as [[-> ->]|]; [|done].
  assert (forall y, length y = 1 -> feasible [[1%Qc]; [(- 1)%Qc]] [1%Qc; 1%Qc] y -> exists q, y = [q] /\ (0 <= q /\ q <= 1)%Qc) as H.
  { intros [|q [|]] Hy [H1 H2]; try done. exists q. split; [done|]. inversion H1; subst. split; [done|].
    inversion H2; subst. unfold dot in *. cbn in *. qclra. }
  destruct (decide (c = [1%Qc])) as [->|].
  { intros [= <-]. split; [done|]. split; [split; repeat constructor; by vm_compute|]. intros y Hy HF. destruct (H y Hy HF) as (q & -> & H1 & H2).
    unfold dot. cbn. qclra. }
  destruct (decide (c = [(- 1)%Qc])) as [->|]; [|done].
  intros [= <-]. split; [done|]. split; [split; repeat constructor; by vm_compute|]. intros y Hy HF. destruct (H y Hy HF) as (q & -> & H1 & H2).
  unfold dot. cbn. qclra.
Qed.

(** The interval [lo, hi] of x and the inequalities x < 1, -1 < x. *)
Definition k_dom (lo hi : Qc) : domain := Dom ["x"] [("x", TReal)] [("x", (Some lo, Some hi))].
Definition k_bounds : list pdict := [[(["x"], 1%Qc); ([], (- 1)%Qc)]; [(["x"], (- 1)%Qc); ([], (- 1)%Qc)]].
Definition one_poly : pdict := [([], 1%Qc)].

Lemma k_dom_wf lo hi : wf_domain (k_dom lo hi).
Proof.
  split; cbn [k_dom d_vars d_types d_doms map fst]; [dec|dec|done| |dec|].
  - intros v t. rewrite !elem_of_cons, elem_of_nil. intuition congruence.
  - intros v. rewrite !elem_of_cons, !elem_of_nil. intuition congruence.
Qed.
Lemma k_names lo hi : names (k_dom lo hi) TReal = ["x"].
Proof. by vm_compute. Qed.
Lemma k_bounds_over lo hi : Forall (inequality_over (k_dom lo hi)) k_bounds.
Proof. repeat (apply Forall_cons; split); try apply Forall_nil; try done; apply inequality_check; by vm_compute. Qed.
Lemma one_poly_over d : polynomial_over d one_poly.
Proof. split; [done|]. intros k c Hk v Hv. apply elem_of_list_singleton in Hk as [= -> ->]. by apply elem_of_nil in Hv. Qed.

Example C64_linprog_example : solver_sound unit_lp /\
  exists v, integrate unit_lp (fun _ => 0%Qc) (k_dom 0 1) k_bounds one_poly 1 2 j_rng j_rng = Ok (v, j_rng) /\ v = 1%Qc.
Proof. split; [exact unit_lp_sound|]. eexists. split; [vm_compute; reflexivity|]. apply Qc_is_canon. reflexivity. Qed.

(** scipy's default bounds keep the box in the non-negative orthant: no point with a
    negative coordinate is ever drawn, whatever the region ... *)
Theorem C64_negative_refuted linprog std d bs p n fresh rg v rg' : solver_sound linprog -> wf_domain d ->
  Forall (inequality_over d) bs -> polynomial_over d p -> fair fresh -> 0 < n ->
  integrate linprog std d bs p 1 n fresh rg = Ok (v, rg') ->
  exists d' lens rows g', same_variables d d' /\ finite_box d' lens /\ uniform d' n None fresh = Ok (rows, g') /\
    v = estimate d' lens bs p rows /\
    forall row x, row ∈ rows -> x ∈ names d TReal -> (0 <= value (d_vars d) row x)%Qc.
Proof.
  intros HLP W HI HP Hg Hn. destruct (bounds_formula_ok d bs HI) as (f & Ef & Qf & Vf).
  destruct (poly_to_smt_ok d p HP) as (w & Ew & Qw & Vw). unfold integrate. rewrite Ef. cbn [rbind Z.ltb Z.compare Z.eqb Pos.eqb].
  destruct (box_linprog linprog d bs) as [doms|] eqn:Eb; [|done]. cbn [rbind fst snd]. rewrite Ew. cbn [rbind].
  destruct (box_linprog_ok linprog HLP d bs doms W HI Eb) as (lens & -> & Hm & HL & HR).
  set (d' := Dom (d_vars d) (d_types d) _).
  assert (wf_domain d') as W'.
  { apply rebuilt_wf; [done|]. rewrite <- Hm. rewrite map_map. apply map_ext. by intros [[? ?] ?]. }
  assert (finite_box d' lens) as HB'.
  { split; [done|]. eapply Forall_impl; [exact HL|]. intros [[? ?] ?] []. done. }
  assert (bool_query d' f) as Qf' by (destruct Qf as [[] ?]; split; [by split|done]).
  assert (num_query d' w) as Qw' by (destruct Qw as [[] ?]; split; [by split|done]).
  destruct (engine_estimate d' lens bs p f w n fresh W' HB' Qf' Qw' Vf Vw Hg Hn) as (rows & HU & HLn & HRw & HV).
  rewrite HV. intros [= <- <-]. exists d', lens, rows, (adv (n * length (d_vars d')) fresh).
  split; [done|]. split; [done|]. split; [done|]. split; [done|]. intros row x Hrow Hx.
  rewrite Forall_forall in HRw. destruct (HRw row Hrow) as [Hlen Hin]. cbn [d_vars d' ] in Hlen.
  assert (x ∈ d_vars d) as Hxv by (by apply elem_of_list_filter in Hx as [_ Hx]).
  apply elem_of_list_lookup in Hxv as [k Hk]. assert (is_Some (row !! k)) as [q Hq].
  { apply lookup_lt_is_Some. rewrite Hlen. by eapply lookup_lt_Some. }
  rewrite (value_lookup _ _ k x q); [|apply W|done..].
  rewrite <- Hm in Hx. apply elem_of_list_In, in_map_iff in Hx as ([[x' l] u] & <- & Hl).
  destruct (Hin k x' q Hk Hq) as [_ Hi]. destruct (Hi (Some l, Some u)) as [Hlo _].
  { unfold d'. cbn [d_doms]. apply elem_of_list_In, in_map_iff. by exists (x', l, u). }
  specialize (Hlo l eq_refl). apply elem_of_list_In in Hl. rewrite Forall_forall in HL. destruct (HL _ Hl) as [H0 _]. qclra.
Qed.
Print Assumptions C64_negative_refuted.

(** ... so the volume of -1 < x < 1 comes out as 1 instead of 2. *)
Theorem C64_half_refuted :
  (exists v, integrate unit_lp (fun _ => 0%Qc) (k_dom (- 1) 1) k_bounds one_poly 0 4 j_rng j_rng = Ok (v, j_rng) /\ v = qz 2) /\
  exists v, integrate unit_lp (fun _ => 0%Qc) (k_dom (- 1) 1) k_bounds one_poly 1 4 j_rng j_rng = Ok (v, j_rng) /\ v = 1%Qc.
Proof. split; (eexists; split; [vm_compute; reflexivity|apply Qc_is_canon; reflexivity]). Qed.
Print Assumptions C64_half_refuted.

(** The box forgets the bounds of the domain: over 0 <= x <= 1/2 the region -1 < x < 1
    has volume 1/2, reported as 1. *)
Theorem C64_domain_refuted :
  (exists v, integrate unit_lp (fun _ => 0%Qc) (k_dom 0 (Q2Qc (1 # 2))) k_bounds one_poly 0 4 j_rng j_rng = Ok (v, j_rng) /\ v = Q2Qc (1 # 2)) /\
  exists v, integrate unit_lp (fun _ => 0%Qc) (k_dom 0 (Q2Qc (1 # 2))) k_bounds one_poly 1 4 j_rng j_rng = Ok (v, j_rng) /\ v = 1%Qc.
Proof. split; (eexists; split; [vm_compute; reflexivity|apply Qc_is_canon; reflexivity]). Qed.
Print Assumptions C64_domain_refuted.

(** * A box around the accepted samples *)

(** Without boolean variables and with at least two accepted samples: the estimate over
    a box that contains them all.  Missing: booleans (below), a single accepted sample
    (the code continues with numbers that are not numbers), and that the box contains the
    region, which no finite sample can ensure. *)
Theorem C64_sampled_partial linprog std d lens bs p n fresh rg : (forall l, 0 <= std l)%Qc -> wf_domain d -> finite_box d lens ->
  names d TBool = [] -> Forall (inequality_over d) bs -> polynomial_over d p -> fair fresh -> fair rg -> 0 < n ->
  exists first rg', uniform d n None rg = Ok (first, rg') /\
    let accepted := filter (fun row => region bs (row_env (d_vars d) row) = true) first in
    (2 <= length accepted ->
     exists d' lens' rows g', same_variables d d' /\ wf_domain d' /\ finite_box d' lens' /\ Forall (in_domain d') accepted /\
       uniform d' n None fresh = Ok (rows, g') /\ length rows = n /\ Forall (in_domain d') rows /\
       integrate linprog std d bs p 2 n fresh rg = Ok (estimate d' lens' bs p rows, rg')) /\
    (accepted = [] -> integrate linprog std d bs p 2 n fresh rg = Err IndexError).
Proof.
  intros Hstd W HB Hnb HI HP Hg Hrg Hn. destruct (bounds_formula_ok d bs HI) as (f & Ef & Qf & Vf).
  destruct (poly_to_smt_ok d p HP) as (w & Ew & Qw & Vw).
  destruct (uniform_in d lens n rg W HB Hrg) as (first & HU & HL & HIn). exists first, (adv (n * length (d_vars d)) rg). split; [done|].
  intros accepted. unfold integrate. rewrite Ef. cbn [rbind Z.ltb Z.compare Z.eqb Pos.eqb Pos.compare Pos.compare_cont].
  unfold box_sampled. rewrite HU. cbn [rbind fst snd].
  destruct (eval_bool d f first W Qf HIn) as (vs & -> & Hm). cbn [rbind]. rewrite Hm. cbn [rbind]. rewrite select_filter.
  assert (filter (fun x => holds (d_vars d) f x = true) first = accepted) as ->.
  { unfold accepted. clear -Vf. induction first as [|r l IH]; [done|]. rewrite !filter_cons.
    assert (holds (d_vars d) f r = region bs (row_env (d_vars d) r)) as Hr by (unfold holds; by rewrite Vf).
    destruct (decide (holds _ _ _ = true)), (decide (region _ _ = true)); congruence. }
  split; [|by intros ->]. intros H2. destruct accepted as [|r0 acc] eqn:Eacc; [cbn in H2; lia|].
  assert (forall row, row ∈ r0 :: acc -> in_domain d row) as Hacc.
  { intros row Hr. rewrite <- Eacc in Hr. unfold accepted in Hr. apply elem_of_list_filter in Hr as [_ Hr]. rewrite Forall_forall in HIn. by apply HIn. }
  destruct (columns_intervals std Hstd (length (d_vars d)) (r0 :: acc) H2) as (ls & -> & HLs & HF & HX). cbn [rbind fst snd].
  rewrite Ew. cbn [rbind]. set (lens' := zip_with (fun v lu => (v, fst lu, snd lu)) (d_vars d) ls).
  set (d' := Dom (d_vars d) (d_types d) (zip (d_vars d) _)).
  assert (d_doms d' = map (fun '(v, l, u) => (v, (Some l, Some u))) lens') as Hdoms.
  { unfold d', lens'. cbn [d_doms]. clear. generalize (d_vars d). induction ls as [|[l u] ls IH]; intros [|v vs]; try done.
    cbn [map zip_with fst snd]. f_equal. apply IH. }
  assert (map fst (d_doms d') = d_vars d) as Hfst.
  { unfold d'. cbn [d_doms]. change (map fst (zip ?a ?b)) with (fst <$> zip a b). rewrite fst_zip; [done|]. by rewrite map_length, HLs. }
  assert (wf_domain d') as W' by (apply rebuilt_wf; [done|]; by rewrite no_bools_names).
  assert (finite_box d' lens') as HB'.
  { split; [done|]. unfold lens'. clear -HF. generalize (d_vars d). induction HF as [|[l u] ls H _ IH]; intros [|v vs]; constructor; [done|apply IH]. }
  assert (bool_query d' f) as Qf' by (destruct Qf as [[] ?]; split; [by split|done]).
  assert (num_query d' w) as Qw' by (destruct Qw as [[] ?]; split; [by split|done]).
  destruct (engine_estimate d' lens' bs p f w n fresh W' HB' Qf' Qw' Vf Vw Hg Hn) as (rows & HU' & HLn & HRw & HV).
  rewrite HV. cbn [rbind fst]. exists d', lens', rows, (adv (n * length (d_vars d')) fresh).
  split; [done|]. split; [done|]. split; [done|]. split; [|done]. apply Forall_forall. intros row Hr.
  destruct (Hacc row Hr) as [Hlen Hin]. split; [done|]. intros k v x Hk Hx. cbn [d_vars d_types d'] in *. split; [by apply (Hin k)|].
  intros b Hb. apply elem_of_list_lookup in Hb as [i Hi].
  change (zip (d_vars d) ?b) with (zip_with pair (d_vars d) b) in Hi. apply lookup_zip_with_Some in Hi as (v' & b' & [= <- <-] & Hv & Hb').
  assert (i = k) as -> by (by eapply NoDup_lookup; [apply W|..]).
  change (map ?g ls !! k) with ((g <$> ls) !! k) in Hb'. rewrite list_lookup_fmap in Hb'. destruct (ls !! k) as [[l u]|] eqn:El; [|done].
  injection Hb' as <-. destruct (HX row k x l u Hr Hx El). split; cbn [fst snd]; by intros ? [= <-].
Qed.
Print Assumptions C64_sampled_partial.

(** 1/4, 1/2, 1/4, 1/8, ... *)
Definition l_rng : rng :=
  Rng (fun k => match k mod 4 with 1 => Q2Qc (1 # 2) | 3 => Q2Qc (1 # 8) | _ => Q2Qc (1 # 4) end) (fun _ => 0) 0.

Example C64_sampled_example :
  names j_dom TBool = [] /\
  (exists v, integrate unit_lp (fun _ => Q2Qc (1 # 8)) j_dom [[(["x"], 1%Qc); ([], (- 1)%Qc)]] j_poly 2 2 j_rng j_rng = Ok (v, adv 4 j_rng) /\
     v = Q2Qc (33045 # 65536)) /\
  integrate unit_lp (fun _ => Q2Qc (1 # 8)) j_dom [[(["x"], 1%Qc)]] j_poly 2 2 j_rng j_rng = Err IndexError.
Proof.
  split; [by vm_compute|]. split; [|by vm_compute]. eexists. split; [vm_compute; reflexivity|]. apply Qc_is_canon. vm_compute. reflexivity.
Qed.

(** No sample in the region: IndexError instead of 0. *)
Theorem C64_empty_refuted linprog std d lens bs p n fresh rg first rg' : wf_domain d -> finite_box d lens ->
  Forall (inequality_over d) bs -> polynomial_over d p -> fair rg ->
  uniform d n None rg = Ok (first, rg') -> Forall (fun row => region bs (row_env (d_vars d) row) = false) first ->
  integrate linprog std d bs p 2 n fresh rg = Err IndexError.
Proof.
  intros W HB HI HP Hrg HU HF. destruct (bounds_formula_ok d bs HI) as (f & Ef & Qf & Vf).
  destruct (uniform_in d lens n rg W HB Hrg) as (first' & HU' & HL & HIn). assert (first' = first) as -> by congruence.
  unfold integrate. rewrite Ef. cbn [rbind Z.ltb Z.compare Z.eqb Pos.eqb Pos.compare Pos.compare_cont]. unfold box_sampled. rewrite HU. cbn [rbind fst snd].
  destruct (eval_bool d f first W Qf HIn) as (vs & -> & Hm). cbn [rbind]. rewrite Hm. cbn [rbind]. rewrite select_filter.
  assert (filter (fun x => holds (d_vars d) f x = true) first = []) as ->; [|done].
  clear -Vf HF. induction HF as [|r l Hr _ IH]; [done|]. rewrite filter_cons.
  assert (holds (d_vars d) f r = false) as Hh by (unfold holds; by rewrite Vf, Hr).
  destruct (decide (holds _ _ _ = true)); [congruence|done].
Qed.
Print Assumptions C64_empty_refuted.

(** The interval of a boolean column enters the volume: when all accepted samples give
    the boolean the same value, the volume 2 of TRUE is reported as 0. *)
Theorem C64_boolean_refuted :
  let d := Dom ["a"; "x"] [("a", TBool); ("x", TReal)] [("x", (Some 0%Qc, Some 1%Qc))] in
  wf_domain d /\
  (exists v, integrate unit_lp (fun _ => 0%Qc) d [] one_poly 0 2 l_rng l_rng = Ok (v, l_rng) /\ v = qz 2) /\
  exists v g, integrate unit_lp (fun _ => 0%Qc) d [] one_poly 2 2 l_rng l_rng = Ok (v, g) /\ v = 0%Qc.
Proof.
  split; [split; cbn [d_vars d_types d_doms map fst]; [dec|dec|done| |dec|]|].
  - intros v t. rewrite !elem_of_cons, elem_of_nil. intuition congruence.
  - intros v. rewrite !elem_of_cons, !elem_of_nil. intuition congruence.
  - split.
    + eexists. split; [vm_compute; reflexivity|apply Qc_is_canon; reflexivity].
    + eexists _, _. split; [vm_compute; reflexivity|apply Qc_is_canon; reflexivity].
Qed.
Print Assumptions C64_boolean_refuted.

(** Any other value of bounding_box is refused. *)
Theorem C64_other_values linprog std d bs p box n fresh rg : Forall (inequality_over d) bs -> (2 < box)%Z ->
  integrate linprog std d bs p box n fresh rg = Err ValueError.
Proof.
  intros HI Hb. destruct (bounds_formula_ok d bs HI) as (f & Ef & _). unfold integrate. rewrite Ef. cbn [rbind].
  destruct (Z.ltb_spec 0 box); [|lia]. destruct (Z.eqb_spec box 1); [lia|]. destruct (Z.eqb_spec box 2); [lia|done].
Qed.
Print Assumptions C64_other_values.
