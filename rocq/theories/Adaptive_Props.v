(** C25-C27 and C61: the adaptive rejection engine (pywmi/engines/adaptive_rejection.py). *)

From Verif Require Import Base Dict Smt Smt_Facts Walk_Model Check_Model Poly_Proofs Arith_Proofs Domain_Model Domain_Spec Domain_Proofs
  Engine_Spec Engine_Proofs Sample_Model Sample_Spec Sample_Proofs Sample_Props Adaptive_Model Adaptive_Spec Adaptive_Proofs.

(** * C25 *)

(** For every tree the builder returns, whatever the stopping rule, the scores, the
    solver and the random numbers do: every point of the domain lies in exactly one
    leaf; leaf volumes are the sizes of the leaf boxes and add up to the volume of the
    bounding box, which is the volume the engine uses. *)
Theorem C25_partition d lens formula stopping scoring sat n fuel g t v s :
  wf_domain d -> finite_box d lens ->
  build_root d formula stopping scoring sat n fuel g = Ok (t, v, s) ->
  (forall row, in_domain d row -> exists k l, leaves t !! k = Some l /\ in_box (reals d row) (l_box l) /\
     forall j l', leaves t !! j = Some l' -> in_box (reals d row) (l_box l') -> j = k) /\
  Forall (fun l => l_vol l = size (l_box l)) (leaves t) /\
  qsum (map l_vol (leaves t)) = v /\ v = box_size lens.
Proof.
  intros W HB H. apply build_root_inv in H as (bs & E & Hv & _ & H); [|done].
  destruct (root_bounds_ok d lens W HB) as (bs' & E' & HR & HC & _). rewrite E in E'. injection E' as <-.
  destruct (build_partition _ _ _ _ _ _ _ _ _ _ _ _ _ _ HC H) as (P1 & _ & P2 & P3).
  split; [|split; [|split]].
  - intros row Hrow. apply P1. apply closure_in_box; [exact (root_box_closed d bs HR)|]. by apply in_domain_closure.
  - by apply P3.
  - done.
  - rewrite Hv. destruct HB as [HB _]. by apply (size_box d).
Qed.
Print Assumptions C25_partition.

(** A region is only sampled inside its own box, while building and when the leaves are
    topped up; every sample carries its own truth value. *)
Theorem C25_samples d lens formula stopping scoring sat n fuel g t v s desired t' g' :
  wf_domain d -> finite_box d lens -> bool_query d formula -> fair g ->
  build_root d formula stopping scoring sat n fuel g = Ok (t, v, s) ->
  top_up d formula desired t (gen s) = Ok (t', g') ->
  Forall (fun l => Forall (fun r => in_closure (reals d r) (l_box l)) (l_rows l) /\
     l_labels l = map (holds (d_vars d) formula) (l_rows l) /\
     (l_empty l = false -> desired <= length (l_rows l))) (leaves t') /\
  map (fun l => (l_box l, l_vol l, l_empty l)) (leaves t') = map (fun l => (l_box l, l_vol l, l_empty l)) (leaves t).
Proof.
  intros W HB Q Hg H HT. apply build_root_inv in H as (bs & E & Hv & _ & H); [|done].
  destruct (root_bounds_ok d lens W HB) as (bs' & E' & HR & HC & HO). rewrite E in E'. injection E' as <-.
  pose proof (build_sampled _ _ _ _ _ _ _ _ _ _ _ (AState [] g []) _ _ W HO Hg H) as [S1 G1].
  pose proof (build_boxes _ _ _ _ _ _ _ _ _ _ _ _ _ _ HO H) as B1.
  destruct (build_labelled d formula W Q _ _ _ _ _ _ _ _ _ _ _ _ H) as (L1 & _ & _).
  destruct (top_up_sampled d formula desired t _ t' g' W G1 B1 HT S1) as [S2 _].
  destruct (top_up_inv d formula W Q desired t _ t' g' HT L1) as (L2 & Sh & _ & F2).
  split; [|exact Sh]. unfold sampled in S2. unfold labelled in L2. rewrite Forall_lookup in S2, L2. apply Forall_lookup. intros k l Hl.
  split; [by apply (S2 k)|]. split; [by apply (L2 k l Hl)|]. intros He.
  destruct (Forall2_lookup_r _ _ _ _ _ F2 Hl) as (l0 & Hl0 & extra & _ & Hd). apply Hd.
  assert (map shape (leaves t') !! k = map shape (leaves t) !! k) as Hs by (by rewrite Sh).
  rewrite !list_lookup_fmap, Hl, Hl0 in Hs. cbn in Hs. unfold shape in Hs. congruence.
Qed.
Print Assumptions C25_samples.

(** Building succeeds for every domain with a proper box, a positive number of samples
    and a stopping rule that stops at some depth. *)
Theorem C25_total d lens formula stopping scoring sat n D g :
  wf_domain d -> finite_box d lens -> bool_query d formula -> names d TReal <> [] -> box_size lens <> 0%Qc ->
  0 < n -> (forall r v k, D <= k -> stopping r v k = true) -> fair g ->
  exists t v s, build_root d formula stopping scoring sat n (S D) g = Ok (t, v, s).
Proof.
  intros W HB Q Hne Hnz Hn HS Hg. unfold build_root.
  destruct (root_bounds_ok d lens W HB) as (bs & -> & HR & _ & HO). cbn [rbind].
  assert (bs <> []) as Hbs. { intros ->. apply Forall2_length in HR. by destruct (names d TReal). }
  assert (bounds_volume bs = Some (size bs)) as ->.
  { destruct bs as [|b bs]; [done|]. unfold bounds_volume. rewrite fold_volume. f_equal. ring. }
  destruct (build_total d formula stopping scoring sat n D (S D) (size bs) bs (size bs) 0 (AState [] g [])) as (t & s & -> & _); try done; try lia.
  - rewrite (size_box d lens bs W); [done|apply HB|done].
  - cbn [rbind fst snd]. by eexists _, _, _.
Qed.
Print Assumptions C25_total.

(** Without a real variable, with a box of volume zero, or when the number of building
    samples (by default a tenth of the number of samples) rounds to zero, it fails. *)
Theorem C25_fails d lens formula stopping scoring sat n fuel g :
  wf_domain d -> finite_box d lens -> bool_query d formula -> fair g ->
  names d TReal = [] \/ box_size lens = 0%Qc \/ n = 0 -> forall r, build_root d formula stopping scoring sat n (S fuel) g <> Ok r.
Proof.
  intros W HB Q Hg Hbad [[t v] s] H. apply build_root_inv in H as (bs & E & Hv & Hne & H); [|done].
  destruct (root_bounds_ok d lens W HB) as (bs' & E' & HR & _ & _). rewrite E in E'. injection E' as <-.
  destruct (build_labelled d formula W Q _ _ _ _ _ _ _ _ _ _ _ _ H) as (_ & _ & Hr).
  destruct Hbad as [Hb|[Hb|Hb]].
  - unfold root_box in HR. rewrite Hb in HR. by inversion HR; subst.
  - apply Hr. rewrite Hv, (size_box d lens bs W); [done|apply HB|done].
  - subst n. cbn [build] in H. destruct (with_bounds d bs); [|done]. cbn [rbind] in H.
    destruct (uniform _ _ _ _); [|done]. cbn [rbind] in H. by destruct (check_rows _ _ _).
Qed.
Print Assumptions C25_fails.

(** AdaptiveRejection.make_stop_criterion (280-286) with a ratio and a depth. *)
Definition a_stop (ratio : Qc) (depth : nat) : Qc -> Qc -> nat -> bool := fun r _ k => qle ratio r || (depth <=? k).

Example C25_example :
  wf_domain s_dom /\ finite_box s_dom s_lens /\ bool_query s_dom s_support /\ fair s_rng /\ names s_dom TReal <> [] /\ box_size s_lens <> 0%Qc /\
  exists t v s, build_root s_dom s_support (a_stop (qz 2) 2) (fun _ _ _ _ => 0%Qc) (fun _ => true) 2 3 s_rng = Ok (t, v, s) /\ length (leaves t) = 4.
Proof.
  split; [exact s_dom_wf|]. split; [exact s_dom_box|]. split; [exact s_support_ok|]. split; [exact s_rng_fair|].
  split; [by vm_compute|]. split; [by vm_compute|]. eexists _, _, _. split; vm_compute; reflexivity.
Qed.

(** * C26 *)

(** Full statement: for every region the solver is asked about, the asserted splits are
    those of the path to it, i.e. a point of the domain satisfies them iff it lies in the
    region.  Proved: they are never too weak. *)
Theorem C26_constraints_partial d lens formula stopping scoring sat n fuel g t v s :
  wf_domain d -> finite_box d lens ->
  build_root d formula stopping scoring sat n fuel g = Ok (t, v, s) ->
  forall r st, (r, st) ∈ asked s -> forall row, in_domain d row ->
    Forall (asserts (reals d row)) st -> in_box (reals d row) r.
Proof.
  intros W HB H r st Hin row Hrow HF. apply build_root_inv in H as (bs & E & Hv & _ & H); [|done].
  destruct (root_bounds_ok d lens W HB) as (bs' & E' & HR & HC & _). rewrite E in E'. injection E' as <-.
  refine (build_asked _ _ _ _ _ _ _ _ _ _ _ _ _ _ bs HC H _ _ r st Hin _ _ HF).
  - done.
  - intros ? ? Hn. by apply elem_of_nil in Hn.
  - apply closure_in_box; [exact (root_box_closed d bs HR)|]. by apply in_domain_closure.
Qed.
Print Assumptions C26_constraints_partial.

(** They are exact as long as no left child is split again, and then a region declared
    empty by a complete solver contains no point of the support. *)
Theorem C26_exact_partial d lens formula stopping scoring sat n fuel g t v s :
  wf_domain d -> finite_box d lens ->
  build_root d formula stopping scoring sat n fuel g = Ok (t, v, s) -> left_leaves t ->
  (forall r st, (r, st) ∈ asked s -> forall row, in_domain d row ->
     (Forall (asserts (reals d row)) st <-> in_box (reals d row) r)) /\
  (complete d formula sat -> forall l row, l ∈ leaves t -> l_empty l = true -> in_domain d row ->
     in_box (reals d row) (l_box l) -> holds (d_vars d) formula row = false).
Proof.
  intros W HB H HL. apply build_root_inv in H as (bs & E & Hv & _ & H); [|done].
  destruct (root_bounds_ok d lens W HB) as (bs' & E' & HR & HC & _). rewrite E in E'. injection E' as <-.
  assert (forall r st, (r, st) ∈ asked s -> forall row, in_domain d row ->
     (Forall (asserts (reals d row)) st <-> in_box (reals d row) r)) as HX.
  { intros r st Hin row Hrow.
    refine (build_exact _ _ _ _ _ _ _ _ _ _ _ _ _ _ bs HC H HL _ _ r st Hin _ _).
    - intros p Hp. split; [done|]. intros _. constructor.
    - intros ? ? Hn. by apply elem_of_nil in Hn.
    - apply closure_in_box; [exact (root_box_closed d bs HR)|]. by apply in_domain_closure. }
  split; [exact HX|]. intros Hsat l row Hl He Hrow Hbox.
  pose proof (empty_asked _ _ _ _ _ _ _ _ _ _ _ _ _ _ H) as HE. rewrite Forall_forall in HE. destruct (HE l Hl He) as (st & Hst & Hs).
  destruct (holds (d_vars d) formula row) eqn:Eh; [|done]. exfalso. destruct Hrow as [HLen Hin].
  apply (Hsat st Hs row HLen Eh). by apply (HX _ _ Hst row).
Qed.
Print Assumptions C26_exact_partial.

(** One real variable between 0 and 4; support [x <= 1/2 or 7/2 <= x]. *)
Definition a_dom : domain := Dom ["x"] [("x", TReal)] [("x", (Some 0%Qc, Some (qz 4)))].
Definition a_lens : list (string * Qc * Qc) := [("x", 0%Qc, qz 4)].
Definition a_support : fm := OrN [LeN (Sym "x" TReal) (RealC (Q2Qc (1 # 2))); LeN (RealC (Q2Qc (7 # 2))) (Sym "x" TReal)].
Definition a_rng : rng := Rng (fun _ => Q2Qc (1 # 2)) (fun _ => 0) 0.
Lemma a_dom_wf : wf_domain a_dom.
Proof.
  split; cbn [a_dom d_vars d_types d_doms map fst].
  - dec.
  - dec.
  - done.
  - intros v t. rewrite !elem_of_cons, elem_of_nil. intuition congruence.
  - dec.
  - intros v. rewrite !elem_of_cons, !elem_of_nil. intuition congruence.
Qed.
Lemma a_dom_box : finite_box a_dom a_lens.
Proof. split; [done|]. repeat constructor. by vm_compute. Qed.
Lemma a_rng_fair : fair a_rng.
Proof. intros k. split; by vm_compute. Qed.
Lemma a_support_ok : bool_query a_dom a_support.
Proof.
  split; [split; try done|by intros e; eexists].
  intros x t Hx. cbn in Hx. repeat (apply elem_of_cons in Hx as [E|Hx]; [injection E as -> _; dec|]). by apply elem_of_nil in Hx.
Qed.

(** The answers any correct solver gives to the questions of the run below. *)
Definition a_sat (st : list assertion) : bool := if decide (length st = 2) then false else true.

(** With every correct solver (for this support), the right half (2, 4] is declared
    empty although 4 satisfies the support: the split of the left child was never
    retracted, so [x <= 2] is still asserted. *)
Theorem C26_refuted : forall sat,
  (forall st, Forall (fun a => fst (fst a) = 0) st ->
     (sat st = true <-> exists x, holds ["x"] a_support [x] = true /\ Forall (asserts [x]) st)) ->
  exists t v s l, build_root a_dom a_support (a_stop (Q2Qc (1 # 2)) 2) (fun _ _ _ _ => 0%Qc) sat 1 3 a_rng = Ok (t, v, s) /\
    l ∈ leaves t /\ l_empty l = true /\ in_box [qz 4] (l_box l) /\ holds ["x"] a_support [qz 4] = true /\
    in_domain a_dom [qz 4].
Proof.
  intros sat Hsat.
  assert (exists t s, build a_dom a_support (a_stop (Q2Qc (1 # 2)) 2) (fun _ _ _ _ => 0%Qc) a_sat 1 3 (qz 4) [((0%Qc, true), (qz 4, true))] (qz 4) 0 (AState [] a_rng []) = Ok (t, s) /\
    (exists l, l ∈ leaves t /\ l_empty l = true /\ (exists lo hi fl fh, l_box l = [((lo, fl), (hi, fh))] /\ (lo < qz 4 /\ qz 4 <= hi)%Qc /\ fh = true)) /\
    (exists a b c d e f, asked s = [(a, [(0, b, false); (0, c, true)]); (d, [(0, c, true)]); (e, [])] /\ b = qz 2 /\ c = qz 2 /\ f = 0)) as (t & s & Hb & (l & Hl & He & lo & hi & fl & fh & Hbox & [Hlo Hhi] & ->) & (a1 & b & c & a2 & a3 & f & Ha & -> & -> & _)).
  { eexists _, _. split; [vm_compute; reflexivity|]. split.
    - eexists. split; [right; right; left|]. split; [reflexivity|]. eexists _, _, _, _. split; [reflexivity|]. split; [split; by vm_compute|done].
    - eexists _, _, _, _, _, 0. split; [reflexivity|]. split; [|split; [|done]]; apply Qc_is_canon; reflexivity. }
  apply (build_ext _ _ _ _ _ a_sat sat) in Hb.
  2: { rewrite Ha. intros r st Hin. rewrite !elem_of_cons, elem_of_nil in Hin.
       destruct Hin as [E|[E|[E|[]]]]; injection E as _ ->; symmetry; cbn [a_sat length decide]; unfold a_sat; cbn [length decide].
       - apply not_true_is_false. rewrite Hsat by (repeat (apply Forall_cons; split); done). intros (x & _ & HF).
         inversion_clear HF as [|? ? (y & Hy & H1) HF']. inversion_clear HF' as [|? ? (z & Hz & H2) _].
         cbn in Hy, Hz, H1, H2. injection Hy as ->. injection Hz as ->. by apply (Qcle_not_lt _ _ H2).
       - apply Hsat; [repeat (apply Forall_cons; split); done|]. exists 0%Qc. split; [by vm_compute|]. constructor; [|constructor].
         exists 0%Qc. split; [done|]. cbn. by vm_compute.
       - apply Hsat; [done|]. exists 0%Qc. split; [by vm_compute|constructor]. }
  exists t, (qz 4), s, l. split.
  { unfold build_root. change (root_bounds a_dom) with (Ok [((0%Qc, true), (qz 4, true))]). cbn [rbind].
    assert (bounds_volume [((0%Qc, true), (qz 4, true))] = Some (qz 4)) as -> by (unfold bounds_volume; f_equal; apply Qc_is_canon; reflexivity).
    by rewrite Hb. }
  split; [done|]. split; [done|]. split.
  { rewrite Hbox. constructor; [|constructor]. split; cbn [fst snd]; [|done]. destruct fl; [by apply Qclt_le_weak|done]. }
  split; [by vm_compute|]. split; [done|]. intros [|k] v x Hv Hx; [|done]. injection Hv as <-. injection Hx as <-. split.
  - intros H. cbn in H. rewrite elem_of_list_singleton in H. done.
  - intros b Hbb. cbn in Hbb. rewrite elem_of_list_singleton in Hbb. injection Hbb as ->. split; intros ? [= <-]; by vm_compute.
Qed.
Print Assumptions C26_refuted.

Example C26_example : exists t v s,
  build_root a_dom a_support (a_stop (Q2Qc (1 # 2)) 1) (fun _ _ _ _ => 0%Qc) (fun _ => true) 1 3 a_rng = Ok (t, v, s) /\ left_leaves t /\
  length (asked s) = 1 /\ complete a_dom a_support (fun _ => true).
Proof. eexists _, _, _. split; [vm_compute; reflexivity|]. split; [exact I|]. split; [reflexivity|]. by intros st. Qed.

(** * C27 *)

(** With a weight that is not the constant 1, the answer is the ratio of two leaf-wise
    estimates on the same samples: support and query over support. *)
Theorem C27_ratio_partial d lens formula stopping scoring sat n fuel g t v s desired w q :
  wf_domain d -> finite_box d lens -> bool_query d formula -> num_query d w -> bool_query d q -> w <> RealC 1 -> fair g ->
  build_root d formula stopping scoring sat n fuel g = Ok (t, v, s) ->
  exists t' g', top_up d formula desired t (gen s) = Ok (t', g') /\
    let num := estimate d (Some w) (fun r => holds (d_vars d) formula r && holds (d_vars d) q r) (leaves t') in
    let den := estimate d (Some w) (holds (d_vars d) formula) (leaves t') in
    (den <> 0%Qc -> adaptive_probability d formula v (Some w) desired q t (gen s) = Ok ((num / den)%Qc, t', g')) /\
    (den = 0%Qc -> adaptive_probability d formula v (Some w) desired q t (gen s) = Err ZeroDivisionError) /\
    ((forall l r, l ∈ leaves t' -> r ∈ l_rows l -> holds (d_vars d) formula r && holds (d_vars d) q r = false) -> num = 0%Qc) /\
    (den <> 0%Qc -> (forall l r, l ∈ leaves t' -> r ∈ l_rows l -> (0 <= weight_of (d_vars d) (Some w) r)%Qc) ->
       (0 <= num / den)%Qc /\ (num / den <= 1)%Qc).
Proof.
  intros W HB Q Hw Hq Hne Hg H. pose proof H as H'. apply build_root_inv in H as (bs & E & Hv & _ & H); [|done].
  destruct (root_bounds_ok d lens W HB) as (bs' & E' & HR & HC & HO). rewrite E in E'. injection E' as <-.
  pose proof (build_sampled _ _ _ _ _ _ _ _ _ _ _ (AState [] g []) _ _ W HO Hg H) as [_ G1].
  pose proof (build_boxes _ _ _ _ _ _ _ _ _ _ _ _ _ _ HO H) as B1.
  destruct (build_labelled d formula W Q _ _ _ _ _ _ _ _ _ _ _ _ H) as (L1 & F1 & Hr).
  destruct (top_up_total d formula W Q desired t _ G1 B1) as (t' & g' & HT & _).
  destruct (top_up_inv d formula W Q desired t _ t' g' HT L1) as (L2 & Sh & F2 & _). specialize (F2 F1).
  exists t', g'. split; [done|]. cbv zeta.
  assert (weighted (Some w) = Some w) as Ew.
  { unfold weighted. destruct w as [| |q0| | | | | | | | | | | | | | | |]; try done. destruct (qeq q0 1) eqn:E1; [|done]. apply qeq_spec in E1. by subst. }
  assert (forall r, holds (d_vars d) formula r && test d None r = holds (d_vars d) formula r) as Et by (intros r; cbn [test]; apply andb_true_r).
  assert (estimate d (Some w) (fun r => holds (d_vars d) formula r && test d None r) (leaves t') = estimate d (Some w) (holds (d_vars d) formula) (leaves t')) as Ee.
  { unfold estimate. f_equal. apply map_ext. intros l. destruct (l_empty l); [done|]. do 2 f_equal. unfold weight_where. f_equal. apply map_ext. intros r. by rewrite Et. }
  assert (adaptive_probability d formula v (Some w) desired q t (gen s) =
    let num := estimate d (Some w) (fun r => holds (d_vars d) formula r && holds (d_vars d) q r) (leaves t') in
    let den := estimate d (Some w) (holds (d_vars d) formula) (leaves t') in
    if qeq (den / v) 0 then Err ZeroDivisionError else Ok ((num / v / (den / v))%Qc, t', g')) as Ep.
  { unfold adaptive_probability. rewrite HT. cbn [rbind fst snd]. rewrite (raw_volume_ok d formula v None t' L2 F2). cbn [rbind]. rewrite Ew.
    rewrite (weighted_volume_ok d formula W v w (Some q) t' Hw) by (try done; by intros ? [= <-]). cbn [rbind].
    rewrite (weighted_volume_ok d formula W v w None t' Hw) by done. cbn [rbind fst snd]. rewrite Ee. cbv zeta. reflexivity. }
  rewrite Ep. clear Ep. cbv zeta.
  set (num := estimate d (Some w) (fun r => holds (d_vars d) formula r && holds (d_vars d) q r) (leaves t')).
  set (den := estimate d (Some w) (holds (d_vars d) formula) (leaves t')).
  split; [|split; [|split]].
  - intros Hd. destruct (qeq (den / v) 0) eqn:E1.
    + apply qeq_spec in E1. exfalso. apply Hd. assert (den = den / v * v)%Qc as -> by (field; done). rewrite E1. ring.
    + do 3 f_equal. field. split; [done|done].
  - intros ->. assert (0 / v = 0)%Qc as -> by (unfold Qcdiv; ring). done.
  - intros Hz. unfold num, estimate. assert (forall ls, (forall l r, l ∈ ls -> r ∈ l_rows l -> holds (d_vars d) formula r && holds (d_vars d) q r = false) ->
      qsum (map (fun l => (if l_empty l then 0 else l_vol l * (weight_where (d_vars d) (Some w) (fun r => holds (d_vars d) formula r && holds (d_vars d) q r) (l_rows l) / qn (length (l_rows l))))%Qc) ls) = 0%Qc) as HH; [|by apply HH].
    clear. induction ls as [|l ls IH]; intros Hz; [done|]. cbn [map]. rewrite qsum_cons, IH by (intros l0 r Hl Hr; apply (Hz l0); [by right|done]).
    assert (weight_where (d_vars d) (Some w) (fun r => holds (d_vars d) formula r && holds (d_vars d) q r) (l_rows l) = 0%Qc) as ->.
    { assert (forall r, r ∈ l_rows l -> holds (d_vars d) formula r && holds (d_vars d) q r = false) as Hz' by (intros r; apply Hz; by left).
      clear Hz IH. unfold weight_where. induction (l_rows l) as [|r rs IHr]; [done|]. cbn [map]. rewrite qsum_cons, IHr by (intros; apply Hz'; by right).
      rewrite Hz' by (by left). ring. }
    destruct (l_empty l); unfold Qcdiv; ring.
  - intros Hd Hnn.
    assert (Forall (fun l => 0 <= l_vol l)%Qc (leaves t')) as HV.
    { destruct (build_partition _ _ _ _ _ _ _ _ _ _ _ _ _ _ HC H) as (_ & _ & _ & P3). specialize (P3 Hv).
      apply Forall_lookup. intros k l Hl. destruct (leaves t !! k) as [l0|] eqn:E0.
      - assert (map shape (leaves t') !! k = map shape (leaves t) !! k) as Hs by (by rewrite Sh).
        rewrite !list_lookup_fmap, Hl, E0 in Hs. cbn in Hs. unfold shape in Hs. injection Hs as _ -> _.
        rewrite Forall_lookup in P3, B1. rewrite (P3 k l0 E0). apply size_nonneg. apply (B1 k l0 E0).
      - exfalso. assert (map shape (leaves t') !! k = map shape (leaves t) !! k) as Hs by (by rewrite Sh).
        rewrite !list_lookup_fmap, Hl, E0 in Hs. done. }
    destruct (estimate_mono d (Some w) (fun r => holds (d_vars d) formula r && holds (d_vars d) q r) (holds (d_vars d) formula) (leaves t')) as [M1 M2].
    { intros r Hr'. by apply andb_true_iff in Hr' as [? _]. } { done. } { exact F2. }
    { apply Forall_forall. intros l Hl. apply Forall_forall. intros r Hr'. by apply (Hnn l). }
    fold num den in M1, M2. assert (0 < den)%Qc as Hdp.
    { destruct (Qclt_le_dec 0 den); [done|]. exfalso. apply Hd. apply qcle_antisym; [done|]. by eapply Qcle_trans. }
    split.
    + unfold Qcdiv. apply qmul_nonneg; [done|]. by apply Qclt_le_weak, Qcinv_pos.
    + rewrite <- (div_self den Hdp). by apply div_le_compat.
Qed.
Print Assumptions C27_ratio_partial.

(** Without a weight, or with weight 1, the query is ignored: the answer is 1 for every
    query, also one that no sample satisfies. *)
Theorem C27_refuted d lens formula stopping scoring sat n fuel g t v s desired w :
  wf_domain d -> finite_box d lens -> bool_query d formula -> fair g -> w = None \/ w = Some (RealC 1) ->
  build_root d formula stopping scoring sat n fuel g = Ok (t, v, s) ->
  exists t' g', top_up d formula desired t (gen s) = Ok (t', g') /\ forall q,
    estimate d None (holds (d_vars d) formula) (leaves t') <> 0%Qc ->
    adaptive_probability d formula v w desired q t (gen s) = Ok (1%Qc, t', g').
Proof.
  intros W HB Q Hg Hw H. apply build_root_inv in H as (bs & E & Hv & _ & H); [|done].
  destruct (root_bounds_ok d lens W HB) as (bs' & E' & HR & HC & HO). rewrite E in E'. injection E' as <-.
  pose proof (build_sampled _ _ _ _ _ _ _ _ _ _ _ (AState [] g []) _ _ W HO Hg H) as [_ G1].
  pose proof (build_boxes _ _ _ _ _ _ _ _ _ _ _ _ _ _ HO H) as B1.
  destruct (build_labelled d formula W Q _ _ _ _ _ _ _ _ _ _ _ _ H) as (L1 & F1 & Hr).
  destruct (top_up_total d formula W Q desired t _ G1 B1) as (t' & g' & HT & _).
  destruct (top_up_inv d formula W Q desired t _ t' g' HT L1) as (L2 & _ & F2 & _). specialize (F2 F1).
  exists t', g'. split; [done|]. intros q Hd. unfold adaptive_probability. rewrite HT. cbn [rbind fst snd].
  rewrite !(raw_volume_ok d formula v _ t' L2 F2). cbn [rbind].
  assert (weighted w = None) as ->. { destruct Hw as [->| ->]; [done|]. cbn [weighted]. destruct (qeq 1 1) eqn:E1; [done|]. by apply qeq_false in E1. }
  cbn [rbind fst snd]. set (x := estimate d None (holds (d_vars d) formula) (leaves t')) in *.
  assert (x / v <> 0)%Qc as Hx. { intros E1. apply Hd. assert (x = x / v * v)%Qc as -> by (field; done). rewrite E1. ring. }
  destruct (qeq (x / v) 0) eqn:E1; [by apply qeq_spec in E1|]. do 3 f_equal. unfold Qcdiv at 1. by apply Qcmult_inv_r.
Qed.
Print Assumptions C27_refuted.

Definition a_weight : fm := PlusN [Sym "x" TReal; RealC 1].
Definition a_query : fm := LeN (Sym "x" TReal) (RealC (qz (-1))).
Example C27_example :
  bool_query a_dom a_query /\ num_query a_dom a_weight /\
  exists t v s, build_root a_dom a_support (a_stop (Q2Qc (1 # 2)) 2) (fun _ _ _ _ => 0%Qc) (fun _ => true) 1 3 a_rng = Ok (t, v, s) /\
    (exists p t' g', adaptive_probability a_dom a_support v (Some a_weight) 2 a_query t (gen s) = Ok (p, t', g') /\ p = 0%Qc) /\
    (exists p t' g', adaptive_probability a_dom a_support v None 2 a_query t (gen s) = Ok (p, t', g') /\ p = 1%Qc).
Proof.
  split; [|split].
  - split; [split; try done|by intros e; eexists].
    intros x t Hx. cbn in Hx. repeat (apply elem_of_cons in Hx as [E|Hx]; [injection E as -> _; dec|]). by apply elem_of_nil in Hx.
  - split; [split; try done|by intros e; eexists].
    intros x t Hx. cbn in Hx. repeat (apply elem_of_cons in Hx as [E|Hx]; [injection E as -> _; dec|]). by apply elem_of_nil in Hx.
  - eexists _, _, _. split; [vm_compute; reflexivity|]. split; (eexists _, _, _; split; [vm_compute; reflexivity|apply Qc_is_canon; reflexivity]).
Qed.

(** * C61 *)

(** The estimate never exceeds the bounding box, and a support that holds everywhere
    gives exactly the bounding box ... *)
Theorem C61_box_partial d lens formula stopping scoring sat n fuel g t v s desired :
  wf_domain d -> finite_box d lens -> bool_query d formula -> fair g ->
  build_root d formula stopping scoring sat n fuel g = Ok (t, v, s) ->
  exists x t' g', adaptive_volume d formula v None desired t (gen s) = Ok (x, t', g') /\
    (0 <= x)%Qc /\ (x <= box_size lens)%Qc /\
    ((forall row, holds (d_vars d) formula row = true) -> Forall (fun l => l_empty l = false) (leaves t) -> x = box_size lens).
Proof.
  intros W HB Q Hg H. apply build_root_inv in H as (bs & E & Hv & _ & H); [|done].
  destruct (root_bounds_ok d lens W HB) as (bs' & E' & HR & HC & HO). rewrite E in E'. injection E' as <-.
  pose proof (build_sampled _ _ _ _ _ _ _ _ _ _ _ (AState [] g []) _ _ W HO Hg H) as [_ G1].
  pose proof (build_boxes _ _ _ _ _ _ _ _ _ _ _ _ _ _ HO H) as B1.
  destruct (build_labelled d formula W Q _ _ _ _ _ _ _ _ _ _ _ _ H) as (L1 & F1 & Hr).
  destruct (top_up_total d formula W Q desired t _ G1 B1) as (t' & g' & HT & _).
  destruct (top_up_inv d formula W Q desired t _ t' g' HT L1) as (L2 & Sh & F2 & _). specialize (F2 F1).
  unfold adaptive_volume. rewrite HT. cbn [rbind fst snd]. rewrite (raw_volume_ok d formula v None t' L2 F2). cbn [rbind weighted].
  eexists _, t', g'. split; [reflexivity|].
  set (x := estimate d None (holds (d_vars d) formula) (leaves t')). assert (x / v * v = x)%Qc as -> by (field; done).
  destruct (build_partition _ _ _ _ _ _ _ _ _ _ _ _ _ _ HC H) as (_ & _ & P2 & P3). specialize (P3 Hv).
  assert (map l_vol (leaves t') = map l_vol (leaves t)) as EV.
  { apply (f_equal (map (fun p : list abound * Qc * bool => snd (fst p)))) in Sh. rewrite !map_map in Sh. exact Sh. }
  assert (map l_empty (leaves t') = map l_empty (leaves t)) as EE.
  { apply (f_equal (map (fun p : list abound * Qc * bool => snd p))) in Sh. rewrite !map_map in Sh. exact Sh. }
  assert (v = box_size lens) as Ev by (rewrite Hv; apply (size_box d lens bs W); [apply HB|done]).
  assert (Forall (fun q => 0 <= q)%Qc (map l_vol (leaves t'))) as HV.
  { rewrite EV. apply Forall_fmap, Forall_lookup. intros k l Hl. cbn. rewrite Forall_lookup in P3, B1. rewrite (P3 k l Hl).
    apply size_nonneg. apply (B1 k l Hl). }
  assert (Forall (fun l => 0 <= l_vol l)%Qc (leaves t')) as HV'.
  { apply Forall_forall. intros l Hl. rewrite Forall_forall in HV. apply HV. apply elem_of_list_fmap. by exists l. }
  assert (Forall (fun l => Forall (fun r => 0 <= weight_of (d_vars d) None r)%Qc (l_rows l)) (leaves t')) as HW.
  { apply Forall_forall. intros l _. apply Forall_forall. intros r _. by vm_compute. }
  destruct (estimate_mono d None (holds (d_vars d) formula) (fun _ => true) (leaves t')) as [M1 M2]; [done|done|exact F2|exact HW|].
  fold x in M1, M2. split; [done|]. split.
  - eapply Qcle_trans; [exact M2|]. rewrite <- Ev, <- P2, <- EV.
    clear -F2 HV'. unfold filled in F2. unfold estimate. induction (leaves t') as [|l ls IH]; [by vm_compute|].
    inversion_clear F2 as [|? ? Ha Hb]. inversion_clear HV' as [|? ? Hc Hd]. specialize (IH Hb Hd). cbn [map]. rewrite !qsum_cons.
    destruct (l_empty l). { revert IH Hc. generalize (l_vol l). intros. qclra. }
    rewrite where_one. assert (filter (fun x => true = true) (l_rows l) = l_rows l) as ->.
    { clear. induction (l_rows l) as [|r rs IHr]; [done|]. rewrite filter_cons, decide_True by done. by f_equal. }
    assert (qn (length (l_rows l)) / qn (length (l_rows l)) = 1)%Qc as ->.
    { apply div_self. apply qn_pos. destruct (l_rows l); [done|cbn; lia]. }
    rewrite Qcmult_1_r. revert IH. generalize (l_vol l). intros. qclra.
  - intros Hall Hemp. unfold x. rewrite estimate_full.
    + by rewrite EV, P2.
    + exact F2.
    + apply Forall_forall. intros l Hl. assert (l_empty l ∈ map l_empty (leaves t)) as Hin by (rewrite <- EE; apply elem_of_list_fmap; by exists l).
      apply elem_of_list_fmap in Hin as (l0 & -> & Hl0). rewrite Forall_forall in Hemp. by apply Hemp.
    + apply Forall_forall. intros l _. apply Forall_forall. intros r _. apply Hall.
Qed.
Print Assumptions C61_box_partial.

(** ... while the volume of the domain, and the answer of the plain rejection engine,
    counts every assignment of the boolean variables: the two engines disagree on every
    domain with a boolean variable. *)
Theorem C61_refuted d lens formula stopping scoring sat n fuel g t v s desired :
  wf_domain d -> finite_box d lens -> bool_query d formula -> fair g -> 0 < desired ->
  (forall row, holds (d_vars d) formula row = true) -> names d TBool <> [] -> (0 < box_size lens)%Qc ->
  build_root d formula stopping scoring sat n fuel g = Ok (t, v, s) ->
  exists x y t' g' g'', adaptive_volume d formula v None desired t (gen s) = Ok (x, t', g') /\
    compute_volume d formula None desired None g = Ok (y, g'') /\
    get_volume d = Ok (Fin y) /\ (x < y)%Qc.
Proof.
  intros W HB Q Hg Hn Hall Hb Hp H. pose proof H as H0. apply build_root_inv in H0 as (bs & E & _ & Hbs & _); [|done].
  destruct (C61_box_partial d lens formula stopping scoring sat n fuel g t v s desired W HB Q Hg H) as (x & t' & g' & Ex & _ & Hle & _).
  destruct (uniform_in d lens desired g W HB Hg) as (rows & EU & HL & HI).
  pose proof HB as [HB' _]. pose proof (volume_formula d formula None W Q I None desired g _ rows _ EU HI HL Hn (bound_none d lens W HB')) as EV.
  eexists x, _, t', g', _. split; [exact Ex|]. split; [exact EV|].
  assert (weight_where (d_vars d) None (holds (d_vars d) formula) rows / qn desired = 1)%Qc as ->.
  { rewrite where_one. assert (filter (fun x => holds (d_vars d) formula x = true) rows = rows) as ->.
    { clear -Hall. induction rows as [|r rows IH]; [done|]. rewrite filter_cons, decide_True by done. by f_equal. }
    rewrite HL. apply div_self. by apply qn_pos. }
  rewrite Qcmult_1_r. split.
  - rewrite (volume_ok d lens W); [do 2 f_equal; ring| |exact HB'].
    destruct (root_bounds_ok d lens W HB) as (bs' & E' & HR & _). rewrite E in E'. injection E' as <-. intros En. unfold root_box in HR. rewrite En in HR. by inversion HR; subst.
  - eapply Qcle_lt_trans; [exact Hle|].
    assert (forall k, 1 <= qpow (qz 2) k)%Qc as Hpow.
    { induction k as [|k IH]; [by vm_compute|]. change (qpow (qz 2) (S k)) with (qz 2 * qpow (qz 2) k)%Qc.
      revert IH. generalize (qpow (qz 2) k). intros y IH. qc2q. unfold inject_Z. lra. }
    destruct (names d TBool) as [|b l]; [done|]. cbn [length]. specialize (Hpow (length l)).
    change (qpow (qz 2) (S (length l))) with (qz 2 * qpow (qz 2) (length l))%Qc. revert Hpow Hp. generalize (qpow (qz 2) (length l)), (box_size lens).
    clear. intros. assert (0 <= (q - 1) * q0)%Qc as P by (apply qmul_nonneg; qclra).
    assert (qz 2 * q * q0 = qz 2 * q0 + qz 2 * ((q - 1) * q0))%Qc as -> by ring.
    assert (forall a b : Qc, 0 < a -> 0 <= b -> a < qz 2 * a + qz 2 * b)%Qc as HH by (clear; intros; qc2q; unfold inject_Z; lra). by apply HH.
Qed.
Print Assumptions C61_refuted.

Definition b_dom : domain := Dom ["a"; "x"] [("a", TBool); ("x", TReal)] [("x", (Some 0%Qc, Some (qz 2)))].
Definition b_support : fm := OrN [Sym "a" TBool; NotN (Sym "a" TBool)].
Example C61_example :
  (forall row, holds (d_vars b_dom) b_support row = true) /\ names b_dom TBool = ["a"] /\
  exists t v s, build_root b_dom b_support (a_stop (qz 2) 1) (fun _ _ _ _ => 0%Qc) (fun _ => true) 1 3 a_rng = Ok (t, v, s) /\
    (exists x t' g', adaptive_volume b_dom b_support v None 2 t (gen s) = Ok (x, t', g') /\ x = qz 2) /\
    (exists y g'', compute_volume b_dom b_support None 2 None a_rng = Ok (y, g'') /\ y = qz 4).
Proof.
  split; [|split].
  - intros row. unfold holds. cbn. by destruct (qeq _ _).
  - reflexivity.
  - eexists _, _, _. split; [vm_compute; reflexivity|]. split; [eexists _, _, _|eexists _, _]; (split; [vm_compute; reflexivity|apply Qc_is_canon; reflexivity]).
Qed.
