(** C66: engines around external solvers (pywmi/engines/pa.py, mpwmi.py, praise.py,
    xadd.py). *)

From Verif Require Import Base Dict Smt Domain_Model Domain_Spec Domain_Proofs Domain_Props Engine_Model External_Model
  External_Spec External_Proofs.

(** * The problem handed over *)

(** PredicateAbstractionEngine: the solver gets the support restricted to the box, the
    weight and the symbols of the domain, and its answer is returned. *)
Theorem C66_pa fl pa d s w : wf_domain d -> float_bounds fl d ->
  (exists s', restricted d s s' /\
     pa_volume fl pa true d s w = pa s' w (map (fun v => Sym v TBool) (names d TBool)) (map (fun v => Sym v TReal) (names d TReal))) /\
  pa_volume fl pa false d s w = pa s w (map (fun v => Sym v TBool) (names d TBool)) (map (fun v => Sym v TReal) (names d TReal)).
Proof.
  intros W HB.
  assert (forall t, vars_of_type d t = Ok (names d t)) as Hv by (intros t; by apply vars_of_type_ok).
  assert (forall t, rmapM (get_symbol d) (names d t) = Ok (map (fun v => Sym v t) (names d t))) as Hs.
  { intros t. assert (forall l, (forall v, v ∈ l -> (v, t) ∈ d_types d) -> rmapM (get_symbol d) l = Ok (map (fun v => Sym v t) l)) as H.
    { induction l as [|v l IH]; intros Hl; [done|]. cbn [rmapM map]. unfold get_symbol at 1, ditem.
      replace (dget (d_types d) v) with (Some t) by (symmetry; apply In_dget; [apply W|apply Hl; by left]). cbn [rbind]. rewrite IH; [done|]. intros u Hu. apply Hl. by right. }
    apply H. intros v Hin. unfold names in Hin. by apply elem_of_list_filter in Hin as [? _]. }
  split.
  - destruct (support_bounded fl d s W HB) as (s' & E & HR). exists s'. split; [done|]. unfold pa_volume. rewrite E. unfold bool_vars, real_vars. cbn [rbind].
    rewrite !Hv. cbn [rbind]. rewrite !Hs. cbn [rbind]. rewrite ?Hs. done.
  - unfold pa_volume, support_of, bool_vars, real_vars. cbn [rbind]. rewrite !Hv. cbn [rbind]. rewrite !Hs. cbn [rbind]. rewrite ?Hs. done.
Qed.
Print Assumptions C66_pa.

(** MPWMIEngine with a solver that computes volumes [V]: the volume is that of the
    restricted support, and the probability of a query the ratio of the volumes with and
    without it, when the volume is not zero. *)
Theorem C66_mpwmi fl mp V d s w : wf_domain d -> float_bounds fl d -> volume_like V ->
  (forall s queries, mp s w queries = Ok (V s w, map (fun q => V (AndN [s; q]) w) queries)) ->
  exists s', restricted d s s' /\ mp_volume fl mp true d s w = Ok (V s' w) /\
    (V s' w <> 0%Qc -> forall queries,
       mp_probabilities fl mp true d s w queries = Ok (map (fun q => (V (AndN [s'; q]) w / V s' w)%Qc) queries)).
Proof.
  intros W HB HV Hmp. destruct (support_bounded fl d s W HB) as (s' & E & HR). exists s'. split; [done|]. split.
  - unfold mp_volume. rewrite E. cbn [rbind]. by rewrite Hmp.
  - intros Hn queries. unfold mp_probabilities. rewrite E. cbn [rbind]. rewrite Hmp. cbn [rbind fst snd].
    induction queries as [|q queries IH]; [done|]. cbn [rmapM map]. rewrite decide_False by done. cbn [rbind]. by rewrite IH.
Qed.
Print Assumptions C66_mpwmi.
(** The restricted supports all have the same volume. *)
Theorem C66_restricted_volume V d s s1 s2 w : volume_like V -> (forall e, exists b, eval e s = Some (VB b)) ->
  restricted d s s1 -> restricted d s s2 -> V s1 w = V s2 w.
Proof.
  intros HV Hs H1 H2. apply HV. intros e. destruct (Hs e) as [b Hb]. destruct (H1 e b Hb) as [_ E1], (H2 e b Hb) as [_ E2]. by rewrite E1, E2.
Qed.
Print Assumptions C66_restricted_volume.

(** A volume for the examples: how often a formula holds at four points. *)
Definition point (a : bool) (x : Qc) : env := Env (fun _ => a) (fun _ => x).
Definition points : list env := [point true 0%Qc; point false 1%Qc; point true (qz 3); point false (qz (-5))].
Definition counts (s w : fm) : Qc := qz (Z.of_nat (length (filter (fun e => eval e s = Some (VB true)) points))).
Lemma counts_volume : volume_like counts.
Proof.
  intros s s' w H. unfold counts. do 3 f_equal. induction points as [|e l IH]; [done|]. rewrite !filter_cons.
  destruct (decide (eval e s = _)) as [E|E].
  - rewrite decide_True by (by apply H). by rewrite IH.
  - rewrite decide_False by (by intros E'; apply E, H). done.
Qed.
Lemma ex_dom_floats : float_bounds id ex_dom.
Proof. done. Qed.
Example C66_mpwmi_case : wf_domain ex_dom /\ float_bounds id ex_dom /\ volume_like counts /\
  counts (Sym "a" TBool) (RealC 1) = qz 2.
Proof. split_and!; [exact ex_dom_wf|done|exact counts_volume|]. apply Qc_is_canon. vm_compute. done. Qed.

(** A volume of zero is a ZeroDivisionError instead of None. *)
Theorem C66_mpwmi_zero_refuted fl mp d s w s' q queries vs : support_of fl true d s = Ok s' ->
  mp s' w (q :: queries) = Ok (0%Qc, vs) -> vs <> [] ->
  mp_probabilities fl mp true d s w (q :: queries) = Err ZeroDivisionError.
Proof.
  intros E Hm Hv. unfold mp_probabilities. rewrite E. cbn [rbind]. rewrite Hm. cbn [rbind fst snd]. destruct vs as [|v vs]; [done|]. cbn [rmapM]. by rewrite decide_True.
Qed.
Print Assumptions C66_mpwmi_zero_refuted.
Example C66_mpwmi_zero_case : exists s', support_of id true ex_dom (BoolC false) = Ok s' /\ counts s' (RealC 1) = 0%Qc.
Proof.
  destruct (support_bounded id ex_dom (BoolC false) ex_dom_wf ex_dom_floats) as (s' & E & HR). exists s'. split; [done|].
  unfold counts. assert (filter (fun e => eval e s' = Some (VB true)) points = []) as ->; [|done].
  induction points as [|e l IH]; [done|]. rewrite filter_cons, decide_False; [done|]. intros H. by apply (HR e false eq_refl) in H as [? _].
Qed.

(** PraiseEngine with a solver that computes ratios of volumes [V]: the volume returned is
    1 whatever the problem, and the bounds of the domain are never used. *)
Theorem C66_praise_refuted praise V add_bounds add_bounds' d d' s w queries : volume_like V -> V s w <> 0%Qc ->
  (forall s w q, praise s w q = Ok (V (AndN [s; q]) w / V s w)%Qc) ->
  praise_volume praise add_bounds d s w = Ok 1%Qc /\
  praise_probabilities praise add_bounds d s w queries = praise_probabilities praise add_bounds' d' s w queries.
Proof.
  intros HV Hn HP. split; [|done]. unfold praise_volume. rewrite HP.
  replace (V (AndN [s; BoolC true]) w) with (V s w); [f_equal; by apply Qcmult_inv_r|]. apply HV. intros e. cbn.
  destruct (eval e s) as [[b|q]|]; cbn; [by rewrite andb_true_r|done|done].
Qed.
Print Assumptions C66_praise_refuted.
Example C66_praise_case : counts (OrN [Sym "a" TBool; NotN (Sym "a" TBool)]) (RealC 1) = qz 4 /\ qz 4 <> 1%Qc.
Proof. split; [apply Qc_is_canon; vm_compute; done|]. intros H. by apply (f_equal this) in H. Qed.

(** * Reading the output of XADD *)

(** What is found in any output. *)
Theorem C66_xadd_found (out : text) : exists first lines rs,
  out = joined first lines /\ newline ∉ first /\ Forall (fun l => newline ∉ l) lines /\
  results_read lines rs /\ findall (S (length out)) out = rs.
Proof. exact (findall_read out). Qed.
Print Assumptions C66_xadd_found.
Theorem C66_xadd_found_unique lines rs rs' : results_read lines rs -> results_read lines rs' -> rs = rs'.
Proof. exact (read_unique lines rs rs'). Qed.
Print Assumptions C66_xadd_found_unique.

(** The engine returns every result, in order, when results are on lines of their own with
    other lines between them. *)
Theorem C66_xadd_partial float_of run s w queries first lines rs :
  run s w queries = Output (joined first lines) -> newline ∉ first -> Forall (fun l => newline ∉ l) lines ->
  results lines rs -> spaced lines ->
  call_wmi float_of run s w queries =
    (let! qs := rmapM (fun r : list ascii * list ascii =>
       match float_of (match queries with Some _ => fst r | None => snd r end) with Some q => Ok q | None => Err ValueError end) rs in
     Ok (Some qs)).
Proof.
  intros Hr Hf HL HR Hsp. unfold call_wmi. rewrite Hr. rewrite (joined_lines lines rs); [done|by apply spaced_read|done|done|lia].
Qed.
Print Assumptions C66_xadd_partial.

(** The volume is the second number of the first result, if there is one; nothing else is
    needed of the output than a line behind that result. *)
Theorem C66_xadd_volume fl float_of run d s w s' add_bounds first before l a b after_ m :
  support_of fl add_bounds d s = Ok s' -> run s' w None = Output (joined first (before ++ l :: m :: after_)) ->
  newline ∉ first -> Forall (fun l => newline ∉ l) (before ++ l :: m :: after_) ->
  Forall (fun k => forall a b, ~ result_line k a b) before -> result_line l a b ->
  (forall t, exists q, float_of t = Some q) ->
  exists q, float_of b = Some q /\ xadd_volume float_of run fl add_bounds d s w = Ok (Some q).
Proof.
  intros Hs Hr Hf HL HB Hl Hfl. destruct (read_some after_) as [rs Hrs].
  assert (results_read (before ++ l :: m :: after_) ((a, b) :: rs)) as HR.
  { clear Hr HL. induction HB as [|k ks Hk HB IH]; [by constructor|]. cbn [app] in *. destruct ks as [|k' ks]; cbn [app] in *; by constructor. }
  destruct (Hfl b) as [q Hq]. exists q. split; [done|]. unfold xadd_volume. rewrite Hs. cbn [rbind]. unfold call_wmi. rewrite Hr.
  rewrite (joined_lines _ _ HR) by (done || lia). cbn [rmapM snd]. rewrite Hq. cbn [rbind].
  assert (exists qs, rmapM (fun m0 : text * text => match float_of m0.2 with Some q0 => Ok q0 | None => Err ValueError end) rs = Ok qs) as [qs ->]; [|done].
  clear -Hfl. induction rs as [|r rs [qs IH]]; [by eexists|]. cbn [rmapM]. destruct (Hfl r.2) as [q ->]. cbn [rbind]. rewrite IH. by eexists.
Qed.
Print Assumptions C66_xadd_volume.
(** Without a result, and when the program fails or takes too long, the volume is None. *)
Theorem C66_xadd_none fl float_of run d s w s' add_bounds : support_of fl add_bounds d s = Ok s' ->
  match run s' w None with
  | Output out => exists first lines, out = joined first lines /\ newline ∉ first /\
      Forall (fun l => newline ∉ l) lines /\ results lines []
  | Failed | TimedOut => True
  end ->
  xadd_volume float_of run fl add_bounds d s w = Ok None.
Proof.
  intros Hs H. unfold xadd_volume, call_wmi. rewrite Hs. cbn [rbind]. destruct (run s' w None) as [out| |]; [|done|done].
  destruct H as (first & lines & -> & Hf & HL & HR). rewrite (joined_lines lines []); [done| |done|done|lia].
  clear -HR. remember [] as rs eqn:E. induction HR as [|l ls rs Hl HR IH|]; [constructor| |done]. destruct ls; [subst; constructor|]. constructor; [done|by apply IH].
Qed.
Print Assumptions C66_xadd_none.

Definition chars (s : string) : list ascii := list_ascii_of_string s.
Ltac member := first [apply elem_of_list_here|apply elem_of_list_further; member].
Lemma half_numeral : numeral (chars "0.5").
Proof.
  exists [], (chars "0"), (chars "5"), [], [], []. split_and!; try done; try member; repeat constructor; unfold digit; try member.
Qed.
Lemma one_numeral : numeral (chars "-1.0E-2").
Proof.
  exists (chars "-"), (chars "1"), (chars "0"), (chars "E"), (chars "-"), (chars "2").
  split_and!; try done; try member; repeat constructor; unfold digit; try member.
Qed.
Definition line : list ascii := chars "0.5 -1.0E-2".
Lemma line_result : result_line line (chars "0.5") (chars "-1.0E-2").
Proof. split_and!; [done|exact half_numeral|exact one_numeral]. Qed.
Lemma not_result l : match_here (newline :: l ++ [newline]) = None -> forall a b, ~ result_line l a b.
Proof. change newline with nl. intros H a b HR. by rewrite (match_complete _ _ _ [] HR) in H. Qed.
Example C66_xadd_case : let lines := [chars "Academic license"; line; []; line; chars "done"] in
  results lines [(chars "0.5", chars "-1.0E-2"); (chars "0.5", chars "-1.0E-2")] /\ spaced lines /\
  Forall (fun l => newline ∉ l) lines.
Proof.
  assert (forall a b, ~ result_line [] a b) as N1 by (by apply not_result).
  assert (forall a b, ~ result_line (chars "Academic license") a b) as N2 by (by apply not_result).
  assert (forall a b, ~ result_line (chars "done") a b) as N3 by (by apply not_result).
  pose proof line_result as L. split_and!.
  - apply rs_other; [done|]. apply rs_result; [done|]. apply rs_other; [done|]. apply rs_result; [done|]. apply rs_other; [done|]. constructor.
  - cbn [spaced]. split_and!; try done. all: try (intros (a & b & H); by apply N2 in H || by apply N1 in H).
  - repeat constructor; cbn; unfold newline; by apply (bool_decide_unpack _).
Qed.

(** Of two results on consecutive lines the second is lost. *)
Theorem C66_xadd_refuted float_of run s w queries q :
  run s w (Some queries) = Output (joined (chars "log") [line; line; []]) -> float_of (chars "0.5") = Some q ->
  results [line; line; []] [(chars "0.5", chars "-1.0E-2"); (chars "0.5", chars "-1.0E-2")] /\
  call_wmi float_of run s w (Some queries) = Ok (Some [q]).
Proof.
  intros Hr Hq. pose proof line_result as L. split.
  - apply rs_result; [done|]. apply rs_result; [done|]. apply rs_other; [by apply not_result|constructor].
  - unfold call_wmi. rewrite Hr. rewrite (joined_lines [line; line; []] [(chars "0.5", chars "-1.0E-2")]).
    + cbn [rmapM fst]. by rewrite Hq.
    + eapply rr_result; [done|constructor].
    + by apply (bool_decide_unpack _).
    + repeat constructor; by apply (bool_decide_unpack _).
    + lia.
Qed.
Print Assumptions C66_xadd_refuted.
Example C66_xadd_refuted_case : exists (float_of : text -> option Qc) (run : fm -> fm -> option (list fm) -> ran),
  run (BoolC true) (RealC 1) (Some [BoolC true; BoolC true]) = Output (joined (chars "log") [line; line; []]) /\ float_of (chars "0.5") = Some 1%Qc.
Proof. by exists (fun _ => Some 1%Qc), (fun _ _ _ => Output (joined (chars "log") [line; line; []])). Qed.

(** When the program takes too long, asking for probabilities is a TypeError. *)
Theorem C66_xadd_timeout_refuted fl float_of run d s w s' add_bounds q queries : support_of fl add_bounds d s = Ok s' ->
  run s' w None = TimedOut -> xadd_probabilities float_of run fl add_bounds d s w (q :: queries) = Err TypeError.
Proof. intros Hs Hr. unfold xadd_probabilities, xadd_volume, call_wmi. rewrite Hs. cbn [rbind]. by rewrite Hr. Qed.
Print Assumptions C66_xadd_timeout_refuted.
