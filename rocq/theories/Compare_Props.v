(** C68: the tasks volume, prob and compare of the command line. *)

From Verif Require Import Base Dict Smt Cli_Model Engine_Model Compare_Model Compare_Spec.

(** * Lemmas *)
Ltac qc_eq := vm_compute; repeat first [reflexivity | apply Qc_is_canon; reflexivity | f_equal].
Lemma ask_replies queries e r : ask queries e = r <-> replies e queries r.
Proof.
  unfold ask. split.
  - intros <-. destruct queries as [qs|].
    + destruct (r_probabilities e qs) as [[ps|]|x] eqn:H; by constructor.
    + destruct (r_volume e) as [[v|]|x] eqn:H; by constructor.
  - intros []; by rewrite H.
Qed.

Lemma get_volume_spec queries engines :
  (forall a n, get_volume queries engines = (n, Ok (Some a)) <->
    exists pre e post, engines = map Some pre ++ Some e :: post /\ n = S (length pre) /\
      Forall (fun e => replies e queries (Ok None)) pre /\ replies e queries (Ok (Some a))) /\
  (forall n, get_volume queries engines = (n, Ok None) <->
    exists es, engines = map Some es /\ n = length es /\ Forall (fun e => replies e queries (Ok None)) es) /\
  (forall x n, get_volume queries engines = (n, Err x) <->
    exists pre, Forall (fun e => replies e queries (Ok None)) pre /\
      ((exists post, engines = map Some pre ++ None :: post /\ x = AttributeError /\ n = length pre) \/
       (exists e post, engines = map Some pre ++ Some e :: post /\ replies e queries (Err x) /\ n = S (length pre)))).
Proof.
  induction engines as [|[e|] es (IH1 & IH2 & IH3)]; simpl.
  - split_and!.
    + intros a n. split; [done|]. intros (pre & e & post & H & _). by destruct pre.
    + intros n. split; [|intros (es & H & -> & _); by destruct es].
      intros [= <-]. by exists [].
    + intros x n. split; [done|]. intros (pre & _ & [(post & H & _)|(e & post & H & _)]); by destruct pre.
  - destruct (ask queries e) as [[a|]|x] eqn:Ha.
    + split_and!.
      * intros a' n. split.
        -- intros [= <- <-]. exists [], e, es. split_and!; try done. by apply ask_replies.
        -- intros (pre & e' & post & He & -> & Hp & Hr). destruct pre as [|e0 pre]; simplify_eq/=.
           ++ apply ask_replies in Hr. congruence.
           ++ apply Forall_cons in Hp as [Hp _]. apply ask_replies in Hp. congruence.
      * intros n. split; [done|]. intros ([|e0 pre] & He & -> & Hp); simplify_eq/=.
        apply Forall_cons in Hp as [Hp _]. apply ask_replies in Hp. congruence.
      * intros x n. split; [done|].
        intros ([|e0 pre] & Hp & [(post & He & _)|(e' & post & He & Hr & _)]); simplify_eq/=.
        -- apply ask_replies in Hr. congruence.
        -- apply Forall_cons in Hp as [Hp _]. apply ask_replies in Hp. congruence.
        -- apply Forall_cons in Hp as [Hp _]. apply ask_replies in Hp. congruence.
    + destruct (get_volume queries es) as [m r] eqn:Hg. split_and!.
      * intros a' n. split.
        -- intros [= <- ->]. destruct (IH1 a' m) as [IH _]. destruct (IH eq_refl) as (pre & e' & post & -> & -> & Hp & Hr).
           exists (e :: pre), e', post. split_and!; try done. constructor; [by apply ask_replies|done].
        -- intros (pre & e' & post & He & -> & Hp & Hr). destruct pre as [|e0 pre]; simplify_eq/=.
           ++ apply ask_replies in Hr. congruence.
           ++ apply Forall_cons in Hp as [_ Hp].
              assert ((m, r) = (S (length pre), Ok (Some a'))) as [= -> ->]; [|done].
              apply IH1. by exists pre, e', post.
      * intros n. split.
        -- intros [= <- ->]. destruct (IH2 m) as [IH _]. destruct (IH eq_refl) as (pre & -> & -> & Hp).
           exists (e :: pre). split_and!; try done. constructor; [by apply ask_replies|done].
        -- intros ([|e0 pre] & He & -> & Hp); simplify_eq/=. apply Forall_cons in Hp as [_ Hp].
           assert ((m, r) = (length pre, Ok None)) as [= -> ->]; [|done]. apply IH2. by exists pre.
      * intros x n. split.
        -- intros [= <- ->]. destruct (IH3 x m) as [IH _].
           destruct (IH eq_refl) as (pre & Hp & [(post & -> & -> & ->)|(e' & post & -> & Hr & ->)]); exists (e :: pre).
           ++ split; [constructor; [by apply ask_replies|done]|]. left. by exists post.
           ++ split; [constructor; [by apply ask_replies|done]|]. right. by exists e', post.
        -- intros ([|e0 pre] & Hp & [(post & He & -> & ->)|(e' & post & He & Hr & ->)]); simplify_eq/=.
           ++ apply ask_replies in Hr. congruence.
           ++ apply Forall_cons in Hp as [_ Hp].
              assert ((m, r) = (length pre, Err AttributeError)) as [= -> ->]; [|done].
              apply IH3. exists pre. split; [done|]. left. by exists post.
           ++ apply Forall_cons in Hp as [_ Hp].
              assert ((m, r) = (S (length pre), Err x)) as [= -> ->]; [|done].
              apply IH3. exists pre. split; [done|]. right. by exists e', post.
    + split_and!.
      * intros a' n. split; [done|].
        intros (pre & e' & post & He & -> & Hp & Hr). destruct pre as [|e0 pre]; simplify_eq/=.
        -- apply ask_replies in Hr. congruence.
        -- apply Forall_cons in Hp as [Hp _]. apply ask_replies in Hp. congruence.
      * intros n. split; [done|]. intros ([|e0 pre] & He & -> & Hp); simplify_eq/=.
        apply Forall_cons in Hp as [Hp _]. apply ask_replies in Hp. congruence.
      * intros x' n. split.
        -- intros [= <- <-]. exists []. split; [done|]. right. exists e, es. split_and!; try done. by apply ask_replies.
        -- intros ([|e0 pre] & Hp & [(post & He & -> & ->)|(e' & post & He & Hr & ->)]); simplify_eq/=.
           ++ apply ask_replies in Hr. congruence.
           ++ apply Forall_cons in Hp as [Hp _]. apply ask_replies in Hp. congruence.
           ++ apply Forall_cons in Hp as [Hp _]. apply ask_replies in Hp. congruence.
  - split_and!.
    + intros a n. split; [done|]. intros (pre & e & post & H & _). by destruct pre.
    + intros n. split; [done|]. intros ([|e0 pre] & H & _); done.
    + intros x n. split.
      * intros [= <- <-]. exists []. split; [done|]. left. by exists es.
      * intros ([|e0 pre] & Hp & [(post & He & -> & ->)|(e' & post & He & Hr & ->)]); by simplify_eq/=.
Qed.

Lemma outcomes_spec clock query engines n os :
  outcomes clock query n engines = Ok os <->
  length os = length engines /\
  forall k o, os !! k = Some o -> exists e, engines !! k = Some (Some e) /\
    result_of query e = Ok (o_volume o) /\ o_exact o = r_exact e /\ o_duration o = clock (n + k)%nat.
Proof.
  revert n os. induction engines as [|[e|] es IH]; intros n os; simpl.
  - split; [intros [= <-]; by split|]. intros [H _]. by apply nil_length_inv in H as ->.
  - fold (result_of query e). destruct (result_of query e) as [v|x] eqn:Hv; simpl.
    + destruct (outcomes clock query (S n) es) as [os'|x] eqn:Ho; simpl.
      * pose proof (proj1 (IH _ _) Ho) as [Hl Hk]. split.
        -- intros [= <-]. split; [simpl; by rewrite Hl|]. intros [|k] o; simpl.
           ++ intros [= <-]. exists e. simpl. by rewrite Nat.add_0_r.
           ++ intros H. destruct (Hk _ _ H) as (e' & ? & ? & ? & ?). exists e'. split_and!; try done.
              by rewrite Nat.add_succ_r.
        -- intros [Hl' Hk']. destruct os as [|o os]; [done|].
           destruct (Hk' 0%nat o eq_refl) as (e' & [= <-] & Hv' & Hx & Hd).
           assert (outcomes clock query (S n) es = Ok os) as Ho'.
           { apply IH. split; [by injection Hl'|]. intros k o' H. destruct (Hk' (S k) o' H) as (e'' & ? & ? & ? & Hd').
             exists e''. split_and!; try done. by rewrite Hd', Nat.add_succ_r. }
           rewrite Ho in Ho'. injection Ho' as ->. rewrite Hv in Hv'. injection Hv' as ->.
           rewrite Nat.add_0_r in Hd. destruct o; simpl in *. by subst.
      * split; [done|]. intros [Hl' Hk']. destruct os as [|o os]; [done|].
        assert (outcomes clock query (S n) es = Ok os) as Ho'; [|congruence].
        apply IH. split; [by injection Hl'|]. intros k o' H. destruct (Hk' (S k) o' H) as (e'' & ? & ? & ? & Hd').
        exists e''. split_and!; try done. by rewrite Hd', Nat.add_succ_r.
    + split; [done|]. intros [Hl' Hk']. destruct os as [|o os]; [done|].
      destruct (Hk' 0%nat o eq_refl) as (e' & [= <-] & Hv' & _). congruence.
  - split; [done|]. intros [Hl' Hk']. destruct os as [|o os]; [done|].
    by destruct (Hk' 0%nat o eq_refl) as (e' & ? & _).
Qed.

Lemma elem_of_warnings evs i j :
  In (i, j) (warnings evs) <->
  (i < j)%nat /\ exists a b, evs !! i = Some a /\ evs !! j = Some b /\ disagreement a b = true.
Proof.
  unfold warnings. rewrite filter_In, in_concat. simpl. split.
  - intros [(l & Hl & Hij) Hd]. apply in_map_iff in Hl as (i' & <- & Hi). apply in_map_iff in Hij as (j' & [= -> ->] & Hj).
    apply in_seq in Hj. split; [lia|]. destruct (evs !! i) as [a|], (evs !! j) as [b|]; try done. by exists a, b.
  - intros (Hij & a & b & Ha & Hb & Hd). rewrite Ha, Hb, Hd. split; [|done].
    apply lookup_lt_Some in Hb as Hlt.
    exists (map (pair i) (seq (S i) (length evs - S i))). split.
    + apply in_map_iff. exists i. split; [done|]. apply in_seq. lia.
    + apply in_map. apply in_seq. lia.
Qed.

Lemma disagreement_agree a b : disagreement a b = false <-> agree a b.
Proof.
  unfold disagreement, agree, qmin. rewrite qlt_false. change (Q2Qc (1 # 100000)) with delta.
  assert (0 < delta)%Qc as Hd by reflexivity.
  destruct (qle (qabs a) (qabs b)) eqn:H; [apply qle_spec in H|apply qle_false in H; apply Qclt_le_weak in H];
    (split; [intros Hl; split|intros [? ?]; done]); try done;
    (eapply Qcle_trans; [exact Hl|]); rewrite !(Qcmult_comm delta); apply Qcmult_le_compat_r; try done; by apply Qclt_le_weak.
Qed.

Lemma qabs_nonneg a : (0 <= qabs a)%Qc.
Proof.
  unfold qabs. destruct (qle 0 a) eqn:H; [by apply qle_spec|]. apply qle_false in H. revert H. qclra.
Qed.
Lemma agree_refl a : agree a a.
Proof.
  assert (qabs (a - a) <= Q2Qc (1 # 100000) * qabs a)%Qc; [|done].
  replace (a - a)%Qc with 0%Qc by ring. change (qabs 0) with 0%Qc.
  replace 0%Qc with (0 * qabs a)%Qc at 1 by ring. apply Qcmult_le_compat_r; [done|apply qabs_nonneg].
Qed.
Lemma agree_sym a b : agree a b -> agree b a.
Proof.
  assert (qabs (a - b) = qabs (b - a)) as Hs.
  { unfold qabs. destruct (qle 0 (a - b)) eqn:H1, (qle 0 (b - a)) eqn:H2;
      try (ring; fail).
    - apply qle_spec in H1, H2. apply qcle_antisym; revert H1 H2; qclra.
    - apply qle_false in H1, H2. exfalso. revert H1 H2; qclra. }
  unfold agree. rewrite Hs. by intros [? ?].
Qed.

Lemma warnings_nil evs : warnings evs = [] <-> forall a b, In a evs -> In b evs -> agree a b.
Proof.
  split.
  - intros Hw a b Ha Hb.
    apply elem_of_list_In in Ha as [i Hi]%elem_of_list_lookup_1, Hb as [j Hj]%elem_of_list_lookup_1.
    assert (forall i j a b, (i < j)%nat -> evs !! i = Some a -> evs !! j = Some b -> agree a b) as Hp.
    { clear -Hw. intros i j a b Hij Ha Hb. apply disagreement_agree. apply not_true_is_false. intros Hd.
      assert (In (i, j) (warnings evs)) as Hin by (apply elem_of_warnings; eauto 10). by rewrite Hw in Hin. }
    destruct (lt_eq_lt_dec i j) as [[H| ->]|H]; [by eapply Hp| |apply agree_sym; by eapply Hp].
    rewrite Hi in Hj. injection Hj as ->. apply agree_refl.
  - intros Hall. destruct (warnings evs) as [|[i j] ws] eqn:Hw; [done|exfalso].
    assert (In (i, j) (warnings evs)) as Hin by (rewrite Hw; by left).
    apply elem_of_warnings in Hin as (_ & a & b & Ha & Hb & Hd).
    assert (agree a b) as Hag.
    { apply Hall; apply elem_of_list_In; by eapply elem_of_list_lookup_2. }
    apply disagreement_agree in Hag. congruence.
Qed.

Section Outcomes.
  Context (clock : nat -> Qc) (query : option fm) (engines : list (option runner)) (os : list outcome).
  Hypothesis Hos : outcomes clock query 0 engines = Ok os.
  Local Notation ex := (fun o => if o_exact o then o_volume o else None).
  Lemma exact_outcome k v : (exists o, os !! k = Some o /\ ex o = Some v) <-> exact_answer engines query k v.
  Proof.
    apply outcomes_spec in Hos as [Hl Hk]. split.
    - intros (o & Ho & Hv). destruct (Hk _ _ Ho) as (e & He & Hr & Hx & _). exists e. split_and!; [done| |].
      + rewrite <- Hx. by destruct (o_exact o).
      + rewrite Hr. by destruct (o_exact o); [f_equal|].
    - intros (e & He & Hx & Hr). destruct (lookup_lt_is_Some_2 os k) as [o Ho].
      { rewrite Hl. by eapply lookup_lt_Some. }
      destruct (Hk _ _ Ho) as (e' & He' & Hr' & Hx' & _). rewrite He in He'. injection He' as <-.
      exists o. split; [done|]. rewrite Hx', Hx. rewrite Hr in Hr'. by injection Hr'.
  Qed.
  Lemma in_exact v : In v (exact_volumes os) <-> exists k, exact_answer engines query k v.
  Proof.
    unfold exact_volumes. rewrite <- elem_of_list_In, elem_of_list_omap. split.
    - intros (o & [k Hk]%elem_of_list_lookup_1 & Ho). exists k. apply exact_outcome. by exists o.
    - intros (k & (o & Ho & Hv)%exact_outcome). exists o. split; [by eapply elem_of_list_lookup_2|done].
  Qed.
  Lemma agree_exact : warnings (exact_volumes os) = [] <-> all_agree engines query.
  Proof.
    rewrite warnings_nil. split.
    - intros H j k a b Ha Hb. apply H; apply in_exact; eauto.
    - intros H a b [j Ha]%in_exact [k Hb]%in_exact. by eapply H.
  Qed.
  Lemma head_exact v : head (exact_volumes os) = Some v <-> first_exact engines query v.
  Proof.
    assert (forall l : list outcome, head (omap ex l) = Some v <->
      exists k, (exists o, l !! k = Some o /\ ex o = Some v) /\
        forall j w, (exists o, l !! j = Some o /\ ex o = Some w) -> (k <= j)%nat) as H.
    { induction l as [|o l IH]; simpl.
      - split; [done|]. by intros (k & (o & Ho & _) & _).
      - destruct (ex o) as [u|] eqn:Hu; simpl.
        + split.
          * intros [= ->]. exists 0%nat. split; [by exists o|]. lia.
          * intros (k & (o' & Ho & Hv) & Hk). assert (k <= 0)%nat as Hk0 by (apply (Hk 0%nat u); by exists o).
            destruct k; [|lia]. simpl in Ho. injection Ho as <-. congruence.
        + rewrite IH. split.
          * intros (k & Hv & Hk). exists (S k). split; [done|]. intros [|j] w (o' & Ho' & Hw).
            -- simpl in Ho'. injection Ho' as <-. congruence.
            -- apply le_n_S. apply (Hk j w). by exists o'.
          * intros ([|k] & (o' & Ho & Hv) & Hk).
            -- simpl in Ho. injection Ho as <-. congruence.
            -- exists k. split; [by exists o'|]. intros j w Hj. apply le_S_n. apply (Hk (S j) w Hj). }
    unfold exact_volumes. rewrite H. unfold first_exact. split; intros (k & Hv & Hk); exists k; split.
    - by apply exact_outcome.
    - intros j w Hj. apply (Hk j w). by apply exact_outcome.
    - by apply exact_outcome.
    - intros j w Hj. apply (Hk j w). by apply exact_outcome.
  Qed.
End Outcomes.

(** * The tasks volume and prob *)
Section Tasks.
  Variable py_int : string -> option Z.
  Variable run : engine -> runner.
  Local Notation built := (Forall2 (fun d o => get_engine py_int d = Ok o)).

  Lemma map_some (pre : list runner) (es : list (option engine)) post :
    map (fmap run) es = map Some pre ++ post ->
    exists pre' post', es = map Some pre' ++ post' /\ pre = map run pre' /\ post = map (fmap run) post'.
  Proof.
    revert es. induction pre as [|e pre IH]; intros es; simpl.
    - intros <-. by exists [], es.
    - destruct es as [|[e'|] es]; simpl; try done. intros [= <- H].
      destruct (IH _ H) as (pre' & post' & -> & -> & ->). by exists (e' :: pre'), post'.
  Qed.

  (** C68.  An answer is that of the first engine that has one; the engines before it
      were asked and had none, the ones after it were not asked. *)
  Theorem C68_first_answer queries descriptions n a :
    volume_task py_int run queries descriptions = (n, Ok (Some a)) <->
    exists es pre e post, built descriptions es /\ es = map Some pre ++ Some e :: post /\
      Forall (fun e => replies (run e) queries (Ok None)) pre /\ replies (run e) queries (Ok (Some a)) /\
      n = S (length pre).
  Proof.
    unfold volume_task. split.
    - destruct (rmapM _ descriptions) as [es|] eqn:Hb; [|done]. apply rmapM_Forall2 in Hb.
      intros (pre & e & post & He & -> & Hp & Hr)%get_volume_spec.
      destruct (map_some _ _ _ He) as (pre' & post' & -> & -> & Hpost).
      destruct post' as [|[e'|] post']; simplify_eq/=. exists (map Some pre' ++ Some e' :: post'), pre', e', post'.
      split_and!; try done; [by apply Forall_map in Hp|by rewrite map_length].
    - intros (es & pre & e & post & Hb & -> & Hp & Hr & ->). apply rmapM_Forall2 in Hb. rewrite Hb.
      apply get_volume_spec. exists (map run pre), (run e), (map (fmap run) post). split_and!; try done.
      + by rewrite map_app, !map_map.
      + by rewrite map_length.
      + by apply Forall_map.
  Qed.

  (** "None" is printed only if all the engines were asked and had no answer. *)
  Theorem C68_no_answer queries descriptions n :
    volume_task py_int run queries descriptions = (n, Ok None) <->
    exists es, built descriptions (map Some es) /\ Forall (fun e => replies (run e) queries (Ok None)) es /\
      n = length descriptions.
  Proof.
    unfold volume_task. split.
    - destruct (rmapM _ descriptions) as [es|] eqn:Hb; [|done]. apply rmapM_Forall2 in Hb.
      intros (pre & He & -> & Hp)%get_volume_spec.
      destruct (map_some pre es []) as (pre' & post' & -> & -> & Hpost); [by rewrite app_nil_r|].
      destruct post'; [|done]. rewrite app_nil_r in Hb. exists pre'. split_and!; try done; [by apply Forall_map in Hp|].
      apply Forall2_length in Hb. by rewrite Hb, !map_length.
    - intros (es & Hb & Hp & ->). pose proof (Forall2_length _ _ _ Hb) as Hl. apply rmapM_Forall2 in Hb. rewrite Hb.
      apply get_volume_spec. exists (map run es). split_and!.
      + by rewrite !map_map.
      + by rewrite Hl, !map_length.
      + by apply Forall_map.
  Qed.

  (** The task raises only what building the engines raises (before any is asked), what
      the first engine with no clean reply raises, or AttributeError at an unknown
      engine name. *)
  Theorem C68_exception queries descriptions n x :
    volume_task py_int run queries descriptions = (n, Err x) ->
    (n = 0%nat /\ exists d, d ∈ descriptions /\ get_engine py_int d = Err x) \/
    exists es pre post, built descriptions es /\ Forall (fun e => replies (run e) queries (Ok None)) pre /\
      ((es = map Some pre ++ None :: post /\ x = AttributeError /\ n = length pre) \/
       (exists e, es = map Some pre ++ Some e :: post /\ replies (run e) queries (Err x) /\ n = S (length pre))).
  Proof.
    unfold volume_task. destruct (rmapM _ descriptions) as [es|y] eqn:Hb.
    - apply rmapM_Forall2 in Hb.
      intros (pre & Hp & [(post & He & -> & ->)|(e & post & He & Hr & ->)])%get_volume_spec; right;
        destruct (map_some _ _ _ He) as (pre' & post' & -> & -> & Hpost);
        destruct post' as [|[e'|] post']; simplify_eq/=;
        eexists _, pre', post'; (split_and!; [exact Hb|by apply Forall_map in Hp|]).
      + left. by rewrite map_length.
      + right. exists e'. by rewrite map_length.
    - intros [= <- ->]. left. split; [done|]. clear -Hb. induction descriptions as [|d ds IH]; [done|].
      rewrite rmapM_cons in Hb. destruct (get_engine py_int d) as [o|y] eqn:Hd; simpl in Hb.
      + destruct (rmapM _ ds) eqn:Hds; simpl in Hb; [done|]. injection Hb as ->.
        destruct (IH eq_refl) as (d' & ? & ?). exists d'. split; [by apply elem_of_list_further|done].
      + injection Hb as ->. exists d. split; [apply elem_of_list_here|done].
  Qed.
End Tasks.
Print Assumptions C68_first_answer.
Print Assumptions C68_no_answer.
Print Assumptions C68_exception.

(** Two engines, the first without an answer *)
Example C68_first_answer_ok :
  volume_task (fun _ => None)
    (fun e => match e_class e with
              | XADD => Runner true (Ok None) (fun _ => Ok None) (fun _ => Ok None)
              | _ => Runner true (Ok (Some (qz 3))) (fun _ => Ok None) (fun _ => Ok None) end)
    None ["xadd"; "pa"; "nonsense"]%string = (2%nat, Ok (Some (AVolume (qz 3)))).
Proof. reflexivity. Qed.
Example C68_no_answer_ok :
  volume_task (fun _ => None) (fun e => Runner true (Ok None) (fun _ => Ok None) (fun _ => Ok None))
    None ["xadd"; "praise"]%string = (2%nat, Ok None).
Proof. reflexivity. Qed.
Example C68_exception_ok :
  volume_task (fun _ => None) (fun e => Runner true (Ok None) (fun _ => Ok None) (fun _ => Ok None))
    None ["xadd"; "nonsense"; "pa"]%string = (1%nat, Err AttributeError).
Proof. reflexivity. Qed.

(** "later engines are used if earlier engines fail" is false of the task prob: an engine
    that computes probabilities with the base class (such as XADD) and has no volume
    raises TypeError, and if the problem has no queries it counts as an answer. *)
Theorem C68_prob_refuted vol exact support later :
  vol support = Ok None ->
  (forall q qs, get_volume (Some (q :: qs)) (Some (base_runner vol exact support) :: later) = (1%nat, Err TypeError)) /\
  get_volume (Some []) (Some (base_runner vol exact support) :: later) = (1%nat, Ok (Some (AProbabilities []))) /\
  get_volume None (Some (base_runner vol exact support) :: later)
    = let '(n, r) := get_volume None later in (S n, r).
Proof.
  intros Hv. split_and!.
  - intros q qs. simpl. unfold base_probabilities. rewrite Hv. simpl. done.
  - simpl. unfold base_probabilities. rewrite Hv. done.
  - simpl. rewrite Hv. simpl. by destruct (get_volume None later).
Qed.
Print Assumptions C68_prob_refuted.
Example C68_prob_refuted_ok :
  let xadd := base_runner (fun _ => Ok None) true (BoolC true) in
  let pa := base_runner (fun _ => Ok (Some 1%Qc)) true (BoolC true) in
  get_volume (Some [Sym "a" TBool]) [Some pa] = (1%nat, Ok (Some (AProbabilities [Some 1%Qc]))) /\
  get_volume (Some [Sym "a" TBool]) [Some xadd; Some pa] = (1%nat, Err TypeError).
Proof. split; [|reflexivity]. qc_eq. Qed.

(** * compare *)

(** The table has one line for every engine, with its answer.  The error is that
    relative to the first exact answer if all exact answers agree, and "-" without an exact
    answer, with exact answers that do not agree or if the engine has no answer.  A
    warning is given exactly if two exact answers do not agree. *)
Theorem C68_compare_partial clock query engines ws rows :
  compare clock query engines = Ok (ws, rows) ->
  length rows = length engines /\
  (ws = [] <-> all_agree engines query) /\
  forall k row, rows !! k = Some row ->
    (exists e, engines !! k = Some (Some e) /\ result_of query e = Ok (w_volume row)) /\
    w_duration row = clock k /\
    (forall ev v, all_agree engines query -> first_exact engines query ev -> ev <> 0%Qc -> w_volume row = Some v ->
      w_error row = Some (qabs (v - ev) / qabs ev)%Qc) /\
    (~ all_agree engines query \/ (forall j v, ~ exact_answer engines query j v) \/ w_volume row = None ->
      w_error row = None).
Proof.
  unfold compare. destruct (outcomes clock query 0 engines) as [os|x] eqn:Hos; simpl; [|done].
  intros [= <- <-]. pose proof (proj1 (outcomes_spec _ _ _ _ _) Hos) as [Hl Hk].
  split_and!; [by rewrite map_length|by eapply agree_exact|].
  intros k row. change (map ?f ?l) with (f <$> l). rewrite list_lookup_fmap.
  destruct (os !! k) as [o|] eqn:Ho; simpl; [|done]. intros [= <-]. simpl.
  destruct (Hk _ _ Ho) as (e & He & Hr & Hx & Hd). split_and!; [by exists e|done| |].
  - intros ev v Ha Hf Hz Hv. rewrite (bool_decide_eq_true_2 (warnings _ = [])); [|by eapply agree_exact].
    rewrite (proj2 (head_exact _ _ _ _ Hos ev) Hf), Hv. simpl.
    by rewrite (proj2 (qeq_false ev 0) Hz).
  - intros [Hn|[Hn|Hn]].
    + rewrite bool_decide_eq_false_2; [done|]. intros H. apply Hn. by eapply agree_exact.
    + destruct (exact_volumes os) as [|v vs] eqn:Hev.
      * by destruct (bool_decide _).
      * exfalso. assert (In v (exact_volumes os)) as Hin by (rewrite Hev; by left).
        apply (in_exact _ _ _ _ Hos) in Hin as [j Hj]. by eapply Hn.
    + rewrite Hn. by destruct (if bool_decide _ then _ else _).
Qed.
Print Assumptions C68_compare_partial.

(** An exact engine with answer 2, an approximate one with 3 and one without answer. *)
Definition plain (exact : bool) (v : option Qc) : runner :=
  Runner exact (Ok v) (fun _ => Ok None) (fun _ => Ok v).
Example C68_compare_ok :
  compare (fun n => qn (S n)) None [Some (plain true (Some (qz 2))); Some (plain false (Some (qz 3))); Some (plain true None)]
  = Ok ([], [Row (qz 1) (Some 1%Qc) (Some (qz 2)) (Some 0%Qc);
             Row (qz 2) (Some (qz 2)) (Some (qz 3)) (Some (Q2Qc (1 # 2)));
             Row (qz 3) (Some (qz 3)) None None]).
Proof. qc_eq. Qed.

(** With an exact answer of zero the error of every answer is reported as zero. *)
Theorem C68_zero_refuted clock v :
  exists row row', compare clock None [Some (plain true (Some 0%Qc)); Some (plain false (Some v))] = Ok ([], [row; row']) /\
    w_volume row' = Some v /\ w_error row' = Some 0%Qc.
Proof. eexists _, _. split; [reflexivity|done]. Qed.
Print Assumptions C68_zero_refuted.

(** The warnings name the right engines if all of them are exact and have an answer ... *)
Theorem C68_warning_partial clock query engines ws rows i j :
  (forall k o, engines !! k = Some o -> exists v, exact_answer engines query k v) ->
  compare clock query engines = Ok (ws, rows) ->
  In (i, j) ws <-> (i < j)%nat /\ exists a b, exact_answer engines query i a /\ exact_answer engines query j b /\ ~ agree a b.
Proof.
  intros Hall. unfold compare. destruct (outcomes clock query 0 engines) as [os|x] eqn:Hos; simpl; [|done].
  intros [= <- <-]. rewrite elem_of_warnings.
  assert (forall k v, exact_volumes os !! k = Some v <-> exact_answer engines query k v) as Hk.
  { intros k v. rewrite <- (exact_outcome _ _ _ _ Hos). unfold exact_volumes.
    assert (Forall (fun o => is_Some (if o_exact o then o_volume o else None)) os) as HF.
    { apply Forall_lookup. intros m o Ho. pose proof (proj1 (outcomes_spec _ _ _ _ _) Hos) as [Hl _].
      destruct (lookup_lt_is_Some_2 engines m) as [e He]; [rewrite <- Hl; by eapply lookup_lt_Some|].
      destruct (Hall _ _ He) as [w Hw]. apply (exact_outcome _ _ _ _ Hos) in Hw as (o' & Ho' & Hw).
      rewrite Ho in Ho'. injection Ho' as <-. by exists w. }
    clear -HF. revert k. induction HF as [|o l [w Hw] HF IH]; intros k; simpl.
    - split; [done|]. by intros (o & Ho & _).
    - rewrite Hw. destruct k as [|k]; simpl; [|apply IH]. split.
      + intros [= ->]. by exists o.
      + intros (o' & [= <-] & Hv). congruence. }
  split; intros (Hij & a & b & Ha & Hb & Hd); (split; [done|]); exists a, b; (split_and!; [by apply Hk|by apply Hk|]).
  - intros Hag. apply disagreement_agree in Hag. congruence.
  - apply not_false_is_true. intros Hag. apply Hd. by apply disagreement_agree.
Qed.
Print Assumptions C68_warning_partial.
Example C68_warning_ok :
  compare (fun n => 1%Qc) None [Some (plain true (Some (qz 2))); Some (plain true (Some (qz 3)))]
  = Ok ([(0, 1)%nat], [Row 1 (Some 1%Qc) (Some (qz 2)) None; Row 1 (Some 1%Qc) (Some (qz 3)) None]).
Proof. qc_eq. Qed.

(** ... otherwise they may blame an approximate engine: engines 1 and 2 are exact and do
    not agree, and the warning names engines 0 and 1. *)
Theorem C68_warning_refuted clock v :
  exists rows, compare clock None [Some (plain false v); Some (plain true (Some 1%Qc)); Some (plain true (Some (qz 2)))]
    = Ok ([(0, 1)%nat], rows).
Proof. eexists. reflexivity. Qed.
Print Assumptions C68_warning_refuted.

(** The relative times: relative to the fastest exact engine that answered. *)
Lemma elem_of_durations clock query engines os : outcomes clock query 0 engines = Ok os ->
  forall d, d ∈ exact_durations os <-> exists k v, exact_answer engines query k v /\ clock k = d.
Proof.
  intros Hos d. pose proof (proj1 (outcomes_spec _ _ _ _ _) Hos) as [Hl Hk]. unfold exact_durations.
  rewrite elem_of_list_omap. split.
  - intros (o & Ho & Hd). apply elem_of_list_lookup in Ho as [k Ho]. destruct (Hk _ _ Ho) as (e & He & Hr & Hx & Hc).
    destruct (o_exact o) eqn:Ex; [|done]. destruct (o_volume o) as [v|] eqn:Ev; [|done]. simpl in Hd. injection Hd as <-.
    exists k, v. split; [exists e; by rewrite <- Hx|]. by rewrite Hc.
  - intros (k & v & (e & He & Hx & Hr) & <-). destruct (lookup_lt_is_Some_2 os k) as [o Ho].
    { rewrite Hl. by eapply lookup_lt_Some. }
    destruct (Hk _ _ Ho) as (e' & He' & Hr' & Hx' & Hc). rewrite He in He'. injection He' as <-. rewrite Hr in Hr'. injection Hr' as Hv.
    exists o. split; [by eapply elem_of_list_lookup_2|]. rewrite Hx', Hx, <- Hv. simpl. by rewrite Hc.
Qed.
Lemma fold_qmin ds : forall d, fold_left qmin ds d ∈ d :: ds /\ forall x, x ∈ d :: ds -> (fold_left qmin ds d <= x)%Qc.
Proof.
  induction ds as [|y ds IH]; intros d; simpl.
  - split; [by apply elem_of_list_singleton|]. intros x Hx. apply elem_of_list_singleton in Hx as ->. apply Qcle_refl.
  - destruct (IH (qmin d y)) as [H1 H2].
    assert ((qmin d y = d \/ qmin d y = y) /\ (qmin d y <= d)%Qc /\ (qmin d y <= y)%Qc) as (Hm & Hd & Hy).
    { unfold qmin. destruct (qle d y) eqn:Eq; [apply qle_spec in Eq|apply qle_false in Eq].
      - split; [by left|]. split; [apply Qcle_refl|done].
      - split; [by right|]. split; [by apply Qclt_le_weak|apply Qcle_refl]. }
    split.
    + rewrite !elem_of_cons in *. destruct H1 as [->|H1]; [|tauto]. destruct Hm as [->| ->]; tauto.
    + intros x Hx. rewrite !elem_of_cons in Hx. destruct Hx as [->|[->|Hx]].
      * eapply Qcle_trans; [apply H2, elem_of_cons; by left|done].
      * eapply Qcle_trans; [apply H2, elem_of_cons; by left|done].
      * apply H2, elem_of_cons. by right.
Qed.
Theorem C68_relative_time clock query engines ws rows k row :
  compare clock query engines = Ok (ws, rows) -> rows !! k = Some row ->
  (forall d, (exists j v, exact_answer engines query j v /\ clock j = d) ->
     (forall j v, exact_answer engines query j v -> (d <= clock j)%Qc) -> d <> 0%Qc ->
     w_relative row = Some (clock k / d)%Qc) /\
  ((forall j v, ~ exact_answer engines query j v) -> w_relative row = None).
Proof.
  unfold compare. destruct (outcomes clock query 0 engines) as [os|x] eqn:Hos; simpl; [|done].
  intros [= _ <-]. pose proof (proj1 (outcomes_spec _ _ _ _ _) Hos) as [Hl Hk].
  change (map ?f ?l) with (f <$> l). rewrite list_lookup_fmap. destruct (os !! k) as [o|] eqn:Ho; simpl; [|done].
  intros [= <-]. simpl. destruct (Hk _ _ Ho) as (e & _ & _ & _ & ->). simpl.
  pose proof (elem_of_durations _ _ _ _ Hos) as Hd. split.
  - intros d Hin Hmin Hz. apply Hd in Hin. destruct (exact_durations os) as [|y ds] eqn:Ed; [by apply elem_of_nil in Hin|].
    destruct (fold_qmin ds y) as [H1 H2]. assert (fold_left qmin ds y = d) as ->.
    { apply Qcle_antisym; [by apply H2|]. apply Hd in H1 as (j & v & Hj & <-). by eapply Hmin. }
    simpl. by rewrite (proj2 (qeq_false d 0) Hz).
  - intros Hno. destruct (exact_durations os) as [|y ds] eqn:Ed; [done|]. exfalso.
    destruct (proj1 (Hd y)) as (j & v & Hj & _); [apply elem_of_cons; by left|]. by eapply Hno.
Qed.
Print Assumptions C68_relative_time.
Example C68_relative_time_ok :
  exists ws rows, compare (fun k => match k with 0 => qz 4 | 1 => qz 2 | _ => qz 1 end) None
    [Some (plain true (Some 1%Qc)); Some (plain true (Some 1%Qc)); Some (plain true None)] = Ok (ws, rows) /\
  map w_relative rows = [Some (qz 2); Some (qz 1); Some (Q2Qc (1 # 2))].
Proof. eexists _, _. split; [reflexivity|]. qc_eq. Qed.

(** The probabilities of the base class: quotients of volumes, and none when the support
    has no volume. *)
Theorem C68_base_probabilities vol exact support queries v :
  vol support = Ok (Some v) ->
  ((0 < v)%Qc -> forall ws, Forall2 (fun q w => vol (with_constraint support q) = Ok (Some w)) queries ws ->
     r_probabilities (base_runner vol exact support) queries = Ok (Some (map (fun w => Some (w / v)%Qc) ws))) /\
  ((v <= 0)%Qc -> r_probabilities (base_runner vol exact support) queries = Ok (Some (map (fun _ => None) queries))).
Proof.
  intros Hv. simpl. unfold base_probabilities. rewrite Hv. simpl. split.
  - intros Hp ws Hws. rewrite (proj2 (qlt_spec 0 v) Hp).
    match goal with |- context [rmapM ?f queries] => assert (rmapM f queries = Ok (map (fun w => Some (w / v)%Qc) ws)) as ->; [|done] end.
    induction Hws as [|q w qs ws Hq _ IH]; simpl; [done|]. rewrite Hq. simpl. by rewrite IH.
  - intros Hp. rewrite (proj2 (qlt_false 0 v) Hp).
    match goal with |- context [rmapM ?f queries] => assert (rmapM f queries = Ok (map (fun _ => None) queries)) as ->; [|done] end.
    induction queries as [|q qs IH]; simpl; [done|]. by rewrite IH.
Qed.
Print Assumptions C68_base_probabilities.
Example C68_base_probabilities_ok :
  r_probabilities (base_runner (fun f => Ok (Some (if bool_decide (f = BoolC true) then qz 2 else qz 1))) true (BoolC true)) [Sym "a" TBool]
  = Ok (Some [Some (Q2Qc (1 # 2))]) /\
  r_probabilities (base_runner (fun f => Ok (Some 0%Qc)) true (BoolC true)) [Sym "a" TBool] = Ok (Some [None]).
Proof. split; qc_eq. Qed.

(** A query index that is too large is ignored: volumes are compared.  A negative one counts
    from the end, and is an error if there are not so many queries. *)
Theorem C68_query_index py_int run clock i queries descriptions :
  (forall k q, queries !! k = Some q -> i = Z.of_nat k ->
    compare_task py_int run clock (Some i) queries descriptions
    = let! es := rmapM (get_engine py_int) descriptions in compare clock (Some q) (map (fmap run) es)) /\
  (forall k q, rev queries !! k = Some q -> i = (- Z.of_nat (S k))%Z ->
    compare_task py_int run clock (Some i) queries descriptions
    = let! es := rmapM (get_engine py_int) descriptions in compare clock (Some q) (map (fmap run) es)) /\
  ((i < - Z.of_nat (length queries))%Z ->
    compare_task py_int run clock (Some i) queries descriptions = Err IndexError) /\
  ((Z.of_nat (length queries) <= i)%Z ->
    compare_task py_int run clock (Some i) queries descriptions
    = compare_task py_int run clock None queries descriptions).
Proof.
  unfold compare_task, pick_query. split_and!.
  - intros k q Hq ->. pose proof (lookup_lt_Some _ _ _ Hq). rewrite (proj2 (Z.ltb_lt _ _)); [|lia].
    rewrite (proj2 (Z.ltb_ge (Z.of_nat k) 0)); [|lia].
    rewrite (proj2 (Z.ltb_ge (Z.of_nat k) 0)); [|lia]. by rewrite Nat2Z.id, Hq.
  - intros k q Hq ->. pose proof (lookup_lt_Some _ _ _ Hq) as Hlt. rewrite rev_length in Hlt.
    rewrite (proj2 (Z.ltb_lt _ _)); [|lia]. rewrite (proj2 (Z.ltb_lt (- Z.of_nat (S k)) 0)); [|lia].
    rewrite (proj2 (Z.ltb_ge _ _)); [|lia].
    replace (Z.to_nat (- Z.of_nat (S k) + Z.of_nat (length queries))) with (length queries - S k)%nat by lia.
    assert (queries !! (length queries - S k)%nat = Some q) as ->; [|done].
    rewrite rev_alt in Hq. by apply (reverse_lookup_Some queries) in Hq as [? _].
  - intros Hi. rewrite (proj2 (Z.ltb_lt _ _)); [|lia]. rewrite (proj2 (Z.ltb_lt i 0)); [|lia].
    rewrite (proj2 (Z.ltb_lt _ _)); [done|lia].
  - intros Hi. by rewrite (proj2 (Z.ltb_ge _ _) Hi).
Qed.
Print Assumptions C68_query_index.
Example C68_query_index_ok :
  compare_task (fun _ => None) (fun _ => plain true (Some 1%Qc)) (fun _ => 1%Qc) (Some 5%Z) [Sym "a" TBool] ["pa"%string]
  = Ok ([], [Row 1 (Some 1%Qc) (Some 1%Qc) (Some 0%Qc)]).
Proof. qc_eq. Qed.
