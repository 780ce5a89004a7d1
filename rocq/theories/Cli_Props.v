(** C53: the engine options of the command line. *)

From Verif Require Import Base Dict Cli_Model Cli_Spec.

Section Lemmas.
  Variable py_int : string -> option Z.
  Notation option_of := (option_of py_int).
  Notation parse_option := (parse_option py_int).

  Lemma parse_option_ok W o n v : option_of o n v -> parsed W n -> parse_option W o = Ok (Some (n, v), []).
  Proof.
    intros Ho (Hn & H1 & H2 & H3 & H4). destruct Ho as [s z Hz|s z Hz|s z Hz|s|s|s z Hz|s| | | | | | | | | | | |]; unfold Cli_Model.parse_option.
    all: unfold starts; cbn [String.append String.prefix ascii_dec]; cbn.
    all: assert (forall u, String.prefix "" u = true) as Hpre by (by intros []); rewrite ?Hpre.
    all: try (unfold to_int; rewrite Hz).
    all: try (rewrite (bool_decide_eq_true_2 _ Hn)).
    all: repeat match goal with
      | |- context [@bool_decide (?x = ?y) ?d] =>
          let b := eval vm_compute in (@bool_decide (x = y) d) in
          match b with true => idtac | false => idtac end;
          change (@bool_decide (x = y) d) with b; cbn [andb orb]
      end.
    all: try done.
    - rewrite bool_decide_eq_false_2 by auto. done.
    - by rewrite bool_decide_eq_false_2 by auto.
    - by rewrite bool_decide_eq_true_2 by auto.
    - by rewrite bool_decide_eq_true_2 by auto.
    - by rewrite bool_decide_eq_true_2 by auto.
  Qed.

  Lemma last_value_app l n kv : last_value (l ++ [kv]) n = if decide (kv.1 = n) then Some kv.2 else last_value l n.
  Proof.
    unfold last_value. rewrite filter_app. cbn. unfold filter. cbn. destruct (decide (kv.1 = n)).
    - rewrite last_snoc. done.
    - by rewrite app_nil_r.
  Qed.

  Lemma parse_loop_ok W l : forall done d,
    Forall (fun t => option_of t.1.1 t.1.2 t.2 /\ parsed W t.1.2) l ->
    (forall n, dget d n = last_value done n) ->
    exists d', parse_loop py_int W (map (fun t => t.1.1) l) d = Ok d' /\
      (forall n, dget d' n = last_value (done ++ map (fun t => (t.1.2, t.2)) l) n) /\
      (forall n, n ∈ dkeys d' -> n ∈ dkeys d \/ n ∈ map (fun t => t.1.2) l).
  Proof.
    induction l as [|[[o n] v] l IH]; intros done d Hl Hd.
    { exists d. split; [reflexivity|]. split; [by rewrite app_nil_r|auto]. }
    apply Forall_cons in Hl as [[Ho Hp] Hl]. cbn [map fst snd] in *. cbn [parse_loop].
    rewrite (parse_option_ok _ _ _ _ Ho Hp). cbn [rbind fold_left].
    rewrite bool_decide_eq_true_2 by apply Hp.
    destruct (IH (done ++ [(n, v)]) (dset d n v) Hl) as (d' & Hd' & Hv & Hk).
    { intros k. rewrite dget_dset, last_value_app. cbn. destruct (decide (n = k)); [done|apply Hd]. }
    exists d'. split; [done|]. split.
    - intros k. by rewrite Hv, <- app_assoc.
    - intros k Hin. apply Hk in Hin as [Hin|Hin].
      + apply elem_of_dkeys_dset in Hin as [->|Hin]; [|by left]. right. apply elem_of_cons. by left.
      + right. apply elem_of_cons. by right.
  Qed.
End Lemmas.

(** Options an engine accepts are all set, the last value of each one counts; [l]
    lists option strings with the engine options they ask for. *)
Theorem options_honoured_partial py_int whitelist l :
  Forall (fun t => option_of py_int t.1.1 t.1.2 t.2 /\ parsed whitelist t.1.2) l ->
  exists d, parse_options py_int (map (fun t => t.1.1) l) whitelist = Ok d /\
    forall n, dget d n = last_value (map (fun t => (t.1.2, t.2)) l) n.
Proof.
  intros Hl. destruct (parse_loop_ok py_int whitelist l [] [] Hl) as (d & Hd & Hv & _); [done|]. by exists d.
Qed.
Print Assumptions options_honoured_partial.
Definition dec_int (s : string) : option Z :=
  if bool_decide (s = "10"%string) then Some 10%Z else if bool_decide (s = "2"%string) then Some 2%Z
  else if bool_decide (s = "7"%string) then Some 7%Z else None.
Example options_honoured_example :
  parse_options dec_int ["n10"; "s10"]%string ["sample_count"; "seed"]%string =
    Ok [("sample_count", VInt 10); ("seed", VInt 10)]%string /\
  option_of dec_int "n10" "sample_count" (VInt 10) /\ parsed ["sample_count"; "seed"]%string "sample_count".
Proof.
  split; [by vm_compute|]. split; [apply (oo_samples dec_int "10" 10); by vm_compute|].
  split; [apply elem_of_cons; by left|]. done.
Qed.

(** Whatever is accepted is an option string, starts with r where reductions can be
    chosen, or starts with (un)factorized. *)
Theorem unknown_options_rejected_partial py_int whitelist o d :
  parse_options py_int [o] whitelist = Ok d ->
  (exists n v, option_of py_int o n v) \/ (starts "r" o = true /\ "reduce"%string ∈ whitelist) \/
  starts "factorized" o = true \/ starts "unfactorized" o = true.
Proof.
  unfold parse_options. cbn [parse_loop]. unfold parse_option.
  assert (forall c, starts (String c "") o = true -> exists s, o = String c s /\ rest o = s) as Hstart.
  { intros c. destruct o as [|a s]; unfold starts; cbn; [done|]. destruct (ascii_dec c a) as [->|]; [|done]. by exists s. }
  destruct (starts "t" o) eqn:E1.
  { destruct (Hstart _ E1) as (s & -> & _). cbn [rest]. unfold to_int. destruct (py_int s) as [z|] eqn:Ez; [|done]. intros _. left.
    eexists _, _. by apply (oo_timeout _ s z). }
  destruct (starts "s" o) eqn:E2; cbn [andb].
  { destruct (Hstart _ E2) as (s & -> & _). destruct (bool_decide ("seed"%string ∈ whitelist)).
    - cbn [rest]. unfold to_int. destruct (py_int s) as [z|] eqn:Ez; [|done]. intros _. left. eexists _, _. by apply (oo_seed _ s z).
    - cbn. done. }
  destruct (starts "n" o) eqn:E3.
  { destruct (Hstart _ E3) as (s & -> & _). cbn [rest]. unfold to_int. destruct (py_int s) as [z|] eqn:Ez; [|done]. intros _. left.
    eexists _, _. by apply (oo_samples _ s z). }
  destruct (starts "m" o) eqn:E4.
  { destruct (Hstart _ E4) as (s & -> & _). intros _. left. eexists _, _. apply (oo_mode _ s). }
  destruct (starts "r" o && bool_decide ("reduce"%string ∈ whitelist)) eqn:E5.
  { apply andb_true_iff in E5 as [E5 E6]. apply bool_decide_eq_true in E6. intros _. right. by left. }
  destruct (starts "b" o && bool_decide ("backend"%string ∈ whitelist)) eqn:E6.
  { apply andb_true_iff in E6 as [E6 _]. destruct (Hstart _ E6) as (s & -> & _). intros _. left. eexists _, _. apply (oo_backend _ s). }
  destruct (starts "b" o && bool_decide ("sample_count_build"%string ∈ whitelist)) eqn:E7.
  { apply andb_true_iff in E7 as [E7 _]. destruct (Hstart _ E7) as (s & -> & _). cbn [rest]. unfold to_int.
    destruct (py_int s) as [z|] eqn:Ez; [|done]. intros _. left. eexists _, _. by apply (oo_build _ s z). }
  destruct (starts "v" o && bool_decide ("balance"%string ∈ whitelist)) eqn:E8.
  { apply andb_true_iff in E8 as [E8 _]. destruct (Hstart _ E8) as (s & -> & _). intros _. left. eexists _, _. apply (oo_balance _ s). }
  destruct (bool_decide_reflect (o = "min"%string)) as [->|_]; [by cbn in E4|]. cbn [andb].
  destruct (bool_decide_reflect (o = "pint"%string)) as [->|_]; [intros _; left; eexists _, _; constructor|].
  destruct (starts "factorized" o || starts "unfactorized" o) eqn:E9.
  { apply orb_true_iff in E9 as [E9|E9]; intros _; right; right; auto. }
  destruct (bool_decide_reflect (o = "prune"%string)) as [->|_]; [intros _; left; eexists _, _; constructor|].
  destruct (bool_decide_reflect (o = "order"%string)) as [->|_]; [intros _; left; eexists _, _; constructor|].
  destruct (bool_decide_reflect (o = "collapse"%string)) as [->|_]; [intros _; left; eexists _, _; constructor|].
  destruct (bool_decide_reflect (o = "cache"%string)) as [->|_]; [intros _; left; eexists _, _; constructor|].
  destruct (bool_decide_reflect (o = "repeated"%string)) as [->|_]; [intros _; left; eexists _, _; constructor|].
  done.
Qed.
Print Assumptions unknown_options_rejected_partial.
Example unknown_option_example : parse_options dec_int ["x10"]%string ["timeout"]%string = Err ValueError.
Proof. by vm_compute. Qed.

(** ** Whole descriptions *)

(** For a description name:option:...:option with options that reach the engine, the
    named engine is built with exactly those options (the sampling engines need a
    sample count). *)
Theorem engine_options_honoured_partial py_int description name l c names :
  split_on ":" description = name :: map (fun t => t.1.1) l -> reaches (lower name) = Some (c, names) ->
  Forall (fun t => option_of py_int t.1.1 t.1.2 t.2 /\ t.1.2 ∈ names) l ->
  (c = REJ \/ c = ADAPT -> "sample_count"%string ∈ map (fun t => t.1.2) l) ->
  exists kw, get_engine py_int description = Ok (Some (Engine c kw None)) /\
    forall n, dget kw n = last_value (map (fun t => (t.1.2, t.2)) l) n.
Proof.
  intros Hs Hr Hl Hreq. unfold get_engine. rewrite Hs. unfold reaches in Hr.
  assert (forall W, (forall n, n ∈ names -> parsed W n) ->
    exists d, parse_options py_int (map (fun t => t.1.1) l) W = Ok d /\
      (forall n, dget d n = last_value (map (fun t => (t.1.2, t.2)) l) n) /\ (forall n, n ∈ dkeys d -> n ∈ names)) as Hp.
  { intros W HW. destruct (parse_loop_ok py_int W l [] []) as (d & Hd & Hv & Hk); [|done|].
    - eapply Forall_impl; [exact Hl|]. intros t [H1 H2]. split; [done|by apply HW].
    - exists d. split; [done|]. split; [done|]. intros n Hn. apply Hk in Hn as [Hn|Hn]; [by apply elem_of_nil in Hn|].
      apply elem_of_list_fmap in Hn as (t & -> & Ht). rewrite Forall_forall in Hl. by apply Hl. }
  assert (forall d, (forall n, dget d n = last_value (map (fun t => (t.1.2, t.2)) l) n) ->
    c = REJ \/ c = ADAPT -> "sample_count"%string ∈ dkeys d) as Hsc.
  { intros d Hd Hc. apply dget_is_Some. rewrite Hd. specialize (Hreq Hc). clear -Hreq.
    assert (forall l' : list (string * optval), "sample_count"%string ∈ map fst l' -> is_Some (last_value l' "sample_count")) as H.
    { intros l'. induction l' as [|kv l' IH] using rev_ind; [intros H; by apply elem_of_nil in H|].
      rewrite map_app, elem_of_app, last_value_app. intros [H|H%elem_of_list_singleton].
      - destruct (decide _); [by eexists|by apply IH].
      - cbn in H. rewrite decide_True by done. by eexists. }
    apply H. by rewrite map_map. }
  assert (forall d b, (forall n, n ∈ dkeys d -> n ∈ names) -> (forall n, n ∈ names -> n ∈ (parameters c).1) ->
    (forall n, n ∈ (parameters c).2 -> n ∈ dkeys d) -> construct c d b = Ok (Engine c d b)) as Hc.
  { intros d b H1 H2 H3. unfold construct. destruct (parameters c) as [acc req]. cbn in *.
    assert (forallb (fun n => bool_decide (n ∈ acc)) (dkeys d) = true) as ->.
    { apply forallb_forall. intros n Hn. apply bool_decide_eq_true, H2, H1. by apply elem_of_list_In. }
    assert (forallb (fun n => bool_decide (n ∈ dkeys d)) req = true) as ->; [|done].
    apply forallb_forall. intros n Hn. apply bool_decide_eq_true, H3. by apply elem_of_list_In. }
  Local Ltac memb := let n := fresh in let H := fresh in intros n H; cbn in H |- *; rewrite ?elem_of_cons, ?elem_of_nil in *; naive_solver.
  Local Ltac pars := let n := fresh in let H := fresh in intros n H; unfold parsed; rewrite ?elem_of_cons, ?elem_of_nil in *; naive_solver.
  destruct (decide (lower name = "pa"%string)) as [Hn|H1].
  { injection Hr as <- <-. rewrite Hn, bool_decide_eq_true_2 by done.
    destruct (Hp ["timeout"%string]) as (d & Hd & Hv & Hk); [pars|]. rewrite Hd. cbn [rbind].
    rewrite (Hc d None Hk); [|memb|memb]. cbn. by exists d. }
  rewrite (bool_decide_eq_false_2 _ H1).
  destruct (decide (lower name = "mpwmi"%string)) as [Hn|H2].
  { injection Hr as <- <-. rewrite (bool_decide_eq_true_2 _ Hn).
    destruct (Hp ["cache"%string]) as (d & Hd & Hv & Hk); [pars|]. rewrite Hd. cbn [rbind].
    rewrite (Hc d None Hk); [|memb|memb]. cbn. by exists d. }
  rewrite (bool_decide_eq_false_2 _ H2).
  destruct (decide (lower name = "rej"%string)) as [Hn|H3].
  { injection Hr as <- <-. rewrite (bool_decide_eq_true_2 _ Hn).
    destruct (Hp ["sample_count"; "seed"]%string) as (d & Hd & Hv & Hk); [pars|]. rewrite Hd. cbn [rbind].
    rewrite (Hc d None Hk); [|memb|]; [cbn; by exists d|].
    intros n. cbn. rewrite elem_of_list_singleton. intros ->. apply Hsc; [done|by left]. }
  rewrite (bool_decide_eq_false_2 _ H3).
  destruct (decide (lower name = "adapt"%string)) as [Hn|H4].
  { injection Hr as <- <-. rewrite (bool_decide_eq_true_2 _ Hn).
    destruct (Hp ["sample_count"; "seed"]%string) as (d & Hd & Hv & Hk); [pars|]. rewrite Hd. cbn [rbind].
    rewrite (Hc d None Hk); [|memb|]; [cbn; by exists d|].
    intros n. cbn. rewrite elem_of_list_singleton. intros ->. apply Hsc; [done|by right]. }
  rewrite (bool_decide_eq_false_2 _ H4).
  destruct (decide (lower name = "xadd"%string)) as [Hn|H5].
  { injection Hr as <- <-. rewrite (bool_decide_eq_true_2 _ Hn).
    destruct (Hp ["mode"; "timeout"]%string) as (d & Hd & Hv & Hk); [pars|]. rewrite Hd. cbn [rbind].
    rewrite (Hc d None Hk); [|memb|memb]. cbn. by exists d. }
  rewrite (bool_decide_eq_false_2 _ H5).
  destruct (decide (lower name = "xsdd"%string)) as [Hn|H6]; [|done].
  injection Hr as <- <-. rewrite Hn. rewrite !bool_decide_eq_false_2 by done. rewrite bool_decide_eq_true_2 by done.
  destruct (Hp ["backend"; "factorized"; "find_conflicts"; "ordered"; "balance"; "minimize"]%string) as (d & Hd & Hv & Hk); [pars|].
  rewrite Hd. cbn [rbind].
  assert ("backend"%string ∉ dkeys d) as Hb.
  { intros Hb. apply Hk in Hb. rewrite ?elem_of_cons, ?elem_of_nil in Hb. naive_solver. }
  assert (dget d "backend"%string = None) as Hb' by by apply dget_None.
  rewrite Hb'. cbn [rbind].
  assert (ddel d "backend"%string = d) as ->.
  { clear -Hb. induction d as [|[k v] d IH]; [done|]. cbn in *. rewrite not_elem_of_cons in Hb. destruct Hb as [Hb1 Hb2].
    rewrite decide_False by congruence. by rewrite IH. }
  rewrite (Hc d None Hk); [|memb|memb]. cbn. by exists d.
Qed.
Print Assumptions engine_options_honoured_partial.
Example engine_example : get_engine dec_int "Rej:n10:s10" =
    Ok (Some (Engine REJ [("sample_count", VInt 10); ("seed", VInt 10)]%string None)) /\
  get_engine dec_int "xsdd:prune:order" =
    Ok (Some (Engine XSDD [("find_conflicts", VFlag true); ("ordered", VFlag true)]%string None)).
Proof. by vm_compute. Qed.

Lemma parse_loop_wf py_int W os : forall d d', dwf d -> parse_loop py_int W os d = Ok d' -> dwf d'.
Proof.
  induction os as [|o os IH]; intros d d' Hd; cbn; [by intros [= <-]|].
  destruct (parse_option py_int W o) as [[nv side]|]; [|done]. cbn [rbind]. apply IH.
  assert (dwf (fold_left (fun d kv => dset d kv.1 kv.2) side d)) as Hw.
  { revert d Hd. induction side as [|kv side IHs]; intros d Hd; [done|]. cbn. by apply IHs, dwf_dset. }
  destruct nv as [[n v]|]; [|done]. case_bool_decide; [by apply dwf_dset|done].
Qed.

(** The integrator named by the last b option reaches the xsdd engine, beside the
    other options. *)
Theorem backend_honoured_partial py_int description name l s b :
  split_on ":" description = name :: map (fun t => t.1.1) l -> lower name = "xsdd"%string ->
  Forall (fun t => option_of py_int t.1.1 t.1.2 t.2 /\ t.1.2 ∈ ["backend"; "find_conflicts"; "ordered"]%string) l ->
  last_value (map (fun t => (t.1.2, t.2)) l) "backend" = Some (VStr s) -> backend_of py_int (split_on "." s) b ->
  exists kw, get_engine py_int description = Ok (Some (Engine XSDD kw (Some b))) /\
    forall n, dget kw n = if decide (n = "backend"%string) then None else last_value (map (fun t => (t.1.2, t.2)) l) n.
Proof.
  intros Hs Hn Hl Hb Hbo. unfold get_engine. rewrite Hs, Hn. rewrite !bool_decide_eq_false_2 by done.
  rewrite bool_decide_eq_true_2 by done.
  destruct (parse_loop_ok py_int ["backend"; "factorized"; "find_conflicts"; "ordered"; "balance"; "minimize"]%string l [] [])
    as (d & Hd & Hv & Hk); [|done|].
  { eapply Forall_impl; [exact Hl|]. intros t [H1 H2]. split; [done|]. revert H2. generalize (t.1.2). pars. }
  unfold parse_options. rewrite Hd. cbn [rbind]. rewrite (Hv "backend"%string). cbn [app]. rewrite Hb. cbn [rbind].
  assert (get_backend py_int s = Ok b) as ->.
  { unfold get_backend, to_int. destruct Hbo; cbn;
      repeat match goal with H : py_int _ = Some _ |- _ => rewrite H; clear H end; done. }
  cbn [rbind].
  assert (forall n, dget (ddel d "backend"%string) n =
    if decide (n = "backend"%string) then None else last_value (map (fun t => (t.1.2, t.2)) l) n) as Hdel.
  { intros n. rewrite (dget_ddel d) by (eapply parse_loop_wf; [|exact Hd]; apply dwf_nil).
    destruct (decide _) as [<-|Hnb]; [by rewrite decide_True|]. rewrite decide_False by done. by rewrite (Hv n). }
  exists (ddel d "backend"%string). split; [|done].
  unfold construct. cbn [parameters].
  assert (forallb (fun n => bool_decide (n ∈ ["algebra"; "find_conflicts"; "ordered"; "vtree_strategy"; "minimize"]%string))
    (dkeys (ddel d "backend"%string)) = true) as ->; [|done].
  apply forallb_forall. intros n Hin. apply elem_of_list_In in Hin. apply bool_decide_eq_true.
  assert (n <> "backend"%string) as Hnb.
  { intros ->. apply dget_is_Some in Hin. rewrite Hdel in Hin. rewrite decide_True in Hin by done. by destruct Hin. }
  apply dkeys_ddel_subseteq in Hin.
  apply Hk in Hin as [Hin|Hin]; [by apply elem_of_nil in Hin|].
  apply elem_of_list_fmap in Hin as (t & -> & Ht). rewrite Forall_forall in Hl. destruct (Hl t Ht) as [_ Hm].
  rewrite ?elem_of_cons, ?elem_of_nil in *. naive_solver.
Qed.
Print Assumptions backend_honoured_partial.
Example backend_example : get_engine dec_int "xsdd:prune:brej.10.2.7" =
    Ok (Some (Engine XSDD [("find_conflicts", VFlag true)]%string (Some (RejInt 10 2 (Some 7%Z))))) /\
  backend_of dec_int (split_on "." "rej.10.2.7") (RejInt 10 2 (Some 7%Z)).
Proof. split; [by vm_compute|]. by apply (bo_rej_seed dec_int "10" 10%Z "2" 2%Z "7" 7%Z). Qed.

(** ** Where the property fails *)

(** Every command line accepted: minimisation can never be switched on. *)
Theorem minimize_never_set py_int whitelist os d :
  parse_options py_int os whitelist = Ok d -> dget d "minimize"%string = None.
Proof.
  unfold parse_options. assert (forall os d0 d, dget d0 "minimize"%string = None ->
    parse_loop py_int whitelist os d0 = Ok d -> dget d "minimize"%string = None) as H; [|by apply H].
  clear. induction os as [|o os IH]; intros d0 d Hd0; cbn [parse_loop]; [by intros [= <-]|].
  destruct (parse_option py_int whitelist o) as [[nv side]|] eqn:Ep; cbn [rbind]; [|done].
  assert ((forall n v, nv = Some (n, v) -> n <> "minimize"%string) /\ (forall k v, (k, v) ∈ side -> k = "algebra"%string)) as [Hnv Hside].
  { revert Ep. unfold parse_option, to_int.
    assert (o = "min"%string -> starts "m" o = true) as Hmin by (by intros ->).
    repeat match goal with
    | |- context [if ?b then _ else _] => destruct b eqn:?
    | |- context [match py_int ?x with _ => _ end] => destruct (py_int x)
    | |- context [match split_on ?c ?x with _ => _ end] => destruct (split_on c x) as [|? [|? ?]]
    end; cbn [rbind]; intros Heq; try discriminate Heq; injection Heq as <- <-; split; intros ? ? Hx;
      try discriminate Hx; try (injection Hx as <- <-; discriminate);
      try (by apply elem_of_nil in Hx); try (apply elem_of_list_singleton in Hx; congruence);
      match goal with H : (bool_decide (o = "min"%string) && _)%bool = true |- _ =>
        apply andb_true_iff in H as [H _]; apply bool_decide_eq_true in H; apply Hmin in H; congruence end. }
  apply IH. clear IH Ep.
  assert (dget (fold_left (fun d kv => dset d kv.1 kv.2) side d0) "minimize"%string = None) as Hf.
  { revert d0 Hd0. induction side as [|[k v] side IHs]; intros d0 Hd0; [done|]. cbn. apply IHs.
    - intros k' v' Hin. apply (Hside k' v'), elem_of_cons. by right.
    - rewrite dget_dset, decide_False; [done|]. rewrite (Hside k v); [done|]. apply elem_of_cons. by left. }
  destruct nv as [[n v]|]; [|done]. destruct (bool_decide _); [|done].
  rewrite dget_dset, decide_False; [done|]. by apply (Hnv n v).
Qed.
Print Assumptions minimize_never_set.
Theorem minimize_ignored_refuted : forall py_int,
  option_of py_int "min" "minimize" (VFlag true) /\ get_engine py_int "xsdd:min" = Ok (Some (Engine XSDD [] None)).
Proof. intros py_int. split; [constructor|by vm_compute]. Qed.
Print Assumptions minimize_ignored_refuted.

(** The reduction strategies never reach PyXaddEngine, and misspelt ones are accepted. *)
Theorem reduce_strategy_ignored_refuted : forall py_int,
  option_of py_int "rfull" "reduce_strategy" (VReduce true true true) /\
  get_engine py_int "pyxadd:rfull" = Ok (Some (Engine PYXADD [] None)) /\
  get_engine py_int "pyxadd:rfulll" = Ok (Some (Engine PYXADD [] None)).
Proof. intros py_int. split; [constructor|by vm_compute]. Qed.
Print Assumptions reduce_strategy_ignored_refuted.

(** The options factorized and balance of XSDD are parsed, but no constructor takes
    them; an option that only starts like a known one is accepted. *)
Theorem xsdd_options_raise_refuted : forall py_int,
  get_engine py_int "xsdd:factorized" = Err TypeError /\ get_engine py_int "xsdd:vmin" = Err TypeError /\
  parse_options py_int ["factorizedfoo"%string] ["factorized"%string] = Ok [("factorized"%string, VFlag true)].
Proof. intros py_int. by vm_compute. Qed.
Print Assumptions xsdd_options_raise_refuted.

(** An unknown engine is no error here. *)
Theorem unknown_engine_is_none : forall py_int, get_engine py_int "foo:n10" = Ok None.
Proof. intros py_int. by vm_compute. Qed.
