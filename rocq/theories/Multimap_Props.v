(** C52: flattening a multimap. *)

From Verif Require Import Base Dict Multimap_Model.

Section C52.
  Context {K V : Type} `{EqDecision K} `{EqDecision V}.
  Implicit Types (m : multimap K V).

  (** Multimaps a program can hold: built from the empty one by operations. *)
  Definition mm_reachable m : Prop := exists os, m = fold_left mm_step os [].

  (** [v] is one of the values of [k]. *)
  Definition holds m (k : K) (v : V) : Prop := exists vs, dget m k = Some vs /\ v ∈ vs.

  (** Every key has exactly one value. *)
  Definition singletons m : Prop := forall k vs, dget m k = Some vs -> exists v, vs = [v].

  Definition mm_inv m : Prop := dwf m /\ forall k vs, (k, vs) ∈ m -> NoDup vs.

  Lemma mm_inv_dset m k vs : mm_inv m -> NoDup vs -> mm_inv (dset m k vs).
  Proof.
    intros [H1 H2] Hn. split; [by apply dwf_dset|]. intros k' vs' Hin.
    pose proof (In_dget _ _ _ (dwf_dset _ k vs H1) Hin) as Hg. rewrite dget_dset in Hg.
    destruct (decide (k = k')); [by injection Hg as <-|]. apply (H2 k'). by apply dget_In.
  Qed.

  Lemma flatten_loop_keys m d : dkeys (flatten_loop m d).1 = dkeys m.
  Proof.
    revert d. induction m as [|[k [|v [|w vs]]] m IH]; intros d; try done. cbn.
    specialize (IH (dset d k v)). destruct (flatten_loop m (dset d k v)) as [m' r]. cbn in *. by rewrite IH.
  Qed.
  Lemma flatten_loop_sub m d k vs : (k, vs) ∈ (flatten_loop m d).1 -> vs = [] \/ (k, vs) ∈ m.
  Proof.
    revert d. induction m as [|[k' [|v [|w vs']]] m IH]; intros d; try (intros H; by right).
    cbn. specialize (IH (dset d k' v)). destruct (flatten_loop m (dset d k' v)) as [m' r]. cbn in *.
    intros H. apply elem_of_cons in H as [[= -> ->]|H]; [by left|].
    destruct (IH H) as [?|?]; [by left|right; by right].
  Qed.

  Lemma mm_inv_step m o : mm_inv m -> mm_inv (mm_step m o).
  Proof.
    intros Hi. destruct o as [k|k v|]; cbn [mm_step].
    - unfold mm_get. destruct (dget m k); [done|]. cbn. apply mm_inv_dset; [done|constructor].
    - unfold mm_add, mm_get. destruct (dget m k) as [vs|] eqn:E.
      + apply mm_inv_dset; [done|]. apply dget_In in E. pose proof (proj2 Hi _ _ E) as Hn.
        case_bool_decide as Hv; [done|]. apply NoDup_app. split; [done|]. split; [|apply NoDup_singleton].
        intros x Hx Hx'. apply elem_of_list_singleton in Hx' as ->. done.
      + apply mm_inv_dset; [apply mm_inv_dset; [done|constructor]|].
        case_bool_decide; [constructor|apply NoDup_singleton].
    - split.
      + unfold dwf, flatten. rewrite flatten_loop_keys. apply Hi.
      + intros k vs Hin. apply flatten_loop_sub in Hin as [->|Hin]; [constructor|]. by apply (proj2 Hi k).
  Qed.

  Lemma mm_reachable_inv m : mm_reachable m -> mm_inv m.
  Proof.
    intros [os ->]. assert (forall m, mm_inv m -> mm_inv (fold_left mm_step os m)) as H; [|apply H; split; [constructor|]].
    - induction os as [|o os IH]; intros m Hm; [done|]. cbn. apply IH. by apply mm_inv_step.
    - intros k vs Hin. by apply elem_of_nil in Hin.
  Qed.

  Lemma flatten_loop_ok m d : dwf m -> (forall k, k ∈ dkeys d -> k ∉ dkeys m) ->
    (forall k vs, (k, vs) ∈ m -> exists v, vs = [v]) ->
    exists d', (flatten_loop m d).2 = Ok d' /\
      (forall k v, dget d' k = Some v <-> dget d k = Some v \/ dget m k = Some [v]) /\ dwf m.
  Proof.
    revert d. induction m as [|[k vs] m IH]; intros d Hwf Hd Hs.
    - exists d. split; [done|]. split; [|done]. intros k v. cbn. naive_solver.
    - destruct (Hs k vs) as [v ->]; [by left|]. cbn. unfold dwf in Hwf. cbn in Hwf.
      apply NoDup_cons in Hwf as [Hk Hwf].
      destruct (IH (dset d k v)) as (d' & Hd' & Hg & _); [done| |by intros k' vs' Hin; apply (Hs k'); right|].
      { intros k' Hk'. apply elem_of_dkeys_dset in Hk' as [->|Hk']; [done|].
        specialize (Hd k' Hk'). cbn in Hd. rewrite not_elem_of_cons in Hd. apply Hd. }
      exists d'. destruct (flatten_loop m (dset d k v)) as [m' r]. cbn in *. split; [done|].
      split; [|by apply NoDup_cons]. intros k' v'. rewrite Hg, dget_dset.
      destruct (decide (k = k')) as [<-|Hne].
      + assert (dget m k = None) as Hmk by (by apply dget_None).
        assert (dget d k = None) as Hdk.
        { apply dget_None. intros Hin. apply (Hd k Hin). by left. }
        rewrite Hmk, Hdk. naive_solver.
      + done.
  Qed.

  Lemma flatten_loop_bad m d k vs : (k, vs) ∈ m -> (forall v, vs <> [v]) -> (flatten_loop m d).2 = Err ValueError.
  Proof.
    revert d. induction m as [|[k' [|v [|w vs']]] m IH]; intros d Hin Hb; try done.
    - by apply elem_of_nil in Hin.
    - apply elem_of_cons in Hin as [[= <- ->]|Hin]; [by destruct (Hb v)|]. cbn.
      specialize (IH (dset d k' v) Hin Hb). by destruct (flatten_loop m (dset d k' v)).
  Qed.

  (** Flattening a multimap whose values are singletons returns the corresponding
      map: [k] is mapped to [v] exactly when the multimap held [v] for [k]. *)
  Theorem flatten_singletons m : mm_reachable m -> singletons m ->
    exists d, (flatten m).2 = Ok d /\ forall k v, dget d k = Some v <-> holds m k v.
  Proof.
    intros Hr Hs. destruct (mm_reachable_inv m Hr) as [Hwf _].
    destruct (flatten_loop_ok m []) as (d & Hd & Hg & _); [done|by intros ? ?%elem_of_nil| |].
    { intros k vs Hin. apply (Hs k). by apply In_dget. }
    exists d. split; [done|]. intros k v. rewrite Hg. cbn. split.
    - intros [?|H]; [done|]. exists [v]. split; [done|by left].
    - intros (vs & H & Hv). right. destruct (Hs k vs H) as [w ->].
      by apply elem_of_list_singleton in Hv as ->.
  Qed.

  (** Otherwise it fails. *)
  Theorem flatten_not_singletons m k vs : mm_reachable m -> dget m k = Some vs -> (forall v, vs <> [v]) ->
    (flatten m).2 = Err ValueError.
  Proof. intros _ Hg Hb. eapply flatten_loop_bad; [by apply dget_In|done]. Qed.

  (** Every member is listed once by [flat_items], and [flat_len] counts them. *)
  Theorem flat_items_each_once m : mm_reachable m ->
    NoDup (flat_items m) /\ (forall k v, (k, v) ∈ flat_items m <-> holds m k v) /\
    flat_len m = length (flat_items m) /\ flat_values m = map snd (flat_items m).
  Proof.
    intros Hr. destruct (mm_reachable_inv m Hr) as [Hwf Hn]. clear Hr. split_and!.
    - unfold flat_items, dwf in *. induction m as [|[k vs] m IH]; cbn in *; [constructor|].
      apply NoDup_cons in Hwf as [Hk Hwf]. apply NoDup_app. split_and!.
      + change (NoDup ((fun v => (k, v)) <$> vs)). apply NoDup_fmap_2_strong; [by intros x y _ _ [= ->]|]. apply (Hn k). by left.
      + intros [k' v'] H1 H2. apply elem_of_list_fmap in H1 as (w & [= -> ->] & _).
        apply elem_of_list_In, in_flat_map in H2 as ([k2 vs2] & Hin & H2). cbn in H2.
        apply in_map_iff in H2 as (w2 & [= -> ->] & _). apply Hk. apply elem_of_list_In.
        apply in_map_iff. by exists (k, vs2).
      + apply IH; [done|]. intros k' vs' Hin. apply (Hn k'). by right.
    - intros k v. unfold flat_items. rewrite elem_of_list_In, in_flat_map. split.
      + intros ([k' vs] & Hin & Hm). cbn in Hm. apply in_map_iff in Hm as (w & [= -> ->] & Hw).
        exists vs. split; [apply In_dget; [done|by apply elem_of_list_In]|by apply elem_of_list_In].
      + intros (vs & Hg & Hv). exists (k, vs). split; [apply elem_of_list_In; by apply dget_In|].
        cbn. apply in_map_iff. exists v. split; [done|by apply elem_of_list_In].
    - unfold flat_len, flat_items. clear.
      assert (forall s, fold_left (fun s (kv : K * list V) => s + length kv.2) m s =
        s + length (flat_map (fun kv : K * list V => map (fun v => (kv.1, v)) kv.2) m)) as H; [|apply (H 0)].
      induction m as [|[k vs] m IH]; intros s; cbn; [lia|]. rewrite IH, app_length, map_length. lia.
    - unfold flat_values, flat_items. clear. induction m as [|[k vs] m IH]; cbn; [done|].
      rewrite map_app, IH, map_map. f_equal. cbn. by rewrite map_id.
  Qed.

  (** Adding puts the value under its key and changes nothing else. *)
  Theorem add_holds m k v : mm_reachable m -> forall k' v',
    holds (mm_add m k v) k' v' <-> holds m k' v' \/ (k' = k /\ v' = v).
  Proof.
    intros _ k' v'. unfold mm_add, mm_get, holds. destruct (dget m k) as [vs|] eqn:E; rewrite ?dget_dset.
    - destruct (decide (k = k')) as [<-|Hne].
      + rewrite E. case_bool_decide as Hv.
        * naive_solver.
        * split.
          -- intros (ws & [= <-] & Hw). apply elem_of_app in Hw as [Hw|Hw]; [left; eauto|].
             apply elem_of_list_singleton in Hw as ->. by right.
          -- intros [(ws & [= <-] & Hw)|[_ ->]]; (eexists; split; [done|]); apply elem_of_app; [by left|right; by left].
      + naive_solver.
    - destruct (decide (k = k')) as [<-|Hne].
      + rewrite E. case_bool_decide as Hv; [by apply elem_of_nil in Hv|]. cbn. split.
        * intros (ws & [= <-] & Hw). apply elem_of_list_singleton in Hw as ->. by right.
        * intros [(ws & ? & _)|[_ ->]]; [done|]. eexists. split; [done|by left].
      + naive_solver.
  Qed.
End C52.
Print Assumptions flatten_singletons.
Print Assumptions flatten_not_singletons.
Print Assumptions flat_items_each_once.
Print Assumptions add_holds.

Definition mm_example : multimap nat string :=
  fold_left mm_step [MAdd 1 "a"%string; MAdd 2 "b"%string; MAdd 1 "a"%string] [].
Example mm_example_ok : mm_reachable mm_example /\ singletons mm_example /\
  (flatten mm_example).2 = Ok [(1, "a"%string); (2, "b"%string)].
Proof.
  split; [by eexists|]. split; [|done]. intros k vs Hg. apply dget_In, elem_of_list_In in Hg.
  vm_compute in Hg. destruct Hg as [[= <- <-]|[[= <- <-]|[]]]; eauto.
Qed.
Example mm_example_bad : (flatten (mm_add mm_example 2 "c"%string)).2 = Err ValueError.
Proof. done. Qed.

(** Flattening is not repeatable: it takes the members out of the multimap, so the
    same call fails the second time, and a call that fails has already emptied the
    sets of the keys before the offending one. *)
Theorem flatten_consumes_refuted :
  exists m : multimap nat string, mm_reachable m /\ singletons m /\ is_ok (flatten m).2 = true /\
    (flatten (flatten m).1).2 = Err ValueError /\ flat_items (flatten m).1 = [].
Proof. exists mm_example. split; [apply mm_example_ok|]. split; [apply mm_example_ok|]. done. Qed.
Print Assumptions flatten_consumes_refuted.

Theorem failed_flatten_loses_members_refuted :
  exists (m : multimap nat string) k v, mm_reachable m /\ holds m k v /\
    (flatten m).2 = Err ValueError /\ ~ holds (flatten m).1 k v.
Proof.
  exists (mm_add mm_example 2 "c"%string), 1, "a"%string. split.
  { by exists [MAdd 1 "a"%string; MAdd 2 "b"%string; MAdd 1 "a"%string; MAdd 2 "c"%string]. }
  split; [exists ["a"%string]; split; [done|by left]|]. split; [done|].
  intros (vs & Hg & Hv). vm_compute in Hg. injection Hg as <-. by apply elem_of_nil in Hv.
Qed.
Print Assumptions failed_flatten_loses_members_refuted.

(** Merely looking a key up makes flattening fail. *)
Theorem lookup_breaks_flatten_refuted :
  exists (m : multimap nat string) k, mm_reachable m /\ is_ok (flatten m).2 = true /\
    (flatten (mm_step m (MGet k))).2 = Err ValueError.
Proof. exists mm_example, 7. split; [apply mm_example_ok|]. done. Qed.
Print Assumptions lookup_breaks_flatten_refuted.
