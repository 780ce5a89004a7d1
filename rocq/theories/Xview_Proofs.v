(** Lemmas for C70: the remaining walkers and the dot file. *)

From Verif Require Import Base Dict Smt Smt_Facts Xadd_Model Xadd_Spec Primal_Proofs Xadd_Proofs Xwalk_Proofs Xview_Model Xview_Spec.

Local Arguments Nat.leb : simpl never.
Local Arguments Nat.ltb : simpl never.
Local Arguments Nat.eqb : simpl never.
Local Existing Instance child_dec.

(** * Down and up *)

Section DownUp.
  Context {E Msg B : Type} `{EqDecision Msg} (vt : nat -> E -> Msg -> Res B)
    (vd : nat -> decision -> nat -> nat -> Msg -> Res (Msg * Msg)) (va : nat -> decision -> nat -> nat -> B -> B -> Res B)
    (ns : list (nat * node E)).
  Context (Hns : forall i d ct cf, dget ns i = Some (INode d ct cf) ->
    ct < i /\ cf < i /\ dlt ns ct /\ dlt ns cf /\ ct <> cf).
  Notation visit := (du_visit vt vd va).

  Definition plain (id : nat) (m : Msg) : Res B := let! (_, r) := visit false (S id) ns id m [] in Ok r.

  Lemma uncached n : forall id m c, id < n -> visit false n ns id m c = let! r := plain id m in Ok (c, r).
  Proof.
    induction n as [n IH] using (well_founded_induction lt_wf). intros id m c Hlt. destruct n as [|n]; [lia|].
    assert (forall k c, id <= k -> k <= n -> visit false (S k) ns id m c =
      match dget ns id with
      | None => Err RuntimeErr
      | Some (TNode x) => let! r := vt id x m in Ok (c, r)
      | Some (INode d ct cf) => let! (mt, mf) := vd id d ct cf m in
          let! rt := plain ct mt in let! rf := plain cf mf in let! r := va id d ct cf rt rf in Ok (c, r)
      end) as Hs.
    { intros k c' H1 H2. cbn [du_visit]. destruct (dget ns id) as [[x|d ct cf]|] eqn:En; [done| |done].
      destruct (Hns _ _ _ _ En) as (Ht & Hf & _). destruct (vd id d ct cf m) as [[mt mf]|]; [|done]. cbn [rbind].
      rewrite (IH k) by lia. destruct (plain ct mt) as [rt|]; [|done]. cbn [rbind].
      rewrite (IH k) by lia. by destruct (plain cf mf). }
    unfold plain. rewrite !Hs by lia. destruct (dget ns id) as [[x|d ct cf]|]; [by destruct (vt id x m)| |done].
    destruct (vd id d ct cf m) as [[mt mf]|]; [|done]. cbn [rbind]. destruct (plain ct mt) as [rt|]; [|done]. cbn [rbind].
    destruct (plain cf mf) as [rf|]; [|done]. cbn [rbind]. by destruct (va id d ct cf rt rf).
  Qed.
  Lemma plain_step id m : plain id m =
    match dget ns id with
    | None => Err RuntimeErr
    | Some (TNode x) => vt id x m
    | Some (INode d ct cf) => let! (mt, mf) := vd id d ct cf m in
        let! rt := plain ct mt in let! rf := plain cf mf in va id d ct cf rt rf
    end.
  Proof.
    unfold plain at 1. cbn [du_visit]. destruct (dget ns id) as [[x|d ct cf]|] eqn:En; [by destruct (vt id x m)| |done].
    destruct (Hns _ _ _ _ En) as (Ht & Hf & _). destruct (vd id d ct cf m) as [[mt mf]|]; [|done]. cbn [rbind].
    rewrite uncached by lia. destruct (plain ct mt) as [rt|]; [|done]. cbn [rbind].
    rewrite uncached by lia. destruct (plain cf mf) as [rf|]; [|done]. cbn [rbind]. by destruct (va id d ct cf rt rf).
  Qed.

  Definition cache_ok (c : list ((nat * Msg) * B)) : Prop := forall id m r, dget c (id, m) = Some r -> plain id m = Ok r.
  Lemma cache_ok_dset c id m r : cache_ok c -> plain id m = Ok r -> cache_ok (dset c (id, m) r).
  Proof. intros Hc Hr i k s. rewrite dget_dset. destruct (decide _) as [[= <- <-]|]; [by intros [= <-]|]. apply Hc. Qed.
  Lemma cached n : forall id m c, id < n -> cache_ok c ->
    match plain id m with
    | Ok r => exists c', visit true n ns id m c = Ok (c', r) /\ cache_ok c'
    | Err x => visit true n ns id m c = Err x
    end.
  Proof.
    induction n as [|n IH]; intros id m c Hlt Hc; [lia|]. cbn [du_visit].
    destruct (dget c (id, m)) as [r|] eqn:Eg. { rewrite (Hc _ _ _ Eg). by exists c. }
    pose proof (plain_step id m) as Hp.
    destruct (dget ns id) as [[x|d ct cf]|] eqn:En.
    - rewrite Hp. destruct (vt id x m) as [r|] eqn:Ev; [|done]. cbn [rbind]. eexists. split; [done|]. by apply cache_ok_dset.
    - destruct (Hns _ _ _ _ En) as (Ht & Hf & _). destruct (vd id d ct cf m) as [[mt mf]|]; [|by rewrite Hp]. cbn [rbind] in Hp |- *.
      pose proof (IH ct mt c ltac:(lia) Hc) as H1. destruct (plain ct mt) as [rt|x1]; [|by rewrite H1, Hp].
      destruct H1 as (c1 & -> & Hc1). cbn [rbind] in Hp |- *.
      pose proof (IH cf mf c1 ltac:(lia) Hc1) as H2. destruct (plain cf mf) as [rf|x2]; [|by rewrite H2, Hp].
      destruct H2 as (c2 & -> & Hc2). cbn [rbind] in Hp |- *.
      destruct (va id d ct cf rt rf) as [r|] eqn:Ea; rewrite Hp; [|done]. cbn [rbind]. eexists. split; [done|]. by apply cache_ok_dset.
    - by rewrite Hp.
  Qed.
  Lemma du_walk_plain b root m : du_walk vt vd va b ns root m = plain root m.
  Proof.
    destruct b; [|done]. unfold du_walk. pose proof (cached (S root) root m [] ltac:(lia)) as Hc.
    destruct (plain root m) as [r|x]; [destruct Hc as (c' & -> & _); done|by rewrite Hc].
  Qed.
  Lemma plain_recurses r : forall id m, plain id m = Ok r <-> recurses vt vd va ns id m r.
  Proof.
    intros id m. split.
    - revert m r. induction id as [id IH] using (well_founded_induction lt_wf). intros m r. rewrite plain_step.
      destruct (dget ns id) as [[x|d ct cf]|] eqn:En; [by econstructor| |done]. destruct (Hns _ _ _ _ En) as (Ht & Hf & _).
      destruct (vd id d ct cf m) as [[mt mf]|] eqn:Ed; [|done]. cbn [rbind]. destruct (plain ct mt) as [rt|] eqn:E1; [|done].
      cbn [rbind]. destruct (plain cf mf) as [rf|] eqn:E2; [|done]. cbn [rbind]. intros Ha.
      eapply re_node; [done|done| | |done]; by apply IH.
    - induction 1 as [id x m r En Ev|id d ct cf m mt mf rt rf r En Ed _ IH1 _ IH2 Ha]; rewrite plain_step, En; [done|].
      rewrite Ed. cbn [rbind]. rewrite IH1. cbn [rbind]. by rewrite IH2.
  Qed.
End DownUp.

(** * Top down *)

Section TopDown.
  Context {E : Type} (ns : list (nat * node E)).
  Context (Hns : forall i d ct cf, dget ns i = Some (INode d ct cf) ->
    ct < i /\ cf < i /\ dlt ns ct /\ dlt ns cf /\ ct <> cf).
  Context (choose : nat -> nat).

  (** The loop without the messages *)
  Fixpoint td_order (n step : nat) (ps : list (nat * list nat)) (enabled : list nat) (counts : list (nat * nat)) : Res (list nat) :=
    match n with
    | 0 => Err OutOfFuel
    | S n =>
        match enabled with
        | [] => Ok []
        | first :: _ =>
            let i := choose step mod length enabled in
            let cur := nth i enabled first in
            let enabled := take i enabled ++ drop (S i) enabled in
            match dget ns cur with
            | None => Err RuntimeErr
            | Some (TNode x) => let! o := td_order n (S step) ps enabled counts in Ok (cur :: o)
            | Some (INode d ct cf) =>
                let! (enabled, counts) := td_count ps (enabled, counts) ct in
                let! (enabled, counts) := td_count ps (enabled, counts) cf in
                let! o := td_order n (S step) ps enabled counts in Ok (cur :: o)
            end
        end
    end.

  Lemma pick (l : list nat) k d : l <> [] -> let i := k mod length l in
    l = take i l ++ nth i l d :: drop (S i) l.
  Proof.
    intros Hl i. assert (i < length l) as Hi by (apply Nat.mod_upper_bound; by destruct l).
    destruct (lookup_lt_is_Some_2 l i Hi) as [x Hx]. rewrite nth_lookup, Hx. cbn. symmetry. by apply take_drop_middle.
  Qed.

  Section Messages.
    Context {B : Type} (vt : nat -> E -> list B -> Res unit) (vi : nat -> decision -> nat -> nat -> list B -> Res (B * B)).
    Notation received sent id := (map snd (List.filter (fun im : nat * B => (im.1 =? id)%nat) sent)).

    Lemma received_app (sent : list (nat * B)) more id : received (sent ++ more) id = received sent id ++ received more id.
    Proof. rewrite List.filter_app. apply map_app. Qed.
    Lemma td_message_get (mc : list (nat * list B)) id m k :
      dget (td_message mc id m) k = if decide (id = k) then Some (default [] (dget mc id) ++ [m]) else dget mc k.
    Proof. unfold td_message. by rewrite dget_dset. Qed.
    Lemma td_count_enabled ps en counts c en' counts' : td_count ps (en, counts) c = Ok (en', counts') ->
      forall x, x ∈ en' -> x ∈ en \/ x = c.
    Proof.
      unfold td_count. destruct (dget ps c) as [s|]; [|done]. intros [= <- _] x. destruct (_ && _); [|by left].
      rewrite elem_of_app, elem_of_list_singleton. tauto.
    Qed.

    Lemma td_refines n : forall step ps enabled counts mc sent order,
      td_order n step ps enabled counts = Ok order ->
      (forall id, default [] (dget mc id) = received sent id) -> (forall id, id ∈ enabled -> is_Some (dget mc id)) ->
      td_loop vt vi choose n step ns ps enabled counts mc = top_down_visits vt vi ns order sent.
    Proof.
      induction n as [|n IH]; intros step ps enabled counts mc sent order Ho Hmc Hen; [done|].
      cbn [td_order td_loop] in *. destruct enabled as [|first rest] eqn:Een; [by injection Ho as <-|]. rewrite <- Een in *.
      pose proof (pick enabled (choose step) first ltac:(by rewrite Een)) as Hp. cbn zeta in Hp.
      set (i := choose step mod length enabled) in *. set (cur := nth i enabled first) in *.
      set (en := take i enabled ++ drop (S i) enabled) in *.
      assert (forall x, x ∈ en -> x ∈ enabled) as Hsub.
      { intros x. rewrite Hp. unfold en. rewrite !elem_of_app, elem_of_cons. tauto. }
      destruct (Hen cur) as [ms Hms]. { rewrite Hp. rewrite elem_of_app, elem_of_cons. tauto. }
      rewrite Hms. pose proof (Hmc cur) as Hcur. rewrite Hms in Hcur. cbn [default] in Hcur. change (id ms) with ms in Hcur.
      destruct (dget ns cur) as [[x|d ct cf]|] eqn:En; [| |done].
      - destruct (td_order n (S step) ps en counts) as [o|] eqn:Eo; [|done]. injection Ho as <-. cbn [top_down_visits].
        rewrite En, <- Hcur. destruct (vt cur x ms); [|done]. cbn [rbind]. rewrite app_nil_r.
        rewrite (IH _ _ _ _ _ sent o Eo); [done|done|]. intros y Hy. apply Hen. by apply Hsub.
      - destruct (td_count ps (en, counts) ct) as [[en1 counts1]|] eqn:E1; [|done]. cbn [rbind] in Ho |- *.
        destruct (td_count ps (en1, counts1) cf) as [[en2 counts2]|] eqn:E2; [|done]. cbn [rbind] in Ho |- *.
        destruct (td_order n (S step) ps en2 counts2) as [o|] eqn:Eo; [|done]. injection Ho as <-. cbn [top_down_visits].
        rewrite En, <- Hcur. destruct (vi cur d ct cf ms) as [[mt mf]|]; [|done]. cbn [rbind]. cbn [rbind].
        rewrite (IH _ _ _ _ _ (sent ++ [(ct, mt); (cf, mf)]) o Eo); [done| |].
        + intros y. rewrite received_app, <- Hmc. cbn [List.filter fst]. rewrite td_message_get, td_message_get.
          destruct (Hns _ _ _ _ En) as (_ & _ & _ & _ & Hne).
          destruct (Nat.eqb_spec ct y) as [<-|H1].
          * rewrite (decide_False (P := cf = ct)) by congruence. rewrite td_message_get, decide_True by done.
            destruct (Nat.eqb_spec cf ct); [congruence|]. done.
          * destruct (decide (cf = y)) as [<-|H2].
            -- rewrite decide_False by done. rewrite Nat.eqb_refl. done.
            -- rewrite td_message_get, decide_False by done. destruct (Nat.eqb_spec cf y); [done|]. cbn. by rewrite app_nil_r.
        + intros y Hy. rewrite td_message_get. destruct (decide (cf = y)); [done|]. rewrite td_message_get.
          destruct (decide (ct = y)); [done|]. apply (td_count_enabled _ _ _ _ _ _ E2) in Hy as [Hy| ->]; [|done].
          apply (td_count_enabled _ _ _ _ _ _ E1) in Hy as [Hy| ->]; [|done]. apply Hen. by apply Hsub.
    Qed.
  End Messages.

  Context (root : nat) (Hroot : dlt ns root) (ps : list (nat * list nat)).
  Context (Hsets : sets ps) (Hwf : dwf ps) (Hkeys : forall k, dlt ps k <-> below ns root k)
    (Hrecd : forall q c, recd ps q c <-> below ns root q /\ child ns q c).
  Notation R := (below ns root).
  Notation child := (child ns).

  Definition all_in (D : list nat) (c : nat) : Prop := forall q, R q -> child q c -> q ∈ D.
  (** [D]: the nodes visited so far *)
  Record tinv (D enabled : list nat) (counts : list (nat * nat)) : Prop := {
    t_nd : NoDup D; t_sub : forall q, q ∈ D -> R q;
    t_wnd : NoDup enabled;
    t_en : forall c, c ∈ enabled <-> R c /\ c ∉ D /\ all_in D c;
    t_counts : forall c, default 0 (dget counts c) = length (filter (fun q => child q c) D);
    t_up : forall q, q ∈ D -> all_in D q }.

  Lemma full_set (D : list nat) c s : NoDup D -> (forall q, q ∈ D -> R q) -> dget ps c = Some s ->
    length (filter (fun q => child q c) D) = length s <-> all_in D c.
  Proof.
    intros Hnd Hsub Hs. assert (NoDup s) as Hs' by by eapply Hsets.
    assert (forall q, q ∈ s <-> R q /\ child q c) as Hin.
    { intros q. rewrite <- Hrecd. unfold recd. rewrite Hs. naive_solver. }
    assert (NoDup (filter (fun q => child q c) D)) as Hf by by apply NoDup_filter.
    assert (filter (fun q => child q c) D ⊆+ s) as Hle.
    { apply NoDup_submseteq; [done|]. intros q. rewrite elem_of_list_filter, Hin. intros [? ?]. split; [by apply Hsub|done]. }
    split.
    - intros Hlen q Rq Hc. assert (filter (fun q => child q c) D ≡ₚ s) as Hp.
      { apply submseteq_Permutation_length_eq; [by symmetry|done]. }
      assert (q ∈ filter (fun q => child q c) D) as Hq by (rewrite Hp; by apply Hin). by apply elem_of_list_filter in Hq as [_ ?].
    - intros Ha. apply Nat.le_antisymm; [by apply submseteq_length|]. apply submseteq_length, NoDup_submseteq; [done|].
      intros q Hq. apply Hin in Hq as [? ?]. apply elem_of_list_filter. split; [done|by apply Ha].
  Qed.

  (** One child [c] of [cur], which has just been visited *)
  Lemma td_count_ok D cur c en counts : NoDup (cur :: D) -> (forall q, q ∈ cur :: D -> R q) -> child cur c -> c ∉ en ->
    default 0 (dget counts c) = length (filter (fun q => child q c) D) ->
    exists en', td_count ps (en, counts) c = Ok (en', dset counts c (length (filter (fun q => child q c) (cur :: D)))) /\
      (forall x, x ∈ en' <-> x ∈ en \/ x = c /\ all_in (cur :: D) c) /\ (NoDup en -> NoDup en').
  Proof.
    intros Hnd Hsub Hc Hen Hcount. unfold td_count.
    assert (R c) as Rc. { eapply below_snoc; [|done]. apply Hsub, elem_of_cons. by left. }
    destruct (proj2 (Hkeys c) Rc) as [s Hs]. rewrite Hs, Hcount.
    rewrite filter_cons, decide_True by done. cbn [length]. rewrite bool_decide_false by done. cbn [negb]. rewrite andb_true_r.
    pose proof (full_set (cur :: D) c s Hnd Hsub Hs) as Hfull. rewrite filter_cons, decide_True in Hfull by done. cbn [length] in Hfull.
    eexists. split; [done|]. destruct (Nat.eqb_spec (S (length (filter (fun q => child q c) D))) (length s)) as [Heq|Hne].
    - apply Hfull in Heq. split.
      + intros x. rewrite elem_of_app, elem_of_list_singleton. tauto.
      + intros Hnd'. apply NoDup_app. split; [done|]. split; [|apply NoDup_singleton]. intros x Hx Hxc.
        apply elem_of_list_singleton in Hxc as ->. done.
    - split; [|done]. intros x. split; [tauto|]. intros [?|[_ Ha]]; [done|]. by apply Hfull in Ha.
  Qed.

  Lemma tinv_end D counts : tinv D [] counts -> forall k, R k -> k ∈ D.
  Proof.
    intros K k Hk. destruct (decide (k ∈ D)) as [|Hn]; [done|]. exfalso.
    assert (forall m k, root - k < m -> R k -> k ∉ D -> False) as Hind; [|exact (Hind (S (root - k)) k (Nat.lt_succ_diag_r _) Hk Hn)].
    clear k Hk Hn. induction m as [|m IH]; intros k Hlt Hk Hn; [lia|].
    assert (k ∉ []) as Hnil by apply not_elem_of_nil. apply Hnil. apply (t_en _ _ _ K). split; [done|]. split; [done|].
    intros q Hq Hc. destruct (decide (q ∈ D)) as [HqD|HqD]; [done|]. exfalso.
    apply (IH q); [|done|done]. destruct (child_lt ns Hns q k Hc). apply (below_le ns Hns) in Hq. lia.
  Qed.

  Lemma td_order_ok n : forall step D enabled counts, tinv D enabled counts -> length (dkeys ps) < length D + n ->
    exists o, td_order n step ps enabled counts = Ok o /\ NoDup o /\ (forall k, k ∈ o <-> R k /\ k ∉ D) /\
      forall before id after a, o = before ++ id :: after -> R a -> child a id -> a ∈ D \/ a ∈ before.
  Proof.
    induction n as [|n IH]; intros step D enabled counts K Hlen.
    { assert (length D <= length (dkeys ps)) as Hle; [|lia]. apply submseteq_length, NoDup_submseteq; [apply K|].
      intros q Hq. apply dget_is_Some, Hkeys. by apply (t_sub _ _ _ K). }
    cbn [td_order]. destruct enabled as [|first rest] eqn:Een.
    { exists []. split; [done|]. split; [constructor|]. split.
      - intros k. split; [intros Hk; by apply elem_of_nil in Hk|]. intros [Hk Hn]. by destruct Hn; eapply tinv_end.
      - intros before id after a Heq. by destruct before. }
    rewrite <- Een in *. pose proof (pick enabled (choose step) first ltac:(by rewrite Een)) as Hp. cbn zeta in Hp. clear Een rest.
    set (i := choose step mod length enabled) in *. set (cur := nth i enabled first) in *.
    set (en := take i enabled ++ drop (S i) enabled) in *.
    assert (enabled ≡ₚ cur :: en) as Hperm by (rewrite Hp at 1; unfold en; by rewrite <- Permutation_middle).
    assert (NoDup (cur :: en)) as Hnd by (rewrite <- Hperm; apply K).
    apply NoDup_cons in Hnd as [Hcen Hnden].
    assert (forall x, x ∈ enabled <-> x = cur \/ x ∈ en) as Hen by (intros x; by rewrite Hperm, elem_of_cons).
    destruct (proj1 (t_en _ _ _ K cur) (proj2 (Hen cur) (or_introl eq_refl))) as (Rc & HcD & Hall).
    assert (NoDup (cur :: D)) as HndD by (apply NoDup_cons; split; [done|apply K]).
    assert (forall q, q ∈ cur :: D -> R q) as HsubD.
    { intros q Hq. apply elem_of_cons in Hq as [->|Hq]; [done|]. by apply (t_sub _ _ _ K). }
    assert (forall o, NoDup o -> (forall k, k ∈ o <-> R k /\ k ∉ cur :: D) ->
      (forall before id after a, o = before ++ id :: after -> R a -> child a id -> a ∈ cur :: D \/ a ∈ before) ->
      NoDup (cur :: o) /\ (forall k, k ∈ cur :: o <-> R k /\ k ∉ D) /\
      forall before id after a, cur :: o = before ++ id :: after -> R a -> child a id -> a ∈ D \/ a ∈ before) as Hfin.
    { intros o Ho Hk Hb. split; [|split].
      - apply NoDup_cons. split; [|done]. rewrite Hk, elem_of_cons. tauto.
      - intros k. rewrite elem_of_cons, Hk, elem_of_cons. destruct (decide (k = cur)) as [->|]; tauto.
      - intros before id after a Heq Ra Ca. destruct before as [|b before]; cbn in Heq; injection Heq as <- Heq.
        + left. by apply Hall.
        + destruct (Hb _ _ _ a Heq Ra Ca) as [Ha|Ha]; [apply elem_of_cons in Ha as [->|Ha]|].
          * right. apply elem_of_cons. by left.
          * by left.
          * right. apply elem_of_cons. by right. }
    destruct (below_dlt ns Hns _ _ Hroot Rc) as [nd Hn]. rewrite Hn. destruct nd as [x|d ct cf].
    - assert (forall c, ~ child cur c) as Hno by (intros c (? & ? & ? & Hn' & _); congruence).
      destruct (IH (S step) (cur :: D) en counts) as (o & -> & H1 & H2 & H3).
      { split; [done|done|done| | |].
        - intros c. rewrite elem_of_cons. pose proof (t_en _ _ _ K c) as Hc. rewrite Hen in Hc. split.
          + intros Hce. assert (c <> cur) by congruence. destruct (proj1 Hc (or_intror Hce)) as (? & ? & Ha).
            split; [done|]. split; [tauto|]. intros q Rq Cq. apply elem_of_cons. right. by apply Ha.
          + intros (H1 & H2 & H3). destruct (proj2 Hc) as [->|]; [|tauto|done]. split; [done|]. split; [tauto|].
            intros q Rq Cq. destruct (proj1 (elem_of_cons _ _ _) (H3 q Rq Cq)) as [->|]; [by destruct (Hno c)|done].
        - intros c. rewrite (t_counts _ _ _ K), filter_cons, decide_False by apply Hno. done.
        - intros q Hq r Rr Cr. apply elem_of_cons. right. apply elem_of_cons in Hq as [->|Hq]; [by apply Hall|].
          by apply (t_up _ _ _ K q). }
      { cbn. lia. }
      cbn [rbind]. exists (cur :: o). split; [done|]. by apply Hfin.
    - destruct (Hns _ _ _ _ Hn) as (Hlt1 & Hlt2 & _ & _ & Hne).
      assert (forall c, child cur c <-> c = ct \/ c = cf) as Hch.
      { intros c. split; [intros (? & ? & ? & Hn' & Hc); rewrite Hn in Hn'; by simplify_eq|]. intros Hc. by exists d, ct, cf. }
      assert (forall c, child cur c -> c ∉ D /\ c ∉ enabled) as Hnew.
      { intros c Hc. split.
        - intros HcD'. destruct HcD. by apply (t_up _ _ _ K c).
        - intros Hce. apply (t_en _ _ _ K) in Hce as (_ & _ & Ha). destruct HcD. by apply Ha. }
      assert (forall c, child cur c -> c ∉ en) as Hnew' by (intros c Hc Hce; destruct (Hnew c Hc) as [_ []]; apply Hen; by right).
      destruct (td_count_ok D cur ct en counts HndD HsubD) as (en1 & -> & Hen1 & Hnd1).
      { apply Hch. by left. } { apply Hnew', Hch. by left. } { apply K. }
      cbn [rbind]. destruct (td_count_ok D cur cf en1 (dset counts ct (length (filter (fun q => child q ct) (cur :: D)))) HndD HsubD) as (en2 & -> & Hen2 & Hnd2).
      { apply Hch. by right. }
      { rewrite Hen1. intros [Hc|[Hc _]]; [|congruence]. apply Hnew' in Hc; [done|]. apply Hch. by right. }
      { rewrite dget_dset, decide_False by done. apply K. }
      cbn [rbind].
      destruct (IH (S step) (cur :: D) en2 (dset (dset counts ct (length (filter (fun q => child q ct) (cur :: D)))) cf
        (length (filter (fun q => child q cf) (cur :: D))))) as (o & -> & H1 & H2 & H3).
      { split; [done|done|auto| | |].
        - intros c. rewrite Hen2, Hen1, elem_of_cons. pose proof (t_en _ _ _ K c) as Hc. rewrite Hen in Hc. split.
          + intros [[Hce|[-> Ha]]|[-> Ha]].
            * assert (c <> cur) by congruence. destruct (proj1 Hc (or_intror Hce)) as (? & ? & Ha).
              split; [done|]. split; [tauto|]. intros q Rq Cq. apply elem_of_cons. right. by apply Ha.
            * assert (child cur ct) as Cc by (apply Hch; by left). split; [by eapply below_snoc|]. split; [|done].
              destruct (Hnew ct Cc). intros [->|]; [lia|done].
            * assert (child cur cf) as Cc by (apply Hch; by right). split; [by eapply below_snoc|]. split; [|done].
              destruct (Hnew cf Cc). intros [->|]; [lia|done].
          + intros (H1 & H2 & H3). destruct (decide (child cur c)) as [Cc|Nc].
            * apply Hch in Cc as [->| ->]; tauto.
            * left. left. destruct (proj2 Hc) as [->|]; [|tauto|done]. split; [done|]. split; [tauto|].
              intros q Rq Cq. destruct (proj1 (elem_of_cons _ _ _) (H3 q Rq Cq)) as [->|]; done.
        - intros c. destruct (decide (cf = c)) as [<-|N2]; [by rewrite dget_dset, decide_True|]. rewrite dget_dset, decide_False by done.
          destruct (decide (ct = c)) as [<-|N1]; [by rewrite dget_dset, decide_True|]. rewrite dget_dset, decide_False by done.
          rewrite (t_counts _ _ _ K), filter_cons, decide_False; [done|]. rewrite Hch. intros [?|?]; congruence.
        - intros q Hq r Rr Cr. apply elem_of_cons. right. apply elem_of_cons in Hq as [->|Hq]; [by apply Hall|].
          by apply (t_up _ _ _ K q). }
      { cbn. lia. }
      cbn [rbind]. exists (cur :: o). split; [done|]. by apply Hfin.
  Qed.
End TopDown.

Lemma td_walk_visits {E B} (vt : nat -> E -> list B -> Res unit) (vi : nat -> decision -> nat -> nat -> list B -> Res (B * B))
    choose (ns : list (nat * node E)) root :
  (forall i d ct cf, dget ns i = Some (INode d ct cf) -> ct < i /\ cf < i /\ dlt ns ct /\ dlt ns cf /\ ct <> cf) ->
  dlt ns root -> exists order, top_down_order ns root order /\
    td_walk vt vi choose ns root = top_down_visits vt vi ns order [].
Proof.
  intros Hns Hroot. destruct (parents_ok ns Hns root Hroot) as (ps & Hps & Hsets & Hwf & Hkeys & Hrecd).
  destruct (td_order_ok ns Hns choose root Hroot ps Hsets Hkeys Hrecd (S (length ps)) 0 [] [root] []) as (o & Ho & H1 & H2 & H3).
  { split.
    - constructor.
    - intros q Hq. by apply elem_of_nil in Hq.
    - apply NoDup_singleton.
    - intros c. rewrite elem_of_list_singleton. split.
      + intros ->. split; [constructor|]. split; [apply not_elem_of_nil|]. intros q Hq Hc.
        apply (child_lt ns Hns) in Hc as [Hlt _]. apply (below_le ns Hns) in Hq. lia.
      + intros (Hc & _ & Hall). destruct (below_last ns _ _ Hc) as [?|(q & Hq & Hqc)]; [done|].
        by apply (Hall q Hq), elem_of_nil in Hqc.
    - done.
    - intros q Hq. by apply elem_of_nil in Hq. }
  { unfold dkeys. rewrite map_length. cbn. lia. }
  exists o. split.
  - split; [done|]. split.
    + intros k. rewrite H2. split; [by intros [? _]|]. intros Hk. split; [done|]. apply not_elem_of_nil.
    + intros before k after a Heq Ha Hc. destruct (H3 before k after a Heq Ha) as [Hn|]; [|by apply elem_of_nil in Hn|done].
      done.
  - unfold td_walk. rewrite Hps. cbn [rbind]. apply (td_refines ns Hns choose vt vi _ _ _ _ _ _ [] _ Ho).
    + intros k. cbn. by destruct (decide _).
    + intros k Hk. apply elem_of_list_singleton in Hk as ->. cbn. by rewrite decide_True.
Qed.

(** * Leaves *)

Section Leaves.
  Context {E B : Type} `{EqDecision E} (f : nat -> E -> Res B).
  Notation mapped ns l := (rmapM (fun '(i, x) => f i x) (leaves_of ns l)).

  Lemma leaves_loop_ok root order cs n : forall k (p : pool E), dget (p_profiles p) root = Some (Prof order cs k) ->
    (forall i, i ∈ order -> dlt (p_nodes p) i) -> length order < k + n -> k <= length order ->
    exists q, leaves_loop f n root p = (q, mapped (p_nodes p) (drop k order)) /\ p_nodes q = p_nodes p /\
      (is_ok (mapped (p_nodes p) (drop k order)) = true -> dget (p_profiles q) root = Some (Prof order cs (length order))).
  Proof.
    induction n as [|n IH]; intros k p Hp Hd Hlen Hk; [lia|]. cbn [leaves_loop]. rewrite Hp. cbn [pf_nodes pf_next pf_counts].
    destruct (order !! k) as [i|] eqn:Ei.
    2:{ apply lookup_ge_None in Ei. assert (k = length order) as -> by lia. rewrite drop_all. cbn. by exists p. }
    rewrite (drop_S _ _ _ Ei). set (p1 := set_profile p root (Prof order cs (S k))).
    change (p_nodes p1) with (p_nodes p). destruct (Hd i (elem_of_list_lookup_2 _ _ _ Ei)) as [nd Hn]. rewrite Hn.
    assert (dget (p_profiles p1) root = Some (Prof order cs (S k))) as Hp1 by (cbn; by rewrite dget_dset, decide_True).
    pose proof (lookup_lt_Some _ _ _ Ei) as Hlt.
    destruct (IH (S k) p1 Hp1 Hd ltac:(lia) ltac:(lia)) as (q & Hq & Hnq & Hok). change (p_nodes p1) with (p_nodes p) in *.
    assert (leaves_of (p_nodes p) (i :: drop (S k) order) =
      match nd with TNode x => (i, x) :: leaves_of (p_nodes p) (drop (S k) order) | _ => leaves_of (p_nodes p) (drop (S k) order) end) as Hl.
    { unfold leaves_of. cbn. rewrite Hn. by destruct nd. }
    rewrite Hl. destruct nd as [x|d ct cf]; [|by exists q]. cbn [rmapM]. destruct (f i x) as [y|e] eqn:Ef; cbn [rbind].
    - rewrite Hq. fold (mapped (p_nodes p) (drop (S k) order)).
      destruct (mapped (p_nodes p) (drop (S k) order)) as [ys|e']; cbn [rbind]; by exists q.
    - by exists p1.
  Qed.

  Lemma reset_same (cs : list (nat * (nat * nat))) : (forall k n i, dget cs k = Some (n, i) -> i = 0) -> dwf cs ->
    map (fun kv => (kv.1, (kv.2.1, 0))) cs = cs.
  Proof.
    intros Hz Hw. rewrite <- (map_id cs) at 2. apply map_ext_in. intros [k [n i]] Hin. cbn. apply elem_of_list_In in Hin.
    apply (In_dget _ _ _ Hw) in Hin. by rewrite (Hz _ _ _ Hin).
  Qed.
End Leaves.

(** * The dot file *)

Lemma elem_of_concat70 {A} (k : A) (ls : list (list A)) : k ∈ concat ls <-> exists l, k ∈ l /\ l ∈ ls.
Proof.
  rewrite elem_of_list_In, in_concat. split; intros (l & H1 & H2); exists l; rewrite !elem_of_list_In in *; done.
Qed.

Section Dot.
  Context {E : Type} (ns : list (nat * node E)).
  Context (Hns : forall i d ct cf, dget ns i = Some (INode d ct cf) ->
    ct < i /\ cf < i /\ dlt ns ct /\ dlt ns cf /\ ct <> cf).
  Context (root : nat) (Hroot : dlt ns root).
  Notation R := (below ns root).

  Lemma positions_ok : exists ps pos, parents ns root = Ok ps /\
    layers_loop (S (length ps)) ns ([(root, 0)], ps, [root]) = Ok pos /\ dwf pos /\ (forall k, dlt pos k <-> R k) /\
    forall q c, R q -> child ns q c -> exists a b, dget pos q = Some a /\ dget pos c = Some b /\ a < b.
  Proof.
    destruct (parents_ok ns Hns root Hroot) as (ps & -> & Hsets & Hwf & Hkeys & Hrecd). exists ps.
    destruct (layers_loop_ok ns Hns root Hroot (S (length ps)) [] [] [(root, 0)] ps [root]) as (pos & ps' & D & Ed & -> & K & HR).
    { split.
      - constructor.
      - intros q Hq. by apply elem_of_nil in Hq.
      - done.
      - done.
      - intros q c. rewrite Hrecd. pose proof (not_elem_of_nil (q, c)). tauto.
      - apply NoDup_singleton.
      - intros c. rewrite elem_of_list_singleton. split.
        + intros ->. split; [constructor|]. split; [apply not_elem_of_nil|]. intros q Hq Hc.
          apply (child_lt ns Hns) in Hc as [Hlt _]. apply (below_le ns Hns) in Hq. lia.
        + intros (Hc & _ & Hall). destruct (below_last ns _ _ Hc) as [?|(q & Hq & Hqc)]; [done|].
          by apply Hall, elem_of_nil in Hq.
      - unfold dwf, dkeys. cbn. apply NoDup_singleton.
      - intros c. cbn. destruct (decide (root = c)) as [<-|Hne].
        + split; [by left|by eexists].
        + split; [by intros [? ?]|]. intros [?|[q Hq]]; [congruence|by apply elem_of_nil in Hq].
      - cbn. by rewrite decide_True.
      - intros q c Hq. by apply elem_of_nil in Hq.
      - intros c b. cbn. destruct (decide (root = c)) as [<-|]; [by left|done].
      - intros q Hq. by apply elem_of_nil in Hq.
      - intros q r Hq. by apply elem_of_nil in Hq.
      - intros q c Hq. by apply elem_of_nil in Hq. }
    { intros q c Hq. by apply elem_of_nil in Hq. }
    { unfold dkeys. rewrite map_length. cbn. lia. }
    { done. }
    pose proof (round_end ns Hns root _ _ _ _ K HR) as HD. exists pos. split; [done|]. split; [done|]. split; [apply K|]. split.
    - intros k. split.
      + intros Hk. apply (k_pos _ _ _ _ _ _ _ K) in Hk as [->|[q Hq]]; [constructor|].
        apply (k_ed _ _ _ _ _ _ _ K) in Hq as [Hq Hc]. apply HD in Hq. by eapply below_snoc.
      + intros Hk. apply (k_dpos _ _ _ _ _ _ _ K). by apply HD.
    - intros q c Rq Hc. apply (k_lt _ _ _ _ _ _ _ K). apply HR; [by apply HD|done].
  Qed.
  Lemma layers_groups pos i l : (i, l) ∈ layers pos -> l = group pos i.
  Proof.
    intros Hin. assert (dwf (layers pos)) as Hw by (apply dwf_layers; constructor).
    apply (In_dget _ _ _ Hw) in Hin. unfold layers in Hin. rewrite dget_layers in Hin. cbn [dget] in Hin. unfold group.
    destruct (map _ _); [done|]. cbn in Hin. by simplify_eq.
  Qed.
  Lemma layers_all pos : dwf pos -> NoDup (concat (map snd (layers pos))) /\
    (forall k, k ∈ concat (map snd (layers pos)) <-> dlt pos k).
  Proof.
    intros Hw. assert (map snd (layers pos) = map (group pos) (dkeys (layers pos))) as Heq.
    { unfold dkeys. rewrite map_map. apply map_ext_in. intros [i l] Hin. cbn. apply elem_of_list_In in Hin. by apply layers_groups. }
    rewrite Heq. assert (NoDup (dkeys (layers pos))) as Hnd by (apply dwf_layers; constructor). split.
    - clear Heq. induction (dkeys (layers pos)) as [|i is IH]; [constructor|]. apply NoDup_cons in Hnd as [Hi Hnd]. cbn.
      apply NoDup_app. split; [by apply NoDup_group|]. split; [|by apply IH]. intros k Hk Hk'.
      apply elem_of_group in Hk; [|done]. apply elem_of_concat70 in Hk' as (l & Hkl & Hl).
      apply elem_of_list_fmap in Hl as (j & -> & Hj). apply elem_of_group in Hkl; [|done]. rewrite Hk in Hkl. by simplify_eq.
    - intros k. split.
      + intros Hk. apply elem_of_concat70 in Hk as (l & Hkl & Hl). apply elem_of_list_fmap in Hl as (j & -> & Hj).
        apply elem_of_group in Hkl; [|done]. by eexists.
      + intros [i Hk]. apply elem_of_concat70. exists (group pos i). split; [by apply elem_of_group|].
        apply elem_of_list_fmap. exists i. split; [done|]. apply dget_is_Some. unfold layers. rewrite dget_layers. cbn [dget].
        apply elem_of_group in Hk; [|done]. change (map fst _) with (group pos i).
        destruct (group pos i); [by apply elem_of_nil in Hk|by eexists].
  Qed.
End Dot.

Lemma omap_concat {A B} (f : A -> option B) (ls : list (list A)) : omap f (concat ls) = concat (map (omap f) ls).
Proof. induction ls as [|l ls IH]; [done|]. cbn. by rewrite omap_app, IH. Qed.

Section Statements.
  Context {E : Type} (expr_str : E -> string) (test_str : decision -> string) (py_float : string -> option pyfloat)
    (int_str : Z -> string) (print_ids : bool) (ns : list (nat * node E)).
  (** The statements of a node whose label does not raise *)
  Definition node_dot (id : nat) : list dot :=
    match dget ns id with
    | None => []
    | Some (TNode x) => [DNode id (with_id int_str print_ids id
        match py_float (expr_str x) with Some (FInt z) => int_str z | _ => expr_str x end) true]
    | Some (INode d ct cf) => [DNode id (with_id int_str print_ids id (test_str d)) false; DEdge id ct false; DEdge id cf true]
    end.
  Lemma dot_node_ok id : dlt ns id -> (forall x, dget ns id = Some (TNode x) -> py_float (expr_str x) <> Some FInfinite) ->
    dot_node expr_str test_str py_float int_str print_ids ns id = Ok (node_dot id).
  Proof.
    intros [nd Hn] Hf. unfold dot_node, node_dot. rewrite Hn. destruct nd as [x|d ct cf]; [|done]. unfold leaf_label.
    specialize (Hf x Hn). destruct (py_float (expr_str x)) as [[]|]; done.
  Qed.
  Lemma shown_node id : dlt ns id -> shown_nodes (node_dot id) = [id].
  Proof. intros [nd Hn]. unfold node_dot. rewrite Hn. by destruct nd. Qed.
  Definition edges_of (id : nat) : list (nat * nat * bool) :=
    match dget ns id with Some (INode _ ct cf) => [(id, ct, false); (id, cf, true)] | _ => [] end.
  Lemma shown_edge id : shown_edges (node_dot id) = edges_of id.
  Proof. unfold node_dot, edges_of. by destruct (dget ns id) as [[]|]. Qed.
  Lemma rank_node id : ranks (node_dot id) = [].
  Proof. unfold node_dot. by destruct (dget ns id) as [[]|]. Qed.

  Definition layer_dot (l : list nat) : list dot := concat (map node_dot l) ++ [DRank l].
  Lemma shown_layers (ls : list (list nat)) : (forall id, id ∈ concat ls -> dlt ns id) ->
    let ds := concat (map layer_dot ls) in
    shown_nodes ds = concat ls /\ shown_edges ds = concat (map edges_of (concat ls)) /\ ranks ds = ls /\
    (forall s, (forall l, s <> DRank l) -> s ∈ ds <-> exists id, id ∈ concat ls /\ s ∈ node_dot id).
  Proof.
    induction ls as [|l ls IH]; intros Hd; cbn zeta.
    { split_and!; [done..|]. intros s _. cbn. split; [intros Hs; by apply elem_of_nil in Hs|]. intros (id & Hid & _). by apply elem_of_nil in Hid. }
    cbn [map concat]. destruct IH as (H1 & H2 & H3 & H4). { intros id Hid. apply Hd. cbn. apply elem_of_app. by right. }
    assert (forall id, id ∈ l -> dlt ns id) as Hl by (intros id Hid; apply Hd; cbn; apply elem_of_app; by left).
    assert (shown_nodes (concat (map node_dot l)) = l) as S1.
    { clear -Hl. induction l as [|i l IH]; [done|]. cbn [map concat]. unfold shown_nodes in *. rewrite omap_app.
      fold (shown_nodes (node_dot i)). rewrite shown_node by (apply Hl, elem_of_cons; by left). cbn. f_equal. apply IH.
      intros id Hid. apply Hl, elem_of_cons. by right. }
    assert (shown_edges (concat (map node_dot l)) = concat (map edges_of l)) as S2.
    { clear. induction l as [|i l IH]; [done|]. cbn [map concat]. unfold shown_edges in *. rewrite omap_app.
      fold (shown_edges (node_dot i)). by rewrite shown_edge, IH. }
    assert (ranks (concat (map node_dot l)) = []) as S3.
    { clear. induction l as [|i l IH]; [done|]. cbn [map concat]. unfold ranks in *. rewrite omap_app.
      fold (ranks (node_dot i)). by rewrite rank_node, IH. }
    unfold layer_dot at 1 3 5 7. unfold shown_nodes, shown_edges, ranks in *. rewrite !omap_app. cbn [omap list_omap].
    rewrite S1, S2, S3, H1, H2, H3, !app_nil_r. split_and!; [done| |done|].
    - by rewrite map_app, concat_app.
    - intros s Hs. rewrite !elem_of_app, elem_of_list_singleton, (H4 s Hs), elem_of_concat70. split.
      + intros [[(t & Ht & Hi)| ->]|(i & Hi & Hsi)].
        * apply elem_of_list_fmap in Hi as (i & -> & Hi). exists i. split; [apply elem_of_app; by left|done].
        * by destruct (Hs l).
        * exists i. split; [apply elem_of_app; by right|done].
      + intros (i & Hi & Hsi). apply elem_of_app in Hi as [Hi|Hi]; [left; left|right; by exists i].
        exists (node_dot i). split; [done|]. apply elem_of_list_fmap. by exists i.
  Qed.

  Context (Hns : forall i d ct cf, dget ns i = Some (INode d ct cf) ->
    ct < i /\ cf < i /\ dlt ns ct /\ dlt ns cf /\ ct <> cf).
  Lemma edges_nodup l : NoDup l -> NoDup (concat (map edges_of l)).
  Proof.
    induction l as [|i l IH]; [constructor|]. intros Hnd. apply NoDup_cons in Hnd as [Hi Hnd]. cbn [map concat].
    apply NoDup_app. split; [|split; [|by apply IH]].
    - unfold edges_of. destruct (dget ns i) as [[x|d ct cf]|]; [constructor| |constructor].
      apply NoDup_cons. split; [|apply NoDup_singleton]. rewrite elem_of_list_singleton. congruence.
    - intros [[a c] b] H1 H2. assert (a = i) as ->.
      { unfold edges_of in H1. destruct (dget ns i) as [[x|d ct cf]|]; [by apply elem_of_nil in H1| |by apply elem_of_nil in H1].
        rewrite elem_of_cons, elem_of_list_singleton in H1. naive_solver. }
      apply elem_of_concat70 in H2 as (es & He & Hes). apply elem_of_list_fmap in Hes as (j & -> & Hj).
      unfold edges_of in He. destruct (dget ns j) as [[x|d ct cf]|]; [by apply elem_of_nil in He| |by apply elem_of_nil in He].
      rewrite elem_of_cons, elem_of_list_singleton in He. naive_solver.
  Qed.

  Lemma to_dot_ok root : dlt ns root ->
    (forall id x, below ns root id -> dget ns id = Some (TNode x) -> py_float (expr_str x) <> Some FInfinite) ->
    exists ls, to_dot expr_str test_str py_float int_str print_ids ns root = Ok (concat (map layer_dot ls)) /\
      NoDup (concat ls) /\ (forall id, id ∈ concat ls <-> below ns root id) /\
      (forall l a c, l ∈ ls -> a ∈ l -> is_child ns c a -> c ∉ l).
  Proof.
    intros Hroot Hf. destruct (positions_ok ns Hns root Hroot) as (ps & pos & Hps & Hpos & Hw & Hdom & Hlt).
    unfold to_dot. rewrite Hps. cbn [rbind]. rewrite Hpos. cbn [rbind]. destruct (layers_all pos Hw) as [Hnd Hin].
    assert (forall id, id ∈ concat (map snd (layers pos)) <-> below ns root id) as Hall by (intros id; by rewrite Hin).
    exists (map snd (layers pos)). split; [|split; [done|split; [done|]]].
    - rewrite (rmapM_total _ (fun l => layer_dot l.2)).
      + cbn [rbind]. by rewrite map_map.
      + intros [i l] Hl. cbn [snd]. rewrite (rmapM_total _ node_dot); [done|]. intros id Hid.
        assert (below ns root id) as Hb.
        { apply Hall, elem_of_concat70. exists l. split; [done|]. apply elem_of_list_fmap. by exists (i, l). }
        apply dot_node_ok; [by eapply (below_dlt ns Hns)|]. intros x. by apply Hf.
    - intros l a c Hl Ha (d & ct & cf & Hn & Hc) Hc'. apply elem_of_list_fmap in Hl as ([i l'] & -> & Hl). cbn [snd] in *.
      apply layers_groups in Hl as ->. apply elem_of_group in Ha; [|done]. apply elem_of_group in Hc'; [|done].
      destruct (Hlt a c) as (x & y & Hx & Hy & Hxy).
      { apply Hdom. by eexists. } { by exists d, ct, cf. }
      rewrite Ha in Hx. rewrite Hc' in Hy. simplify_eq. lia.
  Qed.
End Statements.
