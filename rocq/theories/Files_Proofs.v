(** Proofs for C16: densities kept in a directory. *)

From Coq Require Import DecimalString DecimalNat DecimalFacts.
From Verif Require Import Base Dict Smt Domain_Model Domain_Spec Domain_Proofs.

(** * File names *)

Lemma str_app_length a b : String.length (a +:+ b) = String.length a + String.length b.
Proof. induction a as [|c a IH]; cbn; [done|]. by rewrite IH. Qed.

Lemma substring_app_0 a b : String.substring 0 (String.length a) (a +:+ b) = a.
Proof. induction a as [|c a IH]; cbn; [by destruct b|]. by f_equal. Qed.

Lemma substring_all b : String.substring 0 (String.length b) b = b.
Proof. induction b as [|c a IH]; cbn; [done|]. by f_equal. Qed.

Lemma substring_app_r a b : String.substring (String.length a) (String.length b) (a +:+ b) = b.
Proof. induction a as [|c a IH]; cbn; [apply substring_all|done]. Qed.

Lemma last_piece_digits cur u s :
  last_piece cur (NilEmpty.string_of_uint u +:+ s) = last_piece cur s.
Proof. induction u; cbn; auto. Qed.

Lemma last_piece_digits' cur u s :
  last_piece cur (NilZero.string_of_uint u +:+ s) = last_piece cur s.
Proof. destruct u; try exact (last_piece_digits _ _ _). reflexivity. Qed.

Lemma digits_nonempty u : 1 <= String.length (NilZero.string_of_uint u).
Proof. destruct u; cbn; lia. Qed.

Lemma to_uint_nonnil n : Nat.to_uint n <> Decimal.Nil.
Proof.
  pose proof (Unsigned.to_of (Nat.to_uint n)) as H. rewrite Unsigned.of_to in H. rewrite H.
  apply unorm_nonnil.
Qed.

Lemma query_key_file i : query_key (query_file i) = Ok i.
Proof.
  unfold query_key, query_file.
  assert (last_piece ("query_" +:+ NilZero.string_of_uint (Nat.to_uint i) +:+ ".smt2")
    ("query_" +:+ NilZero.string_of_uint (Nat.to_uint i) +:+ ".smt2") =
    NilZero.string_of_uint (Nat.to_uint i) +:+ ".smt2") as ->.
  { change ("query_" +:+ NilZero.string_of_uint (Nat.to_uint i) +:+ ".smt2") with
      (String "q" (String "u" (String "e" (String "r" (String "y" (String "_"
        (NilZero.string_of_uint (Nat.to_uint i) +:+ ".smt2"))))))).
    cbn [last_piece]. repeat (rewrite decide_False by done). rewrite decide_True by done.
    by rewrite last_piece_digits'. }
  rewrite str_app_length. cbn [String.length].
  replace (String.length (NilZero.string_of_uint (Nat.to_uint i)) + 5 - 5)
    with (String.length (NilZero.string_of_uint (Nat.to_uint i))) by lia.
  rewrite substring_app_0. rewrite NilZero.usu by apply to_uint_nonnil. by rewrite Unsigned.of_to.
Qed.

Lemma query_file_inj i j : query_file i = query_file j -> i = j.
Proof. intros H. apply (f_equal query_key) in H. rewrite !query_key_file in H. congruence. Qed.

Lemma query_file_is i : is_query_file (query_file i) = true.
Proof.
  unfold is_query_file. rewrite !andb_true_iff. split; [split|].
  - unfold query_file. cbn. by destruct (NilZero.string_of_uint _ +:+ _).
  - apply Nat.leb_le. unfold query_file. rewrite !str_app_length. cbn [String.length].
    pose proof (digits_nonempty (Nat.to_uint i)). lia.
  - apply bool_decide_eq_true. unfold query_file.
    set (d := NilZero.string_of_uint (Nat.to_uint i)).
    assert ("query_" +:+ d +:+ ".smt2" = ("query_" +:+ d) +:+ ".smt2") as -> by done.
    rewrite str_app_length. cbn [String.length].
    replace (String.length ("query_" +:+ d) + 5 - 5) with (String.length ("query_" +:+ d)) by lia.
    exact (substring_app_r ("query_" +:+ d) ".smt2").
Qed.

(** * Sorting *)

Lemma key_le_total {A} : Total (@key_le A).
Proof. intros x y. unfold key_le. lia. Qed.
Lemma key_le_trans {A} : Transitive (@key_le A).
Proof. intros x y z. unfold key_le. lia. Qed.

Lemma sorted_keys {A} (l : list (nat * A)) n (g : nat -> A) :
  l ≡ₚ map (fun j => (j, g j)) (seq 0 n) -> merge_sort key_le l = map (fun j => (j, g j)) (seq 0 n).
Proof.
  intros HP. set (s := merge_sort key_le l).
  assert (s ≡ₚ map (fun j => (j, g j)) (seq 0 n)) as HS.
  { unfold s. by rewrite merge_sort_Permutation. }
  assert (StronglySorted key_le s) as Hsort.
  { pose proof (@key_le_total A). pose proof (@key_le_trans A). apply (StronglySorted_merge_sort key_le l). }
  clearbody s. clear l HP.
  assert (map fst s = seq 0 n) as Hk.
  { apply (StronglySorted_unique Nat.le).
    - clear HS. induction Hsort as [|x s Hs IH Hx]; cbn; constructor; [done|].
      apply Forall_fmap. exact Hx.
    - clear. generalize 0. induction n as [|n IH]; intros i; cbn; constructor; [done|].
      apply Forall_forall. intros x Hx. apply elem_of_list_In, in_seq in Hx. lia.
    - rewrite HS. rewrite map_map. cbn. by rewrite map_id. }
  rewrite <- Hk. rewrite map_map. rewrite <- (map_id s) at 1. apply map_ext_in.
  intros [k a] Hin. apply elem_of_list_In in Hin. rewrite HS in Hin.
  apply elem_of_list_fmap in Hin as (j & [= -> ->] & _). done.
Qed.

(** * Saving and loading *)

Section files.
  Context (dump : dstate -> string) (load : string -> Res dstate).
  Context (write : fm -> string) (read : string -> Res fm).

  Lemma write_queries_get qs : forall dir i f,
    dget (write_queries write dir i qs) f =
      match dget (imap (fun j q => (query_file (i + j), write q)) qs) f with
      | Some c => Some c | None => dget dir f end.
  Proof.
    induction qs as [|q qs IH]; intros dir i f; cbn [write_queries imap]; [done|].
    rewrite IH. cbn [dget imap]. rewrite Nat.add_0_r.
    rewrite (imap_ext ((fun j q => (query_file (i + j), write q)) ∘ S) (fun j q => (query_file (S i + j), write q)))
      by (intros j x _; unfold compose; by rewrite Nat.add_succ_comm).
    rewrite dget_dset. destruct (decide (query_file i = f)) as [<-|Hne]; [|done].
    destruct (dget _ _) eqn:E; [|done]. exfalso.
    apply dget_In, elem_of_lookup_imap in E as (j & q' & [E _]%pair_equal_spec & _).
    apply (query_file_inj i (S i + j)) in E. lia.
  Qed.

  Lemma write_queries_keys qs : forall dir i f,
    f ∈ dkeys (write_queries write dir i qs) <->
    f ∈ dkeys dir \/ exists j, j < length qs /\ f = query_file (i + j).
  Proof.
    induction qs as [|q qs IH]; intros dir i f; cbn [write_queries].
    - split; [by left|]. intros [?|(j & H & _)]; [done|cbn in H; lia].
    - rewrite IH, elem_of_dkeys_dset. cbn [length]. split.
      + intros [[-> |?]|(j & Hj & ->)].
        * right. exists 0. split; [lia|]. by rewrite Nat.add_0_r.
        * by left.
        * right. exists (S j). split; [lia|]. f_equal. lia.
      + intros [?|([|j] & Hj & ->)].
        * left. by right.
        * left. left. by rewrite Nat.add_0_r.
        * right. exists j. split; [lia|]. f_equal. lia.
  Qed.

  Lemma write_queries_wf qs : forall dir i, dwf dir -> dwf (write_queries write dir i qs).
  Proof. induction qs as [|q qs IH]; intros dir i H; cbn; [done|]. by apply IH, dwf_dset. Qed.

  Lemma dget_perm (d d' : list (string * string)) f : dwf d -> d ≡ₚ d' -> dget d f = dget d' f.
  Proof.
    intros H HP. assert (dwf d') as H'. { unfold dwf, dkeys in *. by rewrite <- HP. }
    destruct (dget d f) as [c|] eqn:E.
    - symmetry. apply In_dget; [done|]. rewrite <- HP. by apply dget_In.
    - symmetry. apply dget_None. apply dget_None in E. unfold dkeys in *. by rewrite <- HP.
  Qed.

  Lemma file_roundtrip n (dir : option (list (string * string))) :
    (forall v t, (v, t) ∈ d_types (f_dom n) -> t = TBool \/ t = TReal) ->
    (forall s, load (dump s) = Ok s) ->
    (forall f, f = f_support n \/ f_weight n = Some f \/ f ∈ f_queries n ->
      exists f', read (write f) = Ok f' /\ fequiv f' f) ->
    NoDup (map fst (default [] dir)) ->
    (f_weight n = None -> "weight.smt2" ∉ map fst (default [] dir)) ->
    (forall f, f ∈ map fst (default [] dir) -> is_query_file f = true ->
      exists j, j < length (f_queries n) /\ f = query_file j) ->
    exists dir', to_file dump write n dir = Ok dir' /\
      forall listing, listing ≡ₚ dir' ->
        exists m, from_file load read listing = Ok m /\ same_files m n.
  Proof.
    intros Hty Hload Hread Hnd Hw Hq. destruct n as [dom sup w qs]. cbn [f_dom f_support f_weight f_queries] in *.
    set (D := default [] dir) in *. unfold to_file. fold D. cbn [f_dom f_support f_weight f_queries].
    destruct (dom_state_roundtrip dom Hty) as (s & -> & Hs). cbn [rbind].
    set (D1 := dset (dset D "domain.json" (dump s)) "support.smt2" (write sup)).
    set (D2 := match w with Some w => dset D1 "weight.smt2" (write w) | None => D1 end).
    set (D3 := write_queries write D2 0 qs).
    assert (dwf D2) as W2. { unfold D2, D1. destruct w; repeat apply dwf_dset; exact Hnd. }
    assert (dwf D3) as W3 by (by apply write_queries_wf).
    exists D3. split; [done|]. intros L HP. unfold from_file.
    assert (forall f, dget L f = dget D3 f) as HL by (intros f; symmetry; by apply dget_perm).
    assert (forall f, is_query_file f = false -> dget L f = dget D2 f) as HL2.
    { intros f Hf. rewrite HL. unfold D3. rewrite write_queries_get.
      destruct (dget (imap _ qs) f) eqn:E; [|done].
      apply dget_In, elem_of_lookup_imap in E as (j & q' & [E _]%pair_equal_spec & _). subst f.
      by rewrite query_file_is in Hf. }
    assert (forall i q, qs !! i = Some q -> dget L (query_file i) = Some (write q)) as HLq.
    { intros i q Hi. rewrite HL. unfold D3. rewrite write_queries_get. cbn [Nat.add].
      destruct (dget (imap (fun j q => (query_file j, write q)) qs) (query_file i)) as [c|] eqn:E.
      - apply dget_In, elem_of_lookup_imap in E as (j & q' & [E ->]%pair_equal_spec & Hj).
        apply query_file_inj in E as ->. congruence.
      - exfalso. apply dget_None in E. apply E. unfold dkeys. apply elem_of_list_fmap.
        exists (query_file i, write q). split; [done|]. apply elem_of_lookup_imap. by exists i, q. }
    assert (dget L "domain.json" = Some (dump s)) as Ed.
    { rewrite HL2 by by vm_compute. unfold D2, D1. destruct w; rewrite !dget_dset; done. }
    assert (dget L "support.smt2" = Some (write sup)) as Es.
    { rewrite HL2 by by vm_compute. unfold D2, D1. destruct w; rewrite !dget_dset; done. }
    unfold open_file at 1. rewrite Ed. cbn [rbind]. rewrite Hload. cbn [rbind]. rewrite Hs. cbn [rbind].
    unfold open_file at 1. rewrite Es. cbn [rbind].
    destruct (Hread sup) as (sup' & -> & Hsup); [auto|]. cbn [rbind].
    assert (exists w', (match dget L "weight.smt2" with
              | Some c => let! w := read c in Ok (Some w) | None => Ok None end) = Ok w' /\
      match w', w with Some w, Some w' => fequiv w w' | None, None => True | _, _ => False end) as (w' & -> & Hw').
    { rewrite HL2 by by vm_compute. unfold D2. destruct w as [w|].
      - rewrite dget_dset, decide_True by done. destruct (Hread w) as (w' & -> & Hw'); [auto|].
        exists (Some w'). done.
      - exists None. unfold D1. rewrite !dget_dset. cbn.
        rewrite (proj2 (dget_None D "weight.smt2")); [done|by apply Hw]. }
    cbn [rbind].
    assert (filter is_query_file (map fst L) ≡ₚ map query_file (seq 0 (length qs))) as Hfiles.
    { apply NoDup_Permutation.
      - apply NoDup_filter. change (NoDup (dkeys L)). unfold dkeys. rewrite HP. exact W3.
      - apply NoDup_fmap_2; [|apply NoDup_ListNoDup, seq_NoDup]. intros i j. apply query_file_inj.
      - intros f. rewrite elem_of_list_filter.
        assert (f ∈ map fst L <-> f ∈ dkeys D3) as ->. { unfold dkeys. by rewrite HP. }
        rewrite elem_of_list_fmap.
        unfold D3. rewrite write_queries_keys. split.
        + intros [Hf [Hin|(j & Hj & ->)]].
          * assert (f ∈ map fst D) as HD.
            { apply dget_is_Some. apply dget_is_Some in Hin. unfold D2, D1 in Hin.
              destruct (decide (f = "weight.smt2")) as [->|]; [by vm_compute in Hf|].
              destruct (decide (f = "support.smt2")) as [->|]; [by vm_compute in Hf|].
              destruct (decide (f = "domain.json")) as [->|]; [by vm_compute in Hf|].
              destruct w; rewrite !dget_dset in Hin; repeat (rewrite decide_False in Hin by congruence); done. }
            destruct (Hq f HD) as (j & Hj & ->); [by apply Is_true_eq_true|]. exists j. split; [done|].
            apply elem_of_list_In, in_seq. lia.
          * exists j. split; [done|]. apply elem_of_list_In, in_seq. lia.
        + intros (j & -> & Hj). apply elem_of_list_In, in_seq in Hj.
          split; [by rewrite query_file_is|]. right. exists j. split; [lia|done]. }
    assert (exists keyed, rmapM (fun f => let! k := query_key f in Ok (k, f)) (filter is_query_file (map fst L)) = Ok keyed /\
      keyed ≡ₚ map (fun j => (j, query_file j)) (seq 0 (length qs))) as (keyed & -> & Hkeyed).
    { assert (forall l js, l ≡ₚ map query_file js -> exists keyed,
        rmapM (fun f => let! k := query_key f in Ok (k, f)) l = Ok keyed /\
        keyed ≡ₚ map (fun j => (j, query_file j)) js) as H.
      { induction l as [|f l IH]; intros js HPl.
        - apply Permutation_nil in HPl. apply map_eq_nil in HPl as ->. exists []. done.
        - assert (f ∈ map query_file js) as Hin by (rewrite <- HPl; by left).
          apply elem_of_list_fmap in Hin as (j & -> & Hj).
          apply elem_of_Permutation in Hj as (js' & Hjs). rewrite Hjs in HPl. cbn in HPl.
          apply Permutation_cons_inv in HPl. destruct (IH js' HPl) as (keyed & H1 & H2).
          exists ((j, query_file j) :: keyed). rewrite rmapM_cons, query_key_file. cbn [rbind]. rewrite H1. cbn [rbind].
          split; [done|]. rewrite Hjs. cbn. by constructor. }
      by apply H. }
    cbn [rbind]. rewrite (sorted_keys _ _ _ Hkeyed).
    assert (exists qs', rmapM (fun p : nat * string => let! c := open_file L (snd p) in read c)
      (map (fun j => (j, query_file j)) (seq 0 (length qs))) = Ok qs' /\ Forall2 fequiv qs' qs) as (qs' & -> & Hqs).
    { assert (forall k i, (forall j q, k !! j = Some q -> qs !! (i + j) = Some q) ->
        exists k', rmapM (fun p : nat * string => let! c := open_file L (snd p) in read c)
          (map (fun j => (j, query_file j)) (seq i (length k))) = Ok k' /\ Forall2 fequiv k' k) as H.
      { induction k as [|q k IH]; intros i Hk; [exists []; by split; [|constructor]|].
        destruct (IH (S i)) as (k' & H1 & H2).
        { intros j q' Hj. rewrite <- (Hk (S j) q' Hj). f_equal. lia. }
        assert (qs !! i = Some q) as Hi. { rewrite <- (Hk 0 q eq_refl). f_equal. lia. }
        destruct (Hread q) as (q' & Hq1 & Hq2).
        { right. right. by eapply elem_of_list_lookup_2. }
        exists (q' :: k'). cbn [length seq map]. rewrite rmapM_cons. cbn [snd]. unfold open_file at 1.
        rewrite (HLq i q Hi). cbn [rbind]. rewrite Hq1. cbn [rbind]. rewrite H1. cbn [rbind].
        split; [done|by constructor]. }
      by apply (H qs 0). }
    cbn [rbind]. eexists. split; [reflexivity|]. unfold same_files. cbn. done.
  Qed.
End files.
