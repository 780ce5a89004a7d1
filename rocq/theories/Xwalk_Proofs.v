(** Lemmas for C45 (inversion) and C47: the profile of a diagram and the bottom-up
    walk. *)

From Verif Require Import Base Dict Smt Smt_Facts Math_Model Math_Spec Poly_Proofs Arith_Proofs Linear_Proofs
  Primal_Proofs Piecewise_Spec Xadd_Model Xadd_Spec Xadd_Proofs.

Local Arguments Nat.leb : simpl never.
Local Arguments Nat.ltb : simpl never.
Local Arguments Nat.eqb : simpl never.

(** * Dictionaries of lists *)

(** [q] is recorded in the list stored under [c]. *)
Definition recd (ps : list (nat * list nat)) (q c : nat) : Prop := exists s, dget ps c = Some s /\ q ∈ s.
Definition sets (ps : list (nat * list nat)) : Prop := forall k s, dget ps k = Some s -> NoDup s.

(** * Grouping by position *)

Lemma dget_layers pos : forall r i,
  dget (fold_left (fun r (kv : nat * nat) => dset r kv.2 (default [] (dget r kv.2) ++ [kv.1])) pos r) i =
  match dget r i, map fst (filter (fun kv => kv.2 = i) pos) with
  | None, [] => None | o, l => Some (default [] o ++ l) end.
Proof.
  induction pos as [|[k j] pos IH]; intros r i; cbn [fold_left].
  { cbn. destruct (dget r i); [|done]. by rewrite app_nil_r. }
  rewrite IH, dget_dset. cbn [fst snd]. destruct (decide (j = i)) as [->|Hne].
  - rewrite filter_cons_True by done. cbn [map fst]. cbn [default]. destruct (dget r i); cbn [default].
    + destruct (map fst _); cbn; by rewrite <- app_assoc.
    + by destruct (map fst _).
  - by rewrite filter_cons_False by done.
Qed.
Lemma dwf_layers pos : forall r : list (nat * list nat), dwf r ->
  dwf (fold_left (fun r (kv : nat * nat) => dset r kv.2 (default [] (dget r kv.2) ++ [kv.1])) pos r).
Proof. induction pos as [|[k j] pos IH]; intros r Hw; cbn [fold_left]; [done|]. by apply IH, dwf_dset. Qed.

Lemma elem_seq s n j : j ∈ seq s n <-> s <= j < s + n.
Proof. rewrite elem_of_list_In. apply in_seq. Qed.

(** A duplicate-free list of numbers that is closed downwards is 0, ..., n-1. *)
Lemma initial_segment (l : list nat) : NoDup l -> (forall k, S k ∈ l -> k ∈ l) -> forall k, k ∈ l <-> k < length l.
Proof.
  intros Hnd Hd.
  assert (forall k j, k ∈ l -> j <= k -> j ∈ l) as Hd'.
  { induction k as [|k IH]; intros j Hk Hj; [by assert (j = 0) as -> by lia|].
    destruct (decide (j = S k)) as [->|]; [done|]. apply IH; [by apply Hd|lia]. }
  intros k. split; intros Hk.
  - assert (length (seq 0 (S k)) <= length l) as Hle; [|by rewrite seq_length in Hle].
    apply submseteq_length, NoDup_submseteq; [apply NoDup_ListNoDup, seq_NoDup|]. intros j Hj. apply elem_seq in Hj. apply (Hd' k); [done|lia].
  - destruct (decide (k ∈ l)) as [|Hn]; [done|]. exfalso.
    assert (length l <= length (seq 0 k)) as Hle; [|rewrite seq_length in Hle; lia].
    apply submseteq_length, NoDup_submseteq; [done|]. intros j Hj. apply elem_seq.
    destruct (decide (j < k)); [lia|]. exfalso. apply Hn, (Hd' j); [done|lia].
Qed.

Section Group.
  Context (pos : list (nat * nat)) (Hpos : dwf pos).
  Definition group (i : nat) : list nat := map fst (filter (fun kv => kv.2 = i) pos).
  Lemma elem_of_group i k : k ∈ group i <-> dget pos k = Some i.
  Proof.
    unfold group. rewrite elem_of_list_fmap. split.
    - intros ([k' j] & -> & Hin). apply elem_of_list_filter in Hin as [Hj Hin]. cbn in *. subst j. by apply In_dget.
    - intros Hk. exists (k, i). split; [done|]. apply elem_of_list_filter. split; [done|]. by apply dget_In.
  Qed.
  Lemma NoDup_group i : NoDup (group i).
  Proof. exact (dwf_filter (fun kv => kv.2 = i) pos Hpos). Qed.
  Lemma elem_of_groups s n k : k ∈ concat (map group (seq s n)) <-> exists i, dget pos k = Some i /\ s <= i < s + n.
  Proof.
    revert s. induction n as [|n IH]; intros s; cbn.
    - split; [intros Hk; by apply elem_of_nil in Hk|]. intros (i & _ & Hi). lia.
    - rewrite elem_of_app, IH, elem_of_group. split.
      + intros [Hk|(i & Hk & Hi)]; [exists s|exists i]; (split; [done|lia]).
      + intros (i & Hk & Hi). destruct (decide (i = s)) as [->|]; [by left|]. right. exists i. split; [done|lia].
  Qed.
  Lemma NoDup_groups s n : NoDup (concat (map group (seq s n))).
  Proof.
    revert s. induction n as [|n IH]; intros s; cbn; [constructor|]. apply NoDup_app. split; [apply NoDup_group|].
    split; [|apply IH]. intros k Hk Hk'. apply elem_of_group in Hk. apply elem_of_groups in Hk' as (i & Hi & Hlt).
    rewrite Hk in Hi. simplify_eq. lia.
  Qed.
  (** Earlier entries have smaller positions. *)
  Lemma groups_sorted s n l1 k l2 j : concat (map group (seq s n)) = l1 ++ k :: l2 -> j ∈ l1 ->
    exists a b, dget pos j = Some a /\ dget pos k = Some b /\ a <= b.
  Proof.
    revert s l1. induction n as [|n IH]; intros s l1; cbn; [by destruct l1|]. intros Heq Hj.
    assert (k ∈ l1 ++ k :: l2) as Hk by (apply elem_of_app; right; apply elem_of_cons; by left).
    rewrite <- Heq in Hk. apply elem_of_app in Hk.
    assert (exists b, dget pos k = Some b /\ s <= b) as (b & Hb & Hsb).
    { destruct Hk as [Hk|Hk]; [apply elem_of_group in Hk; by exists s|]. apply elem_of_groups in Hk as (i & Hi & ?).
      exists i. split; [done|lia]. }
    apply app_eq_inv in Heq as [(l & Hl1 & Hl2)|(l & Hl1 & Hl2)].
    - assert (j ∈ group s) as Hjs by (rewrite Hl1; apply elem_of_app; by left). apply elem_of_group in Hjs. by exists s, b.
    - subst l1. apply elem_of_app in Hj as [Hj|Hj].
      + apply elem_of_group in Hj. by exists s, b.
      + by apply (IH (S s) l).
  Qed.
End Group.

Section Profile.
  Context {E : Type} (ns : list (nat * node E)).
  Context (Hns : forall i d ct cf, dget ns i = Some (INode d ct cf) ->
    ct < i /\ cf < i /\ dlt ns ct /\ dlt ns cf /\ ct <> cf).

  Definition child (a c : nat) : Prop := exists d ct cf, dget ns a = Some (INode d ct cf) /\ (c = ct \/ c = cf).
  Definition inner (a : nat) : Prop := exists d ct cf, dget ns a = Some (INode d ct cf).

  Lemma child_lt a c : child a c -> c < a /\ dlt ns c.
  Proof. intros (d & ct & cf & Hn & [->| ->]); destruct (Hns _ _ _ _ Hn) as (? & ? & ? & ? & ?); done. Qed.
  Lemma child_inner a c : child a c -> inner a.
  Proof. intros (d & ct & cf & Hn & _). by exists d, ct, cf. Qed.
  Lemma below_child a c b : child a c -> below ns c b -> below ns a b.
  Proof. intros (d & ct & cf & Hn & Hc) Hb. by eapply bl_step. Qed.
  Lemma below_le a b : below ns a b -> b <= a.
  Proof.
    induction 1 as [|a d ct cf c b Hn Hc _ IH]; [done|].
    destruct (child_lt a c); [by exists d, ct, cf|]. lia.
  Qed.
  Lemma below_dlt a b : dlt ns a -> below ns a b -> dlt ns b.
  Proof.
    intros Ha H. induction H as [|a d ct cf c b Hn Hc _ IH]; [done|].
    apply IH. by destruct (child_lt a c); [exists d, ct, cf|].
  Qed.
  Lemma below_last a b : below ns a b -> a = b \/ exists q, below ns a q /\ child q b.
  Proof.
    induction 1 as [|a d ct cf c b Hn Hc Hb IH]; [by left|]. right.
    assert (child a c) as Hac by by exists d, ct, cf.
    destruct IH as [->|(q & Hq & Hqb)].
    - exists a. split; [constructor|done].
    - exists q. split; [by eapply below_child|done].
  Qed.
  Lemma below_snoc a q b : below ns a q -> child q b -> below ns a b.
  Proof. intros Haq Hqb. eapply below_trans; [done|]. eapply below_child; [done|constructor]. Qed.
  Lemma below_inner a b : below ns a b -> a <> b -> inner a.
  Proof. intros H Hne. inversion H; subst; [done|]. by eexists _, _, _. Qed.

  (** ** The parents *)

  Lemma dget_add_parent ps id parent k :
    dget (add_parent ps id parent) k =
    match parent with
    | None => dget ps k
    | Some q => if decide (id = k) then
                  let s := default [] (dget ps id) in Some (if bool_decide (q ∈ s) then s else s ++ [q])
                else dget ps k
    end.
  Proof. destruct parent; [|done]. unfold add_parent. by rewrite dget_dset. Qed.

  Lemma recd_add_parent ps id parent q c :
    recd (add_parent ps id parent) q c <-> recd ps q c \/ (parent = Some q /\ c = id).
  Proof.
    unfold recd. rewrite dget_add_parent. destruct parent as [r|]; [|naive_solver].
    destruct (decide (id = c)) as [<-|Hne].
    - cbv zeta. split.
      + intros (s & [= <-] & Hq). destruct (dget ps id) as [s|]; cbn in Hq.
        * case_bool_decide; [left; by exists s|]. apply elem_of_app in Hq as [Hq|Hq]; [left; by exists s|].
          apply elem_of_list_singleton in Hq as ->. by right.
        * rewrite bool_decide_eq_false_2 in Hq by apply not_elem_of_nil. cbn in Hq.
          apply elem_of_list_singleton in Hq as ->. by right.
      + intros [(s & Hs & Hq)|[[= ->] _]].
        * rewrite Hs. cbn. eexists. split; [done|]. case_bool_decide; [done|]. apply elem_of_app. by left.
        * eexists. split; [done|]. case_bool_decide; [done|]. apply elem_of_app. right. by apply elem_of_list_singleton.
    - split; [by left|]. by intros [|[_ ->]].
  Qed.
  Lemma keys_add_parent ps id parent k :
    dlt (add_parent ps id parent) k <-> dlt ps k \/ (parent <> None /\ k = id).
  Proof.
    rewrite dget_add_parent. destruct parent as [r|].
    - destruct (decide (id = k)) as [<-|]; [|naive_solver]. split; [by right|]. intros _. by eexists.
    - naive_solver.
  Qed.
  Lemma sets_add_parent ps id parent : sets ps -> sets (add_parent ps id parent).
  Proof.
    intros Hs k s. rewrite dget_add_parent. destruct parent as [r|]; [|apply Hs].
    destruct (decide (id = k)) as [<-|]; [|apply Hs]. cbv zeta. intros [= <-].
    assert (NoDup (default [] (dget ps id))) as Hnd.
    { destruct (dget ps id) eqn:Ek; cbn; [by eapply Hs|constructor]. }
    case_bool_decide; [done|]. apply NoDup_app. split; [done|]. split; [|apply NoDup_singleton].
    intros x Hx Hx'. apply elem_of_list_singleton in Hx' as ->. done.
  Qed.
  Lemma dwf_add_parent ps id parent : dwf ps -> dwf (add_parent ps id parent).
  Proof. intros Hw. destruct parent; [|done]. by apply dwf_dset. Qed.

  Lemma parents_visit_ok n : forall id parent seen ps, id < n -> dlt ns id ->
    (forall s k, s ∈ seen -> s <= id -> below ns s k -> inner k -> k ∈ seen) -> sets ps -> dwf ps ->
    exists seen' ps', parents_visit n ns id parent (seen, ps) = Ok (seen', ps') /\
      sets ps' /\ dwf ps' /\
      (forall s, s ∈ seen -> s ∈ seen') /\
      (forall s, s ∈ seen' -> s ∈ seen \/ (below ns id s /\ inner s)) /\
      (forall k, below ns id k -> inner k -> k ∈ seen') /\
      (forall q c, recd ps' q c <-> recd ps q c \/ (parent = Some q /\ c = id) \/ (q ∈ seen' /\ q ∉ seen /\ child q c)) /\
      (forall k, dlt ps' k <-> dlt ps k \/ (parent <> None /\ k = id) \/ (exists q, q ∈ seen' /\ q ∉ seen /\ child q k)).
  Proof.
    induction n as [|n IH]; intros id parent seen ps Hlt Hd Hpre Hs Hw; [lia|]. cbn [parents_visit].
    destruct Hd as [nd Hn]. rewrite Hn.
    destruct nd as [x|d ct cf].
    { eexists _, _. split; [done|]. split; [by apply sets_add_parent|]. split; [by apply dwf_add_parent|].
      split; [done|]. split; [by left|]. split.
      { intros k Hb Hi. inversion Hb; subst; [|congruence]. destruct Hi as (? & ? & ? & ?). congruence. }
      split.
      - intros q c. rewrite recd_add_parent. split; [naive_solver|]. intros [|[|(? & ? & _)]]; auto. done.
      - intros k. rewrite keys_add_parent. split; [naive_solver|]. intros [|[|(? & ? & ? & _)]]; auto. done. }
    case_bool_decide as Hin.
    { eexists _, _. split; [done|]. split; [by apply sets_add_parent|]. split; [by apply dwf_add_parent|].
      split; [done|]. split; [by left|]. split; [intros k Hb Hi; by eapply Hpre|]. split.
      - intros q c. rewrite recd_add_parent. split; [naive_solver|]. intros [|[|(? & ? & _)]]; auto. done.
      - intros k. rewrite keys_add_parent. split; [naive_solver|]. intros [|[|(? & ? & ? & _)]]; auto. done. }
    destruct (Hns _ _ _ _ Hn) as (Hct & Hcf & Dct & Dcf & Hne).
    assert (child id ct) as Cct by (exists d, ct, cf; auto).
    assert (child id cf) as Ccf by (exists d, ct, cf; auto).
    destruct (IH ct (Some id) (id :: seen) (add_parent ps id parent)) as
      (s1 & p1 & -> & Hs1 & Hw1 & M1 & N1 & C1 & R1 & K1); [lia|done| |by apply sets_add_parent|by apply dwf_add_parent|].
    { intros s k Hsn Hle Hb Hi. apply elem_of_cons in Hsn as [->|Hsn]; [lia|].
      apply elem_of_cons. right. eapply Hpre; [done|lia|done|done]. }
    cbn [rbind].
    destruct (IH cf (Some id) s1 p1) as
      (s2 & p2 & -> & Hs2 & Hw2 & M2 & N2 & C2 & R2 & K2); [lia|done| |done|done|].
    { intros s k Hsn Hle Hb Hi. destruct (N1 _ Hsn) as [Hsn'|[Hb' _]].
      - apply elem_of_cons in Hsn' as [->|Hsn']; [lia|]. apply M1, elem_of_cons. right. eapply Hpre; [done|lia|done|done].
      - apply C1; [|done]. by eapply below_trans. }
    exists s2, p2. split; [done|]. split; [done|]. split; [done|].
    assert (forall s, s ∈ seen -> s ∈ s2) as Mall.
    { intros s Hsn. apply M2, M1, elem_of_cons. by right. }
    assert (id ∈ s2) as Hid by (apply M2, M1, elem_of_cons; by left).
    assert (forall s, s ∈ s2 -> s ∈ seen \/ s = id \/ (below ns id s /\ inner s /\ s < id)) as Nall.
    { intros s Hsn. destruct (N2 _ Hsn) as [Hsn'|[Hb Hi]].
      - destruct (N1 _ Hsn') as [Hsn''|[Hb Hi]].
        + apply elem_of_cons in Hsn'' as [->|?]; auto.
        + right. right. split; [exact (below_child _ _ _ Cct Hb)|]. split; [done|]. apply below_le in Hb. lia.
      - right. right. split; [exact (below_child _ _ _ Ccf Hb)|]. split; [done|]. apply below_le in Hb. lia. }
    split; [done|]. split.
    { intros s Hsn. destruct (Nall s Hsn) as [?|[->|(? & ? & _)]]; [by left| |by right].
      right. split; [constructor|]. by exists d, ct, cf. }
    split.
    { intros k Hb Hi. inversion Hb as [|a d' ct' cf' c b Hn' Hc Hb']; subst; [done|].
      rewrite Hn in Hn'. simplify_eq. destruct Hc as [->| ->]; [apply M2; by apply C1|by apply C2]. }
    assert (forall q c, child q c -> q ∈ s2 -> q ∉ seen ->
      (q = id /\ (c = ct \/ c = cf)) \/ (q ∈ s1 /\ q ∉ id :: seen) \/ (q ∈ s2 /\ q ∉ s1)) as Hsplit.
    { intros q c Hqc Hq Hns'. destruct (decide (q = id)) as [->|Hqi].
      - left. split; [done|]. destruct Hqc as (d' & ct' & cf' & Hn' & Hc). rewrite Hn in Hn'. by simplify_eq.
      - right. destruct (decide (q ∈ s1)); [left|right]; [|done]. split; [done|].
        rewrite elem_of_cons. naive_solver. }
    split.
    - intros q c. rewrite R2, R1, recd_add_parent. split.
      + intros [[[?|?]|[[[= ->] ->]|(Hq & Hns' & Hqc)]]|[[[= ->] ->]|(Hq & Hns' & Hqc)]]; auto.
        * right. right. split; [by apply M2|]. split; [|done]. intros Hs'. apply Hns', elem_of_cons. by right.
        * right. right. split; [done|]. split; [|done]. intros Hs'. apply Hns', M1, elem_of_cons. by right.
      + intros [?|[?|(Hq & Hns' & Hqc)]]; [auto|auto|].
        destruct (Hsplit q c Hqc Hq Hns') as [[-> [->| ->]]|[[? ?]|[? ?]]]; naive_solver.
    - intros k. rewrite K2, K1, keys_add_parent. split.
      + intros [[[?|?]|[[_ ->]|(q & Hq & Hns' & Hqc)]]|[[_ ->]|(q & Hq & Hns' & Hqc)]]; auto.
        * right. right. exists id. done.
        * right. right. exists q. split; [by apply M2|]. split; [|done]. intros Hs'. apply Hns', elem_of_cons. by right.
        * right. right. exists id. done.
        * right. right. exists q. split; [done|]. split; [|done]. intros Hs'. apply Hns', M1, elem_of_cons. by right.
      + intros [?|[?|(q & Hq & Hns' & Hqc)]]; [auto|auto|].
        destruct (Hsplit q k Hqc Hq Hns') as [[-> [->| ->]]|[[? ?]|[? ?]]].
        * left. right. left. done.
        * right. left. done.
        * left. right. right. by exists q.
        * right. right. by exists q.
  Qed.

  Context (root : nat) (Hroot : dlt ns root).

  Lemma parents_ok : exists ps, parents ns root = Ok ps /\ sets ps /\ dwf ps /\
    (forall k, dlt ps k <-> below ns root k) /\
    (forall q c, recd ps q c <-> below ns root q /\ child q c).
  Proof.
    unfold parents. destruct (parents_visit_ok (S root) root None [] [(root, [])]) as
      (s1 & p1 & -> & Hs1 & Hw1 & M1 & N1 & C1 & R1 & K1); [lia|done| | | |].
    { intros s k Hs. by apply elem_of_nil in Hs. }
    { intros k s. cbn. destruct (decide _); [|done]. intros [= <-]. constructor. }
    { unfold dwf, dkeys. cbn. apply NoDup_singleton. }
    cbn [rbind]. exists p1. split; [done|]. split; [done|]. split; [done|].
    assert (forall q c, child q c -> q ∈ s1 <-> below ns root q) as Hsn.
    { intros q c Hc. split; [|intros; apply C1; [done|by eapply child_inner]].
      intros Hq. destruct (N1 q Hq) as [Hq'|[? _]]; [by apply elem_of_nil in Hq'|done]. }
    split.
    - intros k. rewrite K1. split.
      + intros [Hk|[[? _]|(q & Hq & _ & Hc)]]; [|done|].
        * cbn in Hk. destruct (decide (root = k)) as [<-|]; [constructor|]. by destruct Hk.
        * eapply below_snoc; [|done]. by apply (Hsn q k Hc).
      + intros Hb. destruct (below_last _ _ Hb) as [<-|(q & Hq & Hc)].
        * left. cbn. rewrite decide_True by done. by eexists.
        * right. right. exists q. split; [by apply (Hsn q k Hc)|]. split; [apply not_elem_of_nil|done].
    - intros q c. rewrite R1. split.
      + intros [(s & Hk & Hq)|[[? _]|(Hq & _ & Hc)]]; [|done|].
        * cbn in Hk. destruct (decide _); [|done]. simplify_eq. by apply elem_of_nil in Hq.
        * split; [by apply (Hsn q c Hc)|done].
      + intros [Hb Hc]. right. right. split; [by apply (Hsn q c Hc)|]. split; [apply not_elem_of_nil|done].
  Qed.

  (** ** The layers *)

  Notation R := (below ns root).

  (** [D]: the nodes popped so far; [Ed]: the edges handled so far. *)
  Record kinv (D : list nat) (Ed : list (nat * nat)) (pos : list (nat * nat)) (ps : list (nat * list nat))
      (watch : list nat) : Prop := {
    k_nd : NoDup D; k_sub : forall q, q ∈ D -> R q;
    k_sets : sets ps;
    k_keys : forall k, dlt ps k <-> R k;
    k_recd : forall q c, recd ps q c <-> R q /\ child q c /\ (q, c) ∉ Ed;
    k_wnd : NoDup watch;
    k_watch : forall c, c ∈ watch <-> R c /\ c ∉ D /\ forall q, R q -> child q c -> (q, c) ∈ Ed;
    k_dwf : dwf pos;
    k_pos : forall c, dlt pos c <-> c = root \/ exists q, (q, c) ∈ Ed;
    k_root : dget pos root = Some 0;
    k_lt : forall q c, (q, c) ∈ Ed -> exists a b, dget pos q = Some a /\ dget pos c = Some b /\ a < b;
    k_pred : forall c b, dget pos c = Some b -> c = root \/ exists q a, (q, c) ∈ Ed /\ dget pos q = Some a /\ b = S a;
    k_dpos : forall q, q ∈ D -> dlt pos q;
    k_up : forall q r, q ∈ D -> R r -> child r q -> (r, q) ∈ Ed;
    k_ed : forall q c, (q, c) ∈ Ed -> q ∈ D /\ child q c }.

  Lemma layer_child_ok D Ed pos ps watch cur c : kinv D Ed pos ps watch -> cur ∈ D -> child cur c -> (cur, c) ∉ Ed ->
    exists pos' ps' watch', layer_child cur (pos, ps, watch) c = Ok (pos', ps', watch') /\
      kinv D ((cur, c) :: Ed) pos' ps' watch'.
  Proof.
    intros K Hcur Hch Hed. unfold layer_child.
    assert (R cur) as Rcur by by apply (k_sub _ _ _ _ _ K).
    assert (recd ps cur c) as (s & Hs & Hcs) by (apply (k_recd _ _ _ _ _ K); done).
    set (pos1 := match dget pos c with Some _ => pos | None => dset pos c 0 end).
    rewrite Hs. rewrite bool_decide_eq_true_2 by done.
    set (s' := filter (fun q => q <> cur) s).
    destruct (k_dpos _ _ _ _ _ K cur Hcur) as [a Ha].
    destruct (child_lt cur c Hch) as [Hlt _].
    assert (dget pos1 cur = Some a) as Ha1.
    { unfold pos1. destruct (dget pos c) eqn:Ec; [done|]. rewrite dget_dset, decide_False by lia. done. }
    assert (c ∉ D) as HcD by (intros HcD; apply Hed; by eapply (k_up _ _ _ _ _ K)).
    assert (c <> root) as Hcr by (apply below_le in Rcur; lia).
    assert (forall q c', (q, c') ∈ Ed -> q <> c) as Hqc.
    { intros q c' He ->. by apply (k_ed _ _ _ _ _ K) in He as [? _]. }
    set (old := default 0 (dget pos c)).
    assert (default 0 (dget pos1 c) = old) as Hold.
    { unfold pos1, old. destruct (dget pos c) eqn:Ec; cbn; [by rewrite Ec|]. by rewrite dget_dset, decide_True by done. }
    rewrite Hold, Ha1. cbn [default]. set (new := Nat.max old (a + 1)).
    assert (forall k, dget (dset pos1 c new) k = if decide (c = k) then Some new else dget pos k) as Hp.
    { intros k. rewrite dget_dset. destruct (decide _); [done|]. unfold pos1. destruct (dget pos c) eqn:Ec; [done|].
      rewrite dget_dset. by rewrite decide_False by done. }
    assert (forall k, dget (dset ps c s') k = if decide (c = k) then Some s' else dget ps k) as Hq by (intros; apply dget_dset).
    assert (forall q, q ∈ s' <-> q ∈ s /\ q <> cur) as Hs'.
    { intros q. unfold s'. rewrite elem_of_list_filter. tauto. }
    assert (forall q, q ∈ s <-> R q /\ child q c /\ (q, c) ∉ Ed) as Hsr.
    { intros q. rewrite <- (k_recd _ _ _ _ _ K). unfold recd. rewrite Hs. naive_solver. }
    assert (forall q c', (q, c') ∈ (cur, c) :: Ed <-> (q, c') ∈ Ed \/ (q = cur /\ c' = c)) as HE.
    { intros q c'. rewrite elem_of_cons. naive_solver. }
    eexists _, _, _. split; [reflexivity|]. split.
    - apply K.
    - apply K.
    - intros k t. rewrite Hq. destruct (decide _); [|by apply (k_sets _ _ _ _ _ K)]. intros [= <-].
      apply NoDup_filter. by eapply (k_sets _ _ _ _ _ K).
    - intros k. rewrite Hq. destruct (decide _) as [<-|]; [|by apply (k_keys _ _ _ _ _ K)].
      split; [|by eexists]. intros _. apply (k_keys _ _ _ _ _ K). by eexists.
    - intros q c'. rewrite HE. unfold recd. rewrite Hq. destruct (decide (c = c')) as [<-|Hne].
      + split.
        * intros (t & [= <-] & Hin). apply Hs' in Hin as [Hin Hne]. apply Hsr in Hin as (? & ? & ?).
          split; [done|]. split; [done|]. intros [|[? _]]; done.
        * intros (Hr & Hc & Hn). exists s'. split; [done|]. apply Hs'. split; [|naive_solver]. apply Hsr. naive_solver.
      + change (recd ps q c' <-> R q /\ child q c' /\ ~ ((q, c') ∈ Ed \/ q = cur /\ c' = c)).
        rewrite (k_recd _ _ _ _ _ K). naive_solver.
    - destruct s' as [|x s'']; [|apply K]. apply NoDup_app. split; [apply K|]. split; [|apply NoDup_singleton].
      intros x Hx Hx'. apply elem_of_list_singleton in Hx' as ->. apply (k_watch _ _ _ _ _ K) in Hx as (_ & _ & Hx).
      by apply Hed, Hx.
    - intros c'.
      assert (c' ∈ (match s' with [] => watch ++ [c] | _ :: _ => watch end) <-> c' ∈ watch \/ (s' = [] /\ c' = c)) as ->.
      { destruct s'; [|naive_solver]. rewrite elem_of_app, elem_of_list_singleton. naive_solver. }
      split.
      + intros [Hw|[Hnil ->]].
        * apply (k_watch _ _ _ _ _ K) in Hw as (? & ? & ?). split; [done|]. split; [done|]. intros. apply HE. left. auto.
        * split; [by eapply below_snoc|]. split; [done|]. intros q Hr Hc. apply HE.
          destruct (decide (q = cur)) as [->|Hne]; [by right|]. left.
          destruct (decide ((q, c) ∈ Ed)) as [|Hnot]; [done|]. exfalso.
          assert (q ∈ s') as Hin' by (apply Hs'; split; [by apply Hsr|done]). rewrite Hnil in Hin'. by apply elem_of_nil in Hin'.
      + intros (Hr & HD & Hall). destruct (decide (c' = c)) as [->|Hne].
        * right. split; [|done]. destruct s' as [|x s''] eqn:Es; [done|]. exfalso.
          assert (x ∈ s /\ x <> cur) as [Hx Hxc] by (apply Hs', elem_of_cons; by left).
          apply Hsr in Hx as (Rx & Cx & Nx). destruct (HE x c) as [HE1 _]. destruct (HE1 (Hall x Rx Cx)) as [|[? _]]; done.
        * left. apply (k_watch _ _ _ _ _ K). split; [done|]. split; [done|]. intros q Rq Cq.
          destruct (HE q c') as [HE1 _]. destruct (HE1 (Hall q Rq Cq)) as [|[_ ?]]; done.
    - apply dwf_dset. unfold pos1. destruct (dget pos c); [apply K|apply dwf_dset, K].
    - intros k. rewrite Hp. destruct (decide (c = k)) as [<-|Hne].
      + split; [|by eexists]. intros _. right. exists cur. apply HE. by right.
      + rewrite (k_pos _ _ _ _ _ K). split; (intros [?|[q Hq']]; [by left|right; exists q]).
        * apply HE. by left.
        * apply HE in Hq' as [|[_ ?]]; done.
    - rewrite Hp, decide_False by done. apply K.
    - intros q c' He. apply HE in He as [He|[-> ->]].
      + destruct (k_lt _ _ _ _ _ K q c' He) as (a' & b & Ha' & Hb & Hab). exists a'.
        rewrite !Hp, (decide_False (P := c = q)) by (intros <-; by eapply Hqc).
        destruct (decide (c = c')) as [<-|Hne]; [|by exists b]. exists new. split; [done|]. split; [done|].
        unfold new, old. rewrite Hb. cbn. lia.
      + exists a, new. rewrite !Hp, decide_False, decide_True by (done || lia). split; [done|]. split; [done|]. unfold new. lia.
    - intros k b. rewrite Hp. destruct (decide (c = k)) as [<-|Hne].
      + intros [= <-]. right. destruct (decide (old <= a + 1)) as [Hle|Hgt].
        * exists cur, a. rewrite Hp, decide_False by lia. split; [apply HE; by right|]. split; [done|]. unfold new. lia.
        * destruct (dget pos c) as [o|] eqn:Eo; [|unfold old in *; cbn in *; lia].
          destruct (k_pred _ _ _ _ _ K c o Eo) as [|(q & a' & He & Ha' & Ho)]; [done|].
          exists q, a'. rewrite Hp, decide_False by (intros <-; by eapply Hqc). split; [apply HE; by left|].
          split; [done|]. unfold new, old in *. cbn in *. lia.
      + intros Hb. destruct (k_pred _ _ _ _ _ K k b Hb) as [|(q & a' & He & Ha' & ->)]; [by left|]. right.
        exists q, a'. rewrite Hp, decide_False by (intros <-; by eapply Hqc). split; [apply HE; by left|]. done.
    - intros q Hq'. rewrite Hp. destruct (decide _); [by eexists|]. by apply (k_dpos _ _ _ _ _ K).
    - intros q r Hq' Hr Hc. apply HE. left. by apply (k_up _ _ _ _ _ K).
    - intros q c' He. apply HE in He as [He|[-> ->]]; [by apply (k_ed _ _ _ _ _ K)|done].
  Qed.

  (** Popping a node without unhandled parents. *)
  Lemma pop_ok D Ed pos ps rest cur : kinv D Ed pos ps (rest ++ [cur]) -> kinv (cur :: D) Ed pos ps rest.
  Proof.
    intros K.
    assert (cur ∈ rest ++ [cur]) as Hin by (apply elem_of_app; right; by apply elem_of_list_singleton).
    destruct (proj1 (k_watch _ _ _ _ _ K cur) Hin) as (Rc & HcD & Hall).
    pose proof (k_wnd _ _ _ _ _ K) as Hnd. apply NoDup_app in Hnd as (Hnd & Hdis & _).
    split; try apply K; try done.
    - constructor; [done|apply K].
    - intros q Hq. apply elem_of_cons in Hq as [->|Hq]; [done|by apply (k_sub _ _ _ _ _ K)].
    - intros c. rewrite elem_of_cons. pose proof (k_watch _ _ _ _ _ K c) as Hw. rewrite elem_of_app, elem_of_list_singleton in Hw.
      split.
      + intros Hc. destruct (proj1 Hw (or_introl Hc)) as (? & ? & ?). split; [done|]. split; [|done].
        intros [->|?]; [|done]. apply (Hdis cur Hc). by apply elem_of_list_singleton.
      + intros (? & Hn & ?). destruct (proj2 Hw) as [| ->]; [|done|naive_solver]. split; [done|]. split; [|done]. naive_solver.
    - intros q Hq. apply elem_of_cons in Hq as [->|Hq]; [|by apply (k_dpos _ _ _ _ _ K)].
      apply (k_pos _ _ _ _ _ K). destruct (below_last _ _ Rc) as [?|(q & Hq & Hc)]; [by left|right]. exists q. by apply Hall.
    - intros q r Hq Hr Hc. apply elem_of_cons in Hq as [->|Hq]; [by apply Hall|by eapply (k_up _ _ _ _ _ K)].
    - intros q c He. apply (k_ed _ _ _ _ _ K) in He as [? ?]. split; [|done]. apply elem_of_cons. by right.
  Qed.

  (** Between two rounds: all edges of the popped nodes are handled. *)
  Definition round (D : list nat) (Ed : list (nat * nat)) : Prop := forall q c, q ∈ D -> child q c -> (q, c) ∈ Ed.

  Lemma round_end D Ed pos ps : kinv D Ed pos ps [] -> round D Ed -> forall k, R k <-> k ∈ D.
  Proof.
    intros K HR k. split; [|apply (k_sub _ _ _ _ _ K)]. intros Hk. destruct (decide (k ∈ D)) as [|Hn]; [done|]. exfalso.
    assert (forall m k, root - k < m -> R k -> k ∉ D -> False) as Hind; [|exact (Hind (S (root - k)) k (Nat.lt_succ_diag_r _) Hk Hn)].
    clear k Hk Hn. induction m as [|m IH]; intros k Hlt Hk Hn; [lia|].
    assert (k ∉ []) as Hnil by apply not_elem_of_nil. apply Hnil. apply (k_watch _ _ _ _ _ K). split; [done|]. split; [done|].
    intros q Hq Hc. destruct (decide (q ∈ D)) as [HqD|HqD]; [by apply HR|]. exfalso.
    apply (IH q); [|done|done]. destruct (child_lt q k Hc). apply below_le in Hq. lia.
  Qed.

  Lemma layers_loop_ok n : forall D Ed pos ps watch, kinv D Ed pos ps watch -> round D Ed ->
    length (dkeys ps) < length D + n -> dwf ps ->
    exists pos' ps' D' Ed', layers_loop n ns (pos, ps, watch) = Ok pos' /\ kinv D' Ed' pos' ps' [] /\ round D' Ed'.
  Proof.
    induction n as [|n IH]; intros D Ed pos ps watch K HR Hlen Hw.
    { assert (length D <= length (dkeys ps)) as Hle; [|lia]. apply submseteq_length, NoDup_submseteq; [apply K|].
      intros q Hq. apply dget_is_Some, (k_keys _ _ _ _ _ K). by apply (k_sub _ _ _ _ _ K). }
    cbn [layers_loop]. destruct (rev watch) as [|cur rest] eqn:Er.
    { assert (watch = []) as -> by (rewrite <- (rev_involutive watch), Er; done). by exists pos, ps, D, Ed. }
    assert (watch = rev rest ++ [cur]) as ->.
    { rewrite <- (rev_involutive watch), Er. done. }
    assert (cur ∈ rev rest ++ [cur]) as Hin by (apply elem_of_app; right; by apply elem_of_list_singleton).
    destruct (proj1 (k_watch _ _ _ _ _ K cur) Hin) as (Rc & HcD & Hall).
    destruct (proj2 (k_keys _ _ _ _ _ K cur) Rc) as [s Hs]. rewrite Hs.
    destruct s as [|x s].
    2:{ exfalso. assert (recd ps x cur) as Hr by (exists (x :: s); split; [done|apply elem_of_cons; by left]).
        apply (k_recd _ _ _ _ _ K) in Hr as (Rx & Cx & Nx). apply Nx. by apply Hall. }
    assert (forall c, (cur, c) ∉ Ed) as Hno by (intros c He; by apply (k_ed _ _ _ _ _ K) in He as [? _]).
    apply pop_ok in K. destruct (below_dlt _ _ Hroot Rc) as [nd Hn]. rewrite Hn.
    destruct nd as [x|d ct cf].
    - apply (IH (cur :: D) Ed); [done| |cbn; lia|done].
      intros q c Hq Hc. apply elem_of_cons in Hq as [->|Hq]; [|by apply HR].
      destruct Hc as (? & ? & ? & Hn' & _). congruence.
    - destruct (Hns _ _ _ _ Hn) as (_ & _ & _ & _ & Hne).
      assert (child cur ct) as Cct by (exists d, ct, cf; auto).
      assert (child cur cf) as Ccf by (exists d, ct, cf; auto).
      assert (cur ∈ cur :: D) as Hcc by (apply elem_of_cons; by left).
      destruct (layer_child_ok _ _ _ _ _ cur ct K Hcc Cct (Hno ct)) as (pos1 & ps1 & w1 & E1 & K1).
      rewrite E1. cbn [rbind].
      destruct (layer_child_ok _ _ _ _ _ cur cf K1 Hcc Ccf) as (pos2 & ps2 & w2 & E2 & K2).
      { rewrite elem_of_cons. intros [Heq|He]; [by simplify_eq|by eapply Hno]. }
      rewrite E2. cbn [rbind].
      assert (forall pos ps w c pos' ps' w', layer_child cur (pos, ps, w) c = Ok (pos', ps', w') -> dwf ps ->
        dkeys ps' = dkeys ps /\ dwf ps') as Hk.
      { clear. intros pos ps w c pos' ps' w'. unfold layer_child. destruct (dget ps c) eqn:Ec; [|done].
        destruct (bool_decide _); [|done]. intros [= _ <- _] Hw. split; [|by apply dwf_dset].
        rewrite dkeys_dset, decide_True; [done|]. apply dget_is_Some. by eexists. }
      destruct (Hk _ _ _ _ _ _ _ E1 Hw) as [Hk1 Hw1]. destruct (Hk _ _ _ _ _ _ _ E2 Hw1) as [Hk2 Hw2].
      apply (IH (cur :: D) ((cur, cf) :: (cur, ct) :: Ed)); [done| |rewrite Hk2, Hk1; cbn; lia|done].
      intros q c Hq Hc. rewrite !elem_of_cons. apply elem_of_cons in Hq as [->|Hq]; [|right; right; by apply HR].
      destruct Hc as (d' & ct' & cf' & Hn' & Hc). rewrite Hn in Hn'. simplify_eq. destruct Hc as [->| ->]; auto.
  Qed.

  (** ** The profile *)

  (** What a profile of [root] holds: the nodes below the root, each once and after
      its children, and for each the number of its parents. *)
  Definition profile_of (order : list nat) (cs : list (nat * (nat * nat))) : Prop :=
    NoDup order /\ (forall k, k ∈ order <-> R k) /\
    (forall pre k suf c, order = pre ++ k :: suf -> child k c -> c ∈ pre) /\
    dkeys cs = order /\
    (forall k n i, dget cs k = Some (n, i) ->
       exists s, NoDup s /\ n = length s /\ forall q, q ∈ s <-> R q /\ child q k).

  Lemma make_profile_ok : exists order cs, make_profile ns root = Ok (Prof order cs 0) /\ profile_of order cs /\
    forall k n i, dget cs k = Some (n, i) -> i = 0.
  Proof.
    unfold make_profile. destruct parents_ok as (ps & -> & Hsets & Hwf & Hkeys & Hrecd). cbn [rbind].
    unfold extract_cache.
    destruct (layers_loop_ok (S (length ps)) [] [] [(root, 0)] ps [root]) as (pos & ps' & D & Ed & -> & K & HR).
    { split.
      - constructor.
      - intros q Hq. by apply elem_of_nil in Hq.
      - done.
      - done.
      - intros q c. rewrite Hrecd. pose proof (not_elem_of_nil (q, c)). tauto.
      - apply NoDup_singleton.
      - intros c. rewrite elem_of_list_singleton. split.
        + intros ->. split; [constructor|]. split; [apply not_elem_of_nil|]. intros q Hq Hc.
          apply child_lt in Hc as [Hlt _]. apply below_le in Hq. lia.
        + intros (Hc & _ & Hall). destruct (below_last _ _ Hc) as [?|(q & Hq & Hqc)]; [done|].
          by apply Hall, elem_of_nil in Hq.
      - unfold dwf, dkeys. cbn. apply NoDup_singleton.
      - intros c. cbn. destruct (decide (root = c)) as [<-|Hne].
        + split; [by left|by eexists].
        + split; [by intros [? ?]|]. intros [?|[q Hq]]; [congruence|by apply elem_of_nil in Hq].
      - cbn. by rewrite decide_True.
      - intros q c Hq. by apply elem_of_nil in Hq.
      - intros c b. cbn. destruct (decide (root = c)) as [<-|]; [by left|done].
      - intros q Hq. by apply elem_of_nil in Hq.
      - intros q r Hq. by apply elem_of_nil in Hq.
      - intros q c Hq. by apply elem_of_nil in Hq. }
    { intros q c Hq. by apply elem_of_nil in Hq. }
    { unfold dkeys. rewrite map_length. cbn. lia. }
    { done. }
    cbn [rbind]. pose proof (round_end _ _ _ _ K HR) as HD.
    assert (forall k, dlt pos k <-> R k) as Hdom.
    { intros k. split.
      - intros Hk. apply (k_pos _ _ _ _ _ K) in Hk as [->|[q Hq]]; [constructor|].
        apply (k_ed _ _ _ _ _ K) in Hq as [Hq Hc]. apply HD in Hq. by eapply below_snoc.
      - intros Hk. apply (k_dpos _ _ _ _ _ K). by apply HD. }
    set (ls := layers pos).
    assert (forall i, dget ls i = match group pos i with [] => None | l => Some l end) as Hls.
    { intros i. unfold ls, layers. rewrite dget_layers. cbn [dget]. unfold group. by destruct (map _ _). }
    assert (forall i, i ∈ dkeys ls <-> i < length (dkeys ls)) as Hseg.
    { apply initial_segment; [apply dwf_layers; constructor|]. intros i Hi. apply dget_is_Some in Hi. apply dget_is_Some.
      rewrite Hls in Hi. rewrite Hls. destruct (group pos (S i)) as [|k l] eqn:Eg; [by destruct Hi|].
      assert (k ∈ group pos (S i)) as Hk by (rewrite Eg; apply elem_of_cons; by left).
      apply elem_of_group in Hk; [|apply K]. destruct (k_pred _ _ _ _ _ K _ _ Hk) as [->|(q & a & _ & Hq & [= ->])].
      { rewrite (k_root _ _ _ _ _ K) in Hk. done. }
      apply elem_of_group in Hq; [|apply K]. destruct (group pos a); [by apply elem_of_nil in Hq|by eexists]. }
    assert (length (dkeys ls) = length ls) as Hlen by (unfold dkeys; by rewrite map_length). rewrite Hlen in Hseg.
    rewrite (rmapM_total _ (group pos)).
    2:{ intros i Hi. apply elem_seq in Hi. assert (i ∈ dkeys ls) as Hi' by (apply Hseg; lia). apply dget_is_Some in Hi' as [l Hl].
        rewrite Hl. rewrite Hls in Hl. destruct (group pos i); [done|]. by simplify_eq. }
    cbn [rbind]. set (order := rev (concat (map (group pos) (seq 0 (length ls))))).
    assert (forall k, k ∈ order <-> R k) as Hmem.
    { intros k. unfold order. rewrite <- Hdom, elem_of_list_In, <- in_rev, <- elem_of_list_In, elem_of_groups by apply K. split.
      - intros (i & Hi & _). by eexists.
      - intros [i Hi]. exists i. split; [done|]. split; [lia|]. apply Hseg, dget_is_Some. rewrite Hls.
        apply elem_of_group in Hi; [|apply K]. destruct (group pos i); [by apply elem_of_nil in Hi|by eexists]. }
    set (g := fun id => (id, (length (default [] (dget ps id)), 0))).
    rewrite (rmapM_total _ g).
    2:{ intros k Hk. apply Hmem, Hkeys in Hk as [s Hs]. unfold g. by rewrite Hs. }
    cbn [rbind]. exists order, (map g order). split; [done|].
    assert (dkeys (map g order) = order) as Hdk.
    { unfold dkeys. rewrite map_map. unfold g. cbn. apply map_id. }
    assert (NoDup order) as Hnd.
    { unfold order. apply NoDup_ListNoDup, NoDup_rev, NoDup_ListNoDup, NoDup_groups, K. }
    assert (forall k n i, dget (map g order) k = Some (n, i) -> k ∈ order /\ n = length (default [] (dget ps k)) /\ i = 0) as Hg.
    { intros k n i Hk. apply dget_In in Hk. apply elem_of_list_fmap in Hk as (k' & Hk & Hin). unfold g in Hk. by simplify_eq. }
    split; [|intros k n i Hk; by apply Hg in Hk as (_ & _ & ?)].
    split; [done|]. split; [done|]. split; [|split; [done|]].
    - intros pre k suf c Heq Hc.
      assert (R k) as Rk by (apply Hmem; rewrite Heq; apply elem_of_app; right; apply elem_of_cons; by left).
      assert (c ∈ order) as Hin by (apply Hmem; by eapply below_snoc).
      rewrite Heq in Hin. apply elem_of_app in Hin as [|Hin]; [done|]. exfalso.
      destruct (child_lt _ _ Hc) as [Hlt _]. apply elem_of_cons in Hin as [->|Hin]; [lia|].
      destruct (k_lt _ _ _ _ _ K k c) as (a & b & Ha & Hb & Hab); [apply HR; [by apply HD|done]|].
      unfold order in Heq. apply (f_equal (@rev nat)) in Heq. rewrite rev_involutive, rev_app_distr in Heq.
      cbn [rev] in Heq. rewrite <- app_assoc in Heq. cbn [app] in Heq.
      destruct (groups_sorted pos (k_dwf _ _ _ _ _ K) _ _ _ _ _ c Heq) as (b' & a' & Hb' & Ha' & Hle).
      { apply elem_of_list_In, in_rev. rewrite rev_involutive. by apply elem_of_list_In. }
      rewrite Ha in Ha'. rewrite Hb in Hb'. simplify_eq. lia.
    - intros k n i Hk. apply Hg in Hk as (Hk & -> & _). apply Hmem, Hkeys in Hk as [s Hs]. rewrite Hs. cbn [default].
      exists s. split; [by eapply Hsets|]. split; [done|]. intros q. rewrite <- Hrecd. unfold recd. rewrite Hs. naive_solver.
  Qed.
End Profile.

(** * The bottom-up walk *)

Lemma child_dec {E} (ns : list (nat * node E)) q c : Decision (child ns q c).
Proof.
  unfold child. destruct (dget ns q) as [[x|d ct cf]|] eqn:E1.
  - right. intros (d & ct & cf & H & _). congruence.
  - destruct (decide (c = ct \/ c = cf)) as [H|H].
    + left. by exists d, ct, cf.
    + right. intros (d' & ct' & cf' & H1 & H2). by simplify_eq.
  - right. intros (d & ct & cf & H & _). congruence.
Defined.

(** A stored profile that is ready for a walk. *)
Definition ready {E} (ns : list (nat * node E)) (root : nat) (f : profile) : Prop :=
  exists order cs, f = Prof order cs 0 /\ profile_of ns root order cs /\ forall k n i, dget cs k = Some (n, i) -> i = 0.

Section Walk.
  Context {E : Type} (ns : list (nat * node E)).
  Context (Hns : forall i d ct cf, dget ns i = Some (INode d ct cf) ->
    ct < i /\ cf < i /\ dlt ns ct /\ dlt ns cf /\ ct <> cf).
  Context (root : nat) (Hroot : dlt ns root).
  Notation R := (below ns root).

  Lemma get_profile_ready (p : pool E) : p_nodes p = ns -> (forall f, dget (p_profiles p) root = Some f -> ready ns root f) ->
    exists f, ready ns root f /\ (get_profile root p).2 = Ok f /\
      dget (p_profiles (get_profile root p).1) root = Some f /\
      ((get_profile root p).1 = p \/ (get_profile root p).1 = set_profile p root f).
  Proof.
    intros Hn Hp. unfold get_profile. destruct (dget (p_profiles p) root) as [f|] eqn:Ef.
    - exists f. cbn. auto.
    - rewrite Hn. destruct (make_profile_ok ns Hns root Hroot) as (order & cs & -> & Ho & Hc). cbn.
      exists (Prof order cs 0). split; [by exists order, cs|]. split; [done|]. split; [|by right].
      by rewrite dget_dset, decide_True by done.
  Qed.

  Context {B : Type} (vt : nat -> E -> M E B)
    (vi : nat -> decision -> nat -> nat -> option B -> option B -> M E B).

  Lemma retrieve_ok (p : pool E) f c (P s : list nat) k (ms : list (nat * B)) m :
    dget (p_profiles p) root = Some f -> dget (pf_counts f) c = Some (length P, length s) ->
    NoDup P -> NoDup s -> (forall q, q ∈ s -> q ∈ P) -> k ∈ P -> k ∉ s -> dget ms c = Some m -> dwf ms ->
    exists b, retrieve root c ms p =
      (set_profile p root (Prof (pf_nodes f) (dset (pf_counts f) c (length P, S (length s))) (pf_next f)),
       Ok (if b : bool then ddel ms c else ms, Some m)) /\
      (b = true -> forall q, q ∈ P -> q = k \/ q ∈ s) /\ (b = false -> exists q, q ∈ P /\ q <> k /\ q ∉ s).
  Proof.
    intros Hf Hc HP Hs Hsub Hk Hks Hm Hw.
    assert (length (k :: s) <= length P) as Hle.
    { apply submseteq_length, NoDup_submseteq; [by constructor|]. intros q Hq. apply elem_of_cons in Hq as [->|Hq]; auto. }
    cbn [length] in Hle. unfold retrieve, count, mbind. rewrite Hf, Hc. cbv zeta.
    destruct (Nat.eqb_spec (S (length s)) (length P)) as [Heq|Hne].
    - exists true. cbn. rewrite Hm. split; [done|]. split; [|done]. intros _ q Hq.
      assert (P ≡ₚ k :: s) as Hperm.
      { symmetry. apply submseteq_Permutation_length_le; [cbn; lia|]. apply NoDup_submseteq; [by constructor|].
        intros x Hx. apply elem_of_cons in Hx as [->|Hx]; auto. }
      rewrite Hperm in Hq. by apply elem_of_cons in Hq.
    - rewrite (proj2 (Nat.ltb_lt _ _)) by lia. exists false. cbn. rewrite Hm. split; [done|]. split; [done|]. intros _.
      destruct (decide (Exists (fun q => q <> k /\ q ∉ s) P)) as [HE|HE].
      + apply Exists_exists in HE as (q & ? & ? & ?). by exists q.
      + exfalso. assert (length P <= length (k :: s)) as Hle'; [|cbn in Hle'; lia].
        apply submseteq_length, NoDup_submseteq; [done|]. intros q Hq. apply elem_of_cons.
        destruct (decide (q = k)) as [|Hqk]; [by left|]. right. destruct (decide (q ∈ s)) as [|Hqs]; [done|].
        exfalso. apply HE, Exists_exists. by exists q.
  Qed.

  Context (order : list nat) (J : list nat -> list (nat * B) -> pool E -> Prop) (X : exn -> pool E -> Prop).
  Context (HJn : forall pre tbl p id n, J pre tbl p -> dget ns id = Some n -> dget (p_nodes p) id = Some n).
  Context (HJs : forall pre tbl p f, J pre tbl p -> J pre tbl (set_profile p root f)).
  Context (Hvt : forall pre id suf tbl p x, J pre tbl p -> order = pre ++ id :: suf -> dget ns id = Some (TNode x) ->
    match vt id x p with
    | (p', Ok m) => J (pre ++ [id]) (tbl ++ [(id, m)]) p' /\ dget (p_profiles p') root = dget (p_profiles p) root
    | (p', Err e) => X e p'
    end).
  Context (Hvi : forall pre id suf tbl p d ct cf mt mf, J pre tbl p -> order = pre ++ id :: suf ->
    dget ns id = Some (INode d ct cf) -> dget tbl ct = Some mt -> dget tbl cf = Some mf ->
    match vi id d ct cf (Some mt) (Some mf) p with
    | (p', Ok m) => J (pre ++ [id]) (tbl ++ [(id, m)]) p' /\ dget (p_profiles p') root = dget (p_profiles p) root
    | (p', Err e) => X e p'
    end).

  (** The state of the loop after the nodes [pre]. *)
  Record winv (pre suf : list nat) (tbl : list (nat * B)) (ms : list (nat * B)) (p : pool E)
      (cs : list (nat * (nat * nat))) : Prop := {
    w_prof : dget (p_profiles p) root = Some (Prof order cs (length pre));
    w_of : profile_of ns root order cs;
    w_split : order = pre ++ suf;
    w_cnt : forall k n i, dget cs k = Some (n, i) ->
      exists s, NoDup s /\ i = length s /\ forall q, q ∈ s <-> q ∈ pre /\ child ns q k;
    w_dwf : dwf ms;
    w_tbl : dkeys tbl = pre;
    w_have : forall k, k ∈ pre -> k = root \/ (exists q, q ∈ suf /\ child ns q k) -> dget ms k = dget tbl k;
    w_only : forall k m, dget ms k = Some m -> k ∈ pre /\ (k = root \/ exists q, q ∈ suf /\ child ns q k);
    w_J : J pre tbl p }.

  Lemma profile_of_set cs c n i i' : profile_of ns root order cs -> dget cs c = Some (n, i) ->
    profile_of ns root order (dset cs c (n, i')).
  Proof.
    intros (H1 & H2 & H3 & H4 & H5) Hc. split; [done|]. split; [done|]. split; [done|]. split.
    - rewrite dkeys_dset, decide_True; [done|]. apply dget_is_Some. by eexists.
    - intros k n' j. rewrite dget_dset. destruct (decide (c = k)) as [<-|]; [|apply H5]. intros [= <- <-]. by apply (H5 _ _ _ Hc).
  Qed.

  Lemma dget_snoc {V} (l : list (nat * V)) k v j : k ∉ dkeys l -> dget (l ++ [(k, v)]) j = if decide (k = j) then Some v else dget l j.
  Proof. intros Hk. rewrite <- dset_fresh by done. apply dget_dset. Qed.

  Lemma not_before cs pre id suf q : profile_of ns root order cs -> order = pre ++ id :: suf -> child ns q id ->
    q ∉ pre /\ q <> id.
  Proof.
    intros (Hnd & _ & H3 & _) Ho Hc. split; [|intros ->; apply (child_lt ns Hns) in Hc as [? _]; lia].
    intros Hq. apply elem_of_list_split in Hq as (a & b & ->). rewrite <- app_assoc in Ho. cbn in Ho.
    pose proof (H3 _ _ _ _ Ho Hc) as Ha. rewrite Ho in Hnd. apply NoDup_app in Hnd as (_ & Hd & _).
    apply (Hd id Ha). apply elem_of_cons. right. apply elem_of_app. right. apply elem_of_cons. by left.
  Qed.
  Lemma parent_later cs pre id suf : profile_of ns root order cs -> order = pre ++ id :: suf ->
    id = root \/ exists q, q ∈ suf /\ child ns q id.
  Proof.
    intros Hp Ho. pose proof Hp as (Hnd & H2 & _).
    assert (R id) as Rid by (apply H2; rewrite Ho; apply elem_of_app; right; apply elem_of_cons; by left).
    destruct (below_last ns _ _ Rid) as [->|(q & Hq & Hc)]; [by left|]. right. exists q. split; [|done].
    destruct (not_before cs pre id suf q Hp Ho Hc) as [Hn Hne].
    apply H2 in Hq. rewrite Ho in Hq. apply elem_of_app in Hq as [|Hq]; [done|]. by apply elem_of_cons in Hq as [|].
  Qed.

  Lemma retrieve_step pre id suf tbl ms (p : pool E) cs c (p' : pool E) cs' nx (ms' : list (nat * B)) m :
    winv pre (id :: suf) tbl ms p cs -> child ns id c ->
    dget (p_profiles p') root = Some (Prof order cs' nx) -> dget cs' c = dget cs c -> dget ms' c = Some m -> dwf ms' ->
    exists n (b : bool) s, retrieve root c ms' p' =
        (set_profile p' root (Prof order (dset cs' c (n, length (id :: s))) nx),
         Ok (if b then ddel ms' c else ms', Some m)) /\
      dget cs c = Some (n, length s) /\ NoDup (id :: s) /\
      (forall q, q ∈ id :: s <-> q ∈ pre ++ [id] /\ child ns q c) /\
      (if b then forall q, q ∈ suf -> ~ child ns q c else exists q, q ∈ suf /\ child ns q c).
  Proof.
    intros W Hc Hp' Hcs Hm Hw. destruct (w_of _ _ _ _ _ _ W) as (Hnd & H2 & H3 & H4 & H5).
    pose proof (w_split _ _ _ _ _ _ W) as Ho.
    assert (R id) as Rid by (apply H2; rewrite Ho; apply elem_of_app; right; apply elem_of_cons; by left).
    assert (R c) as Rc by by eapply below_snoc.
    assert (is_Some (dget cs c)) as [[n i] Hci] by (apply dget_is_Some; rewrite H4; by apply H2).
    destruct (H5 _ _ _ Hci) as (P & HP & -> & HPq). destruct (w_cnt _ _ _ _ _ _ W _ _ _ Hci) as (s & Hs & -> & Hsq).
    rewrite Ho in Hnd. apply NoDup_app in Hnd as (Hndp & Hdis & Hnds). apply NoDup_cons in Hnds as [Hids Hnds].
    assert (id ∉ pre) as Hidp by (intros Hin; apply (Hdis id Hin), elem_of_cons; by left).
    assert (id ∉ s) as Hidn by (rewrite Hsq; tauto).
    destruct (retrieve_ok p' (Prof order cs' nx) c P s id ms' m) as (b & Heq & Hb1 & Hb2); try done.
    - cbn. by rewrite Hcs.
    - intros q Hq. apply Hsq in Hq as [Hq Hqc]. apply HPq. split; [|done]. apply H2. rewrite Ho. apply elem_of_app. by left.
    - by apply HPq.
    - exists (length P), b, s. split; [exact Heq|]. split; [done|]. split; [by constructor|]. split.
      + intros q. rewrite elem_of_cons, Hsq, elem_of_app, elem_of_list_singleton. naive_solver.
      + destruct b.
        * intros q Hq Hqc. assert (R q) as Rq.
          { apply H2. rewrite Ho. apply elem_of_app. right. apply elem_of_cons. by right. }
          destruct (Hb1 eq_refl q) as [->|Hqs]; [by apply HPq|done|]. apply Hsq in Hqs as [Hqp _].
          apply (Hdis q Hqp), elem_of_cons. by right.
        * destruct (Hb2 eq_refl) as (q & Hq & Hne & Hqs). apply HPq in Hq as [Rq Hqc]. exists q. split; [|done].
          apply H2 in Rq. rewrite Ho in Rq. apply elem_of_app in Rq as [Rq|Rq]; [exfalso; apply Hqs, Hsq; done|].
          by apply elem_of_cons in Rq as [|].
  Qed.

  Lemma walk_loop_ok n : forall pre suf tbl ms p cs, winv pre suf tbl ms p cs -> length suf < n ->
    match walk_loop vt vi n root ms p with
    | (p', Ok ms') => exists tbl' cs', winv order [] tbl' ms' p' cs'
    | (p', Err e) => X e p'
    end.
  Proof.
    induction n as [|n IH]; intros pre suf tbl ms p cs W Hlt; [lia|]. cbn [walk_loop].
    rewrite (w_prof _ _ _ _ _ _ W). cbn [pf_nodes pf_next pf_counts]. pose proof (w_split _ _ _ _ _ _ W) as Ho.
    destruct suf as [|id suf].
    { rewrite app_nil_r in Ho. rewrite (proj2 (nth_error_None _ _)) by (rewrite Ho; lia).
      exists tbl, cs. rewrite Ho. exact W. }
    assert (nth_error order (length pre) = Some id) as ->.
    { rewrite Ho, nth_error_app2 by lia. by rewrite Nat.sub_diag. }
    set (p1 := set_profile p root (Prof order cs (S (length pre)))).
    assert (J pre tbl p1) as J1 by apply HJs, W.
    assert (dget (p_profiles p1) root = Some (Prof order cs (S (length pre)))) as Hp1.
    { cbn. by rewrite dget_dset, decide_True by done. }
    destruct (w_of _ _ _ _ _ _ W) as (Hnd & H2 & H3 & H4 & H5) eqn:Hof. clear Hof.
    pose proof (w_of _ _ _ _ _ _ W) as Hof.
    assert (R id) as Rid by (apply H2; rewrite Ho; apply elem_of_app; right; apply elem_of_cons; by left).
    pose proof Hnd as Hnd'. rewrite Ho in Hnd'. apply NoDup_app in Hnd' as (Hndp & Hdis & Hnds). apply NoDup_cons in Hnds as [Hids Hnds].
    assert (id ∉ pre) as Hidp by (intros Hin; apply (Hdis id Hin), elem_of_cons; by left).
    assert (id ∉ dkeys tbl) as Hidt by by rewrite (w_tbl _ _ _ _ _ _ W).
    assert (order = (pre ++ [id]) ++ suf) as Ho' by (rewrite <- app_assoc; done).
    destruct (below_dlt ns Hns _ _ Hroot Rid) as [nd Hnode].
    unfold mbind at 1. unfold get_node. rewrite (HJn _ _ _ _ _ J1 Hnode). cbn [mbind].
    assert (forall (tbl' : list (nat * B)) m, dkeys tbl' = pre -> dkeys (tbl' ++ [(id, m)]) = pre ++ [id]) as Hdk.
    { intros tbl' m <-. unfold dkeys. by rewrite map_app. }
    destruct nd as [x|d ct cf].
    - pose proof (Hvt pre id suf tbl p1 x J1 Ho Hnode) as Hv. unfold mbind at 1. unfold mbind at 1.
      destruct (vt id x p1) as [p2 [m|ex]]; [|done]. destruct Hv as [J2 Hp2]. cbn [mret].
      apply (IH (pre ++ [id]) suf (tbl ++ [(id, m)]) (dset ms id m) p2 cs); [|cbn in Hlt; lia].
      assert (forall k, ~ child ns id k) as Hleaf by (intros k (? & ? & ? & ? & _); congruence).
      split; try done.
      + rewrite Hp2, Hp1, app_length. cbn. by rewrite Nat.add_1_r.
      + intros k n' i Hk. destruct (w_cnt _ _ _ _ _ _ W _ _ _ Hk) as (s & Hs & -> & Hsq). exists s. split; [done|]. split; [done|].
        intros q. rewrite Hsq, elem_of_app, elem_of_list_singleton. split; [naive_solver|].
        intros [[?| ->] ?]; [done|]. by edestruct Hleaf.
      + apply dwf_dset, W.
      + apply Hdk, W.
      + intros k Hk Hor. rewrite dget_dset, dget_snoc by done. destruct (decide (id = k)) as [<-|Hne]; [done|].
        apply (w_have _ _ _ _ _ _ W); [|destruct Hor as [?|(q & ? & ?)]; [by left|right; exists q; split; [|done]; apply elem_of_cons; by right]].
        apply elem_of_app in Hk as [|Hk]; [done|]. by apply elem_of_list_singleton in Hk as ->.
      + intros k m'. rewrite dget_dset. destruct (decide (id = k)) as [<-|Hne].
        * intros _. split; [apply elem_of_app; right; by apply elem_of_list_singleton|]. by eapply parent_later.
        * intros Hk. apply (w_only _ _ _ _ _ _ W) in Hk as [Hk Hor]. split; [apply elem_of_app; by left|].
          destruct Hor as [?|(q & Hq & Hc)]; [by left|]. right. exists q. split; [|done].
          apply elem_of_cons in Hq as [->|]; [|done]. by edestruct Hleaf.
    - assert (child ns id ct) as Cct by (exists d, ct, cf; auto).
      assert (child ns id cf) as Ccf by (exists d, ct, cf; auto).
      destruct (Hns _ _ _ _ Hnode) as (_ & _ & _ & _ & Hne).
      assert (ct ∈ pre) as Hctp by by eapply H3. assert (cf ∈ pre) as Hcfp by by eapply H3.
      assert (forall c, child ns id c -> c ∈ pre -> exists m, dget tbl c = Some m /\ dget ms c = Some m) as Hmsg.
      { intros c Hc Hcp. rewrite <- (w_tbl _ _ _ _ _ _ W) in Hcp. apply dget_is_Some in Hcp as Hsm. destruct Hsm as [m Hm].
        exists m. split; [done|]. rewrite (w_tbl _ _ _ _ _ _ W) in Hcp. rewrite (w_have _ _ _ _ _ _ W); [done..|].
        right. exists id. split; [apply elem_of_cons; by left|done]. }
      destruct (Hmsg ct Cct Hctp) as (mt & Htt & Hmt). destruct (Hmsg cf Ccf Hcfp) as (mf & Htf & Hmf). clear Hmsg.
      destruct (retrieve_step _ _ _ _ _ _ _ ct p1 cs _ ms mt W Cct Hp1 eq_refl Hmt (w_dwf _ _ _ _ _ _ W))
        as (n1 & b1 & s1 & E1 & Hc1 & Hs1 & Hq1 & Hb1).
      unfold mbind at 1. unfold mbind at 1. rewrite E1.
      set (p2 := set_profile p1 root _). set (cs1 := dset cs ct _) in *. set (ms1 := if b1 then ddel ms ct else ms).
      assert (dwf ms1) as Hw1 by (unfold ms1; destruct b1; [apply dwf_ddel|]; apply W).
      assert (dget ms1 cf = Some mf) as Hmf1.
      { unfold ms1. destruct b1; [|done]. rewrite dget_ddel, decide_False by (done || apply W). done. }
      assert (dget (p_profiles p2) root = Some (Prof order cs1 (S (length pre)))) as Hp2.
      { unfold p2. cbn. by rewrite dget_dset, decide_True by done. }
      assert (dget cs1 cf = dget cs cf) as Hcf1 by (unfold cs1; by rewrite dget_dset, decide_False by done).
      destruct (retrieve_step _ _ _ _ _ _ _ cf p2 cs1 _ ms1 mf W Ccf Hp2 Hcf1 Hmf1 Hw1)
        as (n2 & b2 & s2 & E2 & Hc2 & Hs2 & Hq2 & Hb2).
      unfold mbind at 1. rewrite E2. clear E1 E2.
      set (p3 := set_profile p2 root _). set (cs2 := dset cs1 cf _) in *. set (ms2 := if b2 then ddel ms1 cf else ms1).
      assert (dget (p_profiles p3) root = Some (Prof order cs2 (S (length pre)))) as Hp3.
      { unfold p3. cbn [p_profiles set_profile]. by rewrite dget_dset, decide_True by done. }
      assert (J pre tbl p3) as J3 by by apply HJs, HJs.
      pose proof (Hvi pre id suf tbl p3 d ct cf mt mf J3 Ho Hnode Htt Htf) as Hv.
      unfold mbind at 1. destruct (vi id d ct cf (Some mt) (Some mf) p3) as [p4 [m|ex]]; [|done]. destruct Hv as [J4 Hp4]. cbn [mret].
      apply (IH (pre ++ [id]) suf (tbl ++ [(id, m)]) (dset ms2 id m) p4 cs2); [|cbn in Hlt; lia].
      assert (dwf ms2) as Hw2 by (unfold ms2; destruct b2; [by apply dwf_ddel|done]).
      assert (forall k, dget ms2 k = if decide ((k = ct /\ b1 = true) \/ (k = cf /\ b2 = true)) then None else dget ms k) as Hms2.
      { intros k. assert (forall k, dget ms1 k = if decide (k = ct /\ b1 = true) then None else dget ms k) as Hms1.
        { intros k'. unfold ms1. destruct b1; [rewrite dget_ddel by apply W|]; repeat destruct (decide _); naive_solver. }
        unfold ms2. destruct b2; [rewrite dget_ddel by done|]; rewrite Hms1; repeat destruct (decide _); naive_solver. }
      assert (forall k, dget cs2 k = if decide (cf = k) then Some (n2, length (id :: s2)) else
        if decide (ct = k) then Some (n1, length (id :: s1)) else dget cs k) as Hcs2.
      { intros k. unfold cs2, cs1. by rewrite !dget_dset. }
      split; try done.
      + rewrite Hp4, Hp3, app_length. cbn. by rewrite Nat.add_1_r.
      + unfold cs2. eapply profile_of_set; [|by rewrite Hcf1]. unfold cs1. by eapply profile_of_set.
      + intros k n' i. rewrite Hcs2. destruct (decide (cf = k)) as [<-|Hk1]; [|destruct (decide (ct = k)) as [<-|Hk2]].
        * intros [= <- <-]. by exists (id :: s2).
        * intros [= <- <-]. by exists (id :: s1).
        * intros Hk. destruct (w_cnt _ _ _ _ _ _ W _ _ _ Hk) as (s & Hs & -> & Hsq). exists s. split; [done|]. split; [done|].
          intros q. rewrite Hsq, elem_of_app, elem_of_list_singleton. split; [naive_solver|].
          intros [[?| ->] Hch]; [done|]. destruct Hch as (d' & ct' & cf' & Hn' & Hor). rewrite Hnode in Hn'. simplify_eq. naive_solver.
      + by apply dwf_dset.
      + apply Hdk, W.
      + intros k Hk Hor. rewrite dget_dset, dget_snoc by done. destruct (decide (id = k)) as [<-|Hnk]; [done|].
        assert (k ∈ pre) as Hkp.
        { apply elem_of_app in Hk as [|Hk]; [done|]. by apply elem_of_list_singleton in Hk as ->. }
        rewrite Hms2, decide_False.
        { apply (w_have _ _ _ _ _ _ W); [done|]. destruct Hor as [?|(q & ? & ?)]; [by left|right; exists q; split; [|done]; apply elem_of_cons; by right]. }
        assert (forall c, child ns id c -> c <> root) as Hnr.
        { intros c Hc ->. apply (child_lt ns Hns) in Hc as [? _]. apply (below_le ns Hns) in Rid. lia. }
        intros [[-> Hb]|[-> Hb]]; rewrite Hb in *; destruct Hor as [Heq|(q & Hq & Hqc)].
        * exact (Hnr _ Cct Heq).
        * exact (Hb1 q Hq Hqc).
        * exact (Hnr _ Ccf Heq).
        * exact (Hb2 q Hq Hqc).
      + intros k m'. rewrite dget_dset. destruct (decide (id = k)) as [<-|Hnk].
        * intros _. split; [apply elem_of_app; right; by apply elem_of_list_singleton|]. by eapply parent_later.
        * rewrite Hms2. destruct (decide _) as [|Hno]; [done|].
          intros Hk. apply (w_only _ _ _ _ _ _ W) in Hk as [Hk Hor]. split; [apply elem_of_app; by left|].
          destruct Hor as [?|(q & Hq & Hc)]; [by left|]. right.
          apply elem_of_cons in Hq as [->|]; [|by exists q].
          destruct Hc as (d' & ct' & cf' & Hn' & Hor). rewrite Hnode in Hn'. simplify_eq.
          destruct Hor as [->| ->]; [destruct b1|destruct b2]; try done;
            (exfalso; apply Hno; first [by left|by right]).
  Qed.

  Lemma bottom_up_rule p p1 cs : dlt (p_nodes p) root -> get_profile root p = (p1, Ok (Prof order cs 0)) ->
    dget (p_profiles p1) root = Some (Prof order cs 0) -> profile_of ns root order cs ->
    (forall k n i, dget cs k = Some (n, i) -> i = 0) -> J [] [] p1 ->
    match bottom_up vt vi root p with
    | (p', Ok m) => exists tbl f, J order tbl p' /\ dkeys tbl = order /\ dget tbl root = Some m /\
        dget (p_profiles p') root = Some f /\ ready ns root f
    | (p', Err e) => X e p'
    end.
  Proof.
    intros [nd Hn] Hget Hp1 Hof Hz HJ0. unfold bottom_up. unfold mbind at 1. unfold get_node. rewrite Hn.
    unfold mbind at 1. rewrite Hget. cbn [pf_nodes].
    pose proof (walk_loop_ok (S (length order)) [] order [] [] p1 cs) as Hl. unfold mbind at 1.
    destruct (walk_loop vt vi (S (length order)) root [] p1) as [p2 [ms|e]].
    2:{ apply Hl; [|lia]. split; try done.
        - intros k n i Hk. exists []. split; [constructor|]. split; [by apply Hz in Hk|]. intros q. pose proof (not_elem_of_nil q). tauto.
        - constructor. }
    destruct Hl as (tbl & cs' & W).
    { split; try done.
      - intros k n i Hk. exists []. split; [constructor|]. split; [by apply Hz in Hk|]. intros q. pose proof (not_elem_of_nil q). tauto.
      - constructor. }
    { lia. }
    destruct (w_of _ _ _ _ _ _ W) as (Hnd & H2 & H3 & H4 & H5).
    assert (root ∈ order) as Hro by (apply H2; constructor).
    assert (exists m, dget tbl root = Some m) as [m Hm].
    { rewrite <- (w_tbl _ _ _ _ _ _ W) in Hro. by apply dget_is_Some in Hro. }
    assert (dget ms root = Some m) as Hmr by (rewrite (w_have _ _ _ _ _ _ W); [done..|by left]).
    assert (forall k v, (k, v) ∈ ms -> k = root) as Hk.
    { intros k v Hin. apply In_dget in Hin; [|apply W]. apply (w_only _ _ _ _ _ _ W) in Hin as [_ [?|(q & Hq & _)]]; [done|].
      by apply elem_of_nil in Hq. }
    destruct ms as [|[k v] ms]; [done|].
    assert (k = root) as -> by (eapply (Hk k v), elem_of_cons; by left).
    cbn in Hmr. rewrite decide_True in Hmr by done. simplify_eq.
    destruct ms as [|[k v] ms].
    2:{ exfalso. pose proof (w_dwf _ _ _ _ _ _ W) as Hw. unfold dwf, dkeys in Hw. cbn in Hw.
        assert (k = root) as -> by (eapply (Hk k v), elem_of_cons; right; apply elem_of_cons; by left).
        apply NoDup_cons in Hw as [Hw _]. apply Hw, elem_of_cons. by left. }
    rewrite bool_decide_eq_true_2 by done. rewrite (w_prof _ _ _ _ _ _ W). cbn [pf_nodes pf_counts].
    eexists tbl, _. split; [apply HJs, W|]. split; [apply W|]. split; [done|]. split.
    { cbn. rewrite dget_dset, decide_True by done. reflexivity. }
    set (g := fun kv : nat * (nat * nat) => (kv.1, (kv.2.1, 0))).
    assert (forall k, dget (map g cs') k = match dget cs' k with Some (n, _) => Some (n, 0) | None => None end) as Hg.
    { intros k. clear. induction cs' as [|[j [n i]] cs' IH]; cbn; [done|]. by destruct (decide (j = k)). }
    exists order, (map g cs'). split; [done|]. split.
    - split; [done|]. split; [done|]. split; [done|]. split.
      + unfold dkeys. rewrite map_map. unfold g. cbn. exact H4.
      + intros k n i. rewrite Hg. destruct (dget cs' k) as [[n' i']|] eqn:Ek; [|done]. intros [= <- <-]. by eapply H5.
    - intros k n i. rewrite Hg. destruct (dget cs' k) as [[n' i']|] eqn:Ek; [|done]. by intros [= _ <-].
  Qed.
End Walk.

(** ** Walks from any state of the profile *)

Section AnyWalk.
  Context {E B : Type} (root : nat) (vt : nat -> E -> M E B)
    (vi : nat -> decision -> nat -> nat -> option B -> option B -> M E B).
  (** [St]: how the pool may change; [I]: an invariant; [G]: what holds of messages. *)
  Context (St : pool E -> pool E -> Prop) (I : pool E -> Prop) (G : pool E -> B -> Prop).
  Context (Srefl : forall p, St p p) (Strans : forall p q r, St p q -> St q r -> St p r).
  Context (Snodes : forall p q id n, St p q -> dget (p_nodes p) id = Some n -> dget (p_nodes q) id = Some n).
  Context (Sset : forall p f, St p (set_profile p root f)) (Iset : forall p f, I p -> I (set_profile p root f)).
  Context (Gmono : forall p q m, St p q -> G p m -> G q m).
  Context (Hvt : forall id x p, I p -> dget (p_nodes p) id = Some (TNode x) ->
    St p (vt id x p).1 /\ I (vt id x p).1 /\ forall m, (vt id x p).2 = Ok m -> G (vt id x p).1 m).
  Context (Hvi : forall id d ct cf tm fm p, I p -> dget (p_nodes p) id = Some (INode d ct cf) ->
    (forall m, tm = Some m -> G p m) -> (forall m, fm = Some m -> G p m) ->
    let r := vi id d ct cf tm fm p in St p r.1 /\ I r.1 /\ forall m, r.2 = Ok m -> G r.1 m).

  Notation sound p r := (St p r.1 /\ I r.1).
  Definition msgs (p : pool E) (ms : list (nat * B)) : Prop := forall k m, (k, m) ∈ ms -> G p m.

  Lemma msgs_mono p q ms : St p q -> msgs p ms -> msgs q ms.
  Proof. intros HS Hm k m Hin. by eapply Gmono, Hm. Qed.
  Lemma msgs_dset p ms k m : msgs p ms -> G p m -> msgs p (dset ms k m).
  Proof.
    intros Hm HG k' m'. induction ms as [|[j v] ms IH]; cbn [dset].
    - intros Hin. apply elem_of_list_singleton in Hin. by simplify_eq.
    - destruct (decide (j = k)) as [->|].
      + intros Hin. apply elem_of_cons in Hin as [Heq|Hin]; [by simplify_eq|]. eapply Hm, elem_of_cons. by right.
      + intros Hin. apply elem_of_cons in Hin as [Heq|Hin]; [simplify_eq; eapply Hm, elem_of_cons; by left|].
        apply IH; [|done]. intros k2 m2 H2. eapply Hm, elem_of_cons. by right.
  Qed.
  Lemma msgs_get p ms k m : msgs p ms -> dget ms k = Some m -> G p m.
  Proof. intros Hm Hg. by eapply Hm, dget_In. Qed.
  Lemma msgs_ddel p ms k : msgs p ms -> msgs p (ddel ms k).
  Proof.
    intros Hm k' m'. induction ms as [|[j v] ms IH]; cbn [ddel]; [apply Hm|].
    destruct (decide (j = k)) as [->|].
    - intros Hin. eapply Hm, elem_of_cons. by right.
    - intros Hin. apply elem_of_cons in Hin as [Heq|Hin]; [simplify_eq; eapply Hm, elem_of_cons; by left|].
      apply IH; [|done]. intros k2 m2 H2. eapply Hm, elem_of_cons. by right.
  Qed.

  Lemma count_any (id : nat) p : I p -> sound p (count root id p).
  Proof.
    intros HI. unfold count. destruct (dget (p_profiles p) root) as [f|]; [|done].
    destruct (dget (pf_counts f) id) as [[c i]|]; [|done]. cbv zeta.
    destruct (_ =? _); [by split; [apply Sset|apply Iset]|]. destruct (_ <? _); by split; [apply Sset|apply Iset].
  Qed.
  Lemma retrieve_any id ms p : I p -> msgs p ms -> let r := retrieve root id ms p in sound p r /\
    forall ms' o, r.2 = Ok (ms', o) -> msgs r.1 ms' /\ forall m, o = Some m -> G r.1 m.
  Proof.
    intros HI Hm. unfold retrieve, mbind. pose proof (count_any id p HI) as Hc.
    destruct (count root id p) as [q [b|x]]; cbn in *; [|done]. destruct Hc as [Hs Hq]. destruct b; cbn.
    - split; [done|]. intros ms' o [= <- <-]. split; [apply msgs_ddel; by eapply msgs_mono|].
      intros m Hg. eapply Gmono; [done|]. by eapply msgs_get.
    - destruct (dget ms id) as [m|] eqn:Ed; cbn; [|done]. split; [done|]. intros ms' o [= <- <-]. split; [by eapply msgs_mono|].
      intros m' [= <-]. eapply Gmono; [done|]. by eapply msgs_get.
  Qed.

  Definition post {C} (p : pool E) (r : pool E * Res C) (K : pool E -> C -> Prop) : Prop :=
    St p r.1 /\ I r.1 /\ forall m, r.2 = Ok m -> K r.1 m.

  Lemma walk_loop_any n : forall ms p, I p -> msgs p ms -> post p (walk_loop vt vi n root ms p) msgs.
  Proof.
    induction n as [|n IH]; intros ms p HI Hm; cbn [walk_loop]; [by split_and!|].
    destruct (dget (p_profiles p) root) as [f|]; [|by split_and!].
    destruct (nth_error _ _) as [id|].
    2:{ split_and!; [done..|]. by intros ms' [= <-]. }
    set (p1 := set_profile p root _).
    assert (St p p1) as S1 by apply Sset. assert (I p1) as I1 by by apply Iset. apply (msgs_mono _ _ _ S1) in Hm.
    clearbody p1. unfold mbind at 1. unfold get_node. destruct (dget (p_nodes p1) id) as [[x|d ct cf]|] eqn:En; [| |by split_and!].
    - pose proof (Hvt id x p1 I1 En) as Hv. unfold mbind. destruct (vt id x p1) as [p2 [m|x']]; cbn in *.
      2:{ destruct Hv as (? & ? & _). split_and!; [by eapply Strans|done..]. }
      destruct Hv as (S2 & I2 & Hg). apply (msgs_mono _ _ _ S2) in Hm.
      destruct (IH (dset ms id m) p2 I2) as (S3 & I3 & Hr); [apply msgs_dset; auto|].
      split_and!; [exact (Strans _ _ _ S1 (Strans _ _ _ S2 S3))|done..].
    - unfold mbind at 1. pose proof (retrieve_any ct ms p1 I1 Hm) as Hr1. unfold mbind at 1.
      destruct (retrieve root ct ms p1) as [p2 [[ms2 tm]|x']]; cbn [fst snd] in Hr1.
      2:{ destruct Hr1 as [[S2 I2] _]. cbn. split_and!; [by eapply Strans|done..]. }
      destruct Hr1 as [[S2 I2] Hr1]. destruct (Hr1 _ _ eq_refl) as [Hm2 Ht].
      unfold mbind at 1. pose proof (retrieve_any cf ms2 p2 I2 Hm2) as Hr2.
      destruct (retrieve root cf ms2 p2) as [p3 [[ms3 fm]|x']]; cbn [fst snd] in Hr2.
      2:{ destruct Hr2 as [[S3 I3] _]. cbn. split_and!; [exact (Strans _ _ _ S1 (Strans _ _ _ S2 S3))|done..]. }
      destruct Hr2 as [[S3 I3] Hr2]. destruct (Hr2 _ _ eq_refl) as [Hm3 Hf].
      assert (dget (p_nodes p3) id = Some (INode d ct cf)) as En3 by exact (Snodes _ _ _ _ S3 (Snodes _ _ _ _ S2 En)).
      pose proof (Hvi id d ct cf tm fm p3 I3 En3) as Hv. unfold mbind at 1. cbv zeta in Hv.
      destruct (vi id d ct cf tm fm p3) as [p4 [m|x']]; cbn [fst snd] in Hv.
      2:{ destruct Hv as (S4 & I4 & _); [intros m ->; eapply Gmono; [exact S3|]; auto|done|]. split_and!; [exact (Strans _ _ _ S1 (Strans _ _ _ S2 (Strans _ _ _ S3 S4)))|done..]. }
      destruct Hv as (S4 & I4 & Hg); [intros m' ->; eapply Gmono; [exact S3|]; auto|done|].
      apply (msgs_mono _ _ _ S4) in Hm3. cbn [mret].
      destruct (IH (dset ms3 id m) p4 I4) as (S5 & I5 & Hr); [apply msgs_dset; auto|].
      split_and!; [exact (Strans _ _ _ S1 (Strans _ _ _ S2 (Strans _ _ _ S3 (Strans _ _ _ S4 S5))))|done..].
  Qed.

  Lemma bottom_up_any p : I p -> post p (bottom_up vt vi root p) G.
  Proof.
    intros HI. unfold bottom_up. unfold mbind at 1. unfold get_node.
    destruct (dget (p_nodes p) root) as [nd|]; [|by split_and!]. unfold mbind at 1.
    assert (sound p (get_profile root p)) as Hg.
    { unfold get_profile. destruct (dget _ _); [done|]. destruct (make_profile _ _); [|done]. cbn. auto. }
    destruct (get_profile root p) as [p1 [f|x]]; cbn [fst snd] in Hg; [|by destruct Hg; split_and!]. destruct Hg as [S1 I1].
    unfold mbind at 1. pose proof (walk_loop_any (S (length (pf_nodes f))) [] p1 I1) as Hw.
    destruct (walk_loop _ _ _ _ _ p1) as [p2 [ms|x]]; cbn [fst snd] in Hw.
    2:{ destruct Hw as (S2 & I2 & _); [by intros k m Hin; apply elem_of_nil in Hin|]. split_and!; [by eapply Strans|done..]. }
    destruct Hw as (S2 & I2 & Hms); [by intros k m Hin; apply elem_of_nil in Hin|]. specialize (Hms _ eq_refl).
    assert (St p p2) as S12 by by eapply Strans.
    destruct ms as [|[k v] [|? ?]]; [by split_and!| |by split_and!]. destruct (bool_decide (k = root)); [|by split_and!].
    destruct (dget (p_profiles p2) root) as [f'|]; [|by split_and!]. split_and!.
    - exact (Strans _ _ _ S12 (Sset _ _)).
    - by apply Iset.
    - intros m [= <-]. eapply Gmono; [apply Sset|]. eapply Hms, elem_of_list_singleton. done.
  Qed.
End AnyWalk.

(** * Inversion *)

Lemma li_to_smt_total c f e : li_to_smt c = Ok f -> exists b, eval e f = Some (VB b).
Proof.
  unfold li_to_smt. intros Hf.
  assert ((exists x y, f = LeN (RealC x) (RealC y)) \/
    exists ts s, rmapM li_term (List.filter (fun kv => negb (bool_decide (kv.1 = CONST_KEY))) c) = Ok ts /\
      mkPlus ts = Ok s /\ f = LtN s (RealC (li_b c))) as [(x & y & ->)|(ts & s & Hts & Hs & ->)].
  { destruct c as [|[[|x k] q] [|? c]].
    1,2: left; simplify_eq; by eexists _, _.
    all: right; destruct (rmapM _ _) as [ts|] eqn:E1; cbn [rbind] in Hf; [|done];
      destruct (mkPlus ts) as [s|] eqn:E2; cbn [rbind] in Hf; [|done]; exists ts, s; by simplify_eq. }
  { cbn. by eexists. }
  assert (exists v, eval e s = Some (VN v)) as [v Hv].
  { apply rmapM_Forall2 in Hts. eexists. eapply (mkPlus_sound e ts s (map (fun kv => kv.2 * mono_val e kv.1)%Qc _)); [done|].
    instantiate (1 := List.filter (fun kv => negb (bool_decide (kv.1 = CONST_KEY))) c).
    clear -Hts. induction Hts as [|kv t d1 ts Ht Hts IH]; [constructor|]. constructor; [by apply li_term_sound|done]. }
  cbn [eval]. rewrite Hv. cbn. by eexists.
Qed.

Lemma good_total d e : good d -> exists b, eval e (d_test d) = Some (VB b).
Proof.
  intros [_ [[x ->]|(c & _ & Hc & _)]]; [cbn; by eexists|]. by eapply li_to_smt_total.
Qed.

Section Invert.
  Context {E : Type} `{EqDecision E} (A : alg E) (flat : E -> E) (is_one is_zero : E -> Res bool) (simp : fm -> fm)
    (den : E -> env -> option Qc).
  Context (HA : sound_arith (a_real A) (a_symbol A) (a_eq A) (a_mul A) (a_add A) den)
    (HF : forall x e v, den x e = Some v -> den (flat x) e = Some v) (HS : sound_simplifier simp).
  Notation inv := (inv A simp den).
  Notation denotes := (denotes den).

  Lemma set_profile_inv (p : pool E) r f : inv p -> inv (set_profile p r f).
  Proof. intros [I1 I2 I3 I4 I5 I6 I7 I8 I9 I10]. by split. Qed.
  Lemma set_profile_ext (p : pool E) r f : ext p (set_profile p r f).
  Proof. by split. Qed.

  (** A diagram over zero and one has a value everywhere. *)
  Lemma boolean_total p : inv p -> forall id, dlt (p_nodes p) id -> boolean_diagram p id ->
    forall e, exists v, (v = 0 \/ v = 1)%Qc /\ denotes (p_nodes p) e id v.
  Proof.
    intros Hi. induction id as [id IH] using lt_wf_ind. intros [nd Hn] Hb e. destruct nd as [x|d ct cf].
    - destruct (boolean_leaf p id x Hn Hb) as [->| ->].
      + exists 0%Qc. split; [by left|]. by apply (denotes_zero A simp den HA).
      + exists 1%Qc. split; [by right|]. by apply (denotes_one A simp den HA).
    - destruct (iv_node _ _ _ p Hi _ _ _ _ Hn) as (Lt & Lf & Dt & Df & _ & Hg & _).
      apply (boolean_node p id d ct cf Hn) in Hb as [Bt Bf].
      destruct (good_total d e Hg) as [b Eb].
      assert (exists v, (v = 0 \/ v = 1)%Qc /\ denotes (p_nodes p) e (if b then ct else cf) v) as (v & Hv & Hd) by (destruct b; auto).
      exists v. split; [done|]. by eapply denotes_child.
  Qed.

  (** The shape of an inverse. *)
  Definition inverted (q : pool E) (a r : nat) : Prop :=
    shrunk q a r /\ (ordered q a -> boolean_diagram q a -> boolean_diagram q r).
  Lemma inverted_ext p q a r : inv p -> ext p q -> dlt (p_nodes p) a -> dlt (p_nodes p) r -> inverted p a r -> inverted q a r.
  Proof.
    intros Hi Hx Da Dr [H1 H2]. split; [by apply (shrunk_ext A simp den p q)|]. intros Ho Hb.
    apply (boolean_ext A simp den p q); [done..|]. apply H2; [by apply (ordered_iff A simp den p q)|by apply (boolean_back p q)].
  Qed.
  Lemma inverted_leaf p a r x y : dget (p_nodes p) a = Some (TNode x) -> inv p -> r = p_zero p \/ r = p_one p ->
    dget (p_nodes p) r = Some (TNode y) -> inverted p a r.
  Proof.
    intros Ha Hi Hr Hy. split.
    - split; [intros P _; by eapply tested_leaf|]. intros _. split; [by eapply ordered_leaf|]. intros i _. by eapply root_ge_leaf.
    - intros _ _. destruct Hr as [->| ->]; [by apply (boolean_zero A simp den)|by apply (boolean_one A simp den)].
  Qed.

  Definition leaf_shape (q : pool E) (d : decision) (mt mf i : nat) : Prop :=
    (forall P : fm -> Prop, P (d_test d) -> tested q P mt -> tested q P mf -> tested q P i) /\
    (forall j, dget (p_tests q) (d_test d) = Some j -> ordered q mt -> ordered q mf ->
      ordered q i /\ (forall k, k <= j -> root_ge q k mt -> root_ge q k mf -> root_ge q k i) /\
      (boolean_diagram q mt -> boolean_diagram q mf -> boolean_diagram q i)).

  Lemma inverted_node q k d ct cf j mt mf m : dget (p_nodes q) k = Some (INode d ct cf) -> dget (p_tests q) (d_test d) = Some j ->
    inverted q ct mt -> inverted q cf mf -> leaf_shape q d mt mf m -> inverted q k m.
  Proof.
    intros Hn Hj [[T1 O1] B1] [[T2 O2] B2] [T O]. split; [split|].
    - intros P HP. apply (tested_node q P k d ct cf Hn) in HP as (Pd & Pt & Pf). apply T; [done|by apply T1|by apply T2].
    - intros Ho. apply (ordered_node q k d ct cf j Hn Hj) in Ho as (R1 & R2 & Oct & Ocf).
      destruct (O1 Oct) as [Om1 Rm1]. destruct (O2 Ocf) as [Om2 Rm2]. destruct (O j Hj Om1 Om2) as (Om & Rm & _).
      split; [done|]. intros i Hi. apply (root_ge_node q i k d ct cf j Hn Hj) in Hi. apply Rm; [done| |].
      + apply Rm1. eapply root_ge_mono; [|done]. lia.
      + apply Rm2. eapply root_ge_mono; [|done]. lia.
    - intros Ho Hb. apply (ordered_node q k d ct cf j Hn Hj) in Ho as (R1 & R2 & Oct & Ocf).
      apply (boolean_node q k d ct cf Hn) in Hb as [Bt Bf].
      destruct (O1 Oct) as [Om1 Rm1]. destruct (O2 Ocf) as [Om2 Rm2]. destruct (O j Hj Om1 Om2) as (_ & _ & Bm).
      apply Bm; [by apply B1|by apply B2].
  Qed.

  Definition test_pair (q : pool E) (d : decision) (t nt : nat) : Prop :=
    (t = p_one q /\ nt = p_zero q) \/ (t = p_zero q /\ nt = p_one q) \/
    (unpruned simp (d_test d) /\ exists d2 d3, dget (p_nodes q) t = Some (INode d2 (p_one q) (p_zero q)) /\ d_test d2 = d_test d /\
       dget (p_nodes q) nt = Some (INode d3 (p_zero q) (p_one q)) /\ d_test d3 = d_test d).
  Lemma test_pair_ext p q d t nt : ext p q -> test_pair p d t nt -> test_pair q d t nt.
  Proof.
    intros Hx. unfold test_pair. rewrite (ex_zero p q Hx), (ex_one p q Hx).
    intros [?|[?|(Hu & d2 & d3 & H1 & H2 & H3 & H4)]]; [by left|by right; left|]. right. right. split; [done|].
    exists d2, d3. split_and!; [by apply Hx|done|by apply Hx|done].
  Qed.

  Lemma leaf_shape_ok q d t nt mt mf l r i : inv q -> test_pair q d t nt ->
    applied simp den q Multiplication t mt l -> applied simp den q Multiplication nt mf r -> applied simp den q Summation l r i ->
    leaf_shape q d mt mf i.
  Proof.
    intros Hi Ht (_ & _ & _ & _ & Bl & Tl & Zl & _ & Ol) (_ & _ & _ & _ & Br & Tr & Zr & _ & Or) (_ & _ & _ & _ & _ & Ti & _ & Si & Oi).
    pose proof (iv_zero _ _ _ q Hi) as Nz. pose proof (iv_one _ _ _ q Hi) as No.
    assert (forall P : fm -> Prop, P (d_test d) -> tested q P t /\ tested q P nt) as HP.
    { intros P Hd. destruct Ht as [[-> ->]|[[-> ->]|(_ & d2 & d3 & H1 & H2 & H3 & H4)]]; [split; by eapply tested_leaf|split; by eapply tested_leaf|].
      split; [apply (tested_node q P t d2 _ _ H1)|apply (tested_node q P nt d3 _ _ H3)]; rewrite ?H2, ?H4;
        (split; [done|]; split; by eapply tested_leaf). }
    assert (forall j, dget (p_tests q) (d_test d) = Some j -> ordered q t /\ ordered q nt /\
      forall k, k <= j -> root_ge q k t /\ root_ge q k nt) as HO.
    { intros j Hj. destruct Ht as [[-> ->]|[[-> ->]|(_ & d2 & d3 & H1 & H2 & H3 & H4)]].
      - split; [by eapply ordered_leaf|]. split; [by eapply ordered_leaf|]. intros k _. split; by eapply root_ge_leaf.
      - split; [by eapply ordered_leaf|]. split; [by eapply ordered_leaf|]. intros k _. split; by eapply root_ge_leaf.
      - rewrite <- H2 in Hj. pose proof Hj as Hj'. rewrite H2, <- H4 in Hj'. split_and!.
        + apply (ordered_node q t d2 _ _ j H1 Hj). split_and!; [by eapply root_ge_leaf|by eapply root_ge_leaf|by eapply ordered_leaf|by eapply ordered_leaf].
        + apply (ordered_node q nt d3 _ _ j H3 Hj'). split_and!; [by eapply root_ge_leaf|by eapply root_ge_leaf|by eapply ordered_leaf|by eapply ordered_leaf].
        + intros k Hk. split; [by eapply root_ge_node|by eapply root_ge_node]. }
    assert (boolean_diagram q t /\ boolean_diagram q nt) as [Bt Bnt].
    { pose proof (boolean_one A simp den q Hi). pose proof (boolean_zero A simp den q Hi).
      destruct Ht as [[-> ->]|[[-> ->]|(_ & d2 & d3 & H1 & H2 & H3 & H4)]]; [done|done|].
      split; [by apply (boolean_node q t d2 _ _ H1)|by apply (boolean_node q nt d3 _ _ H3)]. }
    split.
    - intros P Hd H1 H2. destruct (HP P Hd). apply Ti; [by apply Tl|by apply Tr].
    - intros j Hj O1 O2. destruct (HO j Hj) as (Ot & Ont & HR). destruct (Ol Ot O1) as (Ol' & Rl & Fl & _).
      destruct (Or Ont O2) as (Or' & Rr & Fr & _). destruct (Oi Ol' Or') as (Oi' & Ri & _ & BI). split; [done|]. split.
      + intros k Hk K1 K2. destruct (HR k Hk). apply Ri; [by apply Rl|by apply Rr].
      + intros B1 B2. assert (boolean_diagram q l) as Bl' by by apply Bl. assert (boolean_diagram q r) as Br' by by apply Br.
        destruct (Si eq_refl) as [S1 S2]. destruct Ht as [[-> ->]|[[-> ->]|(Hu & d2 & d3 & H1 & H2 & H3 & H4)]].
        * rewrite S2; [done|]. apply Zr; auto.
        * rewrite S1; [done|]. apply Zl; auto.
        * apply (BI eq_refl (d_test d) Hu); [| |done|done].
          -- apply Fl; [done|done|]. left. by eapply fc_test.
          -- apply Fr; [done|done|]. left. by eapply fc_test.
  Qed.

  (** The cases without a walk. *)
  Definition inverse_of (p q : pool E) (id r : nat) : Prop :=
    dlt (p_nodes q) r /\ (forall e v, denotes (p_nodes p) e id v -> denotes (p_nodes q) e r (1 - v)%Qc) /\ inverted q id r.

  Lemma invert_simple_any p id : inv p -> dlt (p_nodes p) id ->
    let '(q, r) := invert_simple simp id p in
    inv q /\ ext p q /\ frame p q /\ (forall i, r = Ok (Some i) -> inverse_of p q id i) /\
    (boolean_diagram p id -> is_ok r = true).
  Proof.
    intros Hi [nd Hn]. unfold invert_simple. unfold mbind at 1. unfold get_node. rewrite Hn. unfold mbind at 1. cbn [mget].
    assert (forall r, (forall i, r = Ok (Some i) -> inverse_of p p id i) -> (boolean_diagram p id -> is_ok r = true) ->
      inv p /\ ext p p /\ frame p p /\ (forall i, r = Ok (Some i) -> inverse_of p p id i) /\
      (boolean_diagram p id -> is_ok r = true)) as Hself.
    { intros r H1 H2. split; [done|]. split; [apply ext_refl|]. split; [apply frame_refl|]. done. }
    assert (dlt (p_nodes p) (p_zero p)) as Dz by (eexists; by eapply iv_zero).
    assert (dlt (p_nodes p) (p_one p)) as Do by (eexists; by eapply iv_one).
    destruct nd as [x|d ct cf].
    - destruct (bool_decide_reflect (id = p_one p)) as [->|H1].
      { apply Hself; [|done]. intros i [= <-]. split; [done|]. split; [|eapply inverted_leaf; [exact Hn|done|by left|by eapply iv_zero]]. intros e v Hv. apply (denotes_one A simp den HA) in Hv; [|done]. subst v.
        replace (1 - 1)%Qc with 0%Qc by ring. by apply (denotes_zero A simp den HA). }
      destruct (bool_decide_reflect (id = p_zero p)) as [->|H2].
      { apply Hself; [|done]. intros i [= <-]. split; [done|]. split; [|eapply inverted_leaf; [exact Hn|done|by right|by eapply iv_one]]. intros e v Hv. apply (denotes_zero A simp den HA) in Hv; [|done]. subst v.
        replace (1 - 0)%Qc with 1%Qc by ring. by apply (denotes_one A simp den HA). }
      apply Hself; [done|]. intros Hb. destruct (boolean_leaf p id x Hn Hb); done.
    - destruct (iv_node _ _ _ p Hi _ _ _ _ Hn) as (Lt & Lf & Dt & Df & _ & Hg & j & Hj & _).
      assert (forall a b, dlt (p_nodes p) a -> dlt (p_nodes p) b -> inverted p ct a -> inverted p cf b ->
        (forall e (t : bool) v, denotes (p_nodes p) e (if t then ct else cf) v ->
            denotes (p_nodes p) e (if t then a else b) (1 - v)%Qc) ->
        let '(q, r) := (do! r := internal simp d a b in mret (Some r)) p in
        inv q /\ ext p q /\ frame p q /\ (forall i, r = Ok (Some i) -> inverse_of p q id i) /\
        (boolean_diagram p id -> is_ok r = true)) as Hint.
      { intros a b Da Db Ia Ib Hab. unfold mbind. pose proof (internal_inv A simp den HS p d a b Hi (or_introl Hg) Da Db) as Hin.
        destruct (internal simp d a b p) as [q [i|ex]] eqn:Ei; destruct Hin as (Hq & Hx & Hf & Hno & Hok).
        2:{ by specialize (Hok Hg). }
        cbn [mret]. split; [done|]. split; [done|]. split; [done|]. split; [|done]. intros j0 [= <-].
        destruct (Hno i eq_refl) as (Di & Hv & _). split; [done|]. split.
        2:{ apply (internal_good A simp den p d a b q i Hi Hg Da Db) in Ei.
            pose proof (ex_nodes _ _ Hx _ _ Hn) as Hn'. pose proof (ex_tests _ _ Hx _ _ Hj) as Hj'.
            apply (inverted_ext p q) in Ia as [Sa Ba]; [|done..]. apply (inverted_ext p q) in Ib as [Sb Bb]; [|done..].
            split; [by eapply shrunk_node|]. intros Ho Hb. apply (boolean_node q id d ct cf Hn') in Hb as [B1 B2].
            apply (ordered_node q id d ct cf j Hn' Hj') in Ho as (_ & _ & O1 & O2).
            specialize (Ba O1 B1). specialize (Bb O2 B2).
            destruct Ei as [[-> _]|[(b' & _ & ->)|(_ & _ & d2 & Hd2 & _)]]; [done|by destruct b'|]. by apply (boolean_node q i d2 a b Hd2). }
        intros e v Hd.
        destruct (denotes_node _ _ _ _ _ _ _ _ Hn Hd) as (t & Et & Hd'). apply (Hv e t); [|by apply Hab].
        by apply takes_good. }
      destruct (bool_decide_reflect (ct = p_one p)) as [E1|H1]; cbn [andb].
      + destruct (bool_decide_reflect (cf = p_zero p)) as [E2|H2].
        { rewrite E1, E2 in *.
          apply Hint; [done|done|eapply inverted_leaf; [by eapply iv_one|done|by left|by eapply iv_zero]|eapply inverted_leaf; [by eapply iv_zero|done|by right|by eapply iv_one]|].
          intros e t v. destruct t; intros Hv.
          - apply (denotes_one A simp den HA) in Hv; [|done]. subst v. replace (1 - 1)%Qc with 0%Qc by ring. by apply (denotes_zero A simp den HA).
          - apply (denotes_zero A simp den HA) in Hv; [|done]. subst v. replace (1 - 0)%Qc with 1%Qc by ring. by apply (denotes_one A simp den HA). }
        rewrite bool_decide_eq_false_2; [cbn [andb]; by apply Hself|].
        rewrite E1. intros Heq. by eapply (zero_ne_one A simp den HA).
      + destruct (bool_decide_reflect (ct = p_zero p)) as [E1|H3]; cbn [andb]; [|by apply Hself].
        destruct (bool_decide_reflect (cf = p_one p)) as [E2|H2]; [|by apply Hself].
        rewrite E1, E2 in *.
        apply Hint; [done|done|eapply inverted_leaf; [by eapply iv_zero|done|by right|by eapply iv_one]|eapply inverted_leaf; [by eapply iv_one|done|by left|by eapply iv_zero]|].
        intros e t v. destruct t; intros Hv.
        * apply (denotes_zero A simp den HA) in Hv; [|done]. subst v. replace (1 - 0)%Qc with 1%Qc by ring. by apply (denotes_one A simp den HA).
        * apply (denotes_one A simp den HA) in Hv; [|done]. subst v. replace (1 - 1)%Qc with 0%Qc by ring. by apply (denotes_zero A simp den HA).
  Qed.

  Definition test_shape (p : pool E) (t : nat) : Prop :=
    t = p_one p \/ t = p_zero p \/ exists d ct cf, dget (p_nodes p) t = Some (INode d ct cf) /\
      ((ct = p_one p /\ cf = p_zero p) \/ (ct = p_zero p /\ cf = p_one p)).

  Lemma test_shape_ext p q t : ext p q -> test_shape p t -> test_shape q t.
  Proof.
    intros Hx. unfold test_shape. rewrite (ex_zero p q Hx), (ex_one p q Hx).
    intros [?|[?|(d & ct & cf & Hn & Hs)]]; [by left|by right; left|]. right. right. exists d, ct, cf. split; [by apply Hx|done].
  Qed.

  Lemma bool_test_any p d : inv p -> askable d ->
    let '(q, r) := bool_test simp d p in inv q /\ ext p q /\ frame p q /\
    (forall t, r = Ok t -> dlt (p_nodes q) t /\ test_shape q t /\
       forall e b, takes simp d e b -> denotes (p_nodes q) e t (if b : bool then 1 else 0)%Qc) /\
    (good d -> is_ok r = true).
  Proof.
    intros Hi Ha. unfold bool_test, mbind. cbn [mget].
    assert (dlt (p_nodes p) (p_zero p)) as Dz by (eexists; by eapply iv_zero).
    assert (dlt (p_nodes p) (p_one p)) as Do by (eexists; by eapply iv_one).
    pose proof (internal_inv A simp den HS p d _ _ Hi Ha Do Dz) as Hin.
    destruct (internal simp d (p_one p) (p_zero p) p) as [q r]. destruct Hin as (Hq & Hx & Hf & Hno & Hok).
    split; [done|]. split; [done|]. split; [done|]. split; [|done]. intros t ->. destruct (Hno t eq_refl) as (Dt & Hv & Hs).
    split; [done|]. split.
    - unfold test_shape. rewrite (ex_zero p q Hx), (ex_one p q Hx).
      destruct Hs as [?|[?|(d1 & d2 & ct & cf & Hn & _ & _ & Hs)]]; [by left|by right; left|]. right. right. by exists d2, ct, cf.
    - intros e b Ht. apply (Hv e b); [done|]. destruct b; [by apply (denotes_one A simp den HA)|by apply (denotes_zero A simp den HA)].
  Qed.

  Lemma invert_shape p t n : inv p -> dlt (p_nodes p) t -> test_shape p t ->
    exists q r, invert_fuel A flat is_one is_zero simp (S n) t p = (q, Ok r) /\ inv q /\ ext p q /\ frame p q /\ inverse_of p q t r.
  Proof.
    intros Hi Hd Hs. cbn [invert_fuel]. unfold mbind at 1. pose proof (invert_simple_any p t Hi Hd) as Hv.
    assert (exists q r, invert_simple simp t p = (q, Ok (Some r))) as (q & r & Heq).
    2:{ rewrite Heq in *. destruct Hv as (Hq & Hx & Hf & Hv & _). exists q, r. cbn [mret]. split; [done|]. auto. }
    assert (boolean_diagram p t) as Hb.
    { destruct Hs as [->|[->|(d & ct & cf & Hn & Hs)]]; [by apply (boolean_one A simp den)|by apply (boolean_zero A simp den)|].
      apply (boolean_node p t d ct cf Hn). destruct Hs as [[-> ->]|[-> ->]]; split;
        first [by apply (boolean_one A simp den)|by apply (boolean_zero A simp den)]. }
    destruct (invert_simple simp t p) as [q res] eqn:Eq. destruct Hv as (Hq & Hx & Hf & Hv & Hok).
    specialize (Hok Hb). destruct res as [[r|]|]; [by exists q, r| |done]. exfalso. revert Eq.
    unfold invert_simple. unfold mbind at 1. unfold get_node.
    pose proof (iv_zero _ _ _ p Hi) as Hz. pose proof (iv_one _ _ _ p Hi) as Ho.
    destruct Hs as [->|[->|(d & ct & cf & Hn & Hs)]].
    - rewrite Ho. unfold mbind at 1. cbn [mget]. by rewrite bool_decide_eq_true_2 by done.
    - rewrite Hz. unfold mbind at 1. cbn [mget]. rewrite bool_decide_eq_false_2 by by apply (zero_ne_one A simp den HA).
      by rewrite bool_decide_eq_true_2 by done.
    - rewrite Hn. unfold mbind at 1. cbn [mget].
      assert (forall a b, (do! r := internal simp d a b in mret (Some r)) p <> (q, Ok None)) as Hno.
      { intros a b. unfold mbind. by destruct (internal simp d a b p) as [? [?|]]. }
      destruct Hs as [[-> ->]|[-> ->]].
      + rewrite !bool_decide_eq_true_2 by done. cbn [andb]. apply Hno.
      + rewrite (bool_decide_eq_false_2 (p_zero p = p_one p)) by by apply (zero_ne_one A simp den HA).
        cbn [andb]. rewrite (bool_decide_eq_true_2 (p_zero p = p_zero p)) by done.
        rewrite (bool_decide_eq_true_2 (p_one p = p_one p)) by done. cbn [andb]. apply Hno.
  Qed.

  (** The test node of a stored decision and its inverse. *)
  Lemma test_pair_ok p d p1 t p2 n q nt : inv p -> good d -> bool_test simp d p = (p1, Ok t) -> inv p2 -> ext p1 p2 ->
    invert_fuel A flat is_one is_zero simp (S n) t p2 = (q, Ok nt) -> ext p2 q -> test_pair q d t nt.
  Proof.
    intros Hi Hg Hb I2 X2 Hn X3. pose proof (bool_test_any p d Hi (or_introl Hg)) as Ha. rewrite Hb in Ha.
    destruct Ha as (I1 & X1 & F1 & Ha & _). destruct (Ha t eq_refl) as (Dt & _ & _). clear Ha.
    assert (dlt (p_nodes p) (p_zero p)) as Dz by (eexists; by eapply iv_zero).
    assert (dlt (p_nodes p) (p_one p)) as Do by (eexists; by eapply iv_one).
    unfold bool_test, mbind in Hb. cbn [mget] in Hb. apply (internal_good A simp den) in Hb; [|done..].
    pose proof (zero_ne_one A simp den HA p Hi) as Hzo. pose proof (zero_ne_one A simp den HA p2 I2) as Hzo2.
    unfold test_pair. rewrite (ex_zero _ _ X3), (ex_one _ _ X3).
    cbn [invert_fuel] in Hn. unfold mbind at 1 in Hn. unfold invert_simple in Hn. unfold mbind at 1 in Hn. unfold get_node in Hn.
    rewrite <- (ex_zero _ _ X1), <- (ex_one _ _ X1), <- (ex_zero _ _ X2), <- (ex_one _ _ X2) in Hb.
    destruct Hb as [[_ Hb]|[(b & _ & ->)|(_ & Hu & d2 & Hd2 & Ht2)]]; [by rewrite Hb in Hzo2| |].
    - destruct b.
      + rewrite (iv_one _ _ _ p2 I2) in Hn. unfold mbind at 1 in Hn. cbn [mget] in Hn. rewrite bool_decide_eq_true_2 in Hn by done.
        cbn in Hn. left. split; [done|]. by injection Hn as _ <-.
      + rewrite (iv_zero _ _ _ p2 I2) in Hn. unfold mbind at 1 in Hn. cbn [mget] in Hn. rewrite bool_decide_eq_false_2 in Hn by done.
        rewrite bool_decide_eq_true_2 in Hn by done. cbn in Hn. right. left. split; [done|]. by injection Hn as _ <-.
    - rewrite <- (ex_zero _ _ X1), <- (ex_one _ _ X1), <- (ex_zero _ _ X2), <- (ex_one _ _ X2) in *.
      pose proof (ex_nodes _ _ X2 _ _ Hd2) as Hd2'. rewrite Hd2' in Hn. unfold mbind at 1 in Hn. cbn [mget] in Hn.
      rewrite !bool_decide_eq_true_2 in Hn by done. cbn [andb] in Hn. unfold mbind in Hn.
      destruct (iv_node _ _ _ p2 I2 _ _ _ _ Hd2') as (_ & _ & D1 & D0 & _ & Hg2 & _).
      destruct (internal simp d2 (p_zero p2) (p_one p2) p2) as [p3 [r|]] eqn:Ei; [|done]. cbn in Hn. injection Hn as <- <-.
      apply (internal_good A simp den) in Ei; [|done..]. right. right. split; [done|]. exists d2.
      destruct Ei as [[_ ?]|[(b & Hb & _)|(_ & _ & d3 & Hd3 & Ht3)]]; [done| |].
      + destruct Hu as [U1 U2]. rewrite Ht2 in Hb. by destruct b.
      + exists d3. split_and!; [by apply X3|done|done|]. congruence.
  Qed.

  (** One step of the leaf transformation, when nothing is known of the messages. *)
  Lemma leaf_internal_any n p d tm fm : inv p -> good d ->
    (forall m, tm = Some m -> dlt (p_nodes p) m) -> (forall m, fm = Some m -> dlt (p_nodes p) m) ->
    let '(q, r) := leaf_internal A flat simp (invert_fuel A flat is_one is_zero simp (S n)) d tm fm p in
    inv q /\ ext p q /\ frame p q /\
    (forall i, r = Ok i -> dlt (p_nodes q) i /\
       forall mt mf e b x y, tm = Some mt -> fm = Some mf -> eval e (d_test d) = Some (VB b) ->
         denotes (p_nodes p) e mt x -> denotes (p_nodes p) e mf y -> denotes (p_nodes q) e i (if b : bool then x else y)) /\
    (forall i mt mf, r = Ok i -> tm = Some mt -> fm = Some mf -> leaf_shape q d mt mf i) /\
    (is_Some tm -> is_Some fm -> p_ordering p = false -> is_ok r = true).
  Proof.
    intros Hi Hg Ht Hf. unfold leaf_internal. unfold mbind at 1.
    pose proof (bool_test_any p d Hi (or_introl Hg)) as Hb. destruct (bool_test simp d p) as [p1 [t|x]] eqn:Ebt.
    2:{ destruct Hb as (? & ? & ? & _ & Hok). by specialize (Hok Hg). }
    destruct Hb as (I1 & X1 & F1 & Hb & _). destruct (Hb t eq_refl) as (Dt & St & Vt). clear Hb.
    unfold mbind at 1. destruct tm as [mt|].
    2:{ cbn. split; [done|]. split; [done|]. split; [done|]. split; [done|]. split; [done|]. by intros [? ?]. }
    assert (dlt (p_nodes p1) mt) as Dmt by (eapply ext_dlt; [done|]; by apply Ht).
    pose proof (apply_ok A flat simp den HA HF HS Multiplication p1 t mt I1 Dt Dmt) as Ha.
    destruct (apply A flat simp Multiplication t mt p1) as [p2 [l|x]].
    2:{ destruct Ha as (I2 & X2 & F2 & _ & Hor). split; [done|]. split; [by eapply ext_trans|]. split; [by eapply frame_trans|].
        split; [done|]. split; [done|]. intros _ _ Ho. rewrite (ex_ord p p1 X1), Ho in Hor. destruct Hor as [|Hor]; [done|]. by destruct Hor. }
    destruct Ha as (I2 & X2 & F2 & Al). pose proof Al as (_ & _ & Dl & Vl & _).
    unfold mbind at 1.
    destruct (invert_shape p2 t n I2) as (p3 & nt & Ent & I3 & X3 & F3 & Dnt & Vnt & _); [by eapply ext_dlt|by eapply test_shape_ext|].
    rewrite Ent.
    unfold mbind at 1. destruct fm as [mf|].
    2:{ cbn. split; [done|]. split; [eapply ext_trans; [exact X1|]; by eapply ext_trans|].
        split; [eapply frame_trans; [exact F1|]; by eapply frame_trans|]. split; [done|]. split; [done|]. by intros _ [? ?]. }
    assert (ext p p3) as X13 by (eapply ext_trans; [exact X1|]; by eapply ext_trans).
    assert (frame p p3) as F13 by (eapply frame_trans; [exact F1|]; by eapply frame_trans).
    assert (dlt (p_nodes p3) mf) as Dmf by (eapply ext_dlt; [exact X13|]; by apply Hf).
    pose proof (apply_ok A flat simp den HA HF HS Multiplication p3 nt mf I3 Dnt Dmf) as Ha.
    destruct (apply A flat simp Multiplication nt mf p3) as [p4 [r|x]].
    2:{ destruct Ha as (I4 & X4 & F4 & _ & Hor). split; [done|]. split; [by eapply ext_trans|]. split; [by eapply frame_trans|].
        split; [done|]. split; [done|]. intros _ _ Ho. rewrite (ex_ord p p3 X13), Ho in Hor. destruct Hor as [|Hor]; [done|]. by destruct Hor. }
    destruct Ha as (I4 & X4 & F4 & Ar). pose proof Ar as (_ & _ & Dr & Vr & _).
    assert (dlt (p_nodes p4) l) as Dl4 by exact (ext_dlt _ _ _ X4 (ext_dlt _ _ _ X3 Dl)).
    pose proof (apply_ok A flat simp den HA HF HS Summation p4 l r I4 Dl4 Dr) as Ha.
    destruct (apply A flat simp Summation l r p4) as [p5 [i|x]].
    2:{ destruct Ha as (I5 & X5 & F5 & _ & Hor). split; [done|]. split; [eapply ext_trans; [exact X13|]; by eapply ext_trans|].
        split; [eapply frame_trans; [exact F13|]; by eapply frame_trans|].
        split; [done|]. split; [done|]. intros _ _ Ho. rewrite (ex_ord p3 p4 X4), (ex_ord p p3 X13), Ho in Hor. destruct Hor as [|Hor]; [done|]. by destruct Hor. }
    destruct Ha as (I5 & X5 & F5 & Ai). pose proof Ai as (_ & _ & Di & Vi & _).
    split; [done|]. split; [eapply ext_trans; [exact X13|]; by eapply ext_trans|].
    split; [eapply frame_trans; [exact F13|]; by eapply frame_trans|]. split; [|split; [|done]].
    2:{ intros i' mt' mf' [= <-] [= <-] [= <-]. assert (ext p3 p5) as X35 by by eapply ext_trans.
        assert (ext p2 p5) as X25 by by eapply ext_trans.
        apply (leaf_shape_ok p5 d t nt mt mf l r i); [done| | | |done].
        - eapply test_pair_ext; [exact X35|]. by apply (test_pair_ok p d p1 t p2 n p3 nt).
        - by apply (applied_ext A simp den p2 p5).
        - by apply (applied_ext A simp den p4 p5). }
    intros i' [= <-]. split; [done|]. intros mt' mf' e b x y [= <-] [= <-] Eb Hx Hy.
    pose proof (Vt e b (takes_good simp HS d e b Hg Eb)) as Hvt.
    destruct (Vl e _ x (ext_denotes den _ _ _ _ _ X2 Hvt) (ext_denotes den _ _ _ _ _ X2 (ext_denotes den _ _ _ _ _ X1 Hx)))
      as (zl & Hzl & Ol). cbn [op_val] in Ol.
    pose proof (Vnt e _ (ext_denotes den _ _ _ _ _ X2 Hvt)) as Hvn.
    destruct (Vr e _ y (ext_denotes den _ _ _ _ _ X4 Hvn) (ext_denotes den _ _ _ _ _ X4 (ext_denotes den _ _ _ _ _ X13 Hy)))
      as (zr & Hzr & Or). cbn [op_val] in Or.
    destruct (Vi e zl zr) as (z & Hz & Oz).
    { apply (ext_denotes den p4 p5); [done|]. apply (ext_denotes den p3 p4); [done|]. by apply (ext_denotes den p2 p3). }
    { by apply (ext_denotes den p4 p5). }
    cbn [op_val] in Oz. replace (if b then x else y) with z; [done|]. subst z zl zr. destruct b; ring.
  Qed.
End Invert.
