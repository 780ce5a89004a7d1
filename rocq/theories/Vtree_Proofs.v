(** Proofs for C39: vtrees and vtree files. *)

From Verif Require Import Base Dict Smt Lit_Model Sdd_Model Vtree_Model Vtree_Spec.

Local Arguments Nat.ltb : simpl never.
Local Arguments Nat.eqb : simpl never.
Local Arguments Nat.leb : simpl never.

(** * Leaves *)

Lemma count_leaves_length t : count_leaves t = length (all_leaves t).
Proof. induction t; cbn; rewrite ?app_length; lia. Qed.

Lemma count_proper t : proper t -> count t + 1 = 2 * count_leaves t.
Proof. induction t; cbn; [done|lia|]. intros [??]. specialize (IHt1 H). specialize (IHt2 H0). lia. Qed.

Lemma relabel_spec t : forall l, length (all_leaves t) <= length l ->
  all_leaves (relabel t l).1 = take (length (all_leaves t)) l /\
  (relabel t l).2 = drop (length (all_leaves t)) l /\
  (proper t -> proper (relabel t l).1) /\ depth (relabel t l).1 = depth t.
Proof.
  induction t as [|x|p IHp s IHs]; intros l Hl; cbn in *.
  - by rewrite take_0, drop_0.
  - destruct l as [|y l]; cbn in *; [lia|]. by rewrite drop_0, take_0.
  - rewrite app_length in Hl |- *.
    destruct (IHp l ltac:(lia)) as (H1 & H2 & H3 & H4).
    destruct (relabel p l) as [p' l1] eqn:Ep. cbn in *. subst l1.
    destruct (IHs (drop (length (all_leaves p)) l) ltac:(rewrite drop_length; lia)) as (G1 & G2 & G3 & G4).
    destruct (relabel s _) as [s' l2] eqn:Es. cbn in *. subst l2.
    rewrite H1, G1, H4, G4. split_and!; [|by rewrite drop_drop|naive_solver|done].
    rewrite take_take_drop. done.
Qed.

(** * Balance *)

(** The invariant of [balanced_add]: the preferred side is at most one leaf larger. *)
Fixpoint even (pl : bool) (t : vtree) : Prop :=
  match t with
  | VEmpty => False
  | VVar _ => True
  | VSplit p s => even pl p /\ even pl s /\
      let (a, b) := if pl then (count_leaves p, count_leaves s) else (count_leaves s, count_leaves p) in
      b <= a <= b + 1
  end.

Lemma even_proper pl t : even pl t -> proper t.
Proof. induction t; cbn; naive_solver. Qed.

Lemma leaves_pos t : proper t -> 0 < count_leaves t.
Proof. induction t; cbn; [done|lia|]. intros [??]. specialize (IHt1 H). lia. Qed.

Lemma balanced_add_spec pl t v : even pl t ->
  even pl (balanced_add t (VVar v) pl) /\ count_leaves (balanced_add t (VVar v) pl) = S (count_leaves t).
Proof.
  induction t as [|x|p IHp s IHs]; cbn; [done| |].
  - destruct pl; cbn; lia.
  - intros (Hp & Hs & H).
    pose proof (count_proper p (even_proper _ _ Hp)) as Cp.
    pose proof (count_proper s (even_proper _ _ Hs)) as Cs.
    pose proof (leaves_pos p (even_proper _ _ Hp)) as Lp.
    pose proof (leaves_pos s (even_proper _ _ Hs)) as Ls.
    destruct (IHp Hp) as [Ep Kp]. destruct (IHs Hs) as [Es Ks].
    destruct (_ || _) eqn:C; cbn; rewrite ?Kp, ?Ks.
    + split; [|lia]. split; [done|]. split; [done|].
      apply orb_true_iff in C. rewrite Nat.ltb_lt, andb_true_iff, Nat.eqb_eq in C.
      destruct pl; destruct C as [C|[C C']]; try done; lia.
    + split; [|lia]. split; [done|]. split; [done|].
      apply orb_false_iff in C. destruct C as [C1 C2]. apply Nat.ltb_ge in C1.
      apply andb_false_iff in C2. rewrite Nat.eqb_neq in C2.
      destruct pl; destruct C2 as [C2|C2]; try done; lia.
Qed.

Lemma fold_balanced pl l : forall t, even pl t ->
  let r := fold_left (fun root v => balanced_add root (VVar v) pl) l t in
  even pl r /\ count_leaves r = count_leaves t + length l.
Proof.
  induction l as [|v l IH]; intros t Ht; cbn; [split; [done|lia]|].
  destruct (balanced_add_spec pl t v Ht) as [H1 H2].
  destruct (IH _ H1) as [G1 G2]. split; [done|]. rewrite G2, H2. lia.
Qed.

Lemma log2_up_half a b n : 0 < b -> b <= a <= b + 1 -> a + b = n -> Nat.log2_up n = S (Nat.log2_up a).
Proof.
  intros Hb Hab <-.
  destruct (decide (a = 1)) as [->|Ha].
  { assert (b = 1) as -> by lia. reflexivity. }
  apply Nat.log2_up_unique; [lia|].
  pose proof (Nat.log2_up_spec a ltac:(lia)) as [H1 H2]. cbn [Nat.pred].
  split; [|cbn; lia].
  assert (0 < Nat.log2_up a) as Hp by (apply Nat.log2_up_pos; lia).
  destruct (Nat.log2_up a) as [|k] eqn:E; [lia|]. cbn [Nat.pred] in H1. cbn. lia.
Qed.

Lemma even_depth pl t : even pl t -> depth t = Nat.log2_up (count_leaves t).
Proof.
  induction t as [|x|p IHp s IHs]; cbn; [done|done|].
  intros (Hp & Hs & H). rewrite (IHp Hp), (IHs Hs).
  pose proof (leaves_pos p (even_proper _ _ Hp)) as Lp.
  pose proof (leaves_pos s (even_proper _ _ Hs)) as Ls.
  destruct pl.
  - rewrite (log2_up_half (count_leaves p) (count_leaves s) (count_leaves p + count_leaves s)); [|lia..].
    pose proof (Nat.log2_up_le_mono (count_leaves s) (count_leaves p) ltac:(lia)). lia.
  - rewrite (log2_up_half (count_leaves s) (count_leaves p) (count_leaves p + count_leaves s)); [|lia..].
    pose proof (Nat.log2_up_le_mono (count_leaves p) (count_leaves s) ltac:(lia)). lia.
Qed.

Lemma balanced_spec l pl : l <> [] ->
  all_leaves (create_balanced l pl) = l /\ proper (create_balanced l pl) /\
  depth (create_balanced l pl) = Nat.log2_up (length l).
Proof.
  destruct l as [|x l]; [done|]. intros _. unfold create_balanced.
  destruct (fold_balanced pl l (VVar x) I) as [H1 H2]. cbn zeta in *.
  set (t := fold_left _ l (VVar x)) in *. cbn in H2. clearbody t.
  pose proof H2 as H3. rewrite count_leaves_length in H3.
  destruct (relabel_spec t (x :: l)) as (G1 & G2 & G3 & G4); [cbn; lia|].
  rewrite G1, G4, (even_depth pl), H2 by done. split_and!; [|by eapply G3, even_proper|done].
  rewrite take_ge; [done|]. cbn. lia.
Qed.

Lemma balanced_leaves l pl : all_leaves (create_balanced l pl) = l.
Proof. destruct l as [|x l]; [done|]. by apply balanced_spec. Qed.

Lemma rightlinear_leaves l : all_leaves (create_rightlinear l) = rev l.
Proof.
  destruct l as [|x l]; [done|]. cbn. 
  assert (forall t, all_leaves (fold_left (fun t v => VSplit (VVar v) t) l t) = rev l ++ all_leaves t) as H.
  { induction l as [|v l IH]; intros t; cbn; [done|]. rewrite IH. cbn. by rewrite <- (assoc_L (++)). }
  by rewrite H.
Qed.

Lemma leftlinear_leaves l : all_leaves (create_leftlinear l) = l.
Proof.
  destruct l as [|x l]; [done|]. cbn.
  assert (forall t, all_leaves (fold_left (fun t v => VSplit t (VVar v)) l t) = all_leaves t ++ l) as H.
  { induction l as [|v l IH]; intros t; cbn; [by rewrite (right_id_L [] (++))|]. rewrite IH. cbn. by rewrite <- (assoc_L (++)). }
  by rewrite H.
Qed.

Lemma linear_proper l : l <> [] -> proper (create_rightlinear l) /\ proper (create_leftlinear l).
Proof.
  destruct l as [|x l]; [done|]. intros _. cbn. split.
  - assert (forall t, proper t -> proper (fold_left (fun t v => VSplit (VVar v) t) l t)) as H; [|by apply H].
    induction l as [|v l IH]; intros t Ht; cbn; [done|]. by apply IH.
  - assert (forall t, proper t -> proper (fold_left (fun t v => VSplit t (VVar v)) l t)) as H; [|by apply H].
    induction l as [|v l IH]; intros t Ht; cbn; [done|]. by apply IH.
Qed.

(** * Files *)

(** What [read_lines] needs to know about the lines of a subtree: reading them after
    [known], whose ids are below [n], adds entries with ids from [n] on, the last of
    them for the subtree. *)
Lemma to_lines_spec varnums t : proper t -> (forall x, x ∈ all_leaves t -> is_Some (dget varnums x)) ->
  forall n, exists id n' ls nt, to_lines varnums t n = Ok (Some id, n', ls) /\
    n' = n + count t /\ id + 1 = n' /\ length ls = count t /\ same_tree varnums t nt /\
    forall N known rest, n' <= N -> (forall k, is_Some (dget known k) -> k < n) ->
      exists known', read_lines N known (ls ++ rest) = read_lines N (known ++ known' ++ [(id, nt)]) rest /\
        (forall k, is_Some (dget known' k) -> n <= k < id).
Proof.
  induction t as [|x|p IHp s IHs]; cbn; [done| |].
  - intros _ Hx n. destruct (Hx x) as [k Hk]; [by apply elem_of_list_singleton|]. rewrite Hk.
    exists n, (S n), [LeafLine n k], (NLeaf k). split_and!; [done|lia|lia|done|by constructor|].
    intros N known rest HN Hknown. exists []. cbn.
    destruct (dget known n) eqn:E; [specialize (Hknown n ltac:(by eexists)); lia|].
    destruct (Nat.ltb_spec n N); [|lia]. split; [done|]. intros k' [? [=]].
  - intros [Pp Ps] Hx n.
    pose proof (count_proper p Pp) as Cp. pose proof (leaves_pos p Pp) as Lp.
    pose proof (count_proper s Ps) as Cs. pose proof (leaves_pos s Ps) as Ls.
    destruct (IHp Pp) with (n := n) as (ip & n1 & lp & tp & E1 & N1 & I1 & L1 & S1 & R1).
    { intros x Hxp. apply Hx, elem_of_app. by left. }
    destruct (IHs Ps) with (n := n1) as (is & n2 & ls & ts & E2 & N2 & I2 & L2 & S2 & R2).
    { intros x Hxs. apply Hx, elem_of_app. by right. }
    rewrite E1. cbn [rbind]. rewrite E2. cbn [rbind].
    exists n2, (S n2), (lp ++ ls ++ [InnerLine n2 ip is]), (NNode tp ts).
    split_and!; [done|lia|lia|rewrite !app_length; cbn; lia|by constructor|].
    intros N known rest HN Hknown.
    rewrite <- !(assoc_L (++)).
    destruct (R1 N known (ls ++ [InnerLine n2 ip is] ++ rest)) as (k1 & Q1 & B1); [lia|done|].
    rewrite Q1.
    assert (forall l1 l2 k, dget (l1 ++ l2 : list (nat * ntree)) k = match dget l1 k with Some v => Some v | None => dget l2 k end) as Happ.
    { intros l1 l2 k. induction l1 as [|[a b] l1 IHl]; cbn; [done|]. by destruct (decide _). }
    destruct (R2 N (known ++ k1 ++ [(ip, tp)]) ([InnerLine n2 ip is] ++ rest)) as (k2 & Q2 & B2); [lia| |].
    { intros k. rewrite !Happ. destruct (dget known k) eqn:Ek.
      - intros _. specialize (Hknown k ltac:(by eexists)). lia.
      - destruct (dget k1 k) eqn:Ek1.
        + intros _. specialize (B1 k ltac:(by eexists)). lia.
        + cbn. destruct (decide _); [lia|]. by intros [? [=]]. }
    rewrite Q2. exists (k1 ++ [(ip, tp)] ++ k2 ++ [(is, ts)]). cbn [app read_lines].
    assert (forall k, n <= k -> dget known k = None) as K0.
    { intros k Hk. destruct (dget known k) eqn:Ek; [|done]. specialize (Hknown k ltac:(by eexists)). lia. }
    assert (forall k, dget k1 k = None \/ n <= k < ip) as K1.
    { intros k. destruct (dget k1 k) eqn:Ek; [right; apply B1; by eexists|by left]. }
    assert (forall k, dget k2 k = None \/ n1 <= k < is) as K2.
    { intros k. destruct (dget k2 k) eqn:Ek; [right; apply B2; by eexists|by left]. }
    rewrite !Happ. cbn [dget].
    rewrite (K0 n2), (K0 ip), (K0 is) by lia.
    destruct (K1 n2) as [->|]; [|lia]. destruct (K2 n2) as [->|]; [|lia].
    destruct (K1 ip) as [->|]; [|lia].
    destruct (K1 is) as [->|]; [|lia]. destruct (K2 is) as [->|]; [|lia].
    destruct (decide (ip = n2)); [lia|]. destruct (decide (is = n2)); [lia|].
    destruct (decide (ip = ip)); [|done]. destruct (decide (ip = is)); [lia|].
    destruct (decide (is = is)); [|done].
    destruct (Nat.ltb_spec n2 N); [|lia].
    split; [f_equal; repeat (rewrite <- (assoc_L (++)) || cbn [app]); done|].
    intros k. rewrite Happ.
    destruct (K1 k) as [->|Hk1]; [|lia]. cbn [app dget].
    destruct (decide (ip = k)); [lia|]. rewrite Happ.
    destruct (K2 k) as [->|Hk2]; [|lia]. cbn [dget]. destruct (decide (is = k)); [lia|]. by intros [? [=]].
Qed.

Lemma file_spec varnums t : varnums <> [] -> proper t -> (forall x, x ∈ all_leaves t -> is_Some (dget varnums x)) ->
  exists file nt, to_pysdd varnums t = Ok file /\ read_file file = Some nt /\ same_tree varnums t nt.
Proof.
  intros Hv Hp Hx. unfold to_pysdd. destruct varnums as [|kv varnums]; [done|].
  destruct (to_lines_spec (kv :: varnums) t Hp Hx 0) as (id & n' & ls & nt & E & N & I & L & S & R).
  rewrite E. cbn [rbind]. exists (count t, ls), nt. split; [done|]. split; [|done].
  unfold read_file. cbn. rewrite L, Nat.eqb_refl.
  destruct (R (count t) [] []) as (k & Q & _); [lia|by intros ? [? [=]]|].
  rewrite (right_id_L [] (++)) in Q. rewrite Q. cbn. rewrite rev_app_distr. done.
Qed.

Lemma same_tree_leaves varnums t nt : same_tree varnums t nt ->
  Forall2 (fun x k => dget varnums x = Some k) (all_leaves t) (ntree_leaves nt).
Proof. induction 1; cbn; [by repeat constructor|]. by apply Forall2_app. Qed.
