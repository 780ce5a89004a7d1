(** Python dictionaries as association lists in insertion order, and Python's
    ordering of strings and tuples.  Generic; models no function of /repo. *)

From Verif Require Import Base.

(** * Orders *)

(** Lexicographic comparison (Python's comparison of tuples and of strings). *)
Fixpoint lexc {A} (c : A -> A -> comparison) (l k : list A) : comparison :=
  match l, k with
  | [], [] => Eq
  | [], _ => Lt
  | _, [] => Gt
  | x :: l, y :: k => match c x y with Eq => lexc c l k | r => r end
  end.

(** Comparison of strings by code points. *)
Definition str_cmp (s t : string) : comparison :=
  lexc N.compare (map N_of_ascii (list_ascii_of_string s)) (map N_of_ascii (list_ascii_of_string t)).

Record good_cmp {A} (c : A -> A -> comparison) : Prop := {
  gc_eq : forall x y, c x y = Eq <-> x = y;
  gc_opp : forall x y, c y x = CompOpp (c x y);
  gc_trans : forall x y z, c x y = Lt -> c y z = Lt -> c x z = Lt }.

Lemma good_N : good_cmp N.compare.
Proof.
  split.
  - apply N.compare_eq_iff.
  - intros. apply N.compare_antisym.
  - intros x y z. rewrite !N.compare_lt_iff. lia.
Qed.

Lemma good_lexc {A} (c : A -> A -> comparison) : good_cmp c -> good_cmp (lexc c).
Proof.
  intros [Heq Hopp Htr]. split.
  - induction x as [|x l IH]; intros [|y k]; cbn; try done.
    destruct (c x y) eqn:E.
    + apply Heq in E as ->. rewrite IH. split; congruence.
    + split; [done|]. intros [= -> ->]. assert (c y y = Eq) by (by apply Heq). congruence.
    + split; [done|]. intros [= -> ->]. assert (c y y = Eq) by (by apply Heq). congruence.
  - induction x as [|x l IH]; intros [|y k]; cbn; try done.
    rewrite Hopp. destruct (c x y); cbn; [apply IH|done|done].
  - induction x as [|x l IH]; intros [|y k] [|z m]; cbn; try done.
    destruct (c x y) eqn:E1; try done.
    + apply Heq in E1 as ->. destruct (c y z) eqn:E2; try done. apply IH.
    + intros _. destruct (c y z) eqn:E2; try done.
      * apply Heq in E2 as ->. by rewrite E1.
      * intros _. by rewrite (Htr _ _ _ E1 E2).
Qed.

Lemma good_map {A B} (f : A -> B) (c : B -> B -> comparison) :
  (forall x y, f x = f y -> x = y) -> good_cmp c -> good_cmp (fun x y => c (f x) (f y)).
Proof.
  intros Hinj [Heq Hopp Htr]. split.
  - intros x y. rewrite Heq. split; [apply Hinj|congruence].
  - intros. apply Hopp.
  - intros. by eapply Htr.
Qed.

Lemma good_str : good_cmp str_cmp.
Proof.
  apply (good_map (fun s => map N_of_ascii (list_ascii_of_string s)) (lexc N.compare)).
  - intros s t H. rewrite <- (string_of_list_ascii_of_string s), <- (string_of_list_ascii_of_string t).
    f_equal. revert H. generalize (list_ascii_of_string s), (list_ascii_of_string t).
    induction l as [|x l IH]; intros [|y k]; cbn; try done. intros [= H1 H2].
    f_equal; [|by apply IH]. rewrite <- (ascii_N_embedding x), <- (ascii_N_embedding y). by f_equal.
  - apply good_lexc, good_N.
Qed.

(** "<=" of a comparison. *)
Definition cle {A} (c : A -> A -> comparison) (x y : A) : Prop := c x y <> Gt.
Global Instance cle_dec {A} (c : A -> A -> comparison) x y : Decision (cle c x y).
Proof. unfold cle. destruct (c x y); [left|left|right]; congruence. Defined.

Section cle.
  Context {A} (c : A -> A -> comparison) (Hc : good_cmp c).
  Lemma cle_refl x : cle c x x.
  Proof. unfold cle. destruct (gc_eq c Hc x x) as [_ ->]; done. Qed.
  Lemma cle_total : Total (cle c).
  Proof.
    intros x y. unfold cle. rewrite (gc_opp c Hc x y). destruct (c x y); cbn; [left|left|right]; done.
  Qed.
  Lemma cle_trans : Transitive (cle c).
  Proof.
    intros x y z. unfold cle. destruct (c x y) eqn:E1.
    - apply (gc_eq c Hc) in E1 as ->. done.
    - destruct (c y z) eqn:E2.
      + apply (gc_eq c Hc) in E2 as ->. by rewrite E1.
      + by rewrite (gc_trans c Hc _ _ _ E1 E2).
      + done.
    - done.
  Qed.
  Lemma cle_antisym : AntiSymm (=) (cle c).
  Proof.
    intros x y. unfold cle. rewrite (gc_opp c Hc x y). destruct (c x y) eqn:E; cbn; try done.
    intros _ _. by apply (gc_eq c Hc).
  Qed.

  (** [sorted(l)] *)
  Definition psort (l : list A) : list A := merge_sort (cle c) l.

  Lemma psort_perm l : psort l ≡ₚ l.
  Proof. apply merge_sort_Permutation. Qed.
  Lemma psort_sorted l : StronglySorted (cle c) (psort l).
  Proof.
    pose proof cle_total. pose proof cle_trans. exact (StronglySorted_merge_sort (cle c) l).
  Qed.
  Lemma sorted_unique l k :
    StronglySorted (cle c) l -> StronglySorted (cle c) k -> l ≡ₚ k -> l = k.
  Proof.
    intros. pose proof cle_antisym. exact (StronglySorted_unique (cle c) l k H H0 H1).
  Qed.
  Lemma psort_id l : StronglySorted (cle c) l -> psort l = l.
  Proof. intros. apply sorted_unique; [apply psort_sorted|done|apply psort_perm]. Qed.
  Lemma psort_eq l k : l ≡ₚ k -> psort l = psort k.
  Proof.
    intros. apply sorted_unique; [apply psort_sorted..|]. by rewrite !psort_perm.
  Qed.
End cle.

(** * Dictionaries *)

Section dict.
  Context {K V : Type} `{EqDecision K}.
  Notation dict := (list (K * V)).

  (** [d.get(k)] *)
  Fixpoint dget (d : dict) (k : K) : option V :=
    match d with
    | [] => None
    | (k', v) :: d => if decide (k' = k) then Some v else dget d k
    end.

  (** [d[k] = v]: keeps the position of an existing key. *)
  Fixpoint dset (d : dict) (k : K) (v : V) : dict :=
    match d with
    | [] => [(k, v)]
    | (k', v') :: d => if decide (k' = k) then (k', v) :: d else (k', v') :: dset d k v
    end.

  (** [del d[k]] when the key is present. *)
  Fixpoint ddel (d : dict) (k : K) : dict :=
    match d with
    | [] => []
    | (k', v') :: d => if decide (k' = k) then d else (k', v') :: ddel d k
    end.

  Definition dkeys (d : dict) : list K := map fst d.
  Definition dwf (d : dict) : Prop := NoDup (dkeys d).

  Lemma dget_dset d k v k' :
    dget (dset d k v) k' = if decide (k = k') then Some v else dget d k'.
  Proof.
    induction d as [|[k0 v0] d IH]; cbn; [done|].
    destruct (decide (k0 = k)) as [->|Hk]; cbn.
    - by destruct (decide (k = k')).
    - rewrite IH. destruct (decide (k0 = k')) as [->|]; [|done].
      by rewrite decide_False by congruence.
  Qed.

  Lemma dget_In d k v : dget d k = Some v -> (k, v) ∈ d.
  Proof.
    induction d as [|[k0 v0] d IH]; cbn; [done|]. destruct (decide (k0 = k)) as [->|].
    - intros [= ->]. by left.
    - intros H. right. auto.
  Qed.

  Lemma In_dget d k v : dwf d -> (k, v) ∈ d -> dget d k = Some v.
  Proof.
    unfold dwf. induction d as [|[k0 v0] d IH]; cbn; intros Hwf H.
    { by apply elem_of_nil in H. }
    inversion Hwf as [|? ? Hni Hnd]; subst. apply elem_of_cons in H as [H|H].
    - injection H as -> ->. by rewrite decide_True.
    - destruct (decide (k0 = k)) as [->|]; [|by apply IH]. destruct Hni.
      apply elem_of_list_fmap. by exists (k, v).
  Qed.

  Lemma dget_None d k : dget d k = None <-> k ∉ dkeys d.
  Proof.
    induction d as [|[k0 v0] d IH]; cbn.
    - split; [|done]. intros _. apply not_elem_of_nil.
    - rewrite not_elem_of_cons. destruct (decide (k0 = k)) as [->|]; [naive_solver|].
      rewrite IH. naive_solver.
  Qed.

  Lemma dget_is_Some d k : is_Some (dget d k) <-> k ∈ dkeys d.
  Proof.
    rewrite <- not_eq_None_Some, dget_None. split; [|naive_solver].
    intros H. destruct (decide (k ∈ dkeys d)); naive_solver.
  Qed.

  Lemma dkeys_dset d k v : dkeys (dset d k v) = if decide (k ∈ dkeys d) then dkeys d else dkeys d ++ [k].
  Proof.
    induction d as [|[k0 v0] d IH]; cbn; [done|].
    destruct (decide (k0 = k)) as [->|Hk]; cbn.
    - rewrite decide_True by by left. done.
    - fold (dkeys (dset d k v)). fold (dkeys d). rewrite IH. destruct (decide (k ∈ dkeys d)) as [H|H].
      + rewrite decide_True by by right. done.
      + rewrite decide_False; [done|]. intros H'. apply elem_of_cons in H' as [H'|H']; [congruence|done].
  Qed.

  Lemma elem_of_dkeys_dset d k v k' : k' ∈ dkeys (dset d k v) <-> k' = k \/ k' ∈ dkeys d.
  Proof.
    rewrite dkeys_dset. destruct (decide (k ∈ dkeys d)).
    - naive_solver.
    - rewrite elem_of_app, elem_of_list_singleton. naive_solver.
  Qed.

  Lemma dwf_dset d k v : dwf d -> dwf (dset d k v).
  Proof.
    unfold dwf. rewrite dkeys_dset. destruct (decide (k ∈ dkeys d)); [done|].
    intros H. apply NoDup_app. split; [done|]. split; [|apply NoDup_singleton].
    intros x Hx ->%elem_of_list_singleton. done.
  Qed.

  Lemma dwf_nil : dwf [].
  Proof. apply NoDup_nil_2. Qed.

  Lemma dget_ddel d k k' : dwf d -> dget (ddel d k) k' = if decide (k = k') then None else dget d k'.
  Proof.
    unfold dwf. induction d as [|[k0 v0] d IH]; cbn; intros Hwf.
    { by destruct (decide _). }
    inversion Hwf as [|? ? Hni Hnd]; subst. destruct (decide (k0 = k)) as [->|Hk].
    - destruct (decide (k = k')) as [<-|]; [|done]. by apply dget_None.
    - cbn. rewrite IH by done. destruct (decide (k0 = k')) as [->|]; [|done].
      by rewrite decide_False by congruence.
  Qed.

  Lemma dkeys_ddel_subseteq d k x : x ∈ dkeys (ddel d k) -> x ∈ dkeys d.
  Proof.
    induction d as [|[k0 v0] d IH]; cbn; [done|]. destruct (decide (k0 = k)) as [->|].
    - intros. by right.
    - cbn. rewrite !elem_of_cons. naive_solver.
  Qed.

  Lemma dwf_ddel d k : dwf d -> dwf (ddel d k).
  Proof.
    unfold dwf. induction d as [|[k0 v0] d IH]; cbn; intros Hwf; [done|].
    inversion Hwf as [|? ? Hni Hnd]; subst. destruct (decide (k0 = k)); [done|].
    cbn. constructor; [|by apply IH]. intros H. by apply dkeys_ddel_subseteq in H.
  Qed.

  Lemma dwf_filter (P : K * V -> Prop) `{forall x, Decision (P x)} d : dwf d -> dwf (filter P d).
  Proof.
    unfold dwf. induction d as [|[k0 v0] d IH]; cbn [dkeys map fst]; intros Hwf; [done|].
    inversion Hwf as [|? ? Hni Hnd]; subst. rewrite filter_cons. destruct (decide _); [|by apply IH].
    cbn. constructor; [|by apply IH]. intros Hin. apply Hni.
    apply elem_of_list_fmap in Hin as ([k v] & -> & Hin). apply elem_of_list_filter in Hin as [_ Hin].
    apply elem_of_list_fmap. by exists (k, v).
  Qed.

  Lemma dset_fresh d k v : k ∉ dkeys d -> dset d k v = d ++ [(k, v)].
  Proof.
    induction d as [|[k0 v0] d IH]; cbn; [done|]. rewrite not_elem_of_cons. intros [H1 H2].
    rewrite decide_False by congruence. by rewrite IH.
  Qed.
End dict.
