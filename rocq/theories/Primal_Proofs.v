(** Proofs for C41: elimination in the interaction graph. *)

From Verif Require Import Base Dict Smt Lit_Model Sdd_Model Vtree_Model Vtree_Spec.

Notation graph := (list (string * list string)).

Lemma elem_uni x a b : x ∈ uni a b <-> x ∈ a \/ x ∈ b.
Proof.
  unfold uni. rewrite elem_of_app, elem_of_list_filter.
  destruct (decide (x ∈ a)); naive_solver.
Qed.
Lemma elem_diff x a b : x ∈ diff a b <-> x ∈ a /\ x ∉ b.
Proof. unfold diff. rewrite elem_of_list_filter. naive_solver. Qed.
Lemma NoDup_uni a b : NoDup a -> NoDup b -> NoDup (uni a b).
Proof.
  intros Ha Hb. unfold uni. apply NoDup_app. split; [done|]. split; [|by apply NoDup_filter].
  intros x Hx. rewrite elem_of_list_filter. naive_solver.
Qed.
Lemma NoDup_diff a b : NoDup a -> NoDup (diff a b).
Proof. apply NoDup_filter. Qed.

(** * Updating entries *)

Lemma update_all_spec (l : graph) (f : string -> list string -> list string -> list string) :
  dwf l -> forall g : graph, (forall x, x ∈ dkeys l -> is_Some (dget g x)) ->
  exists g', update_all l f g = Ok g' /\ dkeys g' = dkeys g /\
    forall x, dget g' x = match dget l x with
                          | Some e => f x e <$> dget g x
                          | None => dget g x end.
Proof.
  unfold update_all. induction l as [|[k e] l IH]; intros Hl g Hg; cbn.
  - exists g. done.
  - apply NoDup_cons in Hl as [Hk Hl].
    destruct (Hg k) as [c Hc]; [cbn; apply elem_of_cons; by left|]. rewrite Hc.
    destruct (IH Hl (dset g k (f k e c))) as (g' & E & Hkeys & Hget).
    { intros x Hx. apply dget_is_Some. rewrite elem_of_dkeys_dset. right.
      apply dget_is_Some, Hg. cbn. apply elem_of_cons. by right. }
    exists g'. split; [done|]. split.
    { rewrite Hkeys, dkeys_dset. destruct (decide _) as [|Hn]; [done|].
      exfalso. apply Hn, dget_is_Some. by eexists. }
    intros x. rewrite Hget, dget_dset. destruct (decide (k = x)) as [->|Hx].
    + assert (dget l x = None) as -> by (by apply dget_None). by rewrite Hc.
    + done.
Qed.

(** * The invariant of the graph *)

Record ginv (g : graph) : Prop := {
  gi_wf : dwf g;
  gi_nodup : forall x c, dget g x = Some c -> NoDup c;
  gi_sym : forall x y, adj g x y -> adj g y x;
  gi_irr : forall x, ~ adj g x x }.

Lemma adj_vertices g x y : ginv g -> adj g x y -> is_Some (dget g x) /\ is_Some (dget g y).
Proof.
  intros H E. pose proof (gi_sym _ H _ _ E) as (c & Hc & _). destruct E as (d & Hd & _). eauto.
Qed.

Lemma primal_init_spec vertices f d :
  ginv (connected_to (primal_init vertices f d)) /\
  (forall x, is_Some (dget (connected_to (primal_init vertices f d)) x) <-> x ∈ vertices) /\
  (forall x y, ~ adj (connected_to (primal_init vertices f d)) x y).
Proof.
  cbn.
  assert (forall (g : graph), dwf g -> (forall x c, dget g x = Some c -> c = []) ->
    let g' := fold_left (fun g v => dset g v []) vertices g in
    dwf g' /\ (forall x c, dget g' x = Some c -> c = []) /\
    (forall x, is_Some (dget g' x) <-> x ∈ vertices \/ is_Some (dget g x))) as H.
  { induction vertices as [|v vs IH]; intros g Hw Hg; cbn.
    - split_and!; [done|done|]. intros x. rewrite elem_of_nil. naive_solver.
    - destruct (IH (dset g v [])) as (H1 & H2 & H3).
      + by apply dwf_dset.
      + intros x c. rewrite dget_dset. case_decide; [congruence|]. apply Hg.
      + split_and!; [done|done|]. intros x. rewrite H3, !dget_is_Some, elem_of_dkeys_dset, elem_of_cons. naive_solver. }
  destruct (H [] (NoDup_nil_2) (fun x c E => ltac:(done))) as (H1 & H2 & H3). cbn in *.
  assert (forall x y, ~ adj (fold_left (fun g v => dset g v []) vertices []) x y) as Hno.
  { intros x y (c & Hc & Hy). apply H2 in Hc as ->. by apply elem_of_nil in Hy. }
  split_and!; [split|..].
  - done.
  - intros x c Hc. apply H2 in Hc as ->. constructor.
  - intros x y E. by apply Hno in E.
  - intros x E. by apply Hno in E.
  - intros x. rewrite H3. split; [intros [?|[? [=]]]; done|by left].
  - done.
Qed.

Lemma add_edges_spec s p : ginv (connected_to p) -> NoDup s ->
  (forall x, x ∈ s -> is_Some (dget (connected_to p) x)) ->
  exists p', add_edges s p = Ok p' /\ fills p' = fills p /\ degrees p' = degrees p /\
    ginv (connected_to p') /\ dkeys (connected_to p') = dkeys (connected_to p) /\
    forall x y, adj (connected_to p') x y <-> adj (connected_to p) x y \/ (x <> y /\ x ∈ s /\ y ∈ s).
Proof.
  intros Hg Hs Hin. unfold add_edges.
  set (g := connected_to p) in *.
  assert (forall l (g : graph), (forall x, x ∈ l -> is_Some (dget g x)) -> NoDup l ->
    exists g', fold_left (fun r node => let! g := r in
        match dget g node with
        | Some c => Ok (dset g node (diff (uni c s) [node]))
        | None => Err KeyError
        end) l (Ok g) = Ok g' /\ dkeys g' = dkeys g /\
      forall x, dget g' x = if decide (x ∈ l) then (fun c => diff (uni c s) [x]) <$> dget g x else dget g x) as HF.
  { clear. induction l as [|k l IH]; intros g Hg Hl; cbn [fold_left rbind].
    - exists g. done.
    - apply NoDup_cons in Hl as [Hk Hl].
      destruct (Hg k) as [c Hc]; [apply elem_of_cons; by left|]. rewrite Hc.
      destruct (IH (dset g k (diff (uni c s) [k]))) as (g' & E & Hkeys & Hget).
      { intros x Hx. apply dget_is_Some. rewrite elem_of_dkeys_dset. right. apply dget_is_Some, Hg, elem_of_cons. by right. }
      { done. }
      exists g'. split; [done|]. split.
      { rewrite Hkeys, dkeys_dset. destruct (decide _) as [|Hn]; [done|]. exfalso. apply Hn, dget_is_Some. by eexists. }
      intros x. rewrite Hget, dget_dset. destruct (decide (k = x)) as [->|Hx].
      + rewrite decide_False by done. rewrite decide_True by (apply elem_of_cons; by left). by rewrite Hc.
      + destruct (decide (x ∈ l)) as [Hl'|Hl'].
        * rewrite decide_True by (apply elem_of_cons; by right). done.
        * rewrite decide_False; [done|]. rewrite elem_of_cons. naive_solver. }
  destruct (HF s g Hin Hs) as (g' & E & Hkeys & Hget). rewrite E. cbn [rbind].
  assert (forall x y, adj g' x y <-> adj g x y \/ (x <> y /\ x ∈ s /\ y ∈ s)) as Hadj.
  { intros x y. unfold adj. rewrite Hget. destruct (decide (x ∈ s)) as [Hx|Hx].
    - destruct (Hin x Hx) as [c Hc]. rewrite Hc. cbn. split.
      + intros (c' & [= <-] & Hy). apply elem_diff in Hy as [Hy Hn].
        apply elem_uni in Hy as [Hy|Hy]; [left; eauto|]. right. split; [|done].
        intros ->. apply Hn, elem_of_list_singleton. done.
      + intros H. exists (diff (uni c s) [x]). split; [done|]. rewrite elem_diff, elem_uni, elem_of_list_singleton.
        destruct H as [(c' & [= <-] & Hy)|(Hne & _ & Hy)].
        * split; [by left|]. intros ->. apply (gi_irr _ Hg x). exists c. done.
        * split; [by right|]. done.
    - split; [intros H; by left|]. intros [H|(_ & H & _)]; done. }
  eexists. split; [done|]. cbn. split_and!; [done|done| |done|done].
  split.
  - unfold dwf. rewrite Hkeys. apply Hg.
  - intros x c. rewrite Hget. destruct (decide (x ∈ s)).
    + destruct (dget g x) as [c'|] eqn:Ex; cbn; [|done]. intros [= <-].
      apply NoDup_diff, NoDup_uni; [|done]. by eapply gi_nodup.
    + by apply Hg.
  - intros x y. rewrite !Hadj. intros [H|H]; [left; by apply Hg|right; naive_solver].
  - intros x. rewrite Hadj. intros [H|H]; [by apply (gi_irr _ Hg x)|naive_solver].
Qed.

Lemma interaction_graph_spec vertices groups f d :
  Forall (fun s => NoDup s /\ forall x, x ∈ s -> x ∈ vertices) groups ->
  exists p, create_interaction_graph vertices groups f d = Ok p /\ ginv (connected_to p) /\
    fills p = (if f then Some [] else None) /\ degrees p = (if d then Some [] else None) /\
    (forall x, is_Some (dget (connected_to p) x) <-> x ∈ vertices) /\
    (forall x y, adj (connected_to p) x y <-> together groups x y).
Proof.
  intros HG. unfold create_interaction_graph.
  destruct (primal_init_spec vertices f d) as (H1 & H2 & H3).
  set (p0 := primal_init vertices f d) in *.
  assert (fills p0 = (if f then Some [] else None) /\ degrees p0 = (if d then Some [] else None)) as [Hf Hd] by done.
  clearbody p0.
  assert (forall x y, adj (connected_to p0) x y <-> False) as H3' by naive_solver.
  assert (forall groups p0 (E : string -> string -> Prop), Forall (fun s => NoDup s /\ forall x, x ∈ s -> x ∈ vertices) groups ->
    ginv (connected_to p0) -> (forall x, is_Some (dget (connected_to p0) x) <-> x ∈ vertices) ->
    (forall x y, adj (connected_to p0) x y <-> E x y) ->
    exists p, fold_left (fun r s => let! p := r in add_edges s p) groups (Ok p0) = Ok p /\
      ginv (connected_to p) /\ fills p = fills p0 /\ degrees p = degrees p0 /\
      (forall x, is_Some (dget (connected_to p) x) <-> x ∈ vertices) /\
      (forall x y, adj (connected_to p) x y <-> E x y \/ together groups x y)) as HI.
  { clear. induction groups as [|s groups IH]; intros p0 E HG Hg Hk HE; cbn [fold_left rbind].
    - exists p0. split_and!; try done. intros x y. rewrite HE. split; [by left|].
      intros [?|(_ & s & Hs & _)]; [done|]. by apply elem_of_nil in Hs.
    - apply Forall_cons in HG as [[Hs Hin] HG].
      destruct (add_edges_spec s p0 Hg Hs) as (p1 & E1 & F1 & D1 & G1 & K1 & A1).
      { intros x Hx. by apply Hk, Hin. }
      rewrite E1.
      destruct (IH p1 (fun x y => E x y \/ (x <> y /\ x ∈ s /\ y ∈ s)) HG G1) as (p & Ep & Gp & Fp & Dp & Kp & Ap).
      { intros x. rewrite dget_is_Some, K1, <- dget_is_Some. apply Hk. }
      { intros x y. by rewrite A1, HE. }
      exists p. split_and!; [done|done|congruence|congruence|done|].
      intros x y. rewrite Ap. unfold together. setoid_rewrite elem_of_cons. naive_solver. }
  destruct (HI groups p0 (fun _ _ => False) HG H1 H2 H3') as (p & Ep & Gp & Fp & Dp & Kp & Ap).
  exists p. split_and!; [done|done|congruence|congruence|done|]. intros x y. rewrite Ap. tauto.
Qed.

(** * Fills *)

Lemma filter_length_le {A} (P Q : A -> Prop) {DP : forall x, Decision (P x)} {DQ : forall x, Decision (Q x)} (l : list A) :
  (forall x, x ∈ l -> P x -> Q x) -> length (filter P l) <= length (filter Q l).
Proof.
  induction l as [|x l IH]; intros H; [done|]. rewrite !filter_cons.
  assert (length (filter P l) <= length (filter Q l)).
  { apply IH. intros y Hy. apply H, elem_of_cons. by right. }
  destruct (decide (P x)) as [Hp|]; [rewrite decide_True by (apply H; [apply elem_of_cons; by left|done])|destruct (decide (Q x))]; cbn; lia.
Qed.

Lemma filter_length_eq {A} (P Q : A -> Prop) {DP : forall x, Decision (P x)} {DQ : forall x, Decision (Q x)} (l : list A) :
  (forall x, x ∈ l -> P x <-> Q x) -> length (filter P l) = length (filter Q l).
Proof. intros H. apply Nat.le_antisymm; apply filter_length_le; naive_solver. Qed.

(** What the stored missing pairs of a vertex with neighbours [c] must satisfy. *)
Record edges_ok (g : graph) (c : list string) (es : graph) : Prop := {
  eo_wf : dwf es;
  eo_in : forall u new, dget es u = Some new -> u ∈ c /\ NoDup new /\
    forall w, w ∈ new -> w ∈ c /\ w <> u /\ exists new', dget es w = Some new' /\ u ∈ new';
  eo_all : forall u w, u ∈ c -> w ∈ c -> u <> w -> ~ adj g u w -> exists new, dget es u = Some new /\ w ∈ new }.

Lemma dget_filter_pair (P : string * list string -> Prop) {DP : forall x, Decision (P x)} (es : graph) u :
  dwf es -> dget (filter P es) u = match dget es u with Some n => if decide (P (u, n)) then Some n else None | None => None end.
Proof.
  intros Hw. destruct (dget (filter P es) u) as [n|] eqn:E.
  - apply dget_In in E. apply elem_of_list_filter in E as [HP E]. apply In_dget in E; [|done].
    rewrite E. by rewrite decide_True.
  - destruct (dget es u) as [n|] eqn:E2; [|done]. destruct (decide _) as [HP|]; [|done].
    exfalso. assert (dget (filter P es) u = Some n) as E3; [|congruence].
    apply In_dget; [by apply dwf_filter|]. apply elem_of_list_filter. split; [done|]. by apply dget_In.
Qed.

Lemma rmapM_total {A B} (f : A -> Res B) (h : A -> B) l :
  (forall x, x ∈ l -> f x = Ok (h x)) -> rmapM f l = Ok (map h l).
Proof.
  induction l as [|x l IH]; intros H; cbn; [done|].
  rewrite (H x) by (apply elem_of_cons; by left). cbn. rewrite IH; [done|].
  intros y Hy. apply H, elem_of_cons. by right.
Qed.

Lemma dget_map_keys {V} (h : string -> V) c u : dget (map (fun x => (x, h x)) c) u = if decide (u ∈ c) then Some (h u) else None.
Proof.
  induction c as [|x c IH]; cbn [map dget].
  { rewrite decide_False; [done|]. apply not_elem_of_nil. }
  destruct (decide (x = u)) as [->|Hn].
  - by rewrite decide_True by (apply elem_of_cons; by left).
  - rewrite IH. destruct (decide (u ∈ c)); [rewrite decide_True by (apply elem_of_cons; by right)|rewrite decide_False]; [done| |].
    + done.
    + rewrite elem_of_cons. naive_solver.
Qed.

Lemma compute_fill_spec g v c : ginv g -> dget g v = Some c ->
  exists es, compute_fill g v = Ok (missing_pairs g v, es) /\ edges_ok g c es.
Proof.
  intros Hg Hc. unfold compute_fill, missing_pairs. rewrite Hc.
  pose proof (gi_nodup _ Hg _ _ Hc) as Hnd.
  set (nb x := default [] (dget g x)).
  set (un x := diff (diff c (nb x)) [x]).
  assert (forall x, x ∈ c -> dget g x = Some (nb x)) as Hnb.
  { intros x Hx. destruct (gi_sym _ Hg v x) as (d & Hd & _); [by exists c|]. unfold nb. by rewrite Hd. }
  rewrite (rmapM_total _ (fun x => (x, un x))).
  2:{ intros x Hx. by rewrite (Hnb x Hx). }
  cbn [rbind]. eexists. split.
  - f_equal. f_equal.
    assert (forall l n, fold_left (fun n (e : string * list string) => n + length e.2) (filter (fun e : string * list string => e.2 <> []) (map (fun x => (x, un x)) l)) n
      = n + length (filter (fun p : string * string => p.1 <> p.2 /\ p.2 ∉ nb p.1) (list_prod l c))) as H; [|apply (H c 0)].
    induction l as [|x l IH]; intros n; cbn [map filter list_prod]; [done|].
    rewrite filter_app, app_length.
    assert (length (filter (fun p : string * string => p.1 <> p.2 /\ p.2 ∉ nb p.1) (map (fun y => (x, y)) c)) = length (un x)) as ->.
    { unfold un, diff. generalize c. intros c0. induction c0 as [|y c0 IHc]; [done|].
      cbn [map]. rewrite !filter_cons. cbn.
      destruct (decide (y ∉ nb x)) as [Hy|Hy].
      - rewrite filter_cons. destruct (decide (y ∉ [x])) as [Hyx|Hyx].
        + rewrite decide_True; [cbn; by rewrite IHc|]. split; [|done]. intros ->. by apply Hyx, elem_of_list_singleton.
        + rewrite decide_False; [done|]. intros [Hne _]. apply Hyx. rewrite elem_of_list_singleton. congruence.
      - rewrite decide_False by naive_solver. done. }
    cbn [filter]. rewrite filter_cons. cbn. destruct (decide (un x <> [])) as [Hu|Hu].
    + cbn [fold_left]. rewrite IH. cbn. lia.
    + rewrite IH. destruct (un x) eqn:E; [cbn; lia|]. exfalso. apply Hu. done.
  - assert (forall u, dget (filter (fun e : string * list string => e.2 <> []) (map (fun x => (x, un x)) c)) u
      = if decide (u ∈ c) then if decide (un u <> []) then Some (un u) else None else None) as Hget.
    { intros u. rewrite dget_filter_pair.
      - rewrite dget_map_keys. destruct (decide (u ∈ c)); [|done]. done.
      - unfold dwf, dkeys. rewrite map_map. cbn. by rewrite map_id. }
    assert (forall u w, w ∈ un u <-> w ∈ c /\ w ∉ nb u /\ w <> u) as Hun.
    { intros u w. unfold un. rewrite !elem_diff, elem_of_list_singleton. tauto. }
    split.
    + apply dwf_filter. unfold dwf, dkeys. rewrite map_map. cbn. by rewrite map_id.
    + intros u new. rewrite Hget. destruct (decide (u ∈ c)) as [Hu|]; [|done]. destruct (decide _) as [Hne|]; [|done].
      intros [= <-]. split; [done|]. split; [unfold un; by repeat apply NoDup_diff|].
      intros w Hw. apply Hun in Hw as (Hw & Hwn & Hwu). split; [done|]. split; [done|].
      assert (u ∈ un w) as Huw.
      { apply Hun. split; [done|]. split; [|congruence]. intros Hin. apply Hwn.
        destruct (gi_sym _ Hg w u) as (d & Hd & Hwd); [exists (nb w); auto|].
        rewrite (Hnb u Hu) in Hd. by injection Hd as <-. }
      exists (un w). rewrite Hget. rewrite decide_True by done. rewrite decide_True; [done|].
      intros E0. rewrite E0 in Huw. by apply elem_of_nil in Huw.
    + intros u w Hu Hw Hne Hna. exists (un u). rewrite Hget, decide_True by done.
      assert (w ∈ un u) as Hwu.
      { apply Hun. split; [done|]. split; [|congruence]. intros Hin. apply Hna. exists (nb u). auto. }
      rewrite decide_True; [done|]. intros E0. rewrite E0 in Hwu. by apply elem_of_nil in Hwu.
Qed.

(** The stored fills: an entry for each vertex, whose pairs contain all the missing
    ones; [exact] vertices have the right number. *)
Record finv (g : graph) (f : list (string * fill)) (exact : string -> Prop) : Prop := {
  fi_wf : dwf f;
  fi_keys : forall x, is_Some (dget f x) <-> is_Some (dget g x);
  fi_edges : forall v n es c, dget f v = Some (n, es) -> dget g v = Some c ->
    edges_ok g c es /\ missing_pairs g v <= n /\ (exact v -> n = missing_pairs g v) }.

Lemma compute_fills_spec vs g f d : ginv g -> dwf f -> (forall x, x ∈ vs -> is_Some (dget g x)) ->
  exists f', compute_fills vs (Primal g (Some f) d) = Ok (Primal g (Some f') d) /\ dwf f' /\
    (forall x, is_Some (dget f' x) <-> is_Some (dget f x) \/ x ∈ vs) /\
    (forall x, x ∉ vs -> dget f' x = dget f x) /\
    (forall x c, x ∈ vs -> dget g x = Some c -> exists es, dget f' x = Some (missing_pairs g x, es) /\ edges_ok g c es).
Proof.
  intros Hg Hf Hvs. unfold compute_fills. cbn [fills connected_to].
  assert (forall f, dwf f -> exists f', fold_left (fun r v => let! f := r in let! x := compute_fill g v in Ok (dset f v x)) vs (Ok f) = Ok f' /\ dwf f' /\
    (forall x, is_Some (dget f' x) <-> is_Some (dget f x) \/ x ∈ vs) /\
    (forall x, x ∉ vs -> dget f' x = dget f x) /\
    (forall x c, x ∈ vs -> dget g x = Some c -> exists es, dget f' x = Some (missing_pairs g x, es) /\ edges_ok g c es)) as H.
  { clear f Hf. induction vs as [|v vs IH]; intros f Hf; cbn [fold_left rbind].
    - exists f. split_and!; try done.
      + intros x. rewrite elem_of_nil. tauto.
      + intros x c Hx. by apply elem_of_nil in Hx.
    - destruct (Hvs v) as [c Hc]; [apply elem_of_cons; by left|].
      destruct (compute_fill_spec g v c Hg Hc) as (es & -> & Hes). cbn [rbind].
      destruct (IH ltac:(intros x Hx; apply Hvs, elem_of_cons; by right) (dset f v (missing_pairs g v, es))) as (f' & E & W & K & N & S); [by apply dwf_dset|].
      exists f'. split; [done|]. split; [done|]. split_and!.
      + intros x. rewrite K, !dget_is_Some, elem_of_dkeys_dset, elem_of_cons. naive_solver.
      + intros x Hx. rewrite elem_of_cons in Hx. rewrite N by naive_solver. rewrite dget_dset. by rewrite decide_False by naive_solver.
      + intros x c' Hx Hc'. destruct (decide (x ∈ vs)) as [Hi|Hi]; [by apply S|].
        apply elem_of_cons in Hx as [->|Hx]; [|done]. rewrite N by done. rewrite dget_dset, decide_True by done.
        exists es. split; [done|]. rewrite Hc in Hc'. by injection Hc' as <-. }
  destruct (H f Hf) as (f' & E & ?). exists f'. rewrite E. done.
Qed.

(** * One elimination step *)

Lemma remove_graph g a nb es : ginv g -> dget g a = Some nb -> edges_ok g nb es ->
  exists g2 g3, update_all (map (fun x => (x, [])) nb) (fun _ _ c => diff c [a]) (ddel g a) = Ok g2 /\
    update_all es (fun _ new c => uni c new) g2 = Ok g3 /\ ginv g3 /\
    (forall x, is_Some (dget g3 x) <-> is_Some (dget g x) /\ x <> a) /\
    (forall x, x ∉ nb -> x <> a -> dget g3 x = dget g x) /\
    (forall x y, adj g3 x y <-> eliminate (adj g) a x y).
Proof.
  intros Hg Ha Hes.
  assert (a ∉ nb) as Haa. { intros Hin. apply (gi_irr _ Hg a). by exists nb. }
  assert (forall x, x ∈ nb -> exists c, dget g x = Some c /\ a ∈ c) as Hnb.
  { intros x Hx. apply (gi_sym _ Hg a x). by exists nb. }
  assert (forall x, dget (ddel g a) x = if decide (a = x) then None else dget g x) as Hdel.
  { intros x. apply dget_ddel, Hg. }
  destruct (update_all_spec (map (fun x => (x, [])) nb) (fun _ _ c => diff c [a])) with (g := ddel g a) as (g2 & E2 & K2 & G2).
  { unfold dwf, dkeys. rewrite map_map. cbn. rewrite map_id. by eapply gi_nodup. }
  { intros x. unfold dkeys. rewrite map_map. cbn. rewrite map_id. intros Hx. rewrite Hdel.
    rewrite decide_False by congruence. destruct (Hnb x Hx) as (c & -> & _). by eexists. }
  assert (forall x, dget g2 x = if decide (a = x) then None else (fun c => diff c [a]) <$> dget g x) as G2'.
  { intros x. rewrite G2, dget_map_keys, Hdel. destruct (decide (a = x)) as [->|Hn].
    - by rewrite decide_False.
    - destruct (decide (x ∈ nb)) as [Hx|Hx]; [done|]. destruct (dget g x) as [c|] eqn:Ec; [|done]. cbn. f_equal.
      assert (a ∉ c) as Hac. { intros Hac. apply Hx. destruct (gi_sym _ Hg x a) as (d & Hd & Hxd); [by exists c|].
        rewrite Ha in Hd. by injection Hd as <-. }
      unfold diff. clear -Hac. induction c as [|y c IH]; [done|]. rewrite elem_of_cons in Hac. rewrite filter_cons, decide_True.
      + f_equal. apply IH. naive_solver.
      + rewrite elem_of_list_singleton. naive_solver. }
  destruct (update_all_spec es (fun _ new c => uni c new) (eo_wf _ _ _ Hes) g2) as (g3 & E3 & K3 & G3).
  { intros x Hx. apply dget_is_Some in Hx as [new Hnew]. apply (eo_in _ _ _ Hes) in Hnew as [Hx _].
    rewrite G2'. rewrite decide_False by congruence. destruct (Hnb x Hx) as (c & -> & _). by eexists. }
  assert (forall x, is_Some (dget g3 x) <-> is_Some (dget g x) /\ x <> a) as HK.
  { intros x. rewrite dget_is_Some, K3, <- dget_is_Some, G2'. destruct (decide (a = x)) as [->|].
    - split; [by intros [? [=]]|by intros [_ ?]].
    - rewrite fmap_is_Some. naive_solver. }
  assert (forall x, x ∉ nb -> x <> a -> dget g3 x = dget g x) as HO.
  { intros x Hx Hxa. rewrite G3. destruct (dget es x) as [new|] eqn:En.
    { apply (eo_in _ _ _ Hes) in En as [? _]. done. }
    rewrite G2, dget_map_keys, decide_False by done. rewrite Hdel. by rewrite decide_False. }
  assert (forall x y, adj g3 x y <-> eliminate (adj g) a x y) as HA.
  { intros x y. unfold eliminate. split.
    - intros (c & Hc & Hy). destruct (HK x) as [HKx _]. destruct HKx as [[cx Hcx] Hxa]; [by eexists|].
      split; [done|]. rewrite G3, G2', Hcx, decide_False in Hc by congruence. cbn in Hc.
      destruct (dget es x) as [new|] eqn:En; cbn in Hc; injection Hc as <-.
      + apply (eo_in _ _ _ Hes) in En as (Hx & _ & Hnew). apply elem_uni in Hy as [Hy|Hy].
        * apply elem_diff in Hy as [Hy Hya]. rewrite elem_of_list_singleton in Hya. split; [done|]. left. by exists cx.
        * apply Hnew in Hy as (Hy & Hyx & _). split; [congruence|]. right. split; [congruence|].
          split; [apply (gi_sym _ Hg); by exists nb|by exists nb].
      + apply elem_diff in Hy as [Hy Hya]. rewrite elem_of_list_singleton in Hya. split; [done|]. left. by exists cx.
    - intros (Hxa & Hya & H).
      assert (exists c, dget g x = Some c) as [cx Hcx].
      { destruct H as [(c & Hc & _)|(_ & (c & Hc & _) & _)]; by exists c. }
      assert (forall c, dget g3 x = Some c -> y ∈ c -> adj g3 x y) as Hfin by (intros c ??; by exists c).
      destruct (decide (y ∈ cx)) as [Hy|Hy].
      + destruct (dget es x) as [new|] eqn:En.
        * apply (Hfin (uni (diff cx [a]) new)).
          -- rewrite G3, En, G2', Hcx, decide_False by congruence. done.
          -- rewrite elem_uni, elem_diff, elem_of_list_singleton. by left.
        * apply (Hfin (diff cx [a])).
          -- rewrite G3, En, G2', Hcx, decide_False by congruence. done.
          -- rewrite elem_diff, elem_of_list_singleton. done.
      + destruct H as [(c & Hc & Hyc)|(Hxy & Exa & Eay)].
        { exfalso. apply Hy. rewrite Hcx in Hc. by injection Hc as <-. }
        destruct Eay as (nb' & Hnb' & Hynb). rewrite Ha in Hnb'. injection Hnb' as <-.
        apply (gi_sym _ Hg) in Exa as (nb' & Hnb' & Hxnb). rewrite Ha in Hnb'. injection Hnb' as <-.
        destruct (eo_all _ _ _ Hes x y Hxnb Hynb Hxy) as (new & En & Hn).
        { intros (c & Hc & Hyc). rewrite Hcx in Hc. injection Hc as <-. done. }
        apply (Hfin (uni (diff cx [a]) new)).
        * rewrite G3, En, G2', Hcx, decide_False by congruence. done.
        * rewrite elem_uni. by right. }
  exists g2, g3. split_and!; [done|done| |done|done|done].
  split.
  - unfold dwf. rewrite K3, K2. apply dwf_ddel, Hg.
  - intros x c Hc. rewrite G3, G2' in Hc. destruct (decide (a = x)); [by destruct (dget es x)|].
    destruct (dget g x) as [cx|] eqn:Ex; [|by destruct (dget es x)].
    pose proof (gi_nodup _ Hg _ _ Ex) as Hn.
    destruct (dget es x) as [new|] eqn:En; cbn in Hc; injection Hc as <-.
    + apply NoDup_uni; [by apply NoDup_diff|]. by apply (eo_in _ _ _ Hes) in En as (_ & ? & _).
    + by apply NoDup_diff.
  - intros x y. rewrite !HA. unfold eliminate. intros (Hx & Hy & H). split; [done|]. split; [done|].
    destruct H as [H|(Hn & E1 & E2')]; [left; by apply (gi_sym _ Hg)|right].
    split; [congruence|]. split; by apply (gi_sym _ Hg).
  - intros x. rewrite HA. intros (_ & _ & [H|H]); [by apply (gi_irr _ Hg x)|naive_solver].
Qed.

Lemma compute_degrees_spec vs g f d : (forall x, x ∈ vs -> is_Some (dget g x)) ->
  exists d', compute_degrees vs (Primal g f (Some d)) = Ok (Primal g f (Some d')) /\
    forall x, dget d' x = if decide (x ∈ vs) then length <$> dget g x else dget d x.
Proof.
  intros Hvs. unfold compute_degrees. cbn [degrees connected_to fills].
  assert (forall d, exists d', fold_left (fun r v => let! d := r in
        match dget g v with Some c => Ok (dset d v (length c)) | None => Err KeyError end) vs (Ok d) = Ok d' /\
    forall x, dget d' x = if decide (x ∈ vs) then length <$> dget g x else dget d x) as H.
  { clear d. induction vs as [|v vs IH]; intros d; cbn [fold_left rbind]; [by exists d|].
    destruct (Hvs v) as [c Hc]; [apply elem_of_cons; by left|]. rewrite Hc.
    destruct (IH ltac:(intros x Hx; apply Hvs, elem_of_cons; by right) (dset d v (length c))) as (d' & E & H).
    exists d'. split; [done|]. intros x. rewrite H, dget_dset. destruct (decide (x ∈ vs)) as [Hx|Hx].
    - rewrite decide_True by (apply elem_of_cons; by right). done.
    - destruct (decide (v = x)) as [->|Hn].
      + rewrite decide_True by (apply elem_of_cons; by left). by rewrite Hc.
      + rewrite decide_False; [done|]. rewrite elem_of_cons. naive_solver. }
  destruct (H d) as (d' & E & Hd). exists d'. rewrite E. done.
Qed.

Lemma missing_mono g g' v : dget g' v = dget g v ->
  (forall x y, y ∈ default [] (dget g v) -> adj g x y -> x <> y -> x ∈ default [] (dget g v) -> adj g' x y) -> missing_pairs g' v <= missing_pairs g v.
Proof.
  intros E H. unfold missing_pairs. rewrite E. destruct (dget g v) as [c|]; [|done]. cbn in H.
  apply filter_length_le. intros [x y] Hin [Hne Hn]. cbn in *. split; [done|]. intros Hy.
  apply elem_of_list_In, in_prod_iff in Hin as [Hx Hyc]. rewrite <- !elem_of_list_In in *.
  apply Hn. destruct (dget g x) as [cx|] eqn:Ex; [|by apply elem_of_nil in Hy].
  destruct (H x y Hyc) as (d & -> & Hd); [by exists cx|done|done|done].
Qed.

Lemma remove_step a p g f exact : ginv g -> fills p = Some f -> connected_to p = g -> finv g f exact ->
  is_Some (dget g a) ->
  exists p' f', remove_and_process_node a p = Ok p' /\ ginv (connected_to p') /\ fills p' = Some f' /\
    finv (connected_to p') f' (adj g a) /\
    (forall x, is_Some (dget (connected_to p') x) <-> is_Some (dget g x) /\ x <> a) /\
    (forall x y, adj (connected_to p') x y <-> eliminate (adj g) a x y) /\
    (forall x, ~ adj g a x -> x <> a -> dget (connected_to p') x = dget g x /\ dget f' x = dget f x) /\
    (degrees p = None -> degrees p' = None) /\
    (forall d, degrees p = Some d -> exists d', degrees p' = Some d' /\
       forall x, dget d' x = if bool_decide (x ∈ default [] (dget g a)) then length <$> dget (connected_to p') x else dget d x).
Proof.
  intros Hg Hf <- Hfi [nb Ha]. unfold remove_and_process_node. rewrite Ha, Hf.
  destruct (fi_keys _ _ _ Hfi a) as [_ HK]. destruct HK as [[n es] Hfa]; [by eexists|]. rewrite Hfa.
  destruct (fi_edges _ _ _ Hfi a n es nb Hfa Ha) as (Hes & _).
  destruct (remove_graph _ a nb es Hg Ha Hes) as (g2 & g3 & -> & E3 & Hg3 & HK & HO & HA).
  cbn [rbind]. rewrite E3. cbn [rbind].
  assert (forall x, x ∈ nb -> is_Some (dget g3 x)) as Hnb.
  { intros x Hx. apply HK. assert (adj (connected_to p) a x) as E by (by exists nb).
    split; [by eapply adj_vertices|]. intros ->. by apply (gi_irr _ Hg a). }
  destruct (compute_fills_spec nb g3 (ddel f a) (degrees p) Hg3 (dwf_ddel _ _ (fi_wf _ _ _ Hfi)) Hnb) as (f' & E4 & W & K & N & S).
  rewrite E4. cbn [rbind degrees].
  assert (forall x, dget (ddel f a) x = if decide (a = x) then None else dget f x) as Hdf.
  { intros x. apply dget_ddel, Hfi. }
  assert (finv g3 f' (adj (connected_to p) a)) as Hfi'.
  { split.
    - done.
    - intros x. rewrite K, HK, Hdf. destruct (decide (a = x)) as [->|Hn].
      + split; [intros [[? [=]]|Hx]; exfalso; apply (gi_irr _ Hg x); by exists nb|by intros [_ ?]].
      + rewrite (fi_keys _ _ _ Hfi). split.
        * intros [H|H]; [split; congruence|]. split; [|congruence]. by apply HK, Hnb.
        * intros [H _]. by left.
    - intros v m es' c Hv Hc. destruct (decide (v ∈ nb)) as [Hin|Hin].
      + destruct (S v c Hin Hc) as (es'' & Hv' & Hes''). rewrite Hv in Hv'. injection Hv' as -> ->.
        split; [done|]. split; [done|]. done.
      + rewrite N, Hdf in Hv by done. destruct (decide (a = v)) as [|Hav]; [done|].
        rewrite HO in Hc by congruence. destruct (fi_edges _ _ _ Hfi v m es' c Hv Hc) as (He & Hm & _).
        assert (forall x y, x ∈ c -> y ∈ c -> adj (connected_to p) x y -> adj g3 x y) as Hmono.
        { intros x y Hx Hy E. apply HA. assert (a ∉ c) as Hac.
          { intros Hac. apply Hin. destruct (gi_sym _ Hg v a) as (d & Hd & Hvd); [by exists c|].
            rewrite Ha in Hd. by injection Hd as <-. }
          split; [congruence|]. split; [congruence|]. by left. }
        split_and!.
        * split; [apply He|apply He|]. intros u w Hu Hw Hne Hna. apply (eo_all _ _ _ He u w Hu Hw Hne).
          intros E. apply Hna. by apply Hmono.
        * etransitivity; [|exact Hm]. apply missing_mono; [by rewrite HO by congruence|].
          rewrite Hc. cbn. intros x y Hy E _ Hx. by apply Hmono.
        * intros (d & Hd & Hvd). rewrite Ha in Hd. injection Hd as <-. done. }
  assert (forall x, ~ adj (connected_to p) a x -> x <> a -> dget g3 x = dget (connected_to p) x /\ dget f' x = dget f x) as HU.
  { intros x Hx Hxa. assert (x ∉ nb) as Hxn by (intros Hxn; apply Hx; by exists nb).
    split; [by apply HO|]. rewrite N, Hdf by done. by rewrite decide_False by congruence. }
  destruct (degrees p) as [d|] eqn:Hd.
  - destruct (compute_degrees_spec nb g3 (Some f') d Hnb) as (d' & -> & Hd').
    exists (Primal g3 (Some f') (Some d')), f'. cbn. split_and!; try done.
    intros d0 [= <-]. exists d'. split; [done|]. intros x. rewrite Hd'. cbn.
    by destruct (decide (x ∈ nb)); [rewrite bool_decide_true|rewrite bool_decide_false].
  - exists (Primal g3 (Some f') None), f'. cbn. done.
Qed.

(** * Elimination sequences *)

Lemma eliminate_all_ext l : forall E E' : string -> string -> Prop, (forall x y, E x y <-> E' x y) ->
  forall x y, eliminate_all E l x y <-> eliminate_all E' l x y.
Proof.
  induction l as [|a l IH]; intros E E' H; cbn; [done|]. apply IH. intros x y. unfold eliminate. by rewrite !H.
Qed.

Lemma remove_all_spec l : forall p f exact, ginv (connected_to p) -> fills p = Some f -> finv (connected_to p) f exact ->
  NoDup l -> (forall x, x ∈ l -> is_Some (dget (connected_to p) x)) ->
  exists p' f' exact', remove_all l p = Ok p' /\ ginv (connected_to p') /\ fills p' = Some f' /\ finv (connected_to p') f' exact' /\
    (forall x, is_Some (dget (connected_to p') x) <-> is_Some (dget (connected_to p) x) /\ x ∉ l) /\
    (forall x y, adj (connected_to p') x y <-> eliminate_all (adj (connected_to p)) l x y).
Proof.
  induction l as [|a l IH]; intros p f exact Hg Hf Hfi Hl Hin; cbn.
  - exists p, f, exact. split_and!; try done. intros x. rewrite elem_of_nil. tauto.
  - apply NoDup_cons in Hl as [Hal Hl].
    destruct (remove_step a p _ f exact Hg Hf eq_refl Hfi) as (p1 & f1 & -> & G1 & F1 & I1 & K1 & A1 & _).
    { apply Hin, elem_of_cons. by left. }
    cbn. destruct (IH p1 f1 _ G1 F1 I1 Hl) as (p2 & f2 & ex2 & E2 & G2 & F2 & I2 & K2 & A2).
    { intros x Hx. apply K1. split; [apply Hin, elem_of_cons; by right|]. by intros ->. }
    exists p2, f2, ex2. split_and!; try done.
    + intros x. rewrite K2, K1, elem_of_cons. naive_solver.
    + intros x y. rewrite A2. by apply eliminate_all_ext.
Qed.

Lemma eliminate_all_last l a : forall E : string -> string -> Prop, forall x y,
  eliminate_all E (l ++ [a]) x y <-> eliminate (eliminate_all E l) a x y.
Proof. induction l as [|b l IH]; intros E x y; cbn; [done|]. apply IH. Qed.

(** * Looking ahead *)

Lemma dupdate_get {V} (b : list (string * V)) : dwf b -> forall d x,
  dget (dupdate d b) x = match dget b x with Some v => Some v | None => dget d x end.
Proof.
  unfold dupdate. induction b as [|[k v] b IH]; intros Hb d x; cbn; [done|].
  apply NoDup_cons in Hb as [Hk Hb]. rewrite IH by done. rewrite dget_dset.
  destruct (decide (k = x)) as [->|Hn]; [|done].
  assert (dget b x = None) as -> by (by apply dget_None). done.
Qed.

Lemma dupdate_wf {V} (b : list (string * V)) : forall d, dwf d -> dwf (dupdate d b).
Proof.
  unfold dupdate. induction b as [|[k v] b IH]; intros d Hd; cbn; [done|]. by apply IH, dwf_dset.
Qed.

Lemma getall_spec {V} (d : list (string * V)) ks : NoDup ks -> (forall k, k ∈ ks -> is_Some (dget d k)) ->
  exists b, getall d ks = Ok b /\ dwf b /\ forall x, dget b x = if decide (x ∈ ks) then dget d x else None.
Proof.
  unfold getall. induction ks as [|k ks IH]; intros Hn H; cbn.
  - exists []. split_and!; [done|constructor|]. intros x. rewrite decide_False; [done|]. apply not_elem_of_nil.
  - apply NoDup_cons in Hn as [Hk Hn]. destruct (H k) as [v Hv]; [apply elem_of_cons; by left|]. rewrite Hv. cbn.
    destruct IH as (b & -> & Wb & Gb); [done|intros x Hx; apply H, elem_of_cons; by right|].
    exists ((k, v) :: b). split; [done|]. split.
    + apply NoDup_cons. split; [|done]. apply dget_None. rewrite Gb. by rewrite decide_False.
    + intros x. cbn. destruct (decide (k = x)) as [->|Hx].
      * rewrite decide_True by (apply elem_of_cons; by left). done.
      * rewrite Gb. destruct (decide (x ∈ ks)); [rewrite decide_True by (apply elem_of_cons; by right); done|].
        rewrite decide_False; [done|]. rewrite elem_of_cons. naive_solver.
Qed.

(** Equal contents, whatever the order of the dictionaries. *)
Definition psame (p p' : primal) : Prop :=
  (forall x, dget (connected_to p') x = dget (connected_to p) x) /\
  exists f f', fills p = Some f /\ fills p' = Some f' /\ forall x, dget f' x = dget f x.

Lemma ginv_same g g' : dwf g' -> (forall x, dget g' x = dget g x) -> ginv g -> ginv g'.
Proof.
  intros W H Hg. assert (forall x y, adj g' x y <-> adj g x y) as Ha by (intros x y; unfold adj; by rewrite H).
  split; [done| | |].
  - intros x c. rewrite H. apply Hg.
  - intros x y. rewrite !Ha. apply Hg.
  - intros x. rewrite Ha. apply Hg.
Qed.
Lemma finv_same g g' f f' ex : dwf f' -> (forall x, dget g' x = dget g x) -> (forall x, dget f' x = dget f x) ->
  finv g f ex -> finv g' f' ex.
Proof.
  intros W H Hf' Hf. assert (forall x y, adj g' x y <-> adj g x y) as Ha by (intros x y; unfold adj; by rewrite H).
  assert (forall v, missing_pairs g' v = missing_pairs g v) as Hm.
  { intros v. unfold missing_pairs. rewrite H. destruct (dget g v); [|done]. apply filter_length_eq. intros [x y] _. cbn. by rewrite H. }
  split; [done| |].
  - intros x. rewrite H, Hf'. apply Hf.
  - intros v n es c. rewrite H, Hf', Hm. intros Hv Hc. destruct (fi_edges _ _ _ Hf v n es c Hv Hc) as ([E1 E2 E3] & Hle & Hex).
    split; [|done]. split; [done|done|]. intros u w. rewrite Ha. apply E3.
Qed.

Lemma min_fill_ok (f : list (string * fill)) : f <> [] -> exists m, min_fill f = Ok m /\
  (exists x n es, (x, (n, es)) ∈ f /\ n = m) /\ forall x n es, (x, (n, es)) ∈ f -> m <= n.
Proof.
  unfold min_fill. destruct f as [|[x [n es]] f]; [done|]. intros _. cbn. eexists. split; [done|].
  assert (forall l n, (fold_left Nat.min l n = n \/ fold_left Nat.min l n ∈ l) /\ fold_left Nat.min l n <= n /\
    forall m, m ∈ l -> fold_left Nat.min l n <= m) as H.
  { clear. induction l as [|k l IH]; intros n; cbn.
    - split; [by left|]. split; [done|]. intros m Hm. by apply elem_of_nil in Hm.
    - destruct (IH (Nat.min n k)) as (H1 & H2 & H3). split; [|split].
      + destruct H1 as [H1|H1]; [|right; apply elem_of_cons; by right].
        rewrite H1. destruct (Nat.min_spec n k) as [[_ ->]|[_ ->]]; [by left|]. right. apply elem_of_cons. by left.
      + lia.
      + intros m Hm. apply elem_of_cons in Hm as [->|Hm]; [lia|]. by apply H3. }
  destruct (H (map (fun e : string * fill => fst (snd e)) f) n) as (H1 & H2 & H3). split.
  - destruct H1 as [->|H1].
    + exists x, n, es. split; [apply elem_of_cons; by left|done].
    + apply elem_of_list_In, in_map_iff in H1 as ([y [k es']] & E & Hy). cbn in E.
      exists y, k, es'. split; [apply elem_of_cons; right; by apply elem_of_list_In|done].
  - intros y k es' Hy. apply elem_of_cons in Hy as [[= -> -> ->]|Hy]; [done|]. apply H3.
    apply elem_of_list_In, in_map_iff. exists (y, (k, es')). split; [done|]. by apply elem_of_list_In.
Qed.

Definition good_best (vs0 : list string) (b : option (nat * list string)) : Prop :=
  match b with None => True | Some (_, l) => l <> [] /\ forall x, x ∈ l -> x ∈ vs0 end.

Lemma psame_trans p1 p2 p3 : psame p1 p2 -> psame p2 p3 -> psame p1 p3.
Proof.
  intros [H1 (f1 & f2 & E1 & E2 & G1)] [H2 (f2' & f3 & E2' & E3 & G2)].
  rewrite E2 in E2'. injection E2' as <-. split; [intros x; by rewrite H2|].
  exists f1, f3. split_and!; [done|done|]. intros x. by rewrite G2.
Qed.

Lemma future_loop_spec vs0 vs : forall best p f ex, ginv (connected_to p) -> fills p = Some f -> finv (connected_to p) f ex ->
  (forall x, x ∈ vs -> x ∈ vs0 /\ is_Some (dget (connected_to p) x)) ->
  (forall x, exists y, y <> x /\ is_Some (dget (connected_to p) y)) ->
  good_best vs0 best ->
  exists best' p', future_loop vs best p = Ok (best', p') /\ psame p p' /\
    ginv (connected_to p') /\ (exists f', fills p' = Some f' /\ finv (connected_to p') f' ex) /\
    (degrees p = None -> degrees p' = None) /\
    (vs <> [] \/ best <> None -> best' <> None) /\ good_best vs0 best'.
Proof.
  induction vs as [|v vs IH]; intros best p f ex Hg Hf Hfi Hin Htwo Hbest; cbn [future_loop].
  - exists best, p. split; [done|]. split; [split; [done|by exists f, f]|]. split; [done|].
    split; [by exists f|]. split; [done|]. split; [by intros [?|?]|done].
  - destruct (Hin v) as [Hv0 [nb Hv]]; [apply elem_of_cons; by left|]. rewrite Hv, Hf.
    pose proof (gi_nodup _ Hg _ _ Hv) as Hnd.
    assert (forall k, k ∈ nb -> is_Some (dget (connected_to p) k)) as Hk.
    { intros k Hk. assert (adj (connected_to p) v k) as E by (by exists nb). by eapply adj_vertices. }
    destruct (getall_spec (connected_to p) nb Hnd Hk) as (cb & -> & Wc & Gc). cbn [rbind].
    destruct (getall_spec f nb Hnd) as (fb & -> & Wf & Gf). { intros k Hk'. by apply (fi_keys _ _ _ Hfi), Hk. }
    cbn [rbind].
    destruct (fi_keys _ _ _ Hfi v) as [_ HK]. destruct HK as [fv Hfv]; [by eexists|]. rewrite Hfv.
    destruct (remove_step v p _ f ex Hg Hf eq_refl Hfi) as (p1 & f1 & -> & G1 & F1 & I1 & K1 & A1 & U1 & D1 & _); [by eexists|].
    cbn [rbind]. rewrite F1.
    assert (f1 <> []) as Hne.
    { destruct (Htwo v) as (y & Hyv & Hy). intros ->.
      destruct (fi_keys _ _ _ I1 y) as [_ HKy]. destruct HKy as [? [=]]. by apply K1. }
    destruct (min_fill_ok f1 Hne) as (m & -> & _). cbn [rbind].
    set (best1 := match best with None => _ | Some _ => _ end).
    set (p2 := Primal _ _ _).
    assert (forall x, dget (connected_to p2) x = dget (connected_to p) x) as S1.
    { intros x. cbn. rewrite dupdate_get by (by apply dwf_dset). rewrite dget_dset.
      destruct (decide (v = x)) as [->|Hn]; [by rewrite Hv|]. rewrite Gc.
      destruct (decide (x ∈ nb)) as [Hx|Hx].
      - destruct (Hk x Hx) as [c ->]. done.
      - apply U1; [|congruence]. intros (c & Hc & Hxc). rewrite Hv in Hc. injection Hc as <-. done. }
    assert (forall x, dget (dupdate f1 (dset fb v fv)) x = dget f x) as S2.
    { intros x. rewrite dupdate_get by (by apply dwf_dset). rewrite dget_dset.
      destruct (decide (v = x)) as [->|Hn]; [by rewrite Hfv|]. rewrite Gf.
      destruct (decide (x ∈ nb)) as [Hx|Hx].
      - destruct (fi_keys _ _ _ Hfi x) as [_ HK]. destruct (HK (Hk x Hx)) as [c ->]. done.
      - apply U1; [|congruence]. intros (c & Hc & Hxc). rewrite Hv in Hc. injection Hc as <-. done. }
    assert (ginv (connected_to p2)) as Hg2.
    { apply (ginv_same (connected_to p)); [|done|done]. cbn. by apply dupdate_wf, G1. }
    assert (finv (connected_to p2) (dupdate f1 (dset fb v fv)) ex) as Hf2.
    { apply (finv_same (connected_to p) _ f); [|done|done|done]. by apply dupdate_wf, I1. }
    destruct (IH best1 p2 (dupdate f1 (dset fb v fv)) ex) as (best' & p' & E & Hs & Hg' & Hf' & Hd & Hb1 & Hb2).
    + done.
    + done.
    + done.
    + intros x Hx. rewrite S1. apply Hin, elem_of_cons. by right.
    + intros x. setoid_rewrite S1. apply Htwo.
    + unfold best1. destruct best as [[b l]|].
      * destruct (m <? b)%nat; [|destruct (m =? b)%nat]; cbn; [|split|done].
        -- split; [done|]. intros x Hx. apply elem_of_list_singleton in Hx as ->. done.
        -- by destruct l.
        -- intros x Hx. apply elem_of_app in Hx as [Hx|Hx]; [by apply Hbest|]. apply elem_of_list_singleton in Hx as ->. done.
      * split; [done|]. intros x Hx. apply elem_of_list_singleton in Hx as ->. done.
    + exists best', p'. split; [done|]. split.
      { eapply psame_trans; [|exact Hs]. split; [done|]. exists f, (dupdate f1 (dset fb v fv)). done. }
      split; [done|]. split; [done|]. split; [intros H; by apply Hd, D1|]. split; [|done].
      intros _. apply Hb1. right. unfold best1. destruct best as [[b l]|]; [|done].
      destruct (m <? b)%nat; [done|]. by destruct (m =? b)%nat.
Qed.

Lemma lowest_future_spec vs p f ex : ginv (connected_to p) -> fills p = Some f -> finv (connected_to p) f ex ->
  NoDup vs -> vs <> [] -> (forall x, x ∈ vs -> is_Some (dget (connected_to p) x)) ->
  exists r p', get_lowest_future_minfill vs p = Ok (r, p') /\ psame p p' /\
    ginv (connected_to p') /\ (exists f', fills p' = Some f' /\ finv (connected_to p') f' ex) /\
    (degrees p = None -> degrees p' = None) /\
    r <> [] /\ forall x, x ∈ r -> x ∈ vs.
Proof.
  intros Hg Hf Hfi Hnd Hne Hin. unfold get_lowest_future_minfill.
  destruct vs as [|x vs]; [done|]. destruct vs as [|y vs].
  { exists [x], p. split; [done|]. split; [split; [done|by exists f, f]|]. split; [done|]. split; [by exists f|]. done. }
  destruct (future_loop_spec (x :: y :: vs) (x :: y :: vs) None p f ex) as (b & p' & -> & Hs & Hg' & Hf' & Hd & Hb1 & Hb2); try done.
  - intros z Hz. split; [done|]. by apply Hin.
  - intros z. apply NoDup_cons in Hnd as [Hxy _]. destruct (decide (x = z)) as [->|Hn].
    + exists y. split; [intros ->; apply Hxy, elem_of_cons; by left|]. apply Hin, elem_of_cons. right. apply elem_of_cons. by left.
    + exists x. split; [done|]. apply Hin, elem_of_cons. by left.
  - cbn [rbind]. destruct b as [[n l]|]; [|exfalso; apply Hb1; [by left|done]].
    exists l, p'. split; [done|]. split; [done|]. split; [done|]. split; [done|]. split; [done|]. by destruct Hb2.
Qed.
