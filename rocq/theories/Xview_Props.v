(** C70: the remaining ways to go through a diagram: down-up and top-down walks, the
    leaves, and the picture of it.  All statements are about pools reached by any history
    of requests (Xadd_Spec). *)

From Verif Require Import Base Dict Smt Smt_Facts Math_Model Math_Spec Poly_Proofs Arith_Proofs Linear_Proofs Piecewise_Spec
  Xadd_Model Resolve_Model Xadd_Spec Xadd_Proofs Xwalk_Proofs Xhist_Proofs Xreq_Proofs Xadd_Props Xview_Model Xview_Spec Xview_Proofs.

Section Props.
  Context {E : Type} `{EqDecision E} (A : alg E) (flat : E -> E) (is_one is_zero : E -> Res bool) (simp : fm -> fm)
    (solve : list fm -> fm -> bool) (X : resolver E) (den : E -> env -> option Qc).
  Notation history := (history A flat is_one is_zero simp solve X).
  Notation reachable := (reachable A flat is_one is_zero simp solve X).

  (** A down-up walk computes the recursion over the diagram, and raises what the
      recursion raises first; remembering results does not change that. *)
  Theorem C70_down_up {Msg B : Type} `{EqDecision Msg} (vt : nat -> E -> Msg -> Res B)
      (vd : nat -> decision -> nat -> nat -> Msg -> Res (Msg * Msg)) (va : nat -> decision -> nat -> nat -> B -> B -> Res B)
      p root m : sound_externals A flat simp solve den -> reachable p -> is_Some (dget (p_nodes p) root) ->
    (forall r caching, du_walk vt vd va caching (p_nodes p) root m = Ok r <-> recurses vt vd va (p_nodes p) root m r) /\
    du_walk vt vd va true (p_nodes p) root m = du_walk vt vd va false (p_nodes p) root m /\
    ((forall id x k, is_ok (vt id x k) = true) -> (forall id d ct cf k, is_ok (vd id d ct cf k) = true) ->
     (forall id d ct cf a b, is_ok (va id d ct cf a b) = true) -> exists r, du_walk vt vd va true (p_nodes p) root m = Ok r).
  Proof.
    intros HX Hr Hd. pose proof (reachable_inv A flat is_one is_zero simp solve X den HX p Hr) as Hi.
    pose proof (inv_ns _ _ _ p Hi) as Hns. split; [|split].
    - intros r b. rewrite (du_walk_plain _ _ _ _ Hns). by apply plain_recurses.
    - by rewrite !(du_walk_plain _ _ _ _ Hns).
    - intros H1 H2 H3. rewrite (du_walk_plain _ _ _ _ Hns). revert m Hd.
      induction root as [root IH] using (well_founded_induction lt_wf). intros m [nd Hn]. rewrite (plain_step _ _ _ _ Hns), Hn.
      destruct nd as [x|d ct cf].
      + specialize (H1 root x m). destruct (vt root x m); [by eexists|done].
      + destruct (Hns _ _ _ _ Hn) as (Ht & Hf & Dt & Df & _). specialize (H2 root d ct cf m).
        destruct (vd root d ct cf m) as [[mt mf]|]; [|done]. cbn [rbind]. destruct (IH ct Ht mt Dt) as [rt ->].
        cbn [rbind]. destruct (IH cf Hf mf Df) as [rf ->]. cbn [rbind]. specialize (H3 root d ct cf rt rf).
        destruct (va root d ct cf rt rf); [by eexists|done].
  Qed.

  (** A top-down walk, in whatever order the set of enabled nodes is emptied: every node
      below the root is visited once, after all its parents, and is given exactly the
      messages that they sent to it. *)
  Theorem C70_top_down {B : Type} (vt : nat -> E -> list B -> Res unit) (vi : nat -> decision -> nat -> nat -> list B -> Res (B * B))
      choose p root : sound_externals A flat simp solve den -> reachable p -> is_Some (dget (p_nodes p) root) ->
    exists order, top_down_order (p_nodes p) root order /\
      td_walk vt vi choose (p_nodes p) root = top_down_visits vt vi (p_nodes p) order [].
  Proof.
    intros HX Hr Hd. pose proof (reachable_inv A flat is_one is_zero simp solve X den HX p Hr) as Hi.
    apply td_walk_visits; [exact (inv_ns _ _ _ p Hi)|done].
  Qed.

  (** map_leaves: the function is called once on each leaf below the root, until it
      raises; afterwards the walk can be repeated.  (For diagrams on which no walk has
      raised before.) *)
  Theorem C70_leaves_partial {B : Type} (f : nat -> E -> Res B) bad p root : sound_externals A flat simp solve den ->
    history bad p -> root ∉ bad -> is_Some (dget (p_nodes p) root) ->
    exists order q, bottom_up_order (p_nodes p) root order /\ p_nodes q = p_nodes p /\
      map_leaves f root p = (q, rmapM (fun '(i, x) => f i x) (leaves_of (p_nodes p) order)) /\
      (is_ok (map_leaves f root p).2 = true -> forall C (g : nat -> E -> Res C), exists q',
         map_leaves g root q = (q', rmapM (fun '(i, x) => g i x) (leaves_of (p_nodes p) order))).
  Proof.
    intros HX Hh Hb Hd. pose proof (history_hinv A flat is_one is_zero simp solve X den HX bad p Hh) as Hv.
    pose proof (hv_inv _ _ _ _ _ _ Hv) as Hi. pose proof (inv_ns _ _ _ p Hi) as Hns.
    destruct (walk_start _ _ _ p root Hi Hd (hv_prof _ _ _ _ _ _ Hv root Hb)) as (p1 & order & cs & Hget & Hp1 & Hof & Hz & Hp01).
    assert (p_nodes p1 = p_nodes p) as Hn1 by (by destruct Hp01 as [->| ->]).
    assert (dwf cs) as Hw. { destruct Hof as (Hnd & _ & _ & Hk & _). unfold dwf. by rewrite Hk. }
    assert (forall i, i ∈ order -> is_Some (dget (p_nodes p) i)) as Hdl.
    { intros i Hin. apply Hof in Hin. by eapply (below_dlt _ Hns). }
    assert (forall C (g : nat -> E -> Res C) p0 p1, get_profile root p0 = (p1, Ok (Prof order cs 0)) ->
      dget (p_profiles p1) root = Some (Prof order cs 0) -> p_nodes p1 = p_nodes p ->
      exists q, map_leaves g root p0 = (q, rmapM (fun '(i, x) => g i x) (leaves_of (p_nodes p) order)) /\ p_nodes q = p_nodes p /\
        (is_ok (rmapM (fun '(i, x) => g i x) (leaves_of (p_nodes p) order)) = true ->
         dget (p_profiles q) root = Some (Prof order cs 0))) as Hrun.
    { clear Hget Hp1 Hp01 Hn1 p1. intros C g p0 p1 Hget Hp1 Hn1. unfold map_leaves, mbind. rewrite Hget. cbn [pf_nodes].
      destruct (leaves_loop_ok g root order cs (S (length order)) 0 p1 Hp1) as (q & -> & Hnq & Hq).
      { intros i Hin. rewrite Hn1. by apply Hdl. } { lia. } { lia. }
      rewrite Hn1, drop_0 in *. destruct (rmapM _ _) as [ys|e]; [|by exists q]. rewrite (Hq eq_refl). cbn [pf_nodes pf_counts].
      eexists. split; [done|]. split; [done|]. intros _. cbn. rewrite dget_dset, decide_True by done.
      by rewrite (reset_same cs Hz Hw). }
    destruct (Hrun B f p p1 Hget Hp1 Hn1) as (q & Hq & Hnq & Hokq). exists order, q.
    split; [by eapply profile_order|]. split; [done|]. split; [done|]. intros Hok C g. rewrite Hq in Hok. specialize (Hokq Hok).
    destruct (Hrun C g q q) as (q' & Hq' & _); [|done|done|by exists q']. unfold get_profile. by rewrite Hokq.
  Qed.

  (** to_dot: every node below the root has one statement with its label, boxes are the
      leaves, the edges are the ones of the diagram (dashed to the false child), and the
      ranks partition the nodes so that no edge lies within one. *)
  Theorem C70_dot_partial (expr_str : E -> string) (test_str : decision -> string) (py_float : string -> option pyfloat)
      (int_str : Z -> string) print_ids p root : sound_externals A flat simp solve den -> reachable p ->
    is_Some (dget (p_nodes p) root) ->
    (forall id x, below (p_nodes p) root id -> dget (p_nodes p) id = Some (TNode x) -> py_float (expr_str x) <> Some FInfinite) ->
    exists ds, to_dot expr_str test_str py_float int_str print_ids (p_nodes p) root = Ok ds /\
      NoDup (shown_nodes ds) /\
      (forall id label box, DNode id label box ∈ ds <-> below (p_nodes p) root id /\
         exists text : string, label = (if print_ids then (int_str (Z.of_nat id) ++ ": " ++ text)%string else text) /\
           match dget (p_nodes p) id with
           | Some (TNode x) => box = true /\
               text = match py_float (expr_str x) with Some (FInt z) => int_str z | _ => expr_str x end
           | Some (INode d _ _) => box = false /\ text = test_str d
           | None => False
           end) /\
      NoDup (shown_edges ds) /\
      (forall a c (dashed : bool), (a, c, dashed) ∈ shown_edges ds <-> below (p_nodes p) root a /\
         exists d ct cf, dget (p_nodes p) a = Some (INode d ct cf) /\ c = (if dashed then cf else ct)) /\
      concat (ranks ds) = shown_nodes ds /\
      (forall rank a c, rank ∈ ranks ds -> a ∈ rank -> is_child (p_nodes p) c a -> c ∉ rank).
  Proof.
    intros HX Hr Hd Hf. pose proof (reachable_inv A flat is_one is_zero simp solve X den HX p Hr) as Hi.
    pose proof (inv_ns _ _ _ p Hi) as Hns. set (ns := p_nodes p) in *.
    destruct (to_dot_ok expr_str test_str py_float int_str print_ids ns Hns root Hd Hf) as (ls & Hdot & Hnd & Hin & Hrank).
    assert (forall id, id ∈ concat ls -> is_Some (dget ns id)) as Hdl by (intros id Hid; apply Hin in Hid; by eapply (below_dlt _ Hns)).
    destruct (shown_layers expr_str test_str py_float int_str print_ids ns ls Hdl) as (S1 & S2 & S3 & S4).
    eexists. split; [exact Hdot|]. rewrite S1, S2, S3. split; [done|]. split; [|split; [by apply edges_nodup|split; [|done]]].
    - intros id label box. rewrite (S4 (DNode id label box)) by done. split.
      + intros (j & Hj & Hs). unfold node_dot in Hs. destruct (dget ns j) as [[x|d ct cf]|] eqn:En; [| |by apply elem_of_nil in Hs].
        * apply elem_of_list_singleton in Hs. injection Hs as -> -> ->. rewrite En. split; [by apply Hin|]. eexists. done.
        * rewrite !elem_of_cons, elem_of_nil in Hs. destruct Hs as [Hs|[Hs|[Hs|[]]]]; [|done|done].
          injection Hs as -> -> ->. rewrite En. split; [by apply Hin|]. eexists. done.
      + intros (Hb & text & -> & Ht). exists id. split; [by apply Hin|]. unfold node_dot.
        destruct (dget ns id) as [[x|d ct cf]|]; [| |done]; destruct Ht as [-> ->]; apply elem_of_cons; by left.
    - intros a c dashed. rewrite elem_of_concat70. split.
      + intros (es & Hes & Hm). apply elem_of_list_fmap in Hm as (j & -> & Hj). unfold edges_of in Hes.
        destruct (dget ns j) as [[x|d ct cf]|] eqn:En; [by apply elem_of_nil in Hes| |by apply elem_of_nil in Hes].
        rewrite elem_of_cons, elem_of_list_singleton in Hes. destruct Hes as [Hs|Hs]; injection Hs as -> -> ->;
          (split; [by apply Hin|by eexists _, _, _]).
      + intros (Hb & d & ct & cf & Hn & ->). exists (edges_of ns a). split; [|apply elem_of_list_fmap; exists a; split; [done|by apply Hin]].
        unfold edges_of. rewrite Hn. destruct dashed; rewrite elem_of_cons, elem_of_list_singleton; auto.
  Qed.
End Props.
Print Assumptions C70_down_up.
Print Assumptions C70_top_down.
Print Assumptions C70_leaves_partial.
Print Assumptions C70_dot_partial.

(** ** The concrete pool of Xadd_Props: node 5 is (a and x <= 0), with leaves 1 and 2 *)

Lemma pool0_five : is_Some (dget (p_nodes pool0) 5).
Proof. rewrite pool0_nodes. by eexists. Qed.

(** Counting the paths to the leaf 2 with the depth as message: one, at depth 2; the leaf
    1 is at depths 1 and 2. *)
Example C70_down_up_case : is_Some (dget (p_nodes pool0) 5) /\
  du_walk (fun id (_ : fm) m => Ok [(id, m)]) (fun _ _ _ _ m => Ok (S m, S m)) (fun _ _ _ _ a b => Ok (a ++ b))
    true (p_nodes pool0) 5 0 = Ok [(2, 2); (1, 2); (1, 1)].
Proof. split; [exact pool0_five|]. rewrite pool0_nodes. vm_compute. reflexivity. Qed.

(** The leaf 1 gets a message of each of its two parents. *)
Example C70_top_down_case : td_walk (fun _ (_ : fm) _ => Ok tt) (fun id _ _ _ _ => Ok (id, id)) (fun n => n) (p_nodes pool0) 5 =
  Ok [(5, []); (3, [5]); (2, [3]); (1, [5; 3])].
Proof. rewrite pool0_nodes. vm_compute. reflexivity. Qed.

Definition which (id : nat) (_ : fm) : Res nat := Ok id.
Example C70_leaves_case : (map_leaves which 5 pool0).2 = Ok [2; 1].
Proof. vm_compute. reflexivity. Qed.

(** After a call that raised, the next one starts where the first one stopped. *)
Theorem C70_leaves_after_error_refuted : ~ (forall (f g : nat -> fm -> Res nat) p root,
  reachable pysmt_alg keep is1 is0 simp0 always no_integrals p -> is_Some (dget (p_nodes p) root) ->
  (map_leaves g root (map_leaves f root p).1).2 = (map_leaves g root p).2).
Proof.
  intros H. specialize (H (fun id _ => if (id =? 1)%nat then Err ValueError else Ok id) which pool0 5 pool0_reachable pool0_five).
  vm_compute in H. done.
Qed.
Print Assumptions C70_leaves_after_error_refuted.

Definition text0 (x : fm) : string := if bool_decide (x = RealC 0) then "0.0" else if bool_decide (x = RealC 1) then "1.0" else "x".
Definition float0 (s : string) : option pyfloat :=
  if bool_decide (s = "0.0"%string) then Some (FInt 0) else if bool_decide (s = "1.0"%string) then Some (FInt 1) else None.
Definition int0 (z : Z) : string := if (z =? 0)%Z then "0" else if (z =? 1)%Z then "1" else "?".
Definition test0 (d : decision) : string := if bool_decide (d_test d = SA) then "a" else "x < 0".
Example C70_dot_case : to_dot text0 test0 float0 int0 false (p_nodes pool0) 5 =
  Ok [DNode 5 "x < 0" false; DEdge 5 3 false; DEdge 5 1 true; DRank [5]; DNode 3 "a" false; DEdge 3 2 false; DEdge 3 1 true; DRank [3];
      DNode 1 "0" true; DNode 2 "1" true; DRank [1; 2]].
Proof. rewrite pool0_nodes. vm_compute. reflexivity. Qed.

(** float("inf") is a number but not an integer: a leaf that is a variable called inf cannot
    be shown. *)
Theorem C70_dot_infinite_refuted : ~ (forall (expr_str : fm -> string) test_str py_float int_str p root,
  py_float "inf"%string = Some FInfinite -> reachable pysmt_alg keep is1 is0 simp0 always no_integrals p ->
  is_Some (dget (p_nodes p) root) -> is_ok (to_dot expr_str test_str py_float int_str false (p_nodes p) root) = true).
Proof.
  intros H.
  specialize (H (fun x => match x with Sym s _ => s | _ => "0" end) (fun _ => "") (fun s => if bool_decide (s = "inf"%string) then Some FInfinite else None)
    (fun _ => "") (sv (TerminalR (Sym "inf" TReal)) pool0).1 7 eq_refl).
  assert (reachable pysmt_alg keep is1 is0 simp0 always no_integrals (sv (TerminalR (Sym "inf" TReal)) pool0).1) as Hr.
  { eexists. apply hi_step; [exact pool0_history|done|]. intros a Ha. change (a ∈ (@nil nat)) in Ha. apply elem_of_nil in Ha as []. }
  specialize (H Hr). vm_compute in H. by specialize (H (ex_intro _ _ eq_refl)).
Qed.
Print Assumptions C70_dot_infinite_refuted.
