(** Proofs for C12-C16. *)

From Coq Require Import DecimalString DecimalNat DecimalFacts.
From Verif Require Import Base Dict Smt Parse_Model Parse_Spec Parse_Proofs Poly_Proofs Domain_Model Domain_Spec.

(** * Bounds and volumes *)

Lemma ditem_ok {V} (d : list (string * V)) k v : NoDup (map fst d) -> (k, v) ∈ d -> ditem d k = Ok v.
Proof. intros H1 H2. unfold ditem. by rewrite (In_dget d k v H1 H2). Qed.

Lemma inside_none x : inside x (None, None).
Proof. split; done. Qed.

Lemma eval_mkAnd_true e l : Forall (fun g => exists b, eval e g = Some (VB b)) l ->
  (exists b, eval e (mkAnd l) = Some (VB b)) /\
  (eval e (mkAnd l) = Some (VB true) <-> Forall (fun g => eval e g = Some (VB true)) l).
Proof.
  intros H.
  assert ((exists b, eval e (AndN l) = Some (VB b)) /\
    (eval e (AndN l) = Some (VB true) <-> Forall (fun g => eval e g = Some (VB true)) l)) as HA.
  { assert (exists bs, Forall2 (fun g b => eval e g = Some (VB b)) l bs) as [bs Hbs].
    { induction H as [|g l [b Hb] _ [bs IH]]; [exists []; constructor|]. exists (b :: bs). by constructor. }
    cbn [eval]. rewrite (proj2 (mapM_Forall2_vbool e l bs) Hbs). cbn [fmap option_fmap option_map].
    split; [by eexists|]. clear H. induction Hbs as [|g b l bs Hg _ IH]; cbn [forallb].
    - split; [constructor|done].
    - rewrite Forall_cons, <- IH, Hg. unfold id at 1. destruct b; cbn [andb].
      + split; [done|by intros [_ ?]].
      + split; [done|]. by intros [? _]. }
  destruct l as [|g [|h l]]; cbn [mkAnd]; [| |exact HA].
  - split; [by exists true|]. split; [constructor|done].
  - inversion H; subst. split; [done|]. rewrite Forall_singleton. done.
Qed.

Lemma bound_fms_ok fl d v lb ub :
  ditem (d_types d) v = Ok TReal ->
  (forall q, lb = Some q \/ ub = Some q -> fl q = q) ->
  exists l, bound_fms fl d (v, (lb, ub)) = Ok l /\ forall e,
    Forall (fun g => exists b, eval e g = Some (VB b)) l /\
    (Forall (fun g => eval e g = Some (VB true)) l <-> inside (er e v) (lb, ub)).
Proof.
  intros Ht Hfl. unfold bound_fms, get_symbol. rewrite Ht. cbn [rbind].
  destruct lb as [q|], ub as [u|]; cbn; eexists; (split; [reflexivity|]); intros e; unfold inside; cbn.
  - rewrite (Hfl q) by auto. rewrite (Hfl u) by auto. split.
    + repeat constructor; by eexists.
    + rewrite !Forall_cons, Forall_nil. split.
      * intros (H1 & H2 & _). split; intros ? [= <-]; apply qle_spec; cbn in *; congruence.
      * intros [H1 H2]. specialize (H1 _ eq_refl). specialize (H2 _ eq_refl).
        apply qle_spec in H1, H2. cbn. rewrite H1, H2. done.
  - rewrite (Hfl q) by auto. split.
    + repeat constructor; by eexists.
    + rewrite !Forall_cons, Forall_nil. split.
      * intros (H1 & _). split; intros ? [= <-]; apply qle_spec; cbn in *; congruence.
      * intros [H1 H2]. specialize (H1 _ eq_refl). apply qle_spec in H1. cbn. rewrite H1. done.
  - rewrite (Hfl u) by auto. split.
    + repeat constructor; by eexists.
    + rewrite !Forall_cons, Forall_nil. split.
      * intros (H1 & _). split; intros ? [= <-]; apply qle_spec; cbn in *; congruence.
      * intros [H1 H2]. specialize (H2 _ eq_refl). apply qle_spec in H2. cbn. rewrite H2. done.
  - split; [constructor|]. split; [|constructor]. done.
Qed.

Lemma wf_real_item d v b : wf_domain d -> (v, b) ∈ d_doms d -> ditem (d_types d) v = Ok TReal.
Proof.
  intros W H. apply ditem_ok; [apply W|]. apply (wd_doms_real d W). apply elem_of_list_fmap. by exists (v, b).
Qed.

Lemma get_bounds_box fl d : wf_domain d ->
  (forall v lb ub q, (v, (lb, ub)) ∈ d_doms d -> lb = Some q \/ ub = Some q -> fl q = q) ->
  exists g, get_bounds fl d = Ok g /\ forall e,
    (exists b, eval e g = Some (VB b)) /\
    (eval e g = Some (VB true) <-> forall v b, (v, b) ∈ d_doms d -> inside (er e v) b).
Proof.
  intros W Hfl. unfold get_bounds.
  assert (exists ls, rmapM (bound_fms fl d) (d_doms d) = Ok ls /\ forall e,
    Forall (fun g => exists b, eval e g = Some (VB b)) (concat ls) /\
    (Forall (fun g => eval e g = Some (VB true)) (concat ls) <->
     forall v b, (v, b) ∈ d_doms d -> inside (er e v) b)) as (ls & Hls & H).
  { assert (forall v b, (v, b) ∈ d_doms d -> ditem (d_types d) v = Ok TReal) as Ht
      by (intros; by eapply wf_real_item).
    revert Hfl Ht. generalize (d_doms d) as l.
    induction l as [|[v [lb ub]] l IH]; intros Hfl Ht.
    - exists []. split; [done|]. intros e. cbn. split; [constructor|]. split; [|constructor].
      intros _ v b Hin. by apply elem_of_nil in Hin.
    - destruct IH as (ls & Hls & IH).
      { intros v' lb' ub' q Hin. apply (Hfl v' lb' ub' q). by right. }
      { intros v' b' Hin. apply (Ht v' b'). by right. }
      destruct (bound_fms_ok fl d v lb ub) as (k & Hk & Hke).
      { apply (Ht v (lb, ub)). by left. }
      { intros q Hq. apply (Hfl v lb ub q); [by left|done]. }
      exists (k :: ls). rewrite rmapM_cons, Hk. cbn [rbind]. rewrite Hls. cbn [rbind]. split; [done|].
      intros e. destruct (IH e) as [I1 I2]. destruct (Hke e) as [K1 K2]. cbn [concat].
      rewrite !Forall_app. split; [done|]. rewrite I2, K2. split.
      + intros [H1 H2] v' b' Hin. apply elem_of_cons in Hin as [[= -> ->]|Hin]; [done|by apply H2].
      + intros Hall. split; [apply Hall; by left|]. intros v' b' Hin. apply Hall. by right. }
  rewrite Hls. cbn [rbind]. eexists. split; [reflexivity|]. intros e. destruct (H e) as [H1 H2].
  destruct (eval_mkAnd_true e _ H1) as [E1 E2]. split; [done|]. by rewrite E2.
Qed.

Lemma wf_lookup d v : wf_domain d -> v ∈ d_vars d ->
  exists t, ditem (d_types d) v = Ok t /\ (v, t) ∈ d_types d.
Proof.
  intros W H. apply (wd_types_vars d W) in H. apply elem_of_list_fmap in H as ([v' t] & -> & Hin).
  exists t. split; [by apply ditem_ok; [apply W|]|done].
Qed.

Lemma vars_of_type_ok d t : wf_domain d -> vars_of_type d t = Ok (names d t).
Proof.
  intros W. unfold vars_of_type, names.
  assert (forall l, (forall v, v ∈ l -> v ∈ d_vars d) ->
    exists ts, rmapM (ditem (d_types d)) l = Ok ts /\
      map fst (filter (fun p => snd p = t) (zip l ts)) = filter (fun v => (v, t) ∈ d_types d) l) as H.
  { induction l as [|v l IH]; intros Hl; [by exists []|].
    destruct IH as (ts & Hts & IH). { intros v' Hv'. apply Hl. by right. }
    destruct (wf_lookup d v W) as (tv & H1 & H2); [apply Hl; by left|].
    exists (tv :: ts). rewrite rmapM_cons, H1. cbn [rbind]. rewrite Hts. cbn [rbind]. split; [done|].
    cbn [zip zip_with]. rewrite !filter_cons. cbn [snd]. destruct (decide (tv = t)) as [->|Hne].
    - rewrite (decide_True (P := (v, t) ∈ d_types d)) by done. cbn [map fst]. by f_equal.
    - rewrite (decide_False (P := (v, t) ∈ d_types d)); [done|]. intros H3.
      pose proof (ditem_ok (d_types d) v t (wd_types d W) H3). congruence. }
  destruct (H (d_vars d)) as (ts & Hts & E); [done|]. rewrite Hts. cbn [rbind]. by rewrite E.
Qed.

Lemma box_loop_fin lens v :
  box_loop v (map (fun '(x, l, u) => (x, (Some l, Some u))) lens) = Fin (v * box_size lens)%Qc.
Proof.
  revert v. induction lens as [|[[x l] u] lens IH]; intros v; cbn [map box_loop].
  - f_equal. unfold box_size. cbn. ring.
  - rewrite IH. f_equal. unfold box_size. cbn [map]. rewrite qprod_cons. ring.
Qed.

Lemma box_volume d lens : wf_domain d -> names d TReal <> [] -> box d lens ->
  get_bounding_box_volume d = Ok (Fin (box_size lens)).
Proof.
  intros W Hne Hb. unfold get_bounding_box_volume, real_vars. rewrite vars_of_type_ok by done. cbn [rbind].
  destruct (names d TReal) as [|v r]; [done|]. unfold box in Hb. rewrite Hb, box_loop_fin.
  do 2 f_equal. ring.
Qed.

Lemma volume_ok d lens : wf_domain d -> names d TReal <> [] -> box d lens ->
  get_volume d = Ok (Fin (box_size lens * qpow (qz 2) (length (names d TBool)))%Qc).
Proof.
  intros W Hne Hb. unfold get_volume. rewrite (box_volume d lens W Hne Hb). cbn [rbind].
  unfold bool_vars. rewrite vars_of_type_ok by done. done.
Qed.

Lemma volume_bool_only d : wf_domain d -> names d TReal = [] -> get_volume d = Ok (Fin 0).
Proof.
  intros W He. unfold get_volume, get_bounding_box_volume, real_vars, bool_vars.
  rewrite !vars_of_type_ok by done. rewrite He. cbn [rbind]. do 2 f_equal. ring.
Qed.

Lemma box_loop_inf l : (exists v b, (v, b) ∈ l /\ (fst b = None \/ snd b = None)) ->
  forall q, box_loop q l = Inf.
Proof.
  intros (v & b & Hin & Hb). induction l as [|[v' [lb ub]] l IH]; intros q.
  - by apply elem_of_nil in Hin.
  - apply elem_of_cons in Hin as [[= <- ->]|Hin]; cbn [box_loop].
    + destruct Hb as [Hb|Hb]; cbn in Hb; subst; [done|by destruct lb].
    + destruct lb, ub; try done. by apply IH.
Qed.

Lemma volume_inf d : wf_domain d -> (exists v b, (v, b) ∈ d_doms d /\ (fst b = None \/ snd b = None)) ->
  get_volume d = Ok Inf.
Proof.
  intros W (v & b & Hin & Hb). unfold get_volume, get_bounding_box_volume, real_vars, bool_vars.
  rewrite !vars_of_type_ok by done. cbn [rbind].
  assert (v ∈ names d TReal) as Hv.
  { apply elem_of_list_filter.
    assert ((v, TReal) ∈ d_types d) as Ht.
    { apply (wd_doms_real d W), elem_of_list_fmap. by exists (v, b). }
    split; [done|]. apply (wd_types_vars d W), elem_of_list_fmap. by exists (v, TReal). }
  destruct (names d TReal) as [|r rs]; [by apply elem_of_nil in Hv|]. cbn [rbind].
  rewrite box_loop_inf; [done|]. by exists v, b.
Qed.

(** * make *)

Lemma dset_all_fresh {V} (l d : list (string * V)) :
  NoDup (map fst (d ++ l)) -> set_all d l = d ++ l.
Proof.
  unfold set_all. revert d. induction l as [|[k v] l IH]; intros d H; cbn [fold_left]; [by rewrite app_nil_r|].
  cbn [fst snd]. assert (k ∉ map fst d) as Hk.
  { rewrite map_app in H. apply NoDup_app in H as (_ & H & _). intros Hin. apply (H k Hin). by left. }
  rewrite dset_fresh by exact Hk. rewrite IH; [by rewrite <- app_assoc|].
  by rewrite <- app_assoc.
Qed.

Lemma fst_pair {A} (l : list string) (t : A) : map fst (map (fun v => (v, t)) l) = l.
Proof. rewrite map_map. cbn. apply map_id. Qed.

Lemma made_wf bools (bounds : list (string * interval)) :
  NoDup (bools ++ map fst bounds) ->
  wf_domain (Dom (bools ++ map fst bounds)
    (set_all (set_all [] (map (fun v => (v, TBool)) bools)) (map (fun p => (fst p, TReal)) bounds)) bounds).
Proof.
  intros H. pose proof H as H'. apply NoDup_app in H' as (Hb & Hbr & Hr).
  rewrite (dset_all_fresh (map (fun v => (v, TBool)) bools) []) by (cbn [app]; by rewrite fst_pair).
  cbn [app].
  assert (map fst (map (fun v => (v, TBool)) bools ++ map (fun p : string * interval => (fst p, TReal)) bounds)
    = bools ++ map fst bounds) as Hk.
  { rewrite map_app, fst_pair, map_map. done. }
  rewrite dset_all_fresh by by rewrite Hk. constructor; cbn [d_vars d_types d_doms].
  - done.
  - by rewrite Hk.
  - intros v. by rewrite Hk.
  - intros v t Hin. apply elem_of_app in Hin as [Hin|Hin]; apply elem_of_list_fmap in Hin as (? & [= _ ->] & _); auto.
  - done.
  - intros v. rewrite elem_of_app, !elem_of_list_fmap. split.
    + intros (p & -> & Hin). right. by exists p.
    + intros [(p & [=] & _)|(p & [= ->] & Hin)]. by exists p.
Qed.

Lemma make_dict_wf bools bounds : NoDup (bools ++ map fst bounds) ->
  exists d, make (Some bools) (Some (RDict bounds)) None None = Ok d /\ wf_domain d /\
    d_vars d = bools ++ map fst bounds /\ d_doms d = bounds /\ names d TBool = bools.
Proof.
  intros H. unfold make. cbn [default rbind]. eexists. split; [reflexivity|].
  split; [by apply made_wf|]. cbn [d_vars d_doms]. split; [done|]. split; [done|].
  unfold names. cbn [d_types d_vars]. unfold id.
  pose proof H as H'. apply NoDup_app in H' as (Hb & Hbr & Hr).
  rewrite (dset_all_fresh (map (fun v => (v, TBool)) bools) []) by (cbn [app]; by rewrite fst_pair).
  cbn [app].
  rewrite dset_all_fresh by (rewrite map_app, fst_pair, map_map; exact H).
  rewrite filter_app. transitivity (bools ++ [] : list string); [|by rewrite app_nil_r]. f_equal.
  - assert (forall l : list string, (forall v, v ∈ l -> v ∈ bools) ->
      filter (fun v => (v, TBool) ∈ map (fun v => (v, TBool)) bools ++ map (fun p : string * interval => (fst p, TReal)) bounds) l = l) as E.
    { induction l as [|v l IH]; intros Hl; [done|]. rewrite filter_cons, decide_True.
      - f_equal. apply IH. intros. apply Hl. by right.
      - apply elem_of_app. left. apply elem_of_list_fmap. exists v. split; [done|]. apply Hl. by left. }
    by apply E.
  - assert (forall l : list string, (forall v, v ∈ l -> v ∈ map fst bounds) ->
      filter (fun v => (v, TBool) ∈ map (fun v => (v, TBool)) bools ++ map (fun p : string * interval => (fst p, TReal)) bounds) l = []) as E.
    { induction l as [|v l IH]; intros Hl; [done|]. rewrite filter_cons, decide_False.
      - apply IH. intros. apply Hl. by right.
      - intros Hin. apply elem_of_app in Hin as [Hin|Hin]; apply elem_of_list_fmap in Hin as (p & [= ->] & Hin).
        apply (Hbr p Hin), Hl. by left. }
    by apply E.
Qed.

Lemma make_list_wf bools reals (bs : list interval) : NoDup (bools ++ reals) -> length bs = length reals ->
  exists d, make (Some bools) (Some (RNames reals)) (Some bs) None = Ok d /\ wf_domain d /\
    d_vars d = bools ++ reals /\ d_doms d = zip reals bs.
Proof.
  intros H Hl. unfold make.
  assert (map fst (zip reals bs) = reals) as Hz.
  { clear H. revert bs Hl. induction reals as [|r rs IH]; intros [|b bs] Hl; try done.
    cbn. f_equal. apply IH. cbn in Hl. lia. }
  assert (set_all [] (zip reals bs) = zip reals bs) as Hs.
  { rewrite dset_all_fresh; [done|]. cbn [app]. rewrite Hz. by apply NoDup_app in H as (_ & _ & H). }
  assert (wf_domain (Dom (bools ++ map fst (zip reals bs))
    (set_all (set_all [] (map (fun v => (v, TBool)) bools)) (map (fun p => (fst p, TReal)) (zip reals bs))) (zip reals bs))) as W.
  { apply made_wf. by rewrite Hz. }
  rewrite Hz in W.
  destruct bs; cbn [default rbind]; rewrite Hs; (eexists; split; [reflexivity|]; done).
Qed.

(** * Serialisation *)

Lemma import_export t s : export_type t = Ok s -> import_type s = Ok t.
Proof. destruct t; intros [= <-]; reflexivity. Qed.

Lemma dom_state_roundtrip d : (forall v t, (v, t) ∈ d_types d -> t = TBool \/ t = TReal) ->
  exists s, dom_get_state d = Ok s /\ dom_from_state s = Ok d.
Proof.
  intros H. unfold dom_get_state, dom_from_state. destruct d as [vs ts ds]. cbn [d_types d_vars d_doms] in *.
  assert (exists ss, rmapM (fun p => let! s := export_type (snd p) in Ok (fst p, s)) ts = Ok ss /\
    rmapM (fun p => let! t := import_type (snd p) in Ok (fst p, t)) ss = Ok ts) as (ss & -> & H2).
  { induction ts as [|[v t] ts IH]; [by exists []|].
    destruct IH as (ss & H1 & H2). { intros v' t' Hin. apply (H v' t'). by right. }
    assert (exists s, export_type t = Ok s) as [s Hs].
    { destruct (H v t) as [-> | ->]; [by left|by eexists..]. }
    exists ((v, s) :: ss). rewrite !rmapM_cons. cbn [fst snd]. rewrite Hs. cbn [rbind]. rewrite H1. cbn [rbind].
    split; [done|]. rewrite (import_export t s Hs). cbn [rbind]. rewrite H2. done. }
  cbn [rbind]. eexists. split; [reflexivity|]. cbn [s_types s_vars s_doms]. by rewrite H2.
Qed.

Lemma density_roundtrip read to_float show show_int n :
  float_ok read to_float show ->
  (forall v t, (v, t) ∈ d_types (n_dom n) -> t = TBool \/ t = TReal) ->
  (forall f, f = n_support n \/ f = n_weight n \/ f ∈ n_queries n ->
    storable to_float f = true /\ wf_fm f = true /\ typeof f <> None /\ exact_consts to_float f = true) ->
  exists s m, den_get_state to_float show show_int n = Ok s /\ den_from_state read s = Ok m /\ same_density m n.
Proof.
  intros Hfl Hd Hf. destruct n as [d sup w qs]. cbn [n_dom n_support n_weight n_queries] in *.
  destruct (dom_state_roundtrip d Hd) as (s & Hs & Hs').
  assert (forall f, (f = sup \/ f = w \/ f ∈ qs) -> exists t f', smt_to_nested to_float show show_int f = Ok t /\
    nested_to_smt read t = Ok f' /\ fequiv f' f) as HR.
  { intros f Hin. destruct (Hf f Hin) as (H1 & H2 & H3 & H4).
    destruct (roundtrip_exact read to_float show show_int f Hfl H1 H2 H3 H4) as (t & f' & ? & ? & ? & ?).
    by exists t, f'. }
  destruct (HR sup) as (ts & sup' & A1 & A2 & A3); [auto|].
  destruct (HR w) as (tw & w' & B1 & B2 & B3); [auto|].
  assert (exists qt qs', rmapM (smt_to_nested to_float show show_int) qs = Ok qt /\
    rmapM (nested_to_smt read) qt = Ok qs' /\ Forall2 fequiv qs' qs) as (qt & qs' & C1 & C2 & C3).
  { assert (forall f, f ∈ qs -> exists t f', smt_to_nested to_float show show_int f = Ok t /\
      nested_to_smt read t = Ok f' /\ fequiv f' f) as HQ by (intros; apply HR; auto).
    clear - HQ. induction qs as [|q qs IH].
    - exists [], []. split; [done|]. split; [done|constructor].
    - destruct IH as (qt & qs' & H1 & H2 & H3). { intros f Hin. apply HQ. by right. }
      destruct (HQ q) as (t & q' & G1 & G2 & G3); [by left|].
      exists (t :: qt), (q' :: qs'). rewrite !rmapM_cons, G1, G2. cbn [rbind]. rewrite H1, H2. cbn [rbind].
      split; [done|]. split; [done|by constructor]. }
  unfold den_get_state. cbn [n_dom n_support n_weight n_queries]. rewrite Hs. cbn [rbind].
  rewrite C1. cbn [rbind]. rewrite A1. cbn [rbind]. rewrite B1. cbn [rbind].
  eexists _, _. split; [reflexivity|]. unfold den_from_state. cbn [ns_dom ns_queries ns_formula ns_weights].
  rewrite Hs'. cbn [rbind]. rewrite A2. cbn [rbind]. rewrite B2. cbn [rbind]. rewrite C2. cbn [rbind].
  split; [reflexivity|]. done.
Qed.

(** * Projection *)

Lemma list_index_ok l x : x ∈ l -> exists i, list_index l x = Ok i /\ l !! i = Some x.
Proof.
  induction l as [|y l IH]; intros H; [by apply elem_of_nil in H|]. cbn [list_index].
  destruct (decide (y = x)) as [->|Hne]; [by exists 0|].
  apply elem_of_cons in H as [->|H]; [done|]. destruct (IH H) as (i & -> & Hi). exists (S i). by cbn [rbind].
Qed.

Lemma rmapM_all {A B} (f : A -> Res B) (R : A -> B -> Prop) l :
  (forall x, x ∈ l -> exists y, f x = Ok y /\ R x y) -> exists ys, rmapM f l = Ok ys /\ Forall2 R l ys.
Proof.
  induction l as [|x l IH]; intros H; [exists []; by split; [|constructor]|].
  destruct IH as (ys & H1 & H2). { intros z Hz. apply H. by right. }
  destruct (H x) as (y & H3 & H4); [by left|]. exists (y :: ys).
  rewrite rmapM_cons, H3. cbn [rbind]. rewrite H1. cbn [rbind]. split; [done|by constructor].
Qed.

Lemma forall2_pair_map {A} (P : string -> A -> Prop) (l : list string) (ys : list (string * A)) :
  Forall2 (fun v p => fst p = v /\ P v (snd p)) l ys -> map fst ys = l.
Proof. induction 1 as [|v p l ys [<- _] _ IH]; cbn; [done|by f_equal]. Qed.

Lemma project_ok d keep data : wf_domain d -> NoDup keep -> (forall v, v ∈ keep -> v ∈ d_vars d) ->
  Forall (fun row => length row = length (d_vars d)) data ->
  exists d' data', project d keep data = Ok (d', data') /\
    d_vars d' = keep /\ wf_domain d' /\
    (forall v t, (v, t) ∈ d_types d' <-> v ∈ keep /\ (v, t) ∈ d_types d) /\
    (forall v b, (v, b) ∈ d_doms d' <-> v ∈ keep /\ (v, b) ∈ d_doms d) /\
    Forall2 (fun row row' => length row' = length keep /\
      forall j k v, keep !! j = Some v -> d_vars d !! k = Some v -> row' !! j = row !! k) data data'.
Proof.
  intros W Hnd Hsub Hrows. unfold project.
  destruct (rmapM_all (fun v => let! t := ditem (d_types d) v in Ok (v, t))
    (fun v p => fst p = v /\ (v, snd p) ∈ d_types d) keep) as (ts & -> & Hts).
  { intros v Hv. destruct (wf_lookup d v W (Hsub v Hv)) as (t & H1 & H2). exists (v, t). rewrite H1. done. }
  cbn [rbind].
  assert (map fst ts = keep) as Hk by (apply (forall2_pair_map (fun v t => (v, t) ∈ d_types d)); exact Hts).
  assert (forall v t, (v, t) ∈ ts <-> v ∈ keep /\ (v, t) ∈ d_types d) as Htin.
  { intros v t. split.
    - intros Hin. split; [rewrite <- Hk; apply elem_of_list_fmap; by exists (v, t)|].
      apply elem_of_list_lookup in Hin as [i Hi]. destruct (Forall2_lookup_r _ _ _ _ _ Hts Hi) as (v' & _ & <- & H). done.
    - intros [H1 H2]. rewrite <- Hk in H1. apply elem_of_list_fmap in H1 as ([v' t'] & -> & Hin). cbn in *.
      apply elem_of_list_lookup in Hin as Hi. destruct Hi as [i Hi].
      destruct (Forall2_lookup_r _ _ _ _ _ Hts Hi) as (v'' & _ & H3 & H4). cbn in *. subst.
      pose proof (ditem_ok _ _ _ (wd_types d W) H2). pose proof (ditem_ok _ _ _ (wd_types d W) H4). congruence. }
  set (rs := map fst (filter (fun p => snd p = TReal) ts)).
  assert (forall v, v ∈ rs <-> (v, TReal) ∈ ts) as Hrs.
  { intros v. unfold rs. rewrite elem_of_list_fmap. split.
    - intros ([v' t] & -> & Hin). apply elem_of_list_filter in Hin as [E Hin]. cbn in E. by subst.
    - intros Hin. exists (v, TReal). split; [done|]. by apply elem_of_list_filter. }
  destruct (rmapM_all (fun v => let! b := ditem (d_doms d) v in Ok (v, b))
    (fun v p => fst p = v /\ (v, snd p) ∈ d_doms d) rs) as (bs & -> & Hbs).
  { intros v Hv. apply Hrs, Htin in Hv as [_ Hv]. apply (wd_doms_real d W) in Hv.
    apply elem_of_list_fmap in Hv as ([v' b] & -> & Hin). exists (v', b). cbn [fst snd].
    rewrite (ditem_ok _ _ _ (wd_doms d W) Hin). done. }
  cbn [rbind].
  assert (map fst bs = rs) as Hkb by (apply (forall2_pair_map (fun v t => (v, t) ∈ d_doms d)); exact Hbs).
  assert (NoDup rs) as Hndrs.
  { unfold rs. assert (NoDup (map fst ts)) as Hn by (by rewrite Hk).
    exact (dwf_filter (fun p => snd p = TReal) ts Hn). }
  assert (forall v b, (v, b) ∈ bs <-> v ∈ rs /\ (v, b) ∈ d_doms d) as Hbin.
  { intros v b. split.
    - intros Hin. split; [rewrite <- Hkb; apply elem_of_list_fmap; by exists (v, b)|].
      apply elem_of_list_lookup in Hin as [i Hi]. destruct (Forall2_lookup_r _ _ _ _ _ Hbs Hi) as (v' & _ & <- & H). done.
    - intros [H1 H2]. rewrite <- Hkb in H1. apply elem_of_list_fmap in H1 as ([v' b'] & -> & Hin). cbn in *.
      apply elem_of_list_lookup in Hin as Hi. destruct Hi as [i Hi].
      destruct (Forall2_lookup_r _ _ _ _ _ Hbs Hi) as (v'' & _ & H3 & H4). cbn in *. subst.
      pose proof (ditem_ok _ _ _ (wd_doms d W) H2). pose proof (ditem_ok _ _ _ (wd_doms d W) H4). congruence. }
  destruct (rmapM_all (list_index (d_vars d)) (fun v i => d_vars d !! i = Some v) keep) as (idx & -> & Hidx).
  { intros v Hv. apply list_index_ok, Hsub, Hv. }
  cbn [rbind].
  destruct (rmapM_all (fun row => rmapM (item row) idx)
    (fun row row' => length row' = length keep /\
      forall j k v, keep !! j = Some v -> d_vars d !! k = Some v -> row' !! j = row !! k) data) as (data' & -> & Hdata).
  { intros row Hrow. apply (proj1 (Forall_forall _ _) Hrows) in Hrow.
    destruct (rmapM_all (item row) (fun i q => row !! i = Some q) idx) as (row' & H1 & H2).
    { intros i Hi. apply elem_of_list_lookup in Hi as [j Hj].
      destruct (Forall2_lookup_r _ _ _ _ _ Hidx Hj) as (v & _ & Hv).
      apply lookup_lt_Some in Hv. rewrite <- Hrow in Hv. apply lookup_lt_is_Some in Hv as [q Hq].
      exists q. unfold item. by rewrite Hq. }
    exists row'. split; [done|]. split.
    { rewrite <- (Forall2_length _ _ _ H2). by rewrite <- (Forall2_length _ _ _ Hidx). }
    intros j k v Hj Hkv. destruct (Forall2_lookup_l _ _ _ _ _ Hidx Hj) as (i & Hi & Hiv).
    assert (i = k) as -> by (exact (NoDup_lookup _ _ _ _ (wd_vars d W) Hiv Hkv)).
    destruct (Forall2_lookup_l _ _ _ _ _ H2 Hi) as (q & Hq & Hq'). by rewrite Hq, Hq'. }
  cbn [rbind]. eexists _, _. split; [reflexivity|]. cbn [d_vars d_types d_doms].
  rewrite (dset_all_fresh ts []) by (cbn [app]; by rewrite Hk).
  rewrite (dset_all_fresh bs []) by (cbn [app]; by rewrite Hkb). cbn [app].
  split; [done|]. split; [|split; [|split]].
  - constructor; cbn [d_vars d_types d_doms].
    + done.
    + by rewrite Hk.
    + by rewrite Hk.
    + intros v t Hin. apply Htin in Hin as [_ Hin]. by apply (wd_type d W v t).
    + by rewrite Hkb.
    + intros v. rewrite Hkb. apply Hrs.
  - exact Htin.
  - intros v b. rewrite Hbin, Hrs, Htin. split.
    + intros [[H1 H2] H3]. done.
    + intros [H1 H2]. split; [split; [done|]|done]. apply (wd_doms_real d W), elem_of_list_fmap. by exists (v, b).
  - exact Hdata.
Qed.
