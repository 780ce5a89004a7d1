(** Proofs for C37. *)

From Verif Require Import Base Dict Smt Smt_Facts Walk_Model Math_Model Math_Spec Poly_Proofs Linear_Proofs Arith_Proofs.
From Verif Require Import Engine_Spec Lit_Model Lit_Spec Lit_Proofs Lit_Tests Sdd_Model Sdd_Spec Sdd_Proofs.
From Verif Require Import Piecewise_Model Multimap_Model Resolve_Model Xsdd_Model Factor_Model Factor_Spec.

(** * Groups *)

(** The variables of a product. *)
Definition only (vs : list string) (d : pdict) : Prop := forall k q v, (k, q) ∈ d -> v ∈ k -> v ∈ vs.

Lemma only_dset vs (d : pdict) k q : only vs d -> (forall v, v ∈ k -> v ∈ vs) -> only vs (dset d k q).
Proof.
  intros H Hk k' q' v Hin Hv.
  assert ((k', q') ∈ d \/ k' = k) as [Hin'| ->]; [|by apply (H k' q')|by apply Hk].
  clear -Hin. induction d as [|[k1 q1] d IH]; cbn [dset] in Hin.
  - apply elem_of_list_singleton in Hin as [= -> ->]. by right.
  - destruct (decide _) as [->|]; apply elem_of_cons in Hin as [[= -> ->]|Hin]; try (by right); try (left; by left); [left; by right|].
    destruct (IH Hin); [left; by right|by right].
Qed.

Lemma only_times fl vs d1 d2 d : only vs d1 -> only vs d2 -> dict_times fl d1 d2 = Ok d -> only vs d.
Proof.
  intros H1 H2. unfold dict_times.
  assert (forall r, only vs r ->
    fold_left (fun r kv1 => fold_left (times_step fl kv1.1 kv1.2) d2 r) d1 (Ok r) = Ok d -> only vs d) as H.
  2:{ apply H. intros k q v Hin. by apply elem_of_nil in Hin. }
  revert H1. induction d1 as [|[k1 v1] d1 IH]; intros H1 r Hr; cbn [fold_left].
  { by intros [= <-]. }
  cbn [fst snd]. assert (forall v, v ∈ k1 -> v ∈ vs) as Hk1 by (intros v Hv; apply (H1 k1 v1 v); [by left|done]).
  assert (forall r, only vs r -> forall r', fold_left (times_step fl k1 v1) d2 (Ok r) = Ok r' -> only vs r') as Hin.
  { clear -H2 Hk1. revert H2. induction d2 as [|[k2 v2] d2 IH]; intros H2 r Hr r'; cbn [fold_left].
    { by intros [= <-]. }
    unfold times_step at 2. cbn [rbind fst snd]. destruct (_ && fl); [by rewrite times_inner_err|].
    apply IH; [intros k q v Hkq Hv; apply (H2 k q v); [by right|done]|].
    apply only_dset; [done|]. intros v Hv.
    assert (v ∈ k1 ++ k2) as Hv' by by rewrite <- (psort_perm str_cmp (k1 ++ k2)).
    apply elem_of_app in Hv' as [Hv'|Hv']; [by apply Hk1|]. apply (H2 k2 v2 v); [by left|done]. }
  destruct (fold_left (times_step fl k1 v1) d2 (Ok r)) as [r'|] eqn:E; [|by rewrite times_outer_err].
  apply IH; [intros k q v Hkq Hv; apply (H1 k q v); [by right|done]|]. by apply (Hin r).
Qed.

Lemma pv_const_poly e c : poly_val e (poly_const c) = c.
Proof. unfold poly_const. rewrite pv_cons, pv_nil. unfold mono_val. cbn. ring. Qed.
Lemma only_const_poly vs c : only vs (poly_const c).
Proof. intros k q v Hin Hv. apply elem_of_list_singleton in Hin as [= -> ->]. by apply elem_of_nil in Hv. Qed.

(** The product of the factors of a dictionary of groups. *)
Definition gprod (e : env) (gs : list group) : Qc := qprod (map (fun g : group => poly_val e g.2) gs).
Lemma gprod_app e a b : gprod e (a ++ b) = (gprod e a * gprod e b)%Qc.
Proof. unfold gprod. rewrite map_app. induction (map _ a) as [|x l IH]; cbn [app]; [cbn; ring|]. rewrite !qprod_cons, IH. ring. Qed.
Lemma gprod_cons e g gs : gprod e (g :: gs) = (poly_val e g.2 * gprod e gs)%Qc.
Proof. unfold gprod. cbn [map]. by rewrite qprod_cons. Qed.

Lemma group_mul_ok gs k q : dwf gs -> (forall g, g ∈ gs -> only g.1 g.2) -> only k q ->
  exists gs', group_mul gs k q = Ok gs' /\ dwf gs' /\ (forall g, g ∈ gs' -> only g.1 g.2) /\
    (forall k', k' ∈ dkeys gs' <-> k' ∈ dkeys gs \/ k' = k) /\
    forall e, gprod e gs' = (gprod e gs * poly_val e q)%Qc.
Proof.
  intros Hwf Ho Hq. unfold group_mul.
  destruct (times_total (default (poly_const 1) (dget gs k)) q) as [r Hr]. unfold poly_mul. rewrite Hr. cbn [rbind].
  exists (dset gs k r). split; [done|]. split; [by apply dwf_dset|].
  assert (only k (default (poly_const 1) (dget gs k))) as Hd.
  { destruct (dget gs k) as [d|] eqn:E; cbn [default]; [|apply only_const_poly]. apply dget_In in E. apply (Ho _ E). }
  pose proof (only_times _ _ _ _ _ Hd Hq Hr) as Hor. destruct (times_sound _ _ _ _ Hr) as [_ Hv].
  split; [|split].
  - intros [k' d'] Hin. clear Hr Hv Hd Hwf. induction gs as [|[k1 d1] gs IH]; cbn [dset] in Hin.
    + by apply elem_of_list_singleton in Hin as [= -> ->].
    + destruct (decide _) as [->|]; apply elem_of_cons in Hin as [[= -> ->]|Hin]; try done.
      * apply Ho. by right.
      * by apply (Ho (k1, d1)); left.
      * apply IH; [|done]. intros g Hg. apply Ho. by right.
  - intros k'. clear. induction gs as [|[k1 d1] gs IH]; cbn [dset dkeys map fst].
    + rewrite elem_of_list_singleton. split; [by right|]. intros [H|H]; [by apply elem_of_nil in H|done].
    + destruct (decide _) as [->|]; cbn [dkeys map fst]; rewrite !elem_of_cons.
      * tauto.
      * unfold dkeys in IH. rewrite IH. tauto.
  - intros e. clear Hor Ho Hq. assert (poly_val e r = poly_val e (default (poly_const 1) (dget gs k)) * poly_val e q)%Qc as Hv' by apply Hv.
    clear Hv Hr Hd. revert Hv'. induction gs as [|[k1 d1] gs IH]; cbn [dget dset].
    + cbn [default]. rewrite pv_const_poly. intros Hv. rewrite gprod_cons. cbn [snd]. rewrite Hv. change (gprod e []) with 1%Qc. ring.
    + assert (dwf gs) as Hwf' by by (inversion Hwf). destruct (decide _) as [->|Hne]; cbn [default]; intros Hv; rewrite !gprod_cons; cbn [snd].
      * rewrite Hv. unfold id. ring.
      * rewrite IH by done. ring.
Qed.

Lemma poly_sym v : poly_from_smt (Sym v TReal) = Ok [([v], 1%Qc)].
Proof. done. Qed.

(** The groups of one term. *)
Definition single (k : list string) : Prop := exists v, k = [v].
Lemma name_groups name : forall gs, dwf gs -> (forall g, g ∈ gs -> only g.1 g.2) -> (forall g, g ∈ gs -> single g.1) ->
  exists gs', fold_left (fun r v =>
        let! result := r in
        let! x := poly_from_smt (Sym v TReal) in
        group_mul result [v] x) name (Ok gs) = Ok gs' /\
    dwf gs' /\ (forall g, g ∈ gs' -> only g.1 g.2) /\ (forall g, g ∈ gs' -> single g.1) /\
    (forall v, [v] ∈ dkeys gs' <-> [v] ∈ dkeys gs \/ v ∈ name) /\
    forall e, gprod e gs' = (gprod e gs * mono_val e name)%Qc.
Proof.
  induction name as [|v name IH]; intros gs Hwf Ho Hs; cbn [fold_left].
  - exists gs. split; [done|]. split; [done|]. split; [done|]. split; [done|]. split.
    + intros v. split; [by left|]. intros [H|H]; [done|by apply elem_of_nil in H].
    + intros e. unfold mono_val. cbn. ring.
  - cbn [rbind]. rewrite poly_sym. cbn [rbind].
    assert (only [v] [([v], 1%Qc)]) as Hv.
    { intros k q u Hin Hu. by apply elem_of_list_singleton in Hin as [= -> ->]. }
    destruct (group_mul_ok gs [v] [([v], 1%Qc)] Hwf Ho Hv) as (gs1 & E & W1 & O1 & K1 & P1). rewrite E.
    assert (forall g, g ∈ gs1 -> single g.1) as Hs1.
    { intros g Hg. assert (g.1 ∈ dkeys gs1) as Hk by by apply (elem_of_list_fmap_1 fst).
      apply K1 in Hk as [Hk|Hk]; [|by eexists]. apply elem_of_list_fmap in Hk as (g' & -> & Hg'). by apply Hs. }
    destruct (IH gs1 W1 O1 Hs1) as (gs2 & E2 & W2 & O2 & S2 & K2 & P2). exists gs2. split; [done|].
    split; [done|]. split; [done|]. split; [done|]. split.
    + intros u. rewrite K2, K1, elem_of_cons. split; [intros [[?|[= ->]]|?]; tauto|]. intros [?|[->|?]]; tauto.
    + intros e. rewrite P2, P1. unfold mono_val. cbn [map]. rewrite qprod_cons, pv_cons, pv_nil. unfold mono_val. cbn [map].
      rewrite qprod_cons. change (qprod []) with 1%Qc. ring.
Qed.

Lemma poly_variables_in p v : v ∈ poly_variables p <-> exists k q, (k, q) ∈ p /\ v ∈ k.
Proof.
  unfold poly_variables. rewrite elem_of_remove_dups. split.
  - intros H. apply elem_of_list_In, in_concat in H as (k & Hk & Hv). apply in_map_iff in Hk as ([k' q] & <- & Hin).
    exists k', q. split; by apply elem_of_list_In.
  - intros (k & q & Hin & Hv). apply elem_of_list_In, in_concat. exists k. split; [|by apply elem_of_list_In].
    apply in_map_iff. exists (k, q). split; [done|by apply elem_of_list_In].
Qed.

Lemma poly_groups_ok p : exists gs, poly_groups p = Ok gs /\ dwf gs /\
  (forall g, g ∈ gs -> only g.1 g.2) /\ (forall g, g ∈ gs -> NoDup g.1) /\
  (forall g h v, g ∈ gs -> h ∈ gs -> v ∈ g.1 -> v ∈ h.1 -> g.1 = h.1) /\
  (forall v, (exists g, g ∈ gs /\ v ∈ g.1) <-> v ∈ poly_variables p) /\
  forall e, gprod e gs = poly_val e p.
Proof.
  destruct p as [|[name value] [|kv p]].
  - exists [([], poly_const 0)]. split; [done|]. split; [apply NoDup_singleton|].
    assert (forall g : group, g ∈ [([], poly_const 0)] -> g = ([], poly_const 0)) as H by (intros g Hg; by apply elem_of_list_singleton in Hg).
    split; [|split; [|split; [|split]]].
    + intros g ->%H. apply only_const_poly.
    + intros g ->%H. constructor.
    + intros g h v ->%H ->%H. done.
    + intros v. split; [intros (g & ->%H & Hv); by apply elem_of_nil in Hv|]. intros Hv. by apply elem_of_nil in Hv.
    + intros e. rewrite gprod_cons. cbn [snd]. rewrite pv_const_poly, pv_nil. change (gprod e []) with 1%Qc. ring.
  - cbn [poly_groups].
    assert (dwf ([] : list group)) as Hw0 by constructor.
    destruct (name_groups name [] Hw0) as (gs & E & W & O & S & K & P); try (intros g Hg; by apply elem_of_nil in Hg).
    rewrite E. cbn [rbind]. destruct (group_mul_ok gs [] (poly_const value) W O) as (gs' & E' & W' & O' & K' & P').
    { apply only_const_poly. }
    exists gs'. split; [done|]. split; [done|]. split; [done|].
    assert (forall g, g ∈ gs' -> g.1 = [] \/ single g.1) as HS.
    { intros g Hg. assert (g.1 ∈ dkeys gs') as Hk by by apply (elem_of_list_fmap_1 fst).
      apply K' in Hk as [Hk|Hk]; [|by left]. apply elem_of_list_fmap in Hk as (g' & -> & Hg'). right. by apply S. }
    split; [|split; [|split]].
    + intros g Hg. destruct (HS g Hg) as [->|[v ->]]; [constructor|apply NoDup_singleton].
    + intros g h v Hg Hh Hv Hv'. destruct (HS g Hg) as [Eg|[u Eu]]; [by rewrite Eg in Hv; apply elem_of_nil in Hv|].
      destruct (HS h Hh) as [Eh|[u' Eu']]; [by rewrite Eh in Hv'; apply elem_of_nil in Hv'|]. rewrite Eu, Eu' in *.
      apply elem_of_list_singleton in Hv, Hv'. by subst.
    + intros v. rewrite poly_variables_in. split.
      * intros (g & Hg & Hv). exists name, value. split; [by left|]. destruct (HS g Hg) as [Eg|[u Eu]].
        { rewrite Eg in Hv. by apply elem_of_nil in Hv. }
        rewrite Eu in Hv. apply elem_of_list_singleton in Hv as ->.
        assert (g.1 ∈ dkeys gs') as Hk by by apply (elem_of_list_fmap_1 fst). rewrite Eu in Hk.
        apply K' in Hk as [Hk|]; [|done]. apply K in Hk as [Hk|]; [by apply elem_of_nil in Hk|done].
      * intros (k & q & Hin & Hv). apply elem_of_list_singleton in Hin as [= -> ->].
        assert ([v] ∈ dkeys gs') as Hk by (apply K'; left; apply K; by right).
        apply elem_of_list_fmap in Hk as (g & Eg & Hg). exists g. split; [done|]. rewrite <- Eg. by left.
    + intros e. rewrite P', P, pv_const_poly, pv_cons, pv_nil. change (gprod e []) with 1%Qc. ring.
  - set (q := (name, value) :: kv :: p). exists [(poly_variables q, q)]. split; [done|]. split; [apply NoDup_singleton|].
    assert (forall g : group, g ∈ [(poly_variables q, q)] -> g = (poly_variables q, q)) as H by (intros g Hg; by apply elem_of_list_singleton in Hg).
    split; [|split; [|split; [|split]]].
    + intros g ->%H k c v Hin Hv. apply poly_variables_in. eauto.
    + intros g ->%H. apply NoDup_remove_dups.
    + intros g h v ->%H ->%H. done.
    + intros v. split; [by intros (g & ->%H & Hv)|]. intros Hv. eexists. split; [by left|done].
    + intros e. rewrite gprod_cons. cbn [snd]. change (gprod e []) with 1%Qc. ring.
Qed.

Lemma groups_factorization p reals : NoDup reals -> (forall v, v ∈ poly_variables p -> v ∈ reals) ->
  exists gs, get_variable_groups_poly p reals = Ok gs /\ factorization reals p gs.
Proof.
  intros Hnd Hv. destruct (poly_groups_ok p) as (gs & E & W & O & N & D & C & P).
  unfold get_variable_groups_poly. rewrite E. cbn [rbind]. eexists. split; [done|].
  set (rest := filter (fun v => v ∉ poly_variables p) reals). set (hd := map (fun v => ([v], poly_const 1)) rest).
  assert (NoDup rest) as Hr by by apply NoDup_filter.
  assert (forall v, v ∈ rest <-> v ∉ poly_variables p /\ v ∈ reals) as Hrest by (intros v; unfold rest; by rewrite elem_of_list_filter).
  assert (forall g, g ∈ hd -> exists v, v ∈ rest /\ g = ([v], poly_const 1)) as Hhd.
  { intros g Hg. apply elem_of_list_fmap in Hg as (v & -> & Hin). eauto. }
  assert (forall g, g ∈ hd ++ gs -> g ∈ hd \/ g ∈ gs) as Hin by (intros g; apply elem_of_app).
  assert (dwf (hd ++ gs)) as Wall.
  { unfold dwf, dkeys. rewrite map_app. apply NoDup_app. split; [|split; [|done]].
    - unfold hd. rewrite map_map. cbn [fst]. apply NoDup_fmap_2; [intros a b Hab; congruence|done].
    - intros k Hk Hk'. apply elem_of_list_fmap in Hk as (g & -> & Hg). destruct (Hhd g Hg) as (v & Hvr & ->).
      apply elem_of_list_fmap in Hk' as (h & Eh & Hh). cbn [fst] in Eh. apply Hrest in Hvr as [Hn _]. apply Hn, C.
      exists h. split; [done|]. rewrite <- Eh. by left. }
  assert (forall g h v, g ∈ hd ++ gs -> h ∈ hd ++ gs -> v ∈ g.1 -> v ∈ h.1 -> g.1 = h.1) as Dall.
  { intros g h v Hg Hh Hvg Hvh. apply Hin in Hg as [Hg|Hg], Hh as [Hh|Hh].
    - destruct (Hhd g Hg) as (u & _ & ->), (Hhd h Hh) as (u' & _ & ->). cbn [fst] in *.
      apply elem_of_list_singleton in Hvg, Hvh. by subst.
    - destruct (Hhd g Hg) as (u & Hu & ->). cbn [fst] in *. apply elem_of_list_singleton in Hvg as ->.
      apply Hrest in Hu as [Hu _]. destruct Hu. apply C. eauto.
    - destruct (Hhd h Hh) as (u & Hu & ->). cbn [fst] in *. apply elem_of_list_singleton in Hvh as ->.
      apply Hrest in Hu as [Hu _]. destruct Hu. apply C. eauto.
    - by apply (D g h v). }
  assert (forall i j g h, (hd ++ gs) !! i = Some g -> (hd ++ gs) !! j = Some h -> g.1 = h.1 -> i = j) as Inj.
  { intros i j g h Hi Hj Heq. apply (NoDup_lookup (dkeys (hd ++ gs)) i j g.1 Wall).
    - unfold dkeys. by rewrite list_lookup_fmap, Hi.
    - unfold dkeys. rewrite list_lookup_fmap, Hj. cbn. by rewrite Heq. }
  split.
  - intros i j g h v Hi Hj Hne Hvg Hvh. apply Hne, (Inj i j g h Hi Hj).
    apply (Dall g h v); try done; by eapply elem_of_list_lookup_2.
  - intros v Hvr. destruct (decide (v ∈ poly_variables p)) as [Hp|Hp].
    + apply C in Hp as (g & Hg & Hvg). exists g. split; [apply elem_of_app; by right|done].
    + exists ([v], poly_const 1). split; [|by left]. apply elem_of_app. left. apply elem_of_list_fmap. exists v. split; [done|]. by apply Hrest.
  - intros g v Hg Hvg. apply Hin in Hg as [Hg|Hg].
    + destruct (Hhd g Hg) as (u & Hu & ->). apply elem_of_list_singleton in Hvg as ->. by apply Hrest in Hu as [_ Hu].
    + apply Hv, C. eauto.
  - intros g Hg. apply Hin in Hg as [Hg|Hg]; [|by apply N]. destruct (Hhd g Hg) as (u & _ & ->). apply NoDup_singleton.
  - intros g k q v Hg Hk Hvk. apply Hin in Hg as [Hg|Hg]; [|by apply (O g Hg k q)].
    destruct (Hhd g Hg) as (u & _ & ->). by apply (only_const_poly [u] 1 k q).
  - intros e. change (gprod e (hd ++ gs) = poly_val e p). rewrite gprod_app, P.
    assert (gprod e hd = 1%Qc) as ->; [|ring]. unfold hd. clear. induction rest as [|v l IH]; [done|].
    cbn [map]. rewrite gprod_cons, IH. cbn [snd]. rewrite pv_const_poly. ring.
  - intros i j g h Hi Hj Eg Eh. apply (Inj i j g h Hi Hj). congruence.
Qed.
