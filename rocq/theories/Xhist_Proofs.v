(** Lemmas for C42-C47: what holds after any history of requests. *)

From Verif Require Import Base Dict Smt Smt_Facts Math_Model Math_Spec Poly_Proofs Arith_Proofs Linear_Proofs
  Primal_Proofs Piecewise_Spec Xadd_Model Resolve_Model Xadd_Spec Resolve_Spec Xadd_Proofs Xwalk_Proofs
  Resolve_Proofs.

Section Hist.
  Context {E : Type} `{EqDecision E} (A : alg E) (flat : E -> E) (is_one is_zero : E -> Res bool) (simp : fm -> fm)
    (solve : list fm -> fm -> bool) (X : resolver E) (den : E -> env -> option Qc).
  Context (HA : sound_arith (a_real A) (a_symbol A) (a_eq A) (a_mul A) (a_add A) den)
    (HF : forall x e v, den x e = Some v -> den (flat x) e = Some v) (HS : sound_simplifier simp)
    (HT : forall f t, typeof f = Some t -> typeof (simp f) = Some t)
    (HV : sound_solver solve).
  Notation inv := (inv A simp den).
  Notation denotes := (denotes den).
  Notation invert := (invert A flat is_one is_zero simp).

  Lemma inv_ns p : inv p -> forall i d ct cf, dget (p_nodes p) i = Some (INode d ct cf) ->
    ct < i /\ cf < i /\ dlt (p_nodes p) ct /\ dlt (p_nodes p) cf /\ ct <> cf.
  Proof. intros Hi i d ct cf Hn. destruct (iv_node _ _ _ p Hi _ _ _ _ Hn) as (? & ? & ? & ? & ? & _). done. Qed.

  Lemma below_ext p q a b : inv p -> ext p q -> dlt (p_nodes p) a -> below (p_nodes q) a b <-> below (p_nodes p) a b.
  Proof.
    intros Hi Hx Hd. split.
    - intros Hb. by destruct (below_back _ _ _ _ (ex_nodes p q Hx) (inv_closed A simp den p Hi) Hd Hb).
    - apply below_mono, Hx.
  Qed.
  Lemma child_ext (p q : pool E) a c : ext p q -> dlt (p_nodes p) a -> child (p_nodes q) a c <-> child (p_nodes p) a c.
  Proof.
    intros Hx [nd Hn]. pose proof (ex_nodes p q Hx _ _ Hn) as Hn'. unfold child. rewrite Hn, Hn'. done.
  Qed.

  Lemma ready_ext p q r f : inv p -> ext p q -> dlt (p_nodes p) r -> ready (p_nodes p) r f -> ready (p_nodes q) r f.
  Proof.
    intros Hi Hx Hd (order & cs & Hf & (H1 & H2 & H3 & H4 & H5) & Hz). exists order, cs. split; [exact Hf|]. split; [|exact Hz].
    assert (forall k, k ∈ order -> dlt (p_nodes p) k) as Hord.
    { intros k Hk. apply H2 in Hk. by eapply (below_dlt _ (inv_ns p Hi)). }
    split; [done|]. split; [intros k; by rewrite (below_ext p q)|]. split; [|split; [done|]].
    - intros pre k suf c Ho Hc. assert (k ∈ order) as Hk.
      { rewrite Ho. apply elem_of_app. right. apply elem_of_cons. by left. }
      eapply H3; [done|]. exact (proj1 (child_ext p q k c Hx (Hord k Hk)) Hc).
    - intros k n i Hk. destruct (H5 k n i Hk) as (s & Hs & -> & Hq). exists s. split; [done|]. split; [done|].
      intros x. rewrite Hq, (below_ext p q r x) by done. split; intros [Hb Hc]; (split; [done|]).
      + apply (child_ext p q); [done| |done]. by eapply (below_dlt _ (inv_ns p Hi)).
      + apply (child_ext p q) in Hc; [done|done|]. by eapply (below_dlt _ (inv_ns p Hi)).
  Qed.

  Lemma boolean_below (p : pool E) a b : below (p_nodes p) a b -> boolean_diagram p a -> boolean_diagram p b.
  Proof. intros Hab Hb c x Hbc. apply Hb. by eapply below_trans. Qed.

  (** ** invert *)

  Definition others (root : nat) (p q : pool E) : Prop :=
    p_resolved q = p_resolved p /\ forall r, r <> root -> dget (p_profiles q) r = dget (p_profiles p) r.

  Lemma transform_invert_any p x : inv p ->
    let '(q, r) := transform_invert is_one is_zero x p in q = p /\ forall m, r = Ok m -> m = p_zero p \/ m = p_one p.
  Proof.
    intros Hi. unfold transform_invert, mbind. cbn [mget]. unfold mlift. destruct (is_one x) as [[]|]; cbn; [|  |done].
    - split; [done|]. intros m [= <-]. by left.
    - destruct (is_zero x) as [[]|]; cbn; [|done|done]. split; [done|]. intros m [= <-]. by right.
  Qed.

  Lemma zero_one_dlt p m : inv p -> m = p_zero p \/ m = p_one p -> dlt (p_nodes p) m.
  Proof. intros Hi [->| ->]; eexists; [by eapply iv_zero|by eapply iv_one]. Qed.

  Lemma invert_any p id : inv p -> dlt (p_nodes p) id ->
    let '(q, r) := invert id p in inv q /\ ext p q /\ others id p q /\ forall i, r = Ok i -> dlt (p_nodes q) i.
  Proof.
    intros Hi Hd. unfold Xadd_Model.invert. cbn [invert_fuel]. unfold mbind at 1.
    pose proof (invert_simple_any A simp den HA HS p id Hi Hd) as Hs.
    destruct (invert_simple simp id p) as [p1 [[i|]|x]]; destruct Hs as (I1 & X1 & F1 & V1 & _).
    1:{ cbn. split; [done|]. split; [done|]. split; [split; [apply F1|]; by intros r _; destruct F1 as [-> _]|]. intros i' [= <-]. by apply (V1 i). }
    2:{ split; [done|]. split; [done|]. split; [split; [apply F1|]; by intros r _; destruct F1 as [-> _]|]. done. }
    unfold transform_leaves. fold (invert_fuel A flat is_one is_zero simp 1).
    pose proof (bottom_up_any id (fun _ e => transform_invert is_one is_zero e)
      (fun _ d _ _ tm fm => leaf_internal A flat simp (invert_fuel A flat is_one is_zero simp 1) d tm fm)
      (fun p q => ext p q /\ others id p q) inv (fun p m => dlt (p_nodes p) m)) as Hb.
    specialize (Hb (fun p => conj (ext_refl p) (conj eq_refl (fun _ _ => eq_refl)))).
    change (let '(q, r) := bottom_up (fun _ e => transform_invert is_one is_zero e)
      (fun _ d _ _ tm fm => leaf_internal A flat simp (invert_fuel A flat is_one is_zero simp 1) d tm fm) id p1 in
      inv q /\ ext p q /\ others id p q /\ forall i, r = Ok i -> dlt (p_nodes q) i).
    destruct Hb with (p := p1) as ([X2 [P2 O2]] & I2 & G2).
    - intros a b c [Y0 [Z Y]] [Y0' [Z' Y']]. split; [by eapply ext_trans|]. split; [congruence|]. intros r Hr. by rewrite Y', Y.
    - intros a b i n [Y _] Hn. by apply Y.
    - intros a f. split; [apply set_profile_ext|]. split; [done|]. intros r Hr. cbn. by rewrite dget_dset, decide_False.
    - intros a f. apply set_profile_inv.
    - intros a b m [Y _]. by apply ext_dlt.
    - intros i x a Ia Hn. pose proof (transform_invert_any a x Ia) as Ht.
      destruct (transform_invert is_one is_zero x a) as [b r]. destruct Ht as [-> Ht]. cbn.
      split; [split; [apply ext_refl|done]|]. split; [done|]. intros m ->. by apply zero_one_dlt, Ht.
    - intros i d ct cf tm fm a Ia Hn Ht Hf.
      destruct (iv_node _ _ _ a Ia _ _ _ _ Hn) as (_ & _ & _ & _ & _ & Hg & _).
      pose proof (leaf_internal_any A flat is_one is_zero simp den HA HF HS 0 a d tm fm Ia Hg Ht Hf) as Hl.
      destruct (leaf_internal _ _ _ _ d tm fm a) as [b r]. destruct Hl as (Ib & Xb & Fb & Vb & _ & _). cbn.
      split; [split; [done|]; split; [apply Fb|]; by intros r' _; destruct Fb as [-> _]|]. split; [done|]. intros m ->. by apply (Vb m).
    - done.
    - destruct (bottom_up _ _ id p1) as [q r]. cbn in *. split; [done|]. split; [by eapply ext_trans|]. split; [|done].
      split; [rewrite P2; apply F1|]. intros r' Hr. rewrite O2 by done. by destruct F1 as [-> _].
  Qed.

  Notation leaf_tests := (knows_zero_one A is_one is_zero).

  Definition profile_ready (p : pool E) (id : nat) : Prop :=
    forall f, dget (p_profiles p) id = Some f -> ready (p_nodes p) id f.

  (** The start of a walk. *)
  Lemma walk_start p id : inv p -> dlt (p_nodes p) id -> profile_ready p id ->
    exists p1 order cs, get_profile id p = (p1, Ok (Prof order cs 0)) /\
      dget (p_profiles p1) id = Some (Prof order cs 0) /\ profile_of (p_nodes p) id order cs /\
      (forall k n i, dget cs k = Some (n, i) -> i = 0) /\ (p1 = p \/ p1 = set_profile p id (Prof order cs 0)).
  Proof.
    intros Hi Hd Hr. destruct (get_profile_ready (p_nodes p) (inv_ns p Hi) id Hd p eq_refl Hr) as (f & Hf & H1 & H2 & H3).
    destruct (get_profile id p) as [p1 r]. cbn in *. subst r. destruct Hf as (order & cs & -> & Hof & Hz).
    exists p1, order, cs. done.
  Qed.

  Lemma invert_walk p id : inv p -> dlt (p_nodes p) id -> profile_ready p id ->
    match invert id p with
    | (q, Ok r) => profile_ready q id /\ inverted q id r /\
        (leaf_tests -> boolean_diagram p id -> forall e v, denotes (p_nodes p) e id v -> denotes (p_nodes q) e r (1 - v)%Qc)
    | (q, Err x) => leaf_tests ->
        ~ (boolean_diagram p id /\ p_ordering p = false)
    end.
  Proof.
    intros Hi Hd Hr. unfold Xadd_Model.invert. cbn [invert_fuel]. unfold mbind at 1.
    pose proof (invert_simple_any A simp den HA HS p id Hi Hd) as Hs.
    destruct (invert_simple simp id p) as [p1 [[i|]|x]]; destruct Hs as (I1 & X1 & F1 & V1 & B1).
    { cbn. split.
      - intros f. destruct F1 as [-> _]. intros Hf. eapply ready_ext; [exact Hi|done|done|]. by apply Hr.
      - destruct (V1 i eq_refl) as (_ & Vi & Si). done. }
    2:{ intros _ [Hb _]. by specialize (B1 Hb). }
    clear V1 B1. unfold transform_leaves. fold (invert_fuel A flat is_one is_zero simp 1).
    change (match bottom_up (fun _ e => transform_invert is_one is_zero e)
      (fun _ d _ _ tm fm => leaf_internal A flat simp (invert_fuel A flat is_one is_zero simp 1) d tm fm) id p1 with
    | (q, Ok r) => profile_ready q id /\ inverted q id r /\
        (leaf_tests -> boolean_diagram p id -> forall e v, denotes (p_nodes p) e id v -> denotes (p_nodes q) e r (1 - v)%Qc)
    | (q, Err x) => leaf_tests ->
        ~ (boolean_diagram p id /\ p_ordering p = false)
    end).
    assert (dlt (p_nodes p1) id) as Hd1 by by eapply ext_dlt.
    assert (profile_ready p1 id) as Hr1.
    { intros f. destruct F1 as [-> _]. intros Hf. eapply ready_ext; [exact Hi|done|done|]. by apply Hr. }
    assert (boolean_diagram p id -> boolean_diagram p1 id) as HB by by apply (boolean_ext A simp den).
    destruct (walk_start p1 id I1 Hd1 Hr1) as (p2 & order & cs & Hget & Hp2 & Hof & Hz & Hp12).
    pose proof Hof as (_ & Hmem & _).
    set (J := fun (pre : list nat) (tbl : list (nat * nat)) (q : pool E) => inv q /\ ext p1 q /\
      (forall k m, dget tbl k = Some m -> k ∈ order /\ dlt (p_nodes q) m /\ inverted q k m /\
         (leaf_tests -> boolean_diagram p1 id -> forall e v, denotes (p_nodes p1) e k v -> denotes (p_nodes q) e m (1 - v)%Qc)) /\
      dkeys tbl = pre).
    set (Xc := fun (x : exn) (q : pool E) => leaf_tests ->
      ~ (boolean_diagram p1 id /\ p_ordering p1 = false)).
    pose proof (bottom_up_rule (p_nodes p1) (inv_ns p1 I1) id Hd1
      (fun _ e => transform_invert is_one is_zero e)
      (fun _ d _ _ tm fm => leaf_internal A flat simp (invert_fuel A flat is_one is_zero simp 1) d tm fm)
      order J Xc) as Hrule.
    assert (forall k, k ∈ order -> boolean_diagram p1 id -> boolean_diagram p1 k) as Hbk.
    { intros k Hk. apply boolean_below. by apply Hmem. }
    assert (forall pre id' suf, order = pre ++ id' :: suf -> id' ∈ order /\ id' ∉ pre) as Hpre.
    { intros pre k suf Ho. destruct Hof as (Hnd & _). rewrite Ho in Hnd |- *. apply NoDup_app in Hnd as (_ & Hdis & _).
      split; [apply elem_of_app; right; apply elem_of_cons; by left|]. intros Hk. apply (Hdis k Hk), elem_of_cons. by left. }
    assert (forall pre tbl q k m q', J pre tbl q -> ext q q' -> inv q' -> k ∈ order -> k ∉ pre -> dlt (p_nodes q') m -> inverted q' k m ->
      (leaf_tests -> boolean_diagram p1 id -> forall e v, denotes (p_nodes p1) e k v -> denotes (p_nodes q') e m (1 - v)%Qc) ->
      J (pre ++ [k]) (tbl ++ [(k, m)]) q') as Hadd.
    { intros pre tbl q k m q' (Iq & Xq & Hq & Hdk) Hx Iq' Hk Hkp Dm Sm Vm. split; [done|]. split; [by eapply ext_trans|]. split.
      - intros j m'. rewrite <- dset_fresh by by rewrite Hdk. rewrite dget_dset. destruct (decide (k = j)) as [<-|].
        + by intros [= <-].
        + intros Hj. destruct (Hq j m' Hj) as (Oj & ? & Sj & Hv). split; [done|]. split; [by eapply ext_dlt|].
          split; [apply (inverted_ext A simp den q q'); try done; apply (ext_dlt p1 q _ Xq); apply Hmem in Oj; by eapply (below_dlt _ (inv_ns p1 I1))|].
          intros Hl Hb e v Hdv. apply (ext_denotes den q q'); [done|]. by apply Hv.
      - unfold dkeys in *. by rewrite map_app, Hdk. }
    assert (match bottom_up (fun _ e => transform_invert is_one is_zero e)
      (fun _ d _ _ tm fm => leaf_internal A flat simp (invert_fuel A flat is_one is_zero simp 1) d tm fm) id p1 with
      | (p', Ok m) => exists tbl f, J order tbl p' /\ dkeys tbl = order /\ dget tbl id = Some m /\
          dget (p_profiles p') id = Some f /\ ready (p_nodes p1) id f
      | (p', Err e) => Xc e p'
      end) as Hres.
    { apply (Hrule) with (p1 := p2) (cs := cs); try done; clear Hrule.
      - intros pre tbl q0 k n (_ & Xq & _) Hn. by apply Xq.
      - intros pre tbl q0 f (Iq & Xq & Hq & Hdk). split; [by apply set_profile_inv|].
        split; [eapply ext_trans; [done|apply set_profile_ext]|]. done.
      - intros pre k suf tbl q0 x HJ Ho Hn. destruct (Hpre _ _ _ Ho) as [Hk Hkp]. pose proof HJ as (Iq & Xq & _).
        pose proof (transform_invert_any q0 x Iq) as Ht.
        assert (leaf_tests -> boolean_diagram p1 id -> transform_invert is_one is_zero x q0 =
          (q0, Ok (if decide (k = p_one p1) then p_zero p1 else p_one p1)) /\ (k = p_zero p1 \/ k = p_one p1)) as Hval.
        { intros (L1 & L2 & L3) Hb. destruct (boolean_leaf p1 k x Hn (Hbk k Hk Hb)) as [->| ->]; (split; [|by auto]).
          - rewrite (iv_zero _ _ _ p1 I1) in Hn. simplify_eq. rewrite decide_False by by apply (zero_ne_one A simp den HA).
            unfold transform_invert, mbind. cbn [mget mlift]. unfold mlift. rewrite L2, L3. by rewrite (ex_one p1 q0 Xq).
          - rewrite (iv_one _ _ _ p1 I1) in Hn. simplify_eq. rewrite decide_True by done.
            unfold transform_invert, mbind. cbn [mget mlift]. unfold mlift. rewrite L1. by rewrite (ex_zero p1 q0 Xq). }
        destruct (transform_invert is_one is_zero x q0) as [q1 [m|ex]].
        + destruct Ht as [-> Ht]. split; [|done]. apply (Hadd _ _ q0); try done; [by apply zero_one_dlt, Ht| |].
          { destruct (zero_one_dlt q0 m Iq (Ht m eq_refl)) as [nm Hnm]. destruct (Ht m eq_refl) as [->| ->].
            - eapply inverted_leaf; [by apply Xq|done|by left|by eapply iv_zero].
            - eapply inverted_leaf; [by apply Xq|done|by right|by eapply iv_one]. }
          intros L Hb e v Hv. destruct (Hval L Hb) as [Heq Hor]. injection Heq as ->.
          destruct (decide (k = p_one p1)) as [->|Hno].
          * apply (denotes_one A simp den HA) in Hv; [|done]. subst v. replace (1 - 1)%Qc with 0%Qc by ring.
            rewrite <- (ex_zero p1 q0 Xq). by apply (denotes_zero A simp den HA).
          * destruct Hor as [->|]; [|done]. apply (denotes_zero A simp den HA) in Hv; [|done]. subst v.
            replace (1 - 0)%Qc with 1%Qc by ring. rewrite <- (ex_one p1 q0 Xq). by apply (denotes_one A simp den HA).
        + intros L [Hb _]. destruct (Hval L Hb) as [? _]. done.
      - intros pre k suf tbl q0 d ct cf mt mf HJ Ho Hn Ht Hf. destruct (Hpre _ _ _ Ho) as [Hk Hkp].
        pose proof HJ as (Iq & Xq & Htbl & _). destruct (iv_node _ _ _ p1 I1 _ _ _ _ Hn) as (_ & _ & Dct & Dcf & _ & Hg & jk & Hjk & _).
        destruct (Htbl _ _ Ht) as (Oct & Dmt & Smt & Vmt). destruct (Htbl _ _ Hf) as (Ocf & Dmf & Smf & Vmf).
        pose proof (leaf_internal_any A flat is_one is_zero simp den HA HF HS 0 q0 d (Some mt) (Some mf) Iq Hg) as Hl.
        assert (forall n m : nat, Some n = Some m -> dlt (p_nodes q0) n -> dlt (p_nodes q0) m) as Hsm by by intros n m [= <-].
        specialize (Hl (fun m Hm => Hsm _ _ Hm Dmt) (fun m Hm => Hsm _ _ Hm Dmf)).
        destruct (leaf_internal A flat simp _ d (Some mt) (Some mf) q0) as [q1 [m|ex]]; destruct Hl as (Iq1 & Xq1 & Fq1 & Vq1 & Sq1 & Hok).
        + split; [|by destruct Fq1 as [-> _]]. destruct (Vq1 m eq_refl) as [Dm Vm]. apply (Hadd _ _ q0); try done.
          { assert (ext p1 q1) as X11 by by eapply ext_trans.
            apply (inverted_node q1 k d ct cf jk mt mf m); [by apply X11|by apply X11| | |by apply Sq1].
            - apply (inverted_ext A simp den q0 q1); try done. by apply (ext_dlt p1 q0).
            - apply (inverted_ext A simp den q0 q1); try done. by apply (ext_dlt p1 q0). }
          intros L Hb e v Hv. destruct (denotes_node _ _ _ _ _ _ _ _ Hn Hv) as (b & Eb & Hv').
          destruct (boolean_total A simp den HA p1 I1 ct Dct (Hbk _ Oct Hb) e) as (x & _ & Hx).
          destruct (boolean_total A simp den HA p1 I1 cf Dcf (Hbk _ Ocf Hb) e) as (y & _ & Hy).
          pose proof (Vm mt mf e b _ _ eq_refl eq_refl Eb (Vmt L Hb e x Hx) (Vmf L Hb e y Hy)) as Hm.
          destruct b.
          * by rewrite (denotes_fun _ _ _ _ _ _ Hv' Hx).
          * by rewrite (denotes_fun _ _ _ _ _ _ Hv' Hy).
        + intros L [Hb Hord]. rewrite <- (ex_ord p1 q0 Xq) in Hord. by specialize (Hok (ex_intro _ _ eq_refl) (ex_intro _ _ eq_refl) Hord).
      - assert (inv p2 /\ ext p1 p2) as [I2 X2].
        { destruct Hp12 as [->| ->]; [split; [done|apply ext_refl]|]. split; [by apply set_profile_inv|apply set_profile_ext]. }
        split; [done|]. split; [done|]. split; [|done]. intros k m Hkm. done. }
    clear Hrule. destruct (bottom_up _ _ id p1) as [q [r|x]].
    - destruct Hres as (tbl & f & (Iq & Xq & Hq & Hdk) & _ & Htr & Hf & Hrd). split.
      + intros f' Hf'. rewrite Hf in Hf'. simplify_eq. by apply (ready_ext p1 q).
      + destruct (Hq id r Htr) as (_ & _ & Sr & Hval). split; [done|]. intros L Hb e v Hv. apply Hval; [done|by apply HB|]. by apply (ext_denotes den p p1).
    - intros L [Hb Hord]. apply (Hres L). split; [by apply HB|]. by rewrite (ex_ord p p1 X1).
  Qed.

  (** ** Walks with visitors that do not use the pool *)

  Lemma profile_order (ns : list (nat * node E)) root order cs : profile_of ns root order cs -> bottom_up_order ns root order.
  Proof.
    intros (H1 & H2 & H3 & _). split; [done|]. split; [done|]. intros pre id suf d ct cf Ho Hn.
    split; eapply H3; [done| |done|]; exists d, ct, cf; auto.
  Qed.

  Section Pure.
    Context {B : Type} (vt : nat -> E -> Res B) (vi : nat -> decision -> nat -> nat -> option B -> option B -> Res B).

    Lemma visits_app ns l k : forall res, visits vt vi ns (l ++ k) res = (let! r := visits vt vi ns l res in visits vt vi ns k r).
    Proof.
      induction l as [|id l IH]; intros res; cbn [app visits rbind]; [done|].
      destruct (match dget ns id with Some (TNode x) => _ | Some (INode d ct cf) => _ | None => _ end) as [m|]; cbn [rbind]; [|done].
      apply IH.
    Qed.

    Lemma pure_walk_ok p root : inv p -> dlt (p_nodes p) root -> profile_ready p root ->
      exists order q, bottom_up_order (p_nodes p) root order /\
        match visits vt vi (p_nodes p) order [] with
        | Ok results => exists m, dget results root = Some m /\ pure_walk vt vi root p = (q, Ok m) /\ profile_ready q root
        | Err x => pure_walk vt vi root p = (q, Err x)
        end.
    Proof.
      intros Hi Hd Hr. destruct (walk_start p root Hi Hd Hr) as (p1 & order & cs & Hget & Hp1 & Hof & Hz & Hp01).
      exists order, (pure_walk vt vi root p).1. split; [by eapply profile_order|].
      set (J := fun (pre : list nat) (tbl : list (nat * B)) (q : pool E) =>
        visits vt vi (p_nodes p) pre [] = Ok tbl /\ p_nodes q = p_nodes p).
      set (Xc := fun (x : exn) (q : pool E) => visits vt vi (p_nodes p) order [] = Err x).
      pose proof (bottom_up_rule (p_nodes p) (inv_ns p Hi) root Hd
        (fun id x => mlift (vt id x)) (fun id d ct cf tm fm => mlift (vi id d ct cf tm fm)) order J Xc) as Hrule.
      assert (match pure_walk vt vi root p with
        | (p', Ok m) => exists tbl f, J order tbl p' /\ dkeys tbl = order /\ dget tbl root = Some m /\
            dget (p_profiles p') root = Some f /\ ready (p_nodes p) root f
        | (p', Err e) => Xc e p'
        end) as Hres.
      { unfold pure_walk. apply (Hrule) with (p1 := p1) (cs := cs); try done; clear Hrule.
        - intros pre tbl q id n [_ Hn]. by rewrite Hn.
        - intros pre id suf tbl q x [Hv Hn] Ho Hid. unfold mlift. destruct (vt id x) as [m|e] eqn:Ev.
          + split; [|done]. split; [|done]. rewrite visits_app, Hv. cbn [rbind visits]. by rewrite Hid, Ev.
          + unfold Xc. rewrite Ho, visits_app, Hv. cbn [rbind visits]. by rewrite Hid, Ev.
        - intros pre id suf tbl q d ct cf mt mf [Hv Hn] Ho Hid Ht Hf. unfold mlift.
          destruct (vi id d ct cf (Some mt) (Some mf)) as [m|e] eqn:Ev.
          + split; [|done]. split; [|done]. rewrite visits_app, Hv. cbn [rbind visits]. by rewrite Hid, Ht, Hf, Ev.
          + unfold Xc. rewrite Ho, visits_app, Hv. cbn [rbind visits]. by rewrite Hid, Ht, Hf, Ev.
        - split; [done|]. by destruct Hp01 as [->| ->]. }
      destruct (pure_walk vt vi root p) as [q [m|x]].
      - destruct Hres as (tbl & f & (Hv & Hn) & _ & Hm & Hf & Hrd). rewrite Hv. exists m. split; [done|]. split; [done|].
        intros f' Hf'. cbn in Hf'. rewrite Hf in Hf'. simplify_eq. cbn. by rewrite Hn.
      - unfold Xc in Hres. by rewrite Hres.
    Qed.

    Lemma pure_walk_any p root : inv p ->
      let q := (pure_walk vt vi root p).1 in inv q /\ ext p q /\ p_nodes q = p_nodes p /\ others root p q.
    Proof.
      intros Hi. unfold pure_walk.
      destruct (bottom_up_any root (fun id x => mlift (vt id x)) (fun id d ct cf tm fm => mlift (vi id d ct cf tm fm))
        (fun p q => ext p q /\ p_nodes q = p_nodes p /\ others root p q) inv (fun _ _ => True)) with (p := p)
        as ((X1 & N1 & O1) & I1 & _); try done.
      - intros a b c (Y0 & Y & W & Z) (Y0' & Y' & W' & Z'). split; [by eapply ext_trans|]. split; [congruence|].
        split; [congruence|]. intros r Hr. by rewrite Z', Z.
      - intros a b i n [Y _] Hn. by apply Y.
      - intros a f. split; [apply set_profile_ext|]. split; [done|]. split; [done|]. intros r Hr. cbn. by rewrite dget_dset, decide_False.
      - intros a f. apply set_profile_inv.
    Qed.
  End Pure.

  (** ** Histories *)

  Notation serve := (serve A flat is_one is_zero simp solve X).
  Notation history := (history A flat is_one is_zero simp solve X).

  Record hinv (bad : list nat) (p : pool E) : Prop := {
    hv_inv : inv p;
    hv_prof : forall r, r ∉ bad -> profile_ready p r;
    hv_dlt : forall r f, dget (p_profiles p) r = Some f -> dlt (p_nodes p) r;
    hv_res : rinv simp X den p }.

  Lemma frame_hinv bad p q : hinv bad p -> inv q -> ext p q -> frame p q -> hinv bad q.
  Proof.
    intros [Hi Hp Hd Hv] Iq Hx [Hf Hg0]. split; [done| | |by apply (rinv_frame A simp X den p)].
    - intros r Hr f. rewrite Hf. intros Hg. apply (ready_ext p q); [done|done|by eapply Hd|by apply Hp].
    - intros r f. rewrite Hf. intros Hg. eapply ext_dlt; [done|]. by eapply Hd.
  Qed.

  Lemma others_hinv bad p q root res (l : list nat) : hinv bad p -> inv q -> ext p q -> others root p q -> dlt (p_nodes p) root ->
    (is_ok res = true -> root ∉ bad -> profile_ready q root) ->
    l = match res : Res nat with Err _ => [root] | Ok _ => [] end -> hinv (l ++ bad) q.
  Proof.
    intros [Hi Hp Hd Hv] Iq Hx [Hg0 Ho] Hr Hok ->. split; [done| | |by apply (rinv_frame A simp X den p)].
    - intros r Hrb. rewrite elem_of_app in Hrb. destruct (decide (r = root)) as [->|Hne].
      + destruct res; [|exfalso; apply Hrb; left; by apply elem_of_list_singleton]. apply Hok; [done|]. tauto.
      + intros f. rewrite Ho by done. intros Hg. apply (ready_ext p q); [done|done|by eapply Hd|]. apply Hp; [tauto|done].
    - intros r f. destruct (decide (r = root)) as [->|Hne].
      + intros _. by eapply ext_dlt.
      + rewrite Ho by done. intros Hg. eapply ext_dlt; [done|]. by eapply Hd.
  Qed.

  Lemma hinv_RI bad p : hinv bad p -> RI A simp X den (p_ordering p) p.
  Proof. intros [Hi _ _ Hr]. done. Qed.

  Lemma RI_hinv bad p q o : hinv bad p -> RI A simp X den o q -> ext p q -> p_profiles q = p_profiles p -> hinv bad q.
  Proof.
    intros [Hi Hp Hd Hv] (Iq & Rq & _) Hx Hf. split; [done| | |done].
    - intros r Hr f. rewrite Hf. intros Hg. apply (ready_ext p q); [done|done|by eapply Hd|by apply Hp].
    - intros r f. rewrite Hf. intros Hg. eapply ext_dlt; [done|]. by eapply Hd.
  Qed.

  (** Requests that return a node of the pool. *)
  Definition makes_node (r : request E) : Prop := match r with WalkR _ _ _ => False | _ => True end.

  Lemma serve_ok bad p r : hinv bad p -> well_typed r -> (forall a, a ∈ mentions r -> dlt (p_nodes p) a) ->
    let '(q, res) := serve r p in
    hinv (interrupted r res ++ bad) q /\ ext p q /\ (makes_node r -> forall i, res = Ok i -> dlt (p_nodes q) i).
  Proof.
    intros Hh Hty Hm. pose proof (hv_inv _ _ Hh) as Hi.
    assert (forall a, mentions r = [a] -> dlt (p_nodes p) a) as Hm1 by (intros a Ha; apply Hm; rewrite Ha; by apply elem_of_list_singleton).
    assert (forall a b, mentions r = [a; b] -> dlt (p_nodes p) a /\ dlt (p_nodes p) b) as Hm2.
    { intros a b Ha. split; apply Hm; rewrite Ha; apply elem_of_cons; [by left|right; by apply elem_of_list_singleton]. }
    destruct r as [x|f ct cf|f|op a b|a|fast a|vt vi a|s v ub lb a|s v a]; cbn [Xadd_Spec.serve mentions makes_node well_typed] in *.
    - destruct (terminal_ok A simp den p x Hi) as (q & i & -> & Iq & Hx & Hf & Hn). cbn [interrupted app].
      split; [by apply (frame_hinv bad p q)|]. split; [done|]. intros _ j [= <-]. by eexists.
    - destruct (Hm2 _ _ eq_refl) as [Dt Df].
      assert (askable (mkdec f)) as Had by (right; by exists f).
      pose proof (internal_inv A simp den HS p (mkdec f) ct cf Hi Had Dt Df) as Hin.
      destruct (internal simp (mkdec f) ct cf p) as [q res]. destruct Hin as (Iq & Hx & Hf & Hno & _). cbn [interrupted app].
      split; [by apply (frame_hinv bad p q)|]. split; [done|]. intros _ j Hj. by apply (Hno j).
    - assert (askable (mkdec f)) as Had by (right; by exists f).
      pose proof (bool_test_any A simp den HA HS p (mkdec f) Hi Had) as Hin.
      destruct (bool_test simp (mkdec f) p) as [q res]. destruct Hin as (Iq & Hx & Hf & Hno & _). cbn [interrupted app].
      split; [by apply (frame_hinv bad p q)|]. split; [done|]. intros _ j Hj. by apply (Hno j).
    - destruct (Hm2 _ _ eq_refl) as [Da Db]. pose proof (apply_ok A flat simp den HA HF HS op p a b Hi Da Db) as Hin.
      destruct (apply A flat simp op a b p) as [q res]. destruct Hin as (Iq & Hx & Hf & Hres). cbn [interrupted app].
      split; [by apply (frame_hinv bad p q)|]. split; [done|]. intros _ j ->. apply Hres.
    - pose proof (Hm1 _ eq_refl) as Da. pose proof (invert_any p a Hi Da) as Hin.
      assert (a ∉ bad -> match invert a p with (q, Ok _) => profile_ready q a | _ => True end) as Hrd.
      { intros Hb. pose proof (invert_walk p a Hi Da (hv_prof _ _ Hh a Hb)) as Hw. destruct (invert a p) as [q [r|]]; [apply Hw|done]. }
      destruct (invert a p) as [q res]. destruct Hin as (Iq & Hx & Ho & Hres).
      split; [|split; [done|]; by intros _]. apply (others_hinv bad p q a res); try done.
      intros Hok Hb. specialize (Hrd Hb). by destruct res.
    - destruct (reduce_ok A simp solve den HS HV fast p a Hi (Hm1 _ eq_refl)) as (q & i & -> & Iq & Hx & Hf & Di & _).
      cbn [interrupted app]. split; [by apply (frame_hinv bad p q)|]. split; [done|]. by intros _ j [= <-].
    - pose proof (Hm1 _ eq_refl) as Da. pose proof (pure_walk_any vt vi p a Hi) as Hin.
      assert (a ∉ bad -> match pure_walk vt vi a p with (q, Ok _) => profile_ready q a | _ => True end) as Hrd.
      { intros Hb. destruct (pure_walk_ok vt vi p a Hi Da (hv_prof _ _ Hh a Hb)) as (order & q & _ & Hw).
        destruct (visits vt vi (p_nodes p) order []) as [res|x].
        - destruct Hw as (m & _ & -> & Hr). done.
        - by rewrite Hw. }
      destruct (pure_walk vt vi a p) as [q res]. cbn in Hin. destruct Hin as (Iq & Hx & _ & Ho).
      split; [|split; [done|]; by intros []]. apply (others_hinv bad p q a res); try done.
      intros Hok Hb. specialize (Hrd Hb). by destruct res.
    - pose proof (resolve_ok A flat simp solve X den HA HF HS HT HV (p_ordering p) s v p ub lb a (hinv_RI _ _ Hh)) as Hr.
      unfold ok in Hr. destruct (resolve A flat simp solve X s v ub lb a p) as [q res]. cbn [interrupted app].
      destruct Hr as (Rq & Hx & Hf & Hres); [intros f ->; apply Hty; by left|intros f ->; apply Hty; by right|by apply Hm1|].
      split; [by apply (RI_hinv bad p q (p_ordering p))|]. split; [done|]. intros _ j ->. by destruct Hres as (_ & ? & _).
    - pose proof (integrate_ok A flat simp solve X den HA HF HS HT HV (p_ordering p) s v p a (hinv_RI _ _ Hh) (Hm1 _ eq_refl)) as Hr.
      unfold ok in Hr. destruct (integrate A flat simp solve X s v a p) as [q res]. cbn [interrupted app].
      destruct Hr as (Rq & Hx & Hf & Hres).
      split; [by apply (RI_hinv bad p q (p_ordering p))|]. split; [done|]. intros _ j ->. by destruct Hres as (? & _).
  Qed.

  Lemma history_ok bad p : history bad p -> hinv bad p.
  Proof.
    induction 1 as [ordering|bad p r Hh IH Hty Hm].
    - destruct (new_pool_ok A simp den HA ordering) as (Hi & _ & Hp & Hn). split; [done| | |].
      + intros r _ f. by rewrite Hp.
      + intros r f. by rewrite Hp.
      + intros v id ub lb r. by rewrite Hn.
    - pose proof (serve_ok bad p r IH Hty Hm) as Hs. destruct (serve r p) as [q res]. apply Hs.
  Qed.
End Hist.
