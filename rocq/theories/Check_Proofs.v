From Verif Require Import Base Smt Walk_Model Walk_Proofs Check_Model Check_Spec.

(** * Value-level lemmas *)

Definition sym_val (e : env) (x : string) (t : ty) : val :=
  match t with TBool => VB (eb e x) | _ => VN (er e x) end.

Lemma eval_sym e x t : eval e (Sym x t) = Some (sym_val e x t).
Proof. by destruct t. Qed.

Lemma eval_list_b e l v :
  eval e (AndN l) = Some v ->
  exists bs, Forall2 (fun g b => eval e g = Some (VB b)) l bs /\ v = VB (forallb id bs).
Proof.
  cbn [eval]. destruct (mapM _ l) as [bs|] eqn:E; [|done]. intros [= <-].
  exists bs. split; [|done]. by apply mapM_Forall2_vbool.
Qed.
Lemma eval_list_or e l v :
  eval e (OrN l) = Some v ->
  exists bs, Forall2 (fun g b => eval e g = Some (VB b)) l bs /\ v = VB (existsb id bs).
Proof.
  cbn [eval]. destruct (mapM _ l) as [bs|] eqn:E; [|done]. intros [= <-].
  exists bs. split; [|done]. by apply mapM_Forall2_vbool.
Qed.
Lemma eval_list_plus e l v :
  eval e (PlusN l) = Some v ->
  exists qs, Forall2 (fun g q => eval e g = Some (VN q)) l qs /\ v = VN (qsum qs).
Proof.
  cbn [eval]. destruct (mapM _ l) as [bs|] eqn:E; [|done]. intros [= <-].
  exists bs. split; [|done]. by apply mapM_Forall2_vnum.
Qed.
Lemma eval_list_times e l v :
  eval e (TimesN l) = Some v ->
  exists qs, Forall2 (fun g q => eval e g = Some (VN q)) l qs /\ v = VN (qprod qs).
Proof.
  cbn [eval]. destruct (mapM _ l) as [bs|] eqn:E; [|done]. intros [= <-].
  exists bs. split; [|done]. by apply mapM_Forall2_vnum.
Qed.

Lemma vbool_some o b : vbool o = Some b -> o = Some (VB b).
Proof. destruct o as [[]|]; simpl; congruence. Qed.
Lemma vnum_some o b : vnum o = Some b -> o = Some (VN b).
Proof. destruct o as [[]|]; simpl; congruence. Qed.

Lemma forallb_truth bs : forallb truth (map VB bs) = forallb id bs.
Proof. induction bs as [|b bs IH]; [done|]. simpl. by rewrite IH. Qed.
Lemma existsb_truth bs : existsb truth (map VB bs) = existsb id bs.
Proof. induction bs as [|b bs IH]; [done|]. simpl. by rewrite IH. Qed.

Lemma fold_pyadd qs q : fold_left pyadd (map VN qs) (VN q) = VN (q + qsum qs)%Qc.
Proof.
  revert q. induction qs as [|x qs IH]; intros q; simpl; [f_equal; ring|].
  unfold pyadd at 2. simpl. rewrite IH. f_equal. ring.
Qed.
Lemma fold_pymul qs q : fold_left pymul (map VN qs) (VN q) = VN (q * qprod qs)%Qc.
Proof.
  revert q. induction qs as [|x qs IH]; intros q; simpl; [f_equal; ring|].
  unfold pymul at 2. simpl. rewrite IH. f_equal. ring.
Qed.
Lemma pysum_num qs : pysum (map VN qs) = VN (qsum qs).
Proof. unfold pysum. rewrite fold_pyadd. f_equal. ring. Qed.

Lemma pypow_nat a b n : nat_of_qc b = Some n -> pypow (VN a) (VN b) = Ok (VN (qpow a n)).
Proof.
  unfold nat_of_qc, pypow, qpowz. cbn [pynum].
  destruct (Pos.eqb (Qden (this b)) 1); [|done]. cbn [andb].
  destruct (0 <=? Qnum (this b))%Z; [|done]. by intros [= <-].
Qed.

(** * SmtChecker and SmtSingleChecker *)

Section Scalar.
  Variable lazy_ite : bool.
  Variable symbol : string -> ty -> Res val.
  Variable e : env.
  Notation W := (walk (scalar_walker lazy_ite symbol)).

  Definition sym_ok (f : fm) : Prop :=
    forall x t, (x, t) ∈ syms f -> symbol x t = Ok (sym_val e x t).

  Lemma sym_ok_in l x : x ∈ l -> (forall y t, (y, t) ∈ concat (map syms l) -> symbol y t = Ok (sym_val e y t)) ->
    sym_ok x.
  Proof.
    intros Hx H y t Hy. apply H. apply elem_of_list_In, in_concat.
    exists (syms x). split; [|by apply elem_of_list_In]. apply in_map. by apply elem_of_list_In.
  Qed.

  Lemma scalar_ok n f v :
    msize f <= n -> good f -> sym_ok f -> eval e f = Some v -> W n f = Ok v.
  Proof.
    revert f v. induction n as [|n IH]; intros f v Hn Hg Hs Hv.
    { pose proof (msize_pos f). lia. }
    assert (HB : forall l t bs, S (list_sum (map msize l)) <= S n ->
              Forall (fun f => good f /\ typeof f = Some t) l ->
              (forall x u, (x, u) ∈ concat (map syms l) -> symbol x u = Ok (sym_val e x u)) ->
              Forall2 (fun g b => eval e g = Some (VB b)) l bs ->
              rmapM (W n) l = Ok (map VB bs)).
    { intros l t bs Hsz Hl Hsy H2. apply rmapM_Forall2.
      assert (Hin : forall x, x ∈ l -> x ∈ l) by done. revert Hin.
      generalize l at 2 as L. rewrite Forall_forall in Hl. intros L.
      enough (forall l', l' ⊆ l -> forall bs, Forall2 (fun g b => eval e g = Some (VB b)) l' bs ->
               Forall2 (fun x y => W n x = Ok y) l' (map VB bs)) by (intros _; by apply H).
      clear bs H2. intros l' Hsub bs H2. induction H2 as [|g b l' bs Hgb H2 IH2]; simpl; constructor.
      - assert (g ∈ l) by (apply Hsub; by left).
        apply IH; [|by apply Hl|by eapply sym_ok_in|done]. pose proof (msize_in g l H). lia.
      - apply IH2. intros y Hy. apply Hsub. by right. }
    assert (HN : forall l t bs, S (list_sum (map msize l)) <= S n ->
              Forall (fun f => good f /\ typeof f = Some t) l ->
              (forall x u, (x, u) ∈ concat (map syms l) -> symbol x u = Ok (sym_val e x u)) ->
              Forall2 (fun g b => eval e g = Some (VN b)) l bs ->
              rmapM (W n) l = Ok (map VN bs)).
    { intros l t bs Hsz Hl Hsy H2. apply rmapM_Forall2.
      rewrite Forall_forall in Hl.
      enough (forall l', l' ⊆ l -> forall bs, Forall2 (fun g b => eval e g = Some (VN b)) l' bs ->
               Forall2 (fun x y => W n x = Ok y) l' (map VN bs)) by (by apply H).
      clear bs H2. intros l' Hsub bs H2. induction H2 as [|g b l' bs Hgb H2 IH2]; simpl; constructor.
      - assert (g ∈ l) by (apply Hsub; by left).
        apply IH; [|by apply Hl|by eapply sym_ok_in|done]. pose proof (msize_in g l H). lia.
      - apply IH2. intros y Hy. apply Hsub. by right. }
    assert (Hs2 : forall a b, (forall x u, (x, u) ∈ syms a ++ syms b -> symbol x u = Ok (sym_val e x u)) ->
              sym_ok a /\ sym_ok b).
    { intros a b H. split; intros x u Hx; apply H, elem_of_app; auto. }
    cbn [walk].
    destruct f as [x t|b|q|z|l|l|a|a b|a b|c a b|l|a b|l|a b|a b|a b|a b|a|a];
      cbn [dispatch scalar_walker w_and w_or w_plus w_minus w_times w_not w_ite w_pow w_lte w_lt
           w_equals w_symbol w_const w_cannot] in *; cbn [msize] in Hn.
    - rewrite eval_sym in Hv. injection Hv as <-. apply Hs. by left.
    - cbn [eval] in Hv. congruence.
    - cbn [eval] in Hv. congruence.
    - by destruct Hg as (_ & ? & _).
    - destruct (good_and _ Hg) as [Hlen Hl]. apply eval_list_b in Hv as (bs & H2 & ->).
      rewrite (HB l _ bs Hn Hl Hs H2). cbn [rbind]. by rewrite forallb_truth.
    - destruct (good_or _ Hg) as [Hlen Hl]. apply eval_list_or in Hv as (bs & H2 & ->).
      rewrite (HB l _ bs Hn Hl Hs H2). cbn [rbind]. by rewrite existsb_truth.
    - destruct (good_not _ Hg) as [Ha Ta]. cbn [eval] in Hv.
      destruct (vbool (eval e a)) as [x|] eqn:E; [|done]. injection Hv as <-.
      apply vbool_some in E. rewrite (IH a (VB x)); [done|lia|done|done|done].
    - destruct Hg as (H1 & H2 & H3).
      apply IH; [|by apply good_imp_expand| |by rewrite eval_imp_expand].
      + pose proof (msize_imp a b) as H. cbn [msize] in H. lia.
      + unfold sym_ok. by rewrite syms_imp_expand.
    - destruct (good_iff_args _ _ Hg) as [G1 G2].
      rewrite <- eval_iff_expand in Hv. apply eval_list_b in Hv as (bs & H2 & ->).
      assert (rmapM (W n) [ImpN a b; ImpN b a] = Ok (map VB bs)) as ->; [|by rewrite <- forallb_truth].
      apply rmapM_Forall2. inversion H2 as [|? b1 ? ? E1 H2']; subst.
      inversion H2' as [|? b2 ? ? E2 H3]; subst. inversion H3; subst. cbn [map].
      constructor; [|constructor; [|constructor]].
      + apply IH; [cbn [msize]; lia|done|done|done].
      + apply IH; [cbn [msize]; lia|done| |done].
        intros x u Hx. apply Hs. cbn [syms] in *. apply elem_of_app in Hx. apply elem_of_app. tauto.
    - destruct (good_ite _ _ _ Hg) as ([Hc Tc] & Ha & Hb & Hty).
      cbn [eval] in Hv. destruct (vbool (eval e c)) as [x|] eqn:Ec; [|done].
      cbn in Hv. destruct (eval e a) as [va|] eqn:Ea; [|done].
      cbn in Hv. destruct (eval e b) as [vb|] eqn:Eb; [|done]. cbn in Hv.
      apply vbool_some in Ec.
      assert (sym_ok c /\ sym_ok a /\ sym_ok b) as (Sc & Sa & Sb).
      { split; [|split]; intros y u Hy; apply Hs; cbn [syms]; rewrite !elem_of_app; tauto. }
      rewrite (IH c (VB x)); [|lia|done|done|done]. cbn [rbind truth].
      rewrite (IH a va); [|lia|done|done|done]. rewrite (IH b vb); [|lia|done|done|done].
      cbn [rbind]. assert (v = if x then va else vb) as ->.
      { destruct va, vb, x; simpl in Hv; congruence. }
      by destruct lazy_ite, x.
    - destruct (good_plus _ Hg) as [Hlen (t & Hnt & Hl)]. apply eval_list_plus in Hv as (qs & H2 & ->).
      rewrite (HN l _ qs Hn Hl Hs H2). cbn [rbind]. by rewrite pysum_num.
    - destruct (good_minus _ _ Hg) as (t & Hnt & [Ha _] & [Hb _]). destruct (Hs2 _ _ Hs) as [Sa Sb].
      cbn [eval] in Hv. destruct (vnum (eval e a)) as [x|] eqn:Ea; [|done].
      cbn in Hv. destruct (vnum (eval e b)) as [y|] eqn:Eb; [|done]. cbn in Hv. injection Hv as <-.
      apply vnum_some in Ea, Eb.
      rewrite (IH a _ ltac:(lia) Ha Sa Ea), (IH b _ ltac:(lia) Hb Sb Eb). done.
    - destruct (good_times _ Hg) as [Hlen (t & Hnt & Hl)].
      apply eval_list_times in Hv as (qs & H2 & ->).
      assert (l <> []) by (destruct l; simpl in *; (lia || done)).
      destruct l as [|l0 lr] eqn:El; [done|]. rewrite <- El in *.
      rewrite (HN l _ qs Hn Hl Hs H2). cbn [rbind]. rewrite fold_pymul. do 2 f_equal. ring.
    - destruct (good_pow _ _ Hg) as (t & Hnt & [Ha Ta] & [Hb Tb] & Hca & Hcb).
      destruct (Hs2 _ _ Hs) as [Sa Sb].
      cbn [eval] in Hv. destruct (vnum (eval e a)) as [x|] eqn:Ea; [|done].
      cbn in Hv. destruct (vnum (eval e b)) as [y|] eqn:Eb; [|done]. cbn in Hv.
      destruct (nat_of_qc y) as [k|] eqn:Ek; [|done]. cbn in Hv. injection Hv as <-.
      apply vnum_some in Ea, Eb.
      rewrite (IH a _ ltac:(lia) Ha Sa Ea), (IH b _ ltac:(lia) Hb Sb Eb). cbn [rbind].
      by apply pypow_nat.
    - destruct (good_le _ _ Hg) as (t & Hnt & [Ha _] & [Hb _]). destruct (Hs2 _ _ Hs) as [Sa Sb].
      cbn [eval] in Hv. destruct (vnum (eval e a)) as [x|] eqn:Ea; [|done].
      cbn in Hv. destruct (vnum (eval e b)) as [y|] eqn:Eb; [|done]. cbn in Hv. injection Hv as <-.
      apply vnum_some in Ea, Eb.
      rewrite (IH a _ ltac:(lia) Ha Sa Ea), (IH b _ ltac:(lia) Hb Sb Eb). done.
    - destruct (good_le a b Hg) as (t & Hnt & [Ha _] & [Hb _]). destruct (Hs2 _ _ Hs) as [Sa Sb].
      cbn [eval] in Hv. destruct (vnum (eval e a)) as [x|] eqn:Ea; [|done].
      cbn in Hv. destruct (vnum (eval e b)) as [y|] eqn:Eb; [|done]. cbn in Hv. injection Hv as <-.
      apply vnum_some in Ea, Eb.
      rewrite (IH a _ ltac:(lia) Ha Sa Ea), (IH b _ ltac:(lia) Hb Sb Eb). done.
    - destruct (good_le a b Hg) as (t & Hnt & [Ha _] & [Hb _]). destruct (Hs2 _ _ Hs) as [Sa Sb].
      cbn [eval] in Hv. destruct (vnum (eval e a)) as [x|] eqn:Ea; [|done].
      cbn in Hv. destruct (vnum (eval e b)) as [y|] eqn:Eb; [|done]. cbn in Hv. injection Hv as <-.
      apply vnum_some in Ea, Eb.
      rewrite (IH a _ ltac:(lia) Ha Sa Ea), (IH b _ ltac:(lia) Hb Sb Eb). done.
    - by destruct Hg as (_ & ? & _).
    - by destruct Hg as (_ & ? & _).
  Qed.
End Scalar.

(** * Index of a variable *)

Lemma index_from_spec vars i x :
  NoDup vars -> forall k, vars !! k = Some x -> index_from i vars x = Some (i + k).
Proof.
  intros Hnd. revert i. induction Hnd as [|v vs Hv Hnd IH]; intros i k Hk; [done|].
  simpl. destruct k as [|k]; simpl in Hk.
  - injection Hk as ->. assert (index_from (S i) vs x = None) as ->.
    { clear -Hv. revert i. induction vs as [|w vs IH]; intros i; [done|]. simpl.
      apply not_elem_of_cons in Hv as [? ?]. rewrite IH by done. by rewrite decide_False. }
    rewrite decide_True by done. f_equal. lia.
  - rewrite (IH (S i) k Hk). f_equal. lia.
Qed.

Lemma index_of_spec vars x : NoDup vars -> x ∈ vars ->
  exists k, vars !! k = Some x /\ index_of vars x = Some k.
Proof.
  intros Hnd Hx. apply elem_of_list_lookup in Hx as [k Hk]. exists k. split; [done|].
  unfold index_of. by rewrite (index_from_spec vars 0 x Hnd k Hk).
Qed.

Lemma as_ty_gives e x t q : t <> TInt -> gives e x q -> as_ty t q = Ok (sym_val e x t).
Proof. intros Ht [H1 H2]. destruct t; simpl; [|subst|]; congruence. Qed.

Lemma plain_syms f x t : plain f = true -> (x, t) ∈ syms f -> t <> TInt.
Proof.
  assert (HL : forall l, Forall (fun f => plain f = true -> (x, t) ∈ syms f -> t <> TInt) l ->
            forallb plain l = true -> (x, t) ∈ concat (map syms l) -> t <> TInt).
  { induction 1 as [|g l Hg Hl IH]; simpl; [intros _ H; by apply elem_of_nil in H|].
    rewrite andb_true_iff, elem_of_app. intros [? ?] [?|?]; auto. }
  induction f using fm_ind'; cbn [plain syms]; intros Hp Hx;
    rewrite ?andb_true_iff in Hp; rewrite ?elem_of_app in Hx; try (by eapply HL); try tauto.
  { apply elem_of_list_singleton in Hx. injection Hx as -> ->.
    rewrite negb_true_iff in Hp. by apply bool_decide_eq_false in Hp. }
  all: by apply elem_of_nil in Hx.
Qed.

Lemma single_ok vars sample e f v :
  NoDup vars -> agrees vars sample e -> over vars f ->
  wf_fm f = true -> plain f = true -> typeof f <> None ->
  eval e f = Some v -> check_single vars sample f = Ok v.
Proof.
  intros Hnd Ha Ho H1 H2 H3 Hv. unfold check_single. eapply scalar_ok; [done|done| |exact Hv].
  intros x t Hx. pose proof (plain_syms _ _ _ H2 Hx) as Ht.
  unfold sample_symbol. destruct (index_of_spec vars x Hnd (Ho _ _ Hx)) as (k & Hk & ->).
  destruct (Ha k x Hk) as (q & Hq & Hg). rewrite Hq. by apply as_ty_gives.
Qed.

Lemma assignment_ok asg e f v :
  assigns asg e f -> wf_fm f = true -> plain f = true -> typeof f <> None ->
  eval e f = Some v -> evaluate_assignment f asg = Ok v.
Proof.
  intros Ha H1 H2 H3 Hv. unfold evaluate_assignment. eapply scalar_ok; [done|done| |exact Hv].
  intros x t Hx. pose proof (plain_syms _ _ _ H2 Hx) as Ht.
  unfold assignment_symbol. rewrite (Ha x t Hx). by destruct t.
Qed.
