(** Proofs about the MiniZinc importer (Minizinc_Model). *)

From Verif Require Import Base Smt Dict Xadd_Model Smtlib_Model Smtlib_Proofs.
From Verif Require Import Minizinc_Model Minizinc_Spec.

Section mexpr_ind.
  Variable P : mexpr -> Prop.
  Hypothesis HBin : forall op l r, P l -> P r -> P (MBin op l r).
  Hypothesis HUn : forall op a, P a -> P (MUn op a).
  Hypothesis HId : forall x, P (MId x).
  Hypothesis HBool : forall b, P (MBool b).
  Hypothesis HInt : forall z, P (MInt z).
  Hypothesis HFloat : forall q, P (MFloat q).
  Hypothesis HIf : forall es, Forall P es -> P (MIf es).
  Hypothesis HTail : forall a, P a -> P (MTail a).
  Hypothesis HOther : P MOther.
  Fixpoint mexpr_ind' (t : mexpr) : P t :=
    match t with
    | MBin op l r => HBin op l r (mexpr_ind' l) (mexpr_ind' r)
    | MUn op a => HUn op a (mexpr_ind' a)
    | MId x => HId x
    | MBool b => HBool b
    | MInt z => HInt z
    | MFloat q => HFloat q
    | MIf es => HIf es ((fix all (l : list mexpr) : Forall P l :=
        match l with [] => Forall_nil_2 P | x :: xs => Forall_cons_2 P x xs (mexpr_ind' x) (all xs) end) es)
    | MTail a => HTail a (mexpr_ind' a)
    | MOther => HOther
    end.
End mexpr_ind.

Lemma bind_ok {A B} (r : Res A) (k : A -> Res B) b : rbind r k = Ok b -> exists a, r = Ok a /\ k a = Ok b.
Proof. destruct r; [|done]. intros H. by eexists. Qed.

(** * Operators *)

(** The value of a visited expression, of the kind its tag says. *)
Definition has (e : env) (a : mval) (v : val) : Prop := eval e (m_value a) = Some v /\ vk v = gk (m_type a).

Lemma to_real_has e a v g : to_real (m_value a) = Ok g -> has e a v -> has e (MV g GFloat (m_var a)) v.
Proof.
  intros H [He Hk]. destruct (to_real_num _ _ H) as (t & Ht & Hn & Hg & Hev). split; cbn.
  - by apply Hev.
  - by rewrite (typeof_kind _ t e v Ht He).
Qed.

Lemma mcast_has e a b va vb a' b' : has e a va -> has e b vb -> mcast a b = Ok (Some (a', b')) ->
  has e a' va /\ has e b' vb /\ m_type a' = m_type b' /\ gk (m_type a) = gk (m_type b).
Proof.
  intros Ha Hb. unfold mcast. destruct (decide (m_type a = m_type b)) as [E|E].
  { intros [= <- <-]. split; [done|]. split; [done|]. split; [done|by rewrite E]. }
  destruct (m_type a) eqn:Ea, (m_type b) eqn:Eb; try done; intros H.
  all: apply bind_ok in H as (x & Hx & H); apply bind_ok in H as (y & Hy & [= <- <-]).
  all: split; [by eapply to_real_has|]; split; [by eapply to_real_has|done].
Qed.

Lemma nums2 e f g a b t : ty_num t = true -> typeof f = Some t -> typeof g = Some t ->
  eval e f = Some a -> eval e g = Some b -> exists x y, a = VN x /\ b = VN y.
Proof.
  intros Ht Hf Hg Ha Hb. pose proof (typeof_kind f t e a Hf Ha) as Ka. pose proof (typeof_kind g t e b Hg Hb) as Kb.
  rewrite Ht in *. destruct a, b; try done. by eexists _, _.
Qed.
Lemma bools2 e f g a b : typeof f = Some TBool -> typeof g = Some TBool ->
  eval e f = Some a -> eval e g = Some b -> exists x y, a = VB x /\ b = VB y.
Proof.
  intros Hf Hg Ha Hb. pose proof (typeof_kind f TBool e a Hf Ha) as Ka. pose proof (typeof_kind g TBool e b Hg Hb) as Kb.
  destruct a, b; try done. by eexists _, _.
Qed.
Lemma typed_two f g : typed (PlusN [f; g]) \/ typed (TimesN [f; g]) \/ typed (MinusN f g) \/ typed (LeN f g) \/ typed (LtN f g) \/ typed (EqN f g) ->
  exists t, ty_num t = true /\ typeof f = Some t /\ typeof g = Some t.
Proof.
  intros H. assert (nary_num (map typeof [f; g]) <> None) as HN.
  { intros E. unfold typed in H. cbn [typeof map] in H, E. rewrite E in H. tauto. }
  destruct (nary_num (map typeof [f; g])) as [t|] eqn:E; [|done].
  pose proof (nary_num_Forall [f; g] t E) as (Ht & _ & HF). exists t.
  inversion HF as [|? ? H1 H2]; subst. inversion H2; subst. done.
Qed.
Lemma typed_bool2 f g : typed (IffN f g) \/ typed (ImpN f g) \/ typed (AndN [f; g]) \/ typed (OrN [f; g]) ->
  typeof f = Some TBool /\ typeof g = Some TBool.
Proof.
  unfold typed. cbn [typeof map]. unfold all_ty. cbn [forallb].
  destruct (bool_decide_reflect (typeof f = Some TBool)); destruct (bool_decide_reflect (typeof g = Some TBool)); cbn; tauto.
Qed.

Lemma eval_mkNot e f b : eval e f = Some (VB b) -> eval e (mkNot f) = Some (VB (negb b)).
Proof.
  intros H. assert (eval e (NotN f) = Some (VB (negb b))) as D by (cbn [eval]; by rewrite H).
  destruct f; try exact D. cbn [mkNot]. cbn [eval] in H. destruct (eval e f) as [[c|]|]; try done. cbn in H. injection H as <-.
  by rewrite negb_involutive.
Qed.

Lemma bin_has e op l r a b v : has e l a -> has e r b -> bin_value op l r = Ok v ->
  exists w, op_means op a b w /\ has e v w.
Proof.
  intros [Ea Ka] [Eb Kb] H. unfold bin_value in H.
  destruct op; try done.
  all: repeat match type of H with rbind _ _ = Ok _ => let x := fresh "u" in let Hx := fresh "Hu" in
      apply bind_ok in H as (x & Hx & H) end; try (injection H as <-).
  all: repeat match goal with Hc : chk _ = Ok _ |- _ => apply chk_ok in Hc as [-> Hc] end.
  (* division *)
  1: { destruct (to_real_num _ _ Hu) as (t & Ht & Hn & Hx & Hxe). destruct (to_real_num _ _ Hu0) as (t' & Ht' & Hn' & Hy & Hye).
       apply Hxe in Ea. apply Hye in Eb. destruct (nums2 e u u0 a b TReal eq_refl Hx Hy Ea Eb) as (x & y & -> & ->).
       unfold mkDiv in Hu1. destruct u0 as [| |q| | | | | | | | | | | | | | | | ]; try done. cbn in Eb. injection Eb as <-.
       destruct (qeq q 0) eqn:Eq; [done|]. apply qeq_false in Eq. apply chk_ok in Hu1 as [-> Hc].
       exists (VN (x / q)). split; [by constructor|]. split; [|done]. cbn [m_value eval]. cbn. rewrite Ea. cbn. do 2 f_equal.
       unfold Qcdiv. ring. }
  all: unfold mkGE, mkGT, mkAnd, mkOr in *.
  1-3, 6-9: (
    assert (exists t, ty_num t = true /\ typeof (m_value l) = Some t /\ typeof (m_value r) = Some t) as (t & Ht & Tl & Tr)
      by (first [by apply typed_two; tauto | destruct (typed_two (m_value r) (m_value l)) as (t & ? & ? & ?); [tauto|by exists t]]);
    destruct (nums2 e _ _ a b t Ht Tl Tr Ea Eb) as (x & y & -> & ->);
    eexists; split; [by constructor|split; [cbn [m_value eval]; cbn; rewrite Ea, Eb; cbn; try done; do 2 f_equal; ring|done]]).
  1: { destruct (typed_two (m_value l) (m_value r)) as (t & Ht & Tl & Tr); [tauto|].
       destruct (nums2 e _ _ a b t Ht Tl Tr Ea Eb) as (x & y & -> & ->).
       eexists; split; [by constructor|]. split; [|done]. cbn [m_value]. apply (eval_mkNot e (EqN (m_value l) (m_value r))). cbn [eval].
       by rewrite Ea, Eb. }
  3: { destruct (typed_bool2 (m_value l) (m_value r)) as [Tl Tr]; [tauto|].
       destruct (bools2 e _ _ a b Tl Tr Ea Eb) as (x & y & -> & ->).
       eexists; split; [by constructor|]. split; [|done]. cbn [m_value].
       rewrite (eval_mkNot e (IffN (m_value l) (m_value r)) (Bool.eqb x y)); [by destruct x, y|]. cbn [eval]. by rewrite Ea, Eb. }
  all: (
    assert (typeof (m_value l) = Some TBool /\ typeof (m_value r) = Some TBool) as [Tl Tr]
      by (first [by apply typed_bool2; tauto | destruct (typed_bool2 (m_value r) (m_value l)) as (? & ?); [tauto|done]]);
    destruct (bools2 e _ _ a b Tl Tr Ea Eb) as (x & y & -> & ->);
    eexists; split; [by constructor|split; [cbn [m_value eval]; cbn; rewrite Ea, Eb; cbn; try done; by destruct x, y|done]]).
Qed.

Lemma un_has e op l a v : has e l a -> un_value op l = Ok v -> exists w, unop_means op a w /\ has e v w.
Proof.
  intros [Ea Ka] H. unfold un_value in H. destruct op.
  - destruct (m_type l) eqn:Et; try done. apply bind_ok in H as (u & Hu & [= <-]). apply chk_ok in Hu as [-> _].
    destruct a as [b|]; [|done]. eexists. split; [constructor|]. split; [|done]. cbn. by apply eval_mkNot.
  - injection H as <-. exists a. split; [constructor|done].
  - destruct (m_type l) eqn:Et; try done; apply bind_ok in H as (u & Hu & [= <-]); apply chk_ok in Hu as [-> _].
    all: destruct a as [|q]; [done|]; eexists; split; [constructor|split; [|done]].
    all: cbn [m_value eval]; cbn; rewrite Ea; cbn; do 2 f_equal; try ring.
    replace (qz (-1)) with (- (1))%Qc by (apply Qc_is_canon; reflexivity). ring.
Qed.

(** * Conditionals *)

Lemma one_ite_has e c t i vc vt vi w : has e c vc -> has e t vt -> has e i vi -> one_ite c t i = Ok w ->
  exists b, vc = VB b /\ has e w (if b then vt else vi).
Proof.
  intros Hc Ht Hi. unfold one_ite. destruct (decide (m_type c = GBool)) as [Ec|]; [|done]. intros H.
  apply bind_ok in H as (te & Hte & H). destruct te as [[t' i']|]; [|done].
  destruct (mcast_has e t i vt vi t' i' Ht Hi Hte) as ([Et' Kt'] & [Ei' Ki'] & Eq & _).
  apply bind_ok in H as (u & Hu & [= <-]). apply chk_ok in Hu as [-> _].
  destruct Hc as [Hc Kc]. rewrite Ec in Kc. destruct vc as [b|]; [|done]. exists b. split; [done|].
  split; [|destruct b; cbn; [done|by rewrite Eq]]. cbn [m_value eval]. rewrite Hc, Et', Ei'. cbn.
  rewrite Eq in Kt'. destruct vt, vi; cbn in *; try congruence; by destruct b.
Qed.

(** [back l v w]: the conditionals of [l] (then, condition, ..., from the end) around a
    rest of value [v] have the value [w]. *)
Inductive back : list val -> val -> val -> Prop :=
| back_nil v : back [] v v
| back_cons (b : bool) t l v w : back l (if b then t else v) w -> back (t :: VB b :: l) v w.

Lemma ite_loop_has e : forall l (vs : list val) i vi w,
  Forall2 (fun (r : Res mval) (v : val) => forall a, r = Ok a -> has e a v) l vs ->
  has e i vi -> ite_loop l i = Ok w -> exists v, back vs vi v /\ has e w v.
Proof.
  fix IH 1. intros l vs i vi w HF Hi H. destruct l as [|t l].
  { inversion HF; subst. injection H as <-. exists vi. split; [constructor|done]. }
  destruct l as [|c l]; [done|]. inversion HF as [|? vt ? vs1 Ht HF1]; subst. inversion HF1 as [|? vc ? vs2 Hc HF2]; subst.
  cbn [ite_loop] in H. apply bind_ok in H as (t' & -> & H). apply bind_ok in H as (c' & -> & H). apply bind_ok in H as (j & Hj & H).
  destruct (one_ite_has e c' t' i vc vt vi j (Hc _ eq_refl) (Ht _ eq_refl) Hi Hj) as (b & -> & Hb).
  destruct (IH l vs2 j _ w HF2 Hb H) as (v & Hv & Hw). exists v. split; [by constructor|done].
Qed.

Lemma back_if vs v w : back vs v w -> forall l, if_means l v -> if_means (rev vs ++ l) w.
Proof.
  intros H. induction H as [v|b t l v w H IH]; intros k Hk; [done|]. cbn [rev]. rewrite <- !app_assoc. cbn [app].
  apply IH. by constructor.
Qed.

Lemma ite_loop_all : forall l i w, ite_loop l i = Ok w -> Forall (fun r : Res mval => exists a, r = Ok a) l.
Proof.
  fix IH 1. intros l i w H. destruct l as [|t l]; [constructor|]. destruct l as [|c l]; [done|].
  cbn [ite_loop] in H. apply bind_ok in H as (t' & -> & H). apply bind_ok in H as (c' & -> & H). apply bind_ok in H as (j & Hj & H).
  constructor; [by eexists|]. constructor; [by eexists|]. by eapply IH.
Qed.
Lemma ite_value_all l w : ite_value l = Ok w -> Forall (fun r : Res mval => exists a, r = Ok a) l.
Proof.
  unfold ite_value. intros H. rewrite <- (rev_involutive l). destruct (rev l) as [|i [|t [|c k]]]; try done.
  apply bind_ok in H as (c' & -> & H). apply bind_ok in H as (t' & -> & H). apply bind_ok in H as (i' & -> & H).
  apply bind_ok in H as (j & Hj & H). apply ite_loop_all in H. apply Forall_rev. repeat (constructor; [by eexists|]). done.
Qed.

Lemma ite_value_has e l (vs : list val) w : Forall2 (fun (r : Res mval) v => forall a, r = Ok a -> has e a v) l vs ->
  ite_value l = Ok w -> exists v, if_means vs v /\ has e w v.
Proof.
  intros HF. unfold ite_value. intros H. apply Forall2_reverse in HF. rewrite !rev_alt, <- !rev_alt in *.
  rewrite <- (rev_involutive vs). unfold reverse in HF. rewrite <- !rev_alt in HF.
  destruct (rev l) as [|i [|t [|c k]]]; try done. inversion HF as [|? vi ? vs1 Hi HF1]; subst.
  inversion HF1 as [|? vt ? vs2 Ht HF2]; subst. inversion HF2 as [|? vc ? vs3 Hc HF3]; subst.
  apply bind_ok in H as (c' & -> & H). apply bind_ok in H as (t' & -> & H). apply bind_ok in H as (i' & -> & H).
  apply bind_ok in H as (j & Hj & H).
  destruct (one_ite_has e c' t' i' vc vt vi j (Hc _ eq_refl) (Ht _ eq_refl) (Hi _ eq_refl) Hj) as (b & -> & Hb).
  destruct (ite_loop_has e k vs3 j _ w HF3 Hb H) as (v & Hv & Hw). exists v. split; [|done].
  cbn [rev]. rewrite <- !app_assoc. cbn [app]. eapply back_if; [exact Hv|]. constructor.
Qed.

(** * Expressions *)

(** The table of variables gives the names the values [rho]. *)
Definition entry_is (e : env) (en : mentry) (v : option val) : Prop :=
  match e_value en with
  | None => v = None
  | Some f => exists w, v = Some w /\ eval e f = Some w /\ vk w = gk (e_type en)
  end.
Definition table_is (e : env) (vars : list (string * mentry)) (rho : string -> option val) : Prop :=
  forall x en, dget vars x = Some en -> entry_is e en (rho x).

Lemma visit_has fl e vars rho : table_is e vars rho ->
  forall t a, visit fl vars t = Ok a -> exists v, means fl rho t v /\ has e a v.
Proof.
  intros HT. induction t as [op l r IHl IHr|op t IH|x|b|z|q|es IH|t IH|] using mexpr_ind'; intros a H; cbn [visit] in H.
  - apply bind_ok in H as (x & Hx & H). apply bind_ok in H as (y & Hy & H). apply bind_ok in H as (xy & Hxy & H).
    destruct (IHl _ Hx) as (vx & Mx & Hvx). destruct (IHr _ Hy) as (vy & My & Hvy).
    destruct xy as [[x' y']|]; [|done]. destruct (mcast_has e x y vx vy x' y' Hvx Hvy Hxy) as (Hx' & Hy' & _).
    destruct (bin_has e op x' y' vx vy a Hx' Hy' H) as (w & Hop & Hw). exists w. split; [by econstructor|done].
  - apply bind_ok in H as (x & Hx & H). destruct (IH _ Hx) as (vx & Mx & Hvx).
    destruct (un_has e op x vx a Hvx H) as (w & Hop & Hw). exists w. split; [by econstructor|done].
  - destruct (dget vars x) as [en|] eqn:Ex; [|done]. pose proof (HT x en Ex) as Hen. unfold entry_is in Hen.
    destruct (e_value en) as [f|]; [|done]. injection H as <-. destruct Hen as (w & Hr & He & Hk). exists w.
    split; [by constructor|by split].
  - injection H as <-. eexists. split; [constructor|by split].
  - injection H as <-. eexists. split; [constructor|by split].
  - injection H as <-. eexists. split; [constructor|by split].
  - assert (exists vs, Forall2 (means fl rho) es vs /\ Forall2 (fun (r : Res mval) v => forall a, r = Ok a -> has e a v) (map (visit fl vars) es) vs)
      as (vs & HM & HF).
    { pose proof (ite_value_all _ _ H) as HA. clear H. induction es as [|t es IHes]; [exists []; split; constructor|].
      inversion IH as [|? ? IH1 IH2]; subst. cbn [map] in HA. inversion HA as [|? ? [x Hx] HA']; subst.
      destruct (IHes IH2 HA') as (vs & HM & HF). destruct (IH1 _ Hx) as (v & Mv & Hv). exists (v :: vs).
      split; [by constructor|]. cbn [map]. constructor; [|done]. intros y Hy. rewrite Hx in Hy. by injection Hy as <-. }
    destruct (ite_value_has e _ vs a HF H) as (v & Hi & Hv). exists v. split; [by econstructor|done].
  - apply bind_ok in H as (x & Hx & H). done.
  - done.
Qed.

Lemma visit_num_visit fl vars t : forall a, visit_num fl vars t = Ok a -> visit fl vars t = Ok a.
Proof.
  induction t as [op l r IHl IHr|op t IH|x|b|z|q|es IH|t IH|] using mexpr_ind'; intros a H; cbn [visit_num] in H; try done.
  - apply bind_ok in H as (x & Hx & H). apply bind_ok in H as (y & Hy & H). apply bind_ok in H as (xy & Hxy & H).
    cbn [visit]. rewrite (IHl _ Hx). cbn. rewrite (IHr _ Hy). cbn. rewrite Hxy. cbn.
    destruct xy as [[x' y']|]; [|done]. by destruct op.
  - apply bind_ok in H as (x & Hx & H). cbn [visit]. rewrite (IH _ Hx). cbn. by destruct op.
Qed.

Definition of_sort (t : ty) : stag := match t with TBool => GBool | TReal => GFloat | TInt => GInt end.

Lemma mcast_type a b a' b' : mcast a b = Ok (Some (a', b')) ->
  m_type a' = (if decide (m_type a = m_type b) then m_type a else GFloat) /\ m_type b' = m_type a'.
Proof.
  unfold mcast. destruct (decide (m_type a = m_type b)) as [E|E]; [by intros [= <- <-]|].
  destruct (m_type a), (m_type b); try done; intros H;
    apply bind_ok in H as (x & Hx & H); apply bind_ok in H as (y & Hy & [= <- <-]); done.
Qed.

Lemma numeral_visit fl vars t : forall g a, numeral_type t = Some g -> visit_num fl vars t = Ok a -> g <> TBool /\ m_type a = of_sort g.
Proof.
  induction t as [op l r IHl IHr|op t IH|x|b|z|q|es IH|t IH|] using mexpr_ind'; intros g a Hg H; cbn [visit_num numeral_type] in H, Hg; try done.
  - destruct (numeral_type l) as [gl|] eqn:El; [|by destruct op]. destruct (numeral_type r) as [gr|] eqn:Er; [|by destruct op, gl].
    apply bind_ok in H as (x & Hx & H). apply bind_ok in H as (y & Hy & H). apply bind_ok in H as (xy & Hxy & H).
    destruct (IHl _ _ eq_refl Hx) as [Nl Tl]. destruct (IHr _ _ eq_refl Hy) as [Nr Tr].
    destruct xy as [[x' y']|]; [|done]. destruct (mcast_type _ _ _ _ Hxy) as [T1 T2]. rewrite Tl, Tr in T1.
    destruct op; try done; cbn [bin_value] in H;
    repeat (match type of H with rbind _ _ = Ok _ => let u := fresh "u" in let Hu := fresh "Hu" in apply bind_ok in H as (u & Hu & H) end);
    injection H as <-; cbn [m_type]; rewrite ?T1; destruct gl, gr; try done; injection Hg as <-; done.
  - apply bind_ok in H as (x & Hx & H). destruct (IH _ _ Hg Hx) as [Nl Tl]. split; [done|]. rewrite <- Tl. destruct op; [done|by injection H as <-|].
    cbn [un_value] in H. destruct (m_type x) eqn:E; try done; by apply bind_ok in H as (u & Hu & [= <-]).
  - by injection Hg as <-; injection H as <-.
  - by injection Hg as <-; injection H as <-.
Qed.

(** * Items *)

Definition known_bool (e : env) (vars : list (string * mentry)) (rho : string -> option val) (b : fm) : Prop :=
  exists x, b = Sym x TBool /\ rho x = Some (VB (eb e x)) /\ is_Some (dget vars x).
Definition known_number (e : env) (vars : list (string * mentry)) (rho : string -> option val)
    (p : fm * (option Qc * option Qc)) : Prop :=
  exists x t, fst p = Sym x t /\ t <> TBool /\ rho x = Some (VN (er e x)) /\ is_Some (dget vars x).
Definition minv (e : env) (rho : string -> option val) (s : mstate) : Prop :=
  table_is e (ms_vars s) rho /\ Forall (known_bool e (ms_vars s) rho) (ms_bools s) /\
  Forall (known_number e (ms_vars s) rho) (ms_reals s).

(** The conjunction of a list of formulas, and the weight of a state. *)
Definition conj_is (e : env) (l : list fm) (b : bool) : Prop :=
  exists bs, Forall2 (fun f b => eval e f = Some (VB b)) l bs /\ b = forallb id bs.
Definition weight_is (e : env) (w : option fm) (q : Qc) : Prop :=
  match w with None => q = 1%Qc | Some w => eval e w = Some (VN q) end.

(** What the items read add to the state. *)
Record delta (e : env) (s : mstate) (o : outcome) (s' : mstate) : Prop := Delta {
  d_bools : ms_bools s' = ms_bools s ++ map (fun x => Sym x TBool) (o_bools o);
  d_reals : exists rs, ms_reals s' = ms_reals s ++ rs /\ Forall2 number_is rs (o_numbers o);
  d_support : forall b, conj_is e (ms_support s) b -> conj_is e (ms_support s') (b && forallb id (o_support o));
  d_weight : forall q, weight_is e (ms_weight s) q -> weight_is e (ms_weight s') (q * qprod (o_weights o));
  d_once : ms_weight s <> None -> ms_weight s' <> None /\ o_weights o = [];
  d_queries : exists qs, ms_queries s' = ms_queries s ++ qs /\
    Forall2 (fun f b => eval e f = Some (VB b)) qs (o_queries o) }.

Definition oapp (o o2 : outcome) : outcome :=
  Out (o_bools o ++ o_bools o2) (o_numbers o ++ o_numbers o2) (o_support o ++ o_support o2)
      (o_weights o ++ o_weights o2) (o_queries o ++ o_queries o2).

Lemma delta_trans e s o1 s1 o2 s2 : delta e s o1 s1 -> delta e s1 o2 s2 -> delta e s (oapp o1 o2) s2.
Proof.
  intros [B1 (r1 & R1 & F1) S1 W1 O1 (q1 & Q1 & G1)] [B2 (r2 & R2 & F2) S2 W2 O2 (q2 & Q2 & G2)]. split; cbn.
  - rewrite B2, B1, map_app. by rewrite app_assoc.
  - exists (r1 ++ r2). rewrite R2, R1, app_assoc. split; [done|by apply Forall2_app].
  - intros b Hb. rewrite forallb_app, andb_assoc. by apply S2, S1.
  - intros q Hq. rewrite qprod_app, Qcmult_assoc. by apply W2, W1.
  - intros H. destruct (O1 H) as [H1 ->]. by apply O2.
  - exists (q1 ++ q2). rewrite Q2, Q1, app_assoc. split; [done|by apply Forall2_app].
Qed.

Definition sim (fl : Qc -> Qc) (e : env) (rho : string -> option val) (s : mstate) (flat : list item) (s' : mstate) : Prop :=
  exists rho' o, minv e rho' s' /\ delta e s o s' /\
    forall rest o2, runs fl e rho' rest o2 -> runs fl e rho (flat ++ rest) (oapp o o2).

Lemma conj_snoc e l f b c : conj_is e l b -> eval e f = Some (VB c) -> conj_is e (l ++ [f]) (b && c).
Proof.
  intros (bs & HF & ->) Hf. exists (bs ++ [c]). split; [apply Forall2_app; [done|by repeat constructor]|].
  rewrite forallb_app. cbn. by rewrite andb_true_r.
Qed.

Definition nothing : outcome := Out [] [] [] [] [].

Lemma set_name_eq rho x v : set_name rho x v x = v.
Proof. unfold set_name. by rewrite decide_True. Qed.
Lemma set_name_ne rho x v y : y <> x -> set_name rho x v y = rho y.
Proof. unfold set_name. intros. by rewrite decide_False. Qed.

Lemma table_set e vars rho x en v : table_is e vars rho -> entry_is e en v -> table_is e (dset vars x en) (set_name rho x v).
Proof.
  intros HT Hen y en' Hy. rewrite dget_dset in Hy. destruct (decide (x = y)) as [->|Hne].
  - injection Hy as <-. by rewrite set_name_eq.
  - rewrite set_name_ne by congruence. by apply HT.
Qed.
Lemma known_bool_set e vars rho x en v b : dget vars x = None -> known_bool e vars rho b -> known_bool e (dset vars x en) (set_name rho x v) b.
Proof.
  intros Hx (y & -> & Hr & Hd). exists y. split; [done|]. assert (y <> x) by (intros ->; rewrite Hx in Hd; by destruct Hd).
  split; [by rewrite set_name_ne|]. rewrite dget_dset. by rewrite decide_False by congruence.
Qed.
Lemma known_number_set e vars rho x en v b : dget vars x = None -> known_number e vars rho b -> known_number e (dset vars x en) (set_name rho x v) b.
Proof.
  intros Hx (y & t & Hb & Ht & Hr & Hd). exists y, t. split; [done|]. split; [done|].
  assert (y <> x) by (intros ->; rewrite Hx in Hd; by destruct Hd).
  split; [by rewrite set_name_ne|]. rewrite dget_dset. by rewrite decide_False by congruence.
Qed.

Section Items.
  Variable fl : Qc -> Qc.
  Variable simp : fm -> fm.
  Hypothesis simp_ok : keeps_value simp.

  Lemma constraint_sim e rho s t s' : minv e rho s -> visit_constraint fl s t = Ok s' -> sim fl e rho s [IConstraint t] s'.
  Proof.
    intros HI H. unfold visit_constraint in H. apply bind_ok in H as (a & Ha & H).
    destruct (decide (m_type a = GBool)) as [E|]; [|done]. injection H as <-.
    destruct (visit_has fl e _ rho (proj1 HI) t a Ha) as (v & Hm & [He Hk]). rewrite E in Hk. destruct v as [b|]; [|done].
    exists rho, (Out [] [] [b] [] []). split; [exact HI|]. split.
    - split; cbn; try (intros; done).
      + by rewrite app_nil_r.
      + exists []. split; [by rewrite app_nil_r|constructor].
      + intros c Hc. rewrite andb_true_r. by apply conj_snoc.
      + intros q Hq. by rewrite Qcmult_1_r.
      + exists []. split; [by rewrite app_nil_r|constructor].
    - intros rest o2 HR. cbn. by apply r_constraint.
  Qed.

  Lemma query_sim e rho s t s' : minv e rho s -> visit_query fl s t = Ok s' -> sim fl e rho s [IQuery t] s'.
  Proof.
    intros HI H. unfold visit_query in H. apply bind_ok in H as (a & Ha & H).
    destruct (decide (m_type a = GBool)) as [E|]; [|done]. injection H as <-.
    destruct (visit_has fl e _ rho (proj1 HI) t a Ha) as (v & Hm & [He Hk]). rewrite E in Hk. destruct v as [b|]; [|done].
    exists rho, (Out [] [] [] [] [b]). split; [exact HI|]. split.
    - split; cbn; try (intros; done).
      + by rewrite app_nil_r.
      + exists []. split; [by rewrite app_nil_r|constructor].
      + intros c Hc. by rewrite andb_true_r.
      + intros q Hq. by rewrite Qcmult_1_r.
      + eexists. split; [done|by repeat constructor].
    - intros rest o2 HR. cbn. by apply r_query.
  Qed.

  Lemma weight_sim e rho s t s' : minv e rho s -> visit_weight fl s t = Ok s' -> sim fl e rho s [IWeight t] s'.
  Proof.
    intros HI H. unfold visit_weight in H. apply bind_ok in H as (a & Ha & H).
    destruct (ms_weight s) eqn:Ew; [done|]. apply bind_ok in H as (f & Hf & [= <-]).
    destruct (visit_has fl e _ rho (proj1 HI) t a Ha) as (v & Hm & Hv).
    assert (exists q, v = VN q /\ eval e f = Some (VN q)) as (q & -> & Hq).
    { destruct Hv as [He Hk]. destruct (m_type a) eqn:E; [done| |].
      - destruct (to_real_num _ _ Hf) as (ty & Ht & Hn & Hx & Hxe). destruct v as [|q]; [done|]. exists q. split; [done|by apply Hxe].
      - injection Hf as <-. destruct v as [|q]; [done|]. by exists q. }
    exists rho, (Out [] [] [] [q] []). split; [exact HI|]. split.
    - split; cbn; try (intros; done).
      + by rewrite app_nil_r.
      + exists []. split; [by rewrite app_nil_r|constructor].
      + intros c Hc. by rewrite andb_true_r.
      + intros r Hr. rewrite Ew in Hr. cbn in Hr. subst r. rewrite Qcmult_1_l. by rewrite Qcmult_1_r.
      + exists []. split; [by rewrite app_nil_r|constructor].
    - intros rest o2 HR. cbn. by apply r_weight.
  Qed.

  Lemma fits_has e var g a v f : has e a v -> fits var g a = Ok f -> eval e f = Some v /\ vk v = gk g.
  Proof.
    intros [He Hk]. unfold fits. destruct (negb var && m_var a); [done|]. destruct (decide (g = m_type a)) as [->|].
    { by intros [= <-]. }
    destruct g, (m_type a); try done. intros H. destruct (to_real_num _ _ H) as (ty & Ht & Hn & Hx & Hxe). split; [by apply Hxe|done].
  Qed.

  Lemma assign_sim e rho s x t s' : minv e rho s -> visit_assign fl simp s x t = Ok s' -> sim fl e rho s [IAssign x t] s'.
  Proof.
    intros (HT & HB & HR) H. unfold visit_assign in H. apply bind_ok in H as (a & Ha & H).
    destruct (dget (ms_vars s) x) as [en|] eqn:Ex; [|done]. destruct (e_value en) eqn:Ee; [done|].
    apply bind_ok in H as (f & Hf & [= <-]).
    destruct (visit_has fl e _ rho HT t a Ha) as (v & Hm & Hv). destruct (fits_has _ _ _ _ _ _ Hv Hf) as [He Hk].
    assert (rho x = None) as Hx by (pose proof (HT x en Ex) as Hen; unfold entry_is in Hen; by rewrite Ee in Hen).
    exists (set_name rho x (Some v)), nothing. split; [split; [|split]|split]; cbn.
    - apply table_set; [done|]. exists v. split; [done|]. split; [by apply simp_ok|done].
    - eapply Forall_impl; [exact HB|]. intros b (y & -> & Hr & Hd). exists y. split; [done|].
      assert (y <> x) by (intros ->; rewrite Hx in Hr; done). split; [by rewrite set_name_ne|].
      rewrite dget_dset. by rewrite decide_False by congruence.
    - eapply Forall_impl; [exact HR|]. intros b (y & ty & Hb & Hty & Hr & Hd). exists y, ty. split; [done|]. split; [done|].
      assert (y <> x) by (intros ->; rewrite Hx in Hr; done). split; [by rewrite set_name_ne|].
      rewrite dget_dset. by rewrite decide_False by congruence.
    - split; cbn; try (intros; done).
      + by rewrite app_nil_r.
      + exists []. split; [by rewrite app_nil_r|constructor].
      + intros c Hc. by rewrite andb_true_r.
      + intros q Hq. by rewrite Qcmult_1_r.
      + exists []. split; [by rewrite app_nil_r|constructor].
    - intros rest o2 Hrun. destruct o2. cbn. by eapply r_assign.
  Qed.

  (** The type of a declaration, for a decision variable [x]. *)
  Lemma type_sim e rho s ty g r x : minv e rho s -> visit_type fl s true ty = Ok (g, r) ->
    (forall lo hi, r = Some (lo, hi) -> exists a b, constant_value (simp lo) = Ok a /\ constant_value (simp hi) = Ok b) ->
    exists v bs ns, declares_var fl e rho x ty v bs ns /\ eval e (Sym x (sort_of g)) = Some v /\ vk v = gk g /\
      bs = (match g with GBool => [x] | _ => [] end) /\
      (gk g = false -> ns = [] /\ r = None) /\
      (gk g = true -> exists t i, ns = [(x, t, i)] /\ (t = None \/ t = Some (sort_of g)) /\
         match r with
         | None => i = (None, None)
         | Some (lo, hi) => forall a b, constant_value (simp lo) = Ok a -> constant_value (simp hi) = Ok b -> i = (Some a, Some b)
         end).
  Proof.
    intros (HT & _) H Hr. destruct ty as [| | | |y|lo hi|]; cbn [visit_type] in H; try done.
    - injection H as <- <-. eexists _, _, _. split; [constructor|]. by split_and!.
    - injection H as <- <-. eexists _, _, _. split; [constructor|]. split_and!; try done. intros _. eexists _, _. split; [done|]. split; [by right|done].
    - injection H as <- <-. eexists _, _, _. split; [constructor|]. split_and!; try done. intros _. eexists _, _. split; [done|]. split; [by right|done].
    - apply bind_ok in H as (a & Ha & H). apply bind_ok in H as (b & Hb & H). apply bind_ok in H as (ab & Hab & H).
      destruct ab as [[a' b']|]; [|done]. destruct (decide (m_type a' = GBool)) as [|Hnb]; [done|]. injection H as <- <-.
      destruct (Hr _ _ eq_refl) as (qa & qb & Ca & Cb).
      destruct (visit_has fl e _ rho HT lo a (visit_num_visit _ _ _ _ Ha)) as (va & Ma & Va).
      destruct (visit_has fl e _ rho HT hi b (visit_num_visit _ _ _ _ Hb)) as (vb & Mb & Vb).
      destruct (mcast_has e a b va vb a' b' Va Vb Hab) as ([Ea' Ka'] & [Eb' Kb'] & Eq & _).
      assert (forall f v q, eval e f = Some v -> constant_value (simp f) = Ok q -> v = VN q) as Hc.
      { intros f v q Hf Hq. apply simp_ok in Hf. destruct (simp f); try done; cbn in Hf, Hq; congruence. }
      pose proof (Hc _ _ _ Ea' Ca) as ->. pose proof (Hc _ _ _ Eb' Cb) as ->.
      assert (gk (m_type a') = true) as Hg by (by rewrite <- Ka').
      exists (VN (er e x)), [], [(x, interval_type lo hi, (Some qa, Some qb))]. split; [by constructor|].
      split; [by destruct (m_type a')|]. split; [by rewrite Hg|]. split; [by destruct (m_type a')|]. split; [by rewrite Hg|].
      intros _. eexists _, _. split; [done|]. split.
      + destruct (interval_type lo hi) as [t|] eqn:Ei; [|by left]. right. f_equal. unfold interval_type in Ei. cbn [numeral_type] in Ei.
        destruct (numeral_type lo) as [tl|] eqn:El; [|done]. destruct (numeral_type hi) as [th|] eqn:Eh; [|by destruct tl].
        destruct (numeral_visit _ _ _ _ _ El Ha) as [Nl Tl]. destruct (numeral_visit _ _ _ _ _ Eh Hb) as [Nh Th].
        destruct (mcast_type _ _ _ _ Hab) as [T1 _]. rewrite Tl, Th in T1. rewrite T1. destruct tl, th; try done; injection Ei as <-; done.
      + intros qa' qb' Ca' Cb'. congruence.
  Qed.

  Lemma decl_sim e rho s var ty x ann t s' : minv e rho s -> visit_decl fl simp s var ty x ann t = Ok s' ->
    sim fl e rho s [IVar var ty x ann t] s'.
  Proof.
    intros HI H. unfold visit_decl in H. apply bind_ok in H as ([g r] & Hty & H). cbn [fst snd] in H.
    destruct ann; [done|]. destruct (dget (ms_vars s) x) eqn:Ex; [done|]. apply bind_ok in H as (f & Hf & H).
    assert (match t with
            | None => f = None
            | Some t => exists h w, f = Some h /\ means fl rho t w /\ eval e h = Some w /\ vk w = gk g
            end) as Hinit.
    { destruct t as [t|]; [|by injection Hf]. apply bind_ok in Hf as (a & Ha & Hf). apply bind_ok in Hf as (h & Hh & [= <-]).
      destruct (visit_has fl e _ rho (proj1 HI) t a Ha) as (v & Hm & Hv). destruct (fits_has _ _ _ _ _ _ Hv Hh) as [He Hk].
      by exists h, v. }
    clear Hf. destruct HI as (HT & HB & HR). destruct var.
    - (* a decision variable *)
      apply bind_ok in H as (reals & Hreals & H). apply bind_ok in H as (sup & Hsup & [= <-]).
      set (y := Sym x (sort_of g)) in *.
      destruct (type_sim e rho s ty g r x (conj HT (conj HB HR)) Hty) as (v & bs & ns & Hdecl & Hy & Hk & Hbs & Hnb & Hnn).
      { intros lo hi ->. apply bind_ok in Hreals as (qa & Ha & Hreals). apply bind_ok in Hreals as (qb & Hb & Hreals). by exists qa, qb. }
      assert (exists rs, reals = ms_reals s ++ rs /\ Forall2 number_is rs ns) as (rs & -> & Hrs).
      { destruct (gk g) eqn:Hg.
        - destruct (Hnn eq_refl) as (tt & i & -> & Htt & Hi).
          assert (dset (ms_reals s) y (None, None) = ms_reals s ++ [(y, (None, None))]) as Hd.
          { apply dset_fresh. intros Hin. unfold dkeys in Hin. apply elem_of_list_fmap in Hin as (p & Hp & Hin).
            rewrite Forall_forall in HR. destruct (HR p Hin) as (z & tz & Hz & _ & _ & Hsome). rewrite <- Hp in Hz. injection Hz as <- <-.
            rewrite Ex in Hsome. by destruct Hsome. }
          assert (forall i', dset (ms_reals s ++ [(y, (None, None))]) y i' = ms_reals s ++ [(y, i')]) as Hd2.
          { intros i'. rewrite <- Hd. assert (y ∉ dkeys (ms_reals s)) as Hy'.
            { intros Hin. unfold dkeys in Hin. apply elem_of_list_fmap in Hin as (p & Hp & Hin).
              rewrite Forall_forall in HR. destruct (HR p Hin) as (z & tz & Hz & _ & _ & Hsome). rewrite <- Hp in Hz. injection Hz as <- <-.
              rewrite Ex in Hsome. by destruct Hsome. }
            clear -Hd Hy'. rewrite Hd. induction (ms_reals s) as [|[k w] l IH]; cbn.
            - by rewrite decide_True.
            - unfold dkeys in *. cbn in Hy'. rewrite decide_False by (intros ->; apply Hy'; by left). f_equal. apply IH.
              + apply dset_fresh. intros Hin. apply Hy'. by right.
              + intros Hin. apply Hy'. by right. }
          assert (sort_of g <> TBool) as Hns by (by destruct g).
          destruct r as [[lo hi]|].
          + apply bind_ok in Hreals as (qa & Ha & Hreals). apply bind_ok in Hreals as (qb & Hb & [= <-]).
            specialize (Hi _ _ Ha Hb). subst i. exists [(y, (Some qa, Some qb))]. split.
            { destruct g; try done; cbn; rewrite Hd; apply Hd2. }
            repeat constructor. cbn. by exists (sort_of g).
          + injection Hreals as <-. exists [(y, (None, None))]. split; [by destruct g|]. subst i.
            repeat constructor. cbn. by exists (sort_of g).
        - destruct (Hnb eq_refl) as [-> ->]. injection Hreals as <-. exists []. split; [destruct g; try done; by rewrite app_nil_r|constructor]. }
      assert (Forall (known_number e (dset (ms_vars s) x (ME (Some y) g true)) (set_name rho x (Some v))) rs) as Hkn.
      { destruct (gk g) eqn:Hg.
        - destruct (Hnn eq_refl) as (tt & i & -> & _). inversion Hrs as [|p ? rs' ? Hp0 Hrs']; subst. destruct Hp0 as (Hi & t' & Hp & Ht' & _). inversion Hrs'; subst.
          constructor; [|constructor]. exists x, t'. split; [done|]. split; [done|]. split.
          { rewrite set_name_eq. unfold y in Hy. destruct g; cbn in Hy; try done; congruence. }
          rewrite dget_dset, decide_True by done. by eexists.
        - destruct (Hnb eq_refl) as [-> _]. inversion Hrs. constructor. }
      exists (set_name rho x (Some v)),
        (Out bs ns (match f with Some h => [bool_decide (eval e h = Some v)] | None => [] end) [] []).
      split; [split; [|split]|split]; cbn [ms_vars ms_bools ms_reals].
      + apply table_set; [done|]. cbn. by exists v.
      + assert (Forall (known_bool e (dset (ms_vars s) x (ME (Some y) g true)) (set_name rho x (Some v))) (ms_bools s)) as HB'.
        { eapply Forall_impl; [exact HB|]. intros b Hb. by apply known_bool_set. }
        destruct g; try done. apply Forall_app. split; [done|]. constructor; [|constructor]. exists x. split; [done|].
        split; [rewrite set_name_eq; unfold y in Hy; cbn in Hy; congruence|]. rewrite dget_dset, decide_True by done. by eexists.
      + apply Forall_app. split; [|done]. eapply Forall_impl; [exact HR|]. intros b Hb. by apply known_number_set.
      + split; cbn [ms_bools ms_reals ms_support ms_weight ms_queries o_bools o_numbers o_support o_weights o_queries].
        * subst bs. destruct g; cbn; by rewrite ?app_nil_r.
        * by exists rs.
        * intros b Hb. destruct f as [h|]; [|injection Hsup as <-; cbn; by rewrite andb_true_r].
          apply bind_ok in Hsup as (q & Hq & [= <-]). apply chk_ok in Hq as [-> _]. cbn. rewrite andb_true_r. apply conj_snoc; [done|].
          destruct t as [t|]; [|done]. destruct Hinit as (h' & w & [= <-] & _ & Hw & Hkw). rewrite Hw.
          assert (bool_decide (Some w = Some v) = bool_decide (w = v)) as -> by (by apply bool_decide_ext; split; congruence).
          unfold mkEqOrIff. unfold y. cbn [typeof]. destruct v as [bv|qv], w as [bw|qw], g; try done; cbn [sort_of eval].
          -- cbn in Hy. injection Hy as Hy. rewrite Hw. cbn. rewrite Hy. do 2 f_equal. destruct bv, bw; done.
          -- cbn in Hy. injection Hy as Hy. rewrite Hw. cbn. rewrite Hy. do 2 f_equal. destruct (qeq qv qw) eqn:E.
             ++ apply qeq_spec in E as ->. by rewrite bool_decide_true.
             ++ apply qeq_false in E. rewrite bool_decide_false; [done|congruence].
          -- cbn in Hy. injection Hy as Hy. rewrite Hw. cbn. rewrite Hy. do 2 f_equal. destruct (qeq qv qw) eqn:E.
             ++ apply qeq_spec in E as ->. by rewrite bool_decide_true.
             ++ apply qeq_false in E. rewrite bool_decide_false; [done|congruence].
        * intros q Hq. cbn. by rewrite Qcmult_1_r.
        * done.
        * exists []. split; [by rewrite app_nil_r|constructor].
      + intros rest o2 Hrun. cbn [app]. unfold oapp. cbn. destruct t as [t|].
        * destruct Hinit as (h & w & -> & Hm & Hw & Hkw). rewrite Hw.
          assert (bool_decide (Some w = Some v) = bool_decide (v = w)) as -> by (by apply bool_decide_ext; split; congruence).
          cbn. by apply r_var_is.
        * subst f. cbn. by apply r_var with v.
    - (* a parameter *)
      injection H as <-.
      exists (set_name rho x (match t with None => None | Some _ => match f with Some h => eval e h | None => None end end)), nothing.
      split; [split; [|split]|split]; cbn.
      + apply table_set; [done|]. destruct t as [t|]; [|by subst f]. destruct Hinit as (h & w & -> & Hm & Hw & Hkw).
        exists w. split; [done|]. split; [by apply simp_ok|done].
      + eapply Forall_impl; [exact HB|]. intros b Hb. by apply known_bool_set.
      + eapply Forall_impl; [exact HR|]. intros b Hb. by apply known_number_set.
      + split; cbn; try (intros; done).
        * by rewrite app_nil_r.
        * exists []. split; [by rewrite app_nil_r|constructor].
        * intros c Hc. by rewrite andb_true_r.
        * intros q Hq. by rewrite Qcmult_1_r.
        * exists []. split; [by rewrite app_nil_r|constructor].
      + intros rest o2 Hrun. destruct o2. cbn. destruct t as [t|].
        * destruct Hinit as (h & w & -> & Hm & Hw & Hkw). rewrite Hw in Hrun. by eapply r_par_is.
        * by apply r_par.
  Qed.

  (** * Includes *)

  Lemma eval_mkAnd_conj e l b : conj_is e l b -> eval e (mkAnd l) = Some (VB b).
  Proof.
    intros (bs & HF & ->). destruct HF as [|f c l cs Hf HF]; [done|]. destruct HF as [|f' c' l cs Hf' HF].
    - cbn. rewrite Hf. by rewrite andb_true_r.
    - cbn [mkAnd eval]. assert (Forall2 (fun g b => eval e g = Some (VB b)) (f :: f' :: l) (c :: c' :: cs)) as HF2 by (by repeat constructor).
      apply mapM_Forall2_vbool in HF2. by rewrite HF2.
  Qed.

  Lemma fold_dset_get {A : Type} (k : A -> string) (g : A -> mentry) l : forall d x en,
    dget (fold_left (fun d b => dset d (k b) (g b)) l d) x = Some en ->
    dget d x = Some en \/ exists b, b ∈ l /\ k b = x /\ en = g b.
  Proof.
    induction l as [|b l IH]; intros d x en H; cbn in H; [by left|]. apply IH in H as [H|(c & Hc & Hk & Hg)].
    - rewrite dget_dset in H. destruct (decide (k b = x)) as [E|].
      + injection H as <-. right. exists b. split; [by left|done].
      + by left.
    - right. exists c. split; [by right|done].
  Qed.
  Lemma fold_dset_mono {A : Type} (k : A -> string) (g : A -> mentry) l : forall d x,
    is_Some (dget d x) -> is_Some (dget (fold_left (fun d b => dset d (k b) (g b)) l d) x).
  Proof.
    induction l as [|b l IH]; intros d x H; cbn; [done|]. apply IH. rewrite dget_dset. by destruct (decide _).
  Qed.
  Lemma fold_dset_in {A : Type} (k : A -> string) (g : A -> mentry) l : forall d b, b ∈ l ->
    is_Some (dget (fold_left (fun d b => dset d (k b) (g b)) l d) (k b)).
  Proof.
    induction l as [|c l IH]; intros d b H; [by apply elem_of_nil in H|]. cbn. apply elem_of_cons in H as [->|H].
    - apply fold_dset_mono. rewrite dget_dset, decide_True by done. by eexists.
    - by apply IH.
  Qed.

  Lemma minit_inv e rho s w : minv e rho s -> minv e rho (minit (ms_bools s) (ms_reals s) w).
  Proof.
    intros (HT & HB & HR). rewrite Forall_forall in HB. rewrite Forall_forall in HR. unfold minit. split; [|split]; cbn.
    - intros x en H. apply fold_dset_get in H as [H|(p & Hp & Hx & ->)].
      + apply fold_dset_get in H as [H|(b & Hb & Hx & ->)]; [done|]. destruct (HB b Hb) as (y & -> & Hy & _). cbn in Hx. subst y.
        exists (VB (eb e x)). by split_and!.
      + destruct (HR p Hp) as (y & t & Hs & Ht & Hy & _). rewrite Hs in Hx. cbn in Hx. subst y.
        exists (VN (er e x)). split; [done|]. split; [|done]. cbn. rewrite Hs. by destruct t.
    - apply Forall_forall. intros b Hb. destruct (HB b Hb) as (x & -> & Hx & _). exists x. split; [done|]. split; [done|].
      apply fold_dset_mono. by apply (fold_dset_in sym_name (fun b => ME (Some b) GBool true) _ [] (Sym x TBool)).
    - apply Forall_forall. intros p Hp. destruct (HR p Hp) as (x & t & Hs & Ht & Hx & _). exists x, t. split; [done|]. split; [done|]. split; [done|].
      assert (x = sym_name (fst p)) as -> by (by rewrite Hs).
      by apply (fold_dset_in (fun p : fm * (option Qc * option Qc) => sym_name (fst p)) (fun p => ME (Some (fst p)) GFloat true)).
  Qed.

  Lemma finish_is e s r b q : finish simp s = Ok r -> conj_is e (ms_support s) b -> weight_is e (ms_weight s) q ->
    eval e (fst r) = Some (VB b) /\ eval e (snd r) = Some (VN q).
  Proof.
    unfold finish. intros H Hb Hq. apply bind_ok in H as (u & Hu & [= <-]). apply chk_ok in Hu as [-> _]. cbn. split.
    - apply simp_ok. by apply eval_mkAnd_conj.
    - apply simp_ok. destruct (ms_weight s); [done|]. cbn in Hq. by subst q.
  Qed.

  Variable files : string -> option (list item).

  Definition step (fuel : nat) (s : mstate) (it : item) : Res mstate :=
    match it with
    | IVar var ty x ann e => visit_decl fl simp s var ty x ann e
    | IAssign x e => visit_assign fl simp s x e
    | IConstraint e => visit_constraint fl s e
    | IWeight e => visit_weight fl s e
    | IQuery e => visit_query fl s e
    | IInclude f =>
        match files f with
        | None => Err FileNotFoundErr
        | Some its =>
            let! t := visit_items fl simp files fuel (minit (ms_bools s) (ms_reals s) (ms_weight s)) its in
            let! r := finish simp t in Ok (include_result s t r)
        end
    | IOther => Err ParsingError
    end.

  Lemma fold_err {A B} (f : A -> B -> Res A) l x : fold_left (fun r it => let! s := r in f s it) l (Err x) = Err x.
  Proof. induction l; cbn; done. Qed.
  Lemma visit_items_cons fuel s it its : visit_items fl simp files (S fuel) s (it :: its) =
    let! s1 := step fuel s it in visit_items fl simp files (S fuel) s1 its.
  Proof.
    cbn [visit_items fold_left]. fold (step fuel). change (let! s0 := Ok s in _) with (step fuel s it).
    destruct (step fuel s it) as [s1|x]; [done|]. cbn [rbind]. apply (fold_err (step fuel)).
  Qed.

  Lemma sim_trans e rho s f1 s1 f2 s2 : sim fl e rho s f1 s1 ->
    (forall rho', minv e rho' s1 -> sim fl e rho' s1 f2 s2) -> sim fl e rho s (f1 ++ f2) s2.
  Proof.
    intros (r1 & o1 & I1 & D1 & R1) H. destruct (H r1 I1) as (r2 & o2 & I2 & D2 & R2).
    exists r2, (oapp o1 o2). split; [done|]. split; [by eapply delta_trans|]. intros rest o3 Ho3.
    replace (oapp (oapp o1 o2) o3) with (oapp o1 (oapp o2 o3)) by (unfold oapp; cbn; by rewrite !app_assoc).
    rewrite <- app_assoc. by apply R1, R2.
  Qed.

  Lemma include_sim e rho s its flat t r : minv e rho s ->
    (forall s0, minv e rho s0 -> s0 = minit (ms_bools s) (ms_reals s) (ms_weight s) -> sim fl e rho s0 flat t) ->
    finish simp t = Ok r -> files its <> None -> (exists q, weight_is e (ms_weight s) q) -> sim fl e rho s flat (include_result s t r).
  Proof.
    intros HI Hsim Hf _ (q0 & Hq0). destruct (Hsim _ (minit_inv e rho s (ms_weight s) HI) eq_refl) as (rho' & o & (T & B & R) & [D1 D2 D3 D4 D5 D6] & Hrun).
    cbn in D1, D2, D3, D4, D5, D6.
    destruct (finish_is e t r (forallb id (o_support o)) (q0 * qprod (o_weights o)) Hf) as [Es Ew].
    { apply (D3 true). exists []. split; [constructor|done]. }
    { by apply D4. }
    exists rho', o. split; [by split|]. split; [|done]. split; cbn.
    - done.
    - done.
    - intros b Hb. by apply conj_snoc.
    - intros q Hq. assert (q = q0) as ->.
      { destruct (ms_weight s); cbn in Hq, Hq0; congruence. }
      destruct (decide (snd r = RealC 1)) as [E|E]; [|done]. rewrite E in Ew. cbn [eval] in Ew.
      assert (q0 * qprod (o_weights o) = 1)%Qc as Ew' by congruence. rewrite Ew'.
      destruct (ms_weight s) as [w|] eqn:Es'; [|done]. destruct D5 as [_ Ho]; [done|]. rewrite Ho in Ew'. cbn in Ew'. rewrite Qcmult_1_r in Ew'.
      by rewrite <- Ew'.
    - intros H. destruct (D5 H) as [_ Ho]. split; [|done]. by destruct (decide _).
    - destruct D6 as (qs & -> & HQ). by exists qs.
  Qed.

  Lemma items_sim fuel : forall s its s', visit_items fl simp files fuel s its = Ok s' ->
    exists flat, expands files its flat /\ forall e rho, minv e rho s -> (exists q, weight_is e (ms_weight s) q) -> sim fl e rho s flat s'.
  Proof.
    induction fuel as [|fuel IHf]; intros s its s' H; [done|]. revert s H. induction its as [|it its IH]; intros s H.
    { injection H as <-. exists []. split; [constructor|]. intros e rho HI _. exists rho, nothing. split; [done|]. split.
      - split; cbn; try done.
        + by rewrite app_nil_r.
        + exists []. split; [by rewrite app_nil_r|constructor].
        + intros c Hc. by rewrite andb_true_r.
        + intros q Hq. by rewrite Qcmult_1_r.
        + exists []. split; [by rewrite app_nil_r|constructor].
      - intros rest o2 Hrun. by destruct o2. }
    rewrite visit_items_cons in H. apply bind_ok in H as (s1 & H1 & H). destruct (IH s1 H) as (flat & Hex & Hsim).
    assert (forall f1, (forall e rho, minv e rho s -> (exists q, weight_is e (ms_weight s) q) -> sim fl e rho s f1 s1) ->
      forall e rho, minv e rho s -> (exists q, weight_is e (ms_weight s) q) -> sim fl e rho s (f1 ++ flat) s') as Hgo.
    { intros f1 Hf1 e rho HI Hw. specialize (Hf1 e rho HI Hw). eapply sim_trans; [exact Hf1|]. intros rho' HI'. apply Hsim; [done|].
      destruct Hf1 as (r1 & o1 & _ & [_ _ _ D4 _ _] & _). destruct Hw as [q Hq]. eexists. by apply D4. }
    destruct it as [var ty x ann t|x t|t|t|t|f|]; cbn [step] in H1; try done.
    1: exists ([IVar var ty x ann t] ++ flat).
    2: exists ([IAssign x t] ++ flat).
    3: exists ([IConstraint t] ++ flat).
    4: exists ([IWeight t] ++ flat).
    5: exists ([IQuery t] ++ flat).
    1-5: split; [by constructor|]; apply Hgo; intros e rho HI _.
    - by apply decl_sim.
    - by apply assign_sim.
    - by apply constraint_sim.
    - by apply weight_sim.
    - by apply query_sim.
    - destruct (files f) as [l|] eqn:Ef; [|done]. apply bind_ok in H1 as (t & Ht & H1). apply bind_ok in H1 as (r & Hr & [= <-]).
      destruct (IHf _ _ _ Ht) as (f1 & Hex1 & Hs1). exists (f1 ++ flat). split; [by econstructor|]. apply Hgo.
      intros e rho HI Hw. eapply (include_sim e rho s f); [done| |exact Hr|by rewrite Ef|done].
      intros s0 HI0 ->. apply Hs1; [done|]. by cbn.
  Qed.

  Theorem parse_meaning fuel its r : parse_minizinc fl simp files fuel its = Ok r ->
    exists flat, expands files its flat /\ forall e, exists o, runs fl e no_names flat o /\
      mi_bools r = map (fun x => Sym x TBool) (o_bools o) /\
      Forall2 number_is (mi_reals r) (o_numbers o) /\
      eval e (mi_support r) = Some (VB (forallb id (o_support o))) /\
      eval e (mi_weight r) = Some (VN (qprod (o_weights o))) /\
      Forall2 (fun f b => eval e f = Some (VB b)) (mi_queries r) (o_queries o).
  Proof.
    unfold parse_minizinc. intros H. apply bind_ok in H as (s & Hs & H). apply bind_ok in H as (p & Hp & [= <-]).
    destruct (items_sim _ _ _ _ Hs) as (flat & Hex & Hsim). exists flat. split; [done|]. intros e.
    destruct (Hsim e no_names) as (rho' & o & _ & [D1 (rs & D2 & D2') D3 D4 _ (qs & D6 & D6')] & Hrun).
    { split; [|split]; [intros x en Hx; done|constructor|constructor]. }
    { by exists 1%Qc. }
    cbn in D1, D2, D6. exists o. split.
    { specialize (Hrun [] nothing (r_nil _ _ _)). rewrite app_nil_r in Hrun.
      replace (oapp o nothing) with o in Hrun; [done|]. destruct o. unfold oapp. cbn. by rewrite !app_nil_r. }
    cbn. split; [done|]. split; [by rewrite D2|].
    destruct (finish_is e s p (forallb id (o_support o)) (1 * qprod (o_weights o)) Hp) as [Es Ew].
    { apply (D3 true). exists []. split; [constructor|done]. }
    { by apply D4. }
    split; [done|]. split; [by rewrite Qcmult_1_l in Ew|]. by rewrite D6.
  Qed.
End Items.

(** * What is accepted *)

Definition exact (a : mval) : Prop := typeof (m_value a) = Some (sort_of (m_type a)).

Lemma sort_num g : num g -> sort_of g <> TBool /\ ty_num (sort_of g) = true.
Proof. by destruct g. Qed.

Lemma to_real_accepts f t : typeof f = Some t -> t <> TBool -> exists h, to_real f = Ok h /\ typeof h = Some TReal.
Proof.
  intros Ht Hn. unfold to_real. rewrite Ht. destruct t; [done|by exists f|].
  assert (typeof (ToRealN f) = Some TReal) as HR by (cbn [typeof]; by rewrite Ht).
  destruct f; eexists; (split; [reflexivity|]); first [exact HR|done].
Qed.

Lemma mcast_accepts a b : exact a -> exact b -> kindred (m_type a) (m_type b) ->
  exists a' b', mcast a b = Ok (Some (a', b')) /\ exact a' /\ exact b' /\
    m_type a' = join (m_type a) (m_type b) /\ m_type b' = join (m_type a) (m_type b) /\ m_var a' = m_var a /\ m_var b' = m_var b.
Proof.
  intros Ha Hb Hk. unfold mcast, join. destruct (decide (m_type a = m_type b)) as [E|E].
  { exists a, b. split_and!; try done. }
  destruct Hk as [|[Na Nb]]; [done|]. unfold exact in *.
  destruct (to_real_accepts _ _ Ha (proj1 (sort_num _ Na))) as (x & Hx & Tx).
  destruct (to_real_accepts _ _ Hb (proj1 (sort_num _ Nb))) as (y & Hy & Ty).
  exists (MV x GFloat (m_var a)), (MV y GFloat (m_var b)). rewrite Hx, Hy.
  destruct (m_type a), (m_type b); try done; by split_and!.
Qed.

Lemma chk_typed f t : typeof f = Some t -> chk f = Ok f.
Proof. unfold chk. by intros ->. Qed.
Lemma typeof_nary2 f g t : typeof f = Some t -> typeof g = Some t -> ty_num t = true -> nary_num [typeof f; typeof g] = Some t.
Proof. intros Hf Hg Ht. apply (nary_num_intro [f; g] t); [done|done|by repeat constructor]. Qed.
Lemma typeof_all2 f g : typeof f = Some TBool -> typeof g = Some TBool -> all_ty TBool [typeof f; typeof g] = true.
Proof. intros Hf Hg. apply (all_ty_Forall TBool [f; g]). by repeat constructor. Qed.

Lemma bin_accepts_num op a b g : exact a -> exact b -> m_type a = g -> m_type b = g -> num g ->
  (op ∈ [OMult; OMinus; OPlus] -> exists v, bin_value op a b = Ok v /\ exact v /\ m_type v = g /\ m_var v = m_var a || m_var b) /\
  (op ∈ [ONq; OGe; OLe; OGt; OLt] -> exists v, bin_value op a b = Ok v /\ exact v /\ m_type v = GBool /\ m_var v = m_var a || m_var b).
Proof.
  unfold exact. intros Ha Hb Ta Tb Hg. rewrite Ta in Ha. rewrite Tb in Hb. destruct (sort_num g Hg) as [_ Hn].
  pose proof (typeof_nary2 _ _ _ Ha Hb Hn) as H1. pose proof (typeof_nary2 _ _ _ Hb Ha Hn) as H2.
  split; intros Hop; rewrite !elem_of_cons, elem_of_nil in Hop; destruct_or? Hop; subst op; cbn [bin_value]; unfold mkGE, mkGT.
  1-3: (rewrite (chk_typed _ (sort_of g)) by (cbn [typeof map]; by rewrite H1); eexists; split; [reflexivity|]; cbn [m_value m_type m_var typeof map];
        rewrite Ta, H1; by split_and!).
  1: { assert (typeof (EqN (m_value a) (m_value b)) = Some TBool) as HE by (cbn [typeof]; by rewrite H1).
       rewrite (chk_typed _ _ HE). cbn [rbind]. pose proof (typeof_mkNot _ HE) as HN. rewrite (chk_typed _ _ HN). eexists. split; [reflexivity|].
       split_and!; [exact HN|done|done]. }
  all: rewrite (chk_typed _ TBool) by (cbn [typeof]; by rewrite ?H1, ?H2); eexists; split; [reflexivity|]; cbn [m_value m_type m_var typeof];
    rewrite ?H1, ?H2; by split_and!.
Qed.

Lemma bin_accepts_bool op a b : exact a -> exact b -> m_type a = GBool -> m_type b = GBool ->
  op ∈ [OEq; OAnd; OXor; OOr; ORimpl; OImpl; OEquiv] ->
  exists v, bin_value op a b = Ok v /\ exact v /\ m_type v = GBool /\ m_var v = m_var a || m_var b.
Proof.
  unfold exact. intros Ha Hb Ta Tb Hop. rewrite Ta in Ha. rewrite Tb in Hb. cbn [sort_of] in *.
  pose proof (typeof_all2 _ _ Ha Hb) as H1.
  assert (typeof (IffN (m_value a) (m_value b)) = Some TBool) as HI by (cbn [typeof]; by rewrite !bool_decide_true).
  rewrite !elem_of_cons, elem_of_nil in Hop; destruct_or? Hop; subst op; cbn [bin_value]; unfold mkAnd, mkOr.
  3: { rewrite (chk_typed _ _ HI). cbn [rbind]. pose proof (typeof_mkNot _ HI) as HN. rewrite (chk_typed _ _ HN). eexists. split; [reflexivity|].
       split_and!; [exact HN|done|done]. }
  all: match goal with |- context [chk ?f] =>
      assert (typeof f = Some TBool) as HT by (cbn [typeof map]; rewrite ?H1; try done; by rewrite !bool_decide_true);
      rewrite (chk_typed _ _ HT) end.
  all: eexists; split; [reflexivity|]; split_and!; [exact HT|done|done].
Qed.

Lemma un_accepts op a : exact a -> (op = UNot -> m_type a = GBool) -> (op <> UNot -> num (m_type a)) ->
  exists v, un_value op a = Ok v /\ exact v /\ m_type v = m_type a /\ m_var v = m_var a.
Proof.
  unfold exact. intros Ha H1 H2. destruct op; cbn [un_value].
  - rewrite (H1 eq_refl) in *. cbn [sort_of] in Ha. pose proof (typeof_mkNot _ Ha) as HN. rewrite (chk_typed _ _ HN).
    eexists. split; [reflexivity|]. by split_and!.
  - exists a. by split_and!.
  - assert (num (m_type a)) as Hn by (by apply H2). destruct (m_type a) eqn:Et; [done| |]; cbn [sort_of] in Ha.
    + pose proof (typeof_nary2 (m_value a) (IntC (-1)) TInt Ha eq_refl eq_refl) as HN.
      rewrite (chk_typed _ TInt) by (cbn [typeof map]; exact HN). eexists. split; [reflexivity|]. split_and!; [exact HN|done|done].
    + pose proof (typeof_nary2 (m_value a) (RealC (- (1))) TReal Ha eq_refl eq_refl) as HN.
      rewrite (chk_typed _ TReal) by (cbn [typeof map]; exact HN). eexists. split; [reflexivity|]. split_and!; [exact HN|done|done].
Qed.

Lemma one_ite_accepts c t i : exact c -> exact t -> exact i -> m_type c = GBool -> kindred (m_type t) (m_type i) ->
  exists v, one_ite c t i = Ok v /\ exact v /\ m_type v = join (m_type t) (m_type i) /\ m_var v = m_var c || m_var t || m_var i.
Proof.
  intros Hc Ht Hi Ec Hk. unfold one_ite. rewrite decide_True by done.
  destruct (mcast_accepts t i Ht Hi Hk) as (t' & i' & -> & Ht' & Hi' & Et & Ei & Vt & Vi). cbn [rbind].
  assert (typeof (IteN (m_value c) (m_value t') (m_value i')) = Some (sort_of (m_type t'))) as HT.
  { unfold exact in *. cbn [typeof]. rewrite Hc, Ht', Hi', Ec, Et, Ei. by rewrite !bool_decide_true. }
  rewrite (chk_typed _ _ HT). eexists. split; [reflexivity|]. split_and!; [exact HT|done|cbn; by rewrite Vt, Vi].
Qed.

Lemma pair_ind {A} (P : list A -> Prop) : P [] -> (forall x, P [x]) -> (forall x y l, P l -> P (x :: y :: l)) -> forall l, P l.
Proof. intros H0 H1 H2. fix IH 1. intros [|x [|y l]]; [exact H0|apply H1|apply H2, IH]. Qed.

Lemma ite_loop_app c t : forall k i j, ite_loop k i = Ok j ->
  ite_loop (k ++ [t; c]) i = (let! t := t in let! c := c in one_ite c t j).
Proof.
  induction k as [|x|t' c' k IH] using pair_ind; intros i j H.
  - injection H as ->. cbn. destruct t as [t|]; [|done]. cbn. destruct c as [c|]; [|done]. cbn. by destruct (one_ite c t j).
  - done.
  - cbn [ite_loop app] in *. apply bind_ok in H as (t1 & -> & H). apply bind_ok in H as (c1 & -> & H).
    apply bind_ok in H as (i1 & H1 & H). cbn [rbind]. rewrite H1. cbn [rbind]. by apply IH.
Qed.
Lemma ite_value_cons c t l j : ite_value l = Ok j -> ite_value (c :: t :: l) = (let! t := t in let! c := c in one_ite c t j).
Proof.
  unfold ite_value. cbn [rev]. intros H. destruct (rev l) as [|e0 [|t0 [|c0 k]]]; try done. cbn [app].
  apply bind_ok in H as (c1 & -> & H). apply bind_ok in H as (t1 & -> & H). apply bind_ok in H as (e1 & -> & H).
  apply bind_ok in H as (i1 & H1 & H). cbn [rbind]. rewrite H1. cbn [rbind]. rewrite <- app_assoc. by apply (ite_loop_app c t k i1 j).
Qed.

(** The table of variables agrees with what is known of the names. *)
Definition entry_knows (en : mentry) (k : known) : Prop :=
  e_type en = k_type k /\ e_var en = k_var k /\
  match e_value en with
  | Some f => k_set k = true /\ typeof f = Some (sort_of (k_type k))
  | None => k_set k = false
  end.
Definition table_knows (vars : list (string * mentry)) (G : ctx) : Prop :=
  forall x, match dget vars x, G x with
            | Some en, Some k => entry_knows en k
            | None, None => True
            | _, _ => False
            end.

Lemma qz_zero z : qz z = 0%Qc -> z = 0%Z.
Proof.
  intros H. apply (f_equal this) in H. unfold qz in H. cbn [this Q2Qc] in H.
  assert (Qred (inject_Z z) == Qred 0)%Q as HH by (by rewrite H). rewrite !Qred_correct in HH. unfold Qeq in HH. cbn in HH. lia.
Qed.

Lemma visit_accepts fl vars G t g : table_knows vars G -> typed_as fl G t g ->
  exists a, visit fl vars t = Ok a /\ exact a /\ m_type a = g /\ (no_vars G t -> m_var a = false).
Proof.
  intros HT H. induction H as [op l r g h Hop Hl IHl Hr IHr Ng Nh|l d g Hl IHl Ng Hd|op l r g h Hop Hl IHl Hr IHr Ng Nh|
    op l r Hop Hl IHl Hr IHr|t Ht IH|op t g Hop Ht IH Ng|x k Hk Hs|b|z|q|c t e g h Hc IHc Ht IHt He IHe Hk|c t es g h Hc IHc Ht IHt He IHe Hk].
  - destruct IHl as (a & Va & Ea & Ta & Na). destruct IHr as (b & Vb & Eb & Tb & Nb). cbn [visit]. rewrite Va, Vb. cbn [rbind].
    destruct (mcast_accepts a b Ea Eb) as (a' & b' & -> & Ea' & Eb' & Ta' & Tb' & Na' & Nb'); [rewrite Ta, Tb; right; done|]. cbn [rbind].
    rewrite Ta, Tb in Ta', Tb'. assert (num (join g h)) as Nj by (unfold join; by destruct (decide (g = h))).
    destruct (proj1 (bin_accepts_num op a' b' _ Ea' Eb' Ta' Tb' Nj) Hop) as (v & Hv & Ev & Tv & Nv). exists v.
    split; [done|]. split; [done|]. split; [done|]. intros Hno. rewrite Nv, Na', Nb'.
    rewrite Na, Nb; [done| |]; intros x k Hx; apply Hno; cbn [names]; apply elem_of_app; tauto.
  - destruct IHl as (a & Va & Ea & Ta & Na). cbn [visit]. rewrite Va. cbn [rbind].
    assert (exists b q, visit fl vars d = Ok b /\ exact b /\ num (m_type b) /\ m_var b = false /\ to_real (m_value b) = Ok (RealC q) /\ q <> 0%Qc)
      as (b & q & Vb & Eb & Nb & Wb & Rb & Hq).
    { destruct d; try done; cbn in Hd.
      - exists (MV (IntC z) GInt false), (qz z). split_and!; try done. intros Hz. apply Hd. by apply qz_zero.
      - exists (MV (RealC (fl q)) GFloat false), (fl q). by split_and!. }
    rewrite Vb. cbn [rbind].
    assert (exists a' b', mcast a b = Ok (Some (a', b')) /\ exact a' /\ num (m_type a') /\ m_var a' = m_var a /\ m_var b' = false /\ to_real (m_value b') = Ok (RealC q))
      as (a' & b' & -> & Ea' & Na' & Wa' & Wb' & Rb').
    { destruct (mcast_accepts a b Ea Eb) as (a' & b' & Hab & Ea' & Eb' & Ta' & Tb' & Wa & Wb'); [rewrite Ta; right; done|].
      exists a', b'. split_and!; try done.
      - rewrite Ta', Ta. unfold join. by destruct (decide _).
      - by rewrite Wb'.
      - unfold mcast in Hab. destruct (decide (m_type a = m_type b)); [by injection Hab as <- <-|].
        destruct (m_type a), (m_type b); try done; apply bind_ok in Hab as (x & Hx & Hab); apply bind_ok in Hab as (y & Hy & [= <- <-]);
        rewrite Rb in Hy; injection Hy as <-; done. }
    cbn [rbind bin_value]. destruct (to_real_accepts _ _ Ea' (proj1 (sort_num _ Na'))) as (x & -> & Tx). cbn [rbind]. rewrite Rb'. cbn [rbind mkDiv].
    assert (qeq q 0 = false) as -> by (by apply qeq_false).
    pose proof (typeof_nary2 x (RealC (1 / q)) TReal Tx eq_refl eq_refl) as HN.
    rewrite (chk_typed _ TReal) by (cbn [typeof map]; exact HN). cbn [rbind]. eexists. split; [reflexivity|]. split; [exact HN|]. split; [done|].
    cbn. intros Hno. rewrite Wa', Wb', orb_false_r. apply Na. intros y k Hy. apply Hno. cbn. apply elem_of_app. by left.
  - destruct IHl as (a & Va & Ea & Ta & Na). destruct IHr as (b & Vb & Eb & Tb & Nb). cbn [visit]. rewrite Va, Vb. cbn [rbind].
    destruct (mcast_accepts a b Ea Eb) as (a' & b' & -> & Ea' & Eb' & Ta' & Tb' & Na' & Nb'); [rewrite Ta, Tb; right; done|]. cbn [rbind].
    rewrite Ta, Tb in Ta', Tb'. assert (num (join g h)) as Nj by (unfold join; by destruct (decide (g = h))).
    destruct (proj2 (bin_accepts_num op a' b' _ Ea' Eb' Ta' Tb' Nj) Hop) as (v & Hv & Ev & Tv & Nv). exists v.
    split; [done|]. split; [done|]. split; [done|]. intros Hno. rewrite Nv, Na', Nb'.
    rewrite Na, Nb; [done| |]; intros x k Hx; apply Hno; cbn [names]; apply elem_of_app; tauto.
  - destruct IHl as (a & Va & Ea & Ta & Na). destruct IHr as (b & Vb & Eb & Tb & Nb). cbn [visit]. rewrite Va, Vb. cbn [rbind].
    unfold mcast. rewrite decide_True by congruence. cbn [rbind].
    destruct (bin_accepts_bool op a b Ea Eb Ta Tb Hop) as (v & Hv & Ev & Tv & Nv). exists v.
    split; [done|]. split; [done|]. split; [done|]. intros Hno. rewrite Nv.
    rewrite Na, Nb; [done| |]; intros x k Hx; apply Hno; cbn [names]; apply elem_of_app; tauto.
  - destruct IH as (a & Va & Ea & Ta & Na). cbn [visit]. rewrite Va. cbn [rbind].
    destruct (un_accepts UNot a Ea) as (v & Hv & Ev & Tv & Nv); [done|done|]. exists v. rewrite Tv, Nv. by split_and!.
  - destruct IH as (a & Va & Ea & Ta & Na). cbn [visit]. rewrite Va. cbn [rbind].
    destruct (un_accepts op a Ea) as (v & Hv & Ev & Tv & Nv); [done|by rewrite Ta|]. exists v. rewrite Tv, Nv. by split_and!.
  - cbn [visit]. pose proof (HT x) as Hx. rewrite Hk in Hx. destruct (dget vars x) as [en|]; [|done]. destruct Hx as (Hty & Hv & Hf).
    destruct (e_value en) as [f|]; [|congruence]. destruct Hf as [_ Hf]. eexists. split; [reflexivity|]. split.
    { unfold exact. cbn. by rewrite Hty. }
    split; [done|]. cbn. rewrite Hv. intros Hno. apply (Hno x k); [by left|done].
  - eexists. split; [reflexivity|]. by split_and!.
  - eexists. split; [reflexivity|]. by split_and!.
  - eexists. split; [reflexivity|]. by split_and!.
  - destruct IHc as (c' & Vc & Ec & Tc & Nc). destruct IHt as (t' & Vt & Et & Tt & Nt). destruct IHe as (e' & Ve & Ee & Te & Ne).
    cbn [visit map]. unfold ite_value. cbn [rev app]. rewrite Vc, Vt, Ve. cbn [rbind].
    destruct (one_ite_accepts c' t' e' Ec Et Ee Tc) as (v & Hv & Ev & Tv & Nv); [by rewrite Tt, Te|]. rewrite Hv. cbn [rbind ite_loop].
    exists v. split; [done|]. split; [done|]. split; [by rewrite Tv, Tt, Te|]. intros Hno. rewrite Nv, Nc, Nt, Ne; [done|..].
    all: intros x k Hx; apply Hno; cbn [names map concat]; rewrite !elem_of_app; tauto.
  - destruct IHc as (c' & Vc & Ec & Tc & Nc). destruct IHt as (t' & Vt & Et & Tt & Nt). destruct IHe as (e' & Ve & Ee & Te & Ne).
    cbn [visit map] in Ve |- *. rewrite (ite_value_cons _ _ _ _ Ve). rewrite Vc, Vt. cbn [rbind].
    destruct (one_ite_accepts c' t' e' Ec Et Ee Tc) as (v & Hv & Ev & Tv & Nv); [by rewrite Tt, Te|]. rewrite Hv.
    exists v. split; [done|]. split; [done|]. split; [by rewrite Tv, Tt, Te|]. intros Hno. rewrite Nv, Nc, Nt, Ne; [done|..].
    all: intros x k Hx; apply Hno; cbn [names map concat]; rewrite !elem_of_app; tauto.
Qed.

(** Endpoints of intervals. *)
Lemma numeral_typed t : numeral t -> exists g, numeral_type t = Some g /\ g <> TBool.
Proof.
  induction t as [op l r IHl IHr|op t IH|x|b|z|q|es IH|t IH|] using mexpr_ind'; cbn [numeral numeral_type]; try done.
  - intros (Hop & Hl & Hr). destruct (IHl Hl) as (g & -> & Ng). destruct (IHr Hr) as (h & -> & Nh).
    destruct op, g, h; try done; by eexists.
  - intros (_ & Ht). by apply IH.
  - by exists TInt.
  - by exists TReal.
Qed.

Lemma to_real_closed f h : to_real f = Ok h -> free_vars f = [] -> free_vars h = [].
Proof.
  unfold to_real. destruct (typeof f) as [[]|]; try done; [by intros [= <-]|].
  intros H Hf. destruct f; injection H as <-; cbn [free_vars]; done.
Qed.

Lemma numeral_accepts fl vars t : numeral t -> exists a, visit_num fl vars t = Ok a /\ exact a /\ num (m_type a) /\ free_vars (m_value a) = [].
Proof.
  induction t as [op l r IHl IHr|op t IH|x|b|z|q|es IH|t IH|] using mexpr_ind'; cbn [numeral]; try done.
  - intros (Hop & Hl & Hr). destruct (IHl Hl) as (a & Va & Ea & Na & Fa). destruct (IHr Hr) as (b & Vb & Eb & Nb & Fb).
    cbn [visit_num]. rewrite Va, Vb. cbn [rbind].
    destruct (mcast_accepts a b Ea Eb) as (a' & b' & Hab & Ea' & Eb' & Ta' & Tb' & _); [right; done|]. rewrite Hab. cbn [rbind].
    assert (free_vars (m_value a') = [] /\ free_vars (m_value b') = []) as [Fa' Fb'].
    { unfold mcast in Hab. destruct (decide _); [by injection Hab as <- <-|].
      destruct (m_type a), (m_type b); try done; apply bind_ok in Hab as (x & Hx & Hab); apply bind_ok in Hab as (y & Hy & [= <- <-]);
      cbn; split; by eapply to_real_closed. }
    assert (num (join (m_type a) (m_type b))) as Nj by (unfold join; by destruct (decide (m_type a = m_type b))).
    destruct (proj1 (bin_accepts_num op a' b' _ Ea' Eb' Ta' Tb' Nj) Hop) as (v & Hv & Ev & Tv & _). exists v.
    split; [|split; [done|]; split; [by rewrite Tv|]].
    + rewrite !elem_of_cons, elem_of_nil in Hop; destruct_or? Hop; by subst op.
    + rewrite !elem_of_cons, elem_of_nil in Hop; destruct_or? Hop; subst op; cbn [bin_value] in Hv; apply bind_ok in Hv as (u & Hu & [= <-]);
      apply chk_ok in Hu as [-> _]; cbn [m_value free_vars map concat]; by rewrite Fa', Fb'.
  - intros (Hop & Ht). destruct (IH Ht) as (a & Va & Ea & Na & Fa). cbn [visit_num]. rewrite Va. cbn [rbind].
    destruct (un_accepts op a Ea) as (v & Hv & Ev & Tv & _); [done|done|]. exists v. destruct op; [done| |].
    + split; [done|]. injection Hv as <-. done.
    + split; [done|]. split; [done|]. split; [by rewrite Tv|]. cbn [un_value] in Hv.
      destruct (m_type a); try done; apply bind_ok in Hv as (u & Hu & [= <-]); apply chk_ok in Hu as [-> _];
      cbn [m_value free_vars map concat]; by rewrite Fa.
  - intros _. eexists. split; [reflexivity|]. by split_and!.
  - intros _. eexists. split; [reflexivity|]. by split_and!.
Qed.

Section Accepts.
  Variable fl : Qc -> Qc.
  Variable simp : fm -> fm.
  Hypothesis simp_type : keeps_type simp.
  Hypothesis simp_folds : folds simp.
  Variable files : string -> option (list item).

  Lemma constant_accepts a : exact a -> num (m_type a) -> free_vars (m_value a) = [] -> exists q, constant_value (simp (m_value a)) = Ok q.
  Proof.
    intros Ea Na Fa. destruct (sort_num _ Na) as [Hn _]. pose proof (simp_folds _ _ Fa Ea Hn) as Hc.
    pose proof (simp_type _ _ Ea) as Ht. destruct (simp (m_value a)); try done; cbn in *; try (by eexists).
    destruct (m_type a); done.
  Qed.

  Lemma type_accepts s ty g : var_type ty g -> exists r, visit_type fl s true ty = Ok (g, r) /\
    match r with
    | None => True
    | Some (lo, hi) => num g /\ exists a b, constant_value (simp lo) = Ok a /\ constant_value (simp hi) = Ok b
    end.
  Proof.
    intros H. destruct H as [| | |lo hi Hlo Hhi]; try (eexists; split; [reflexivity|done]).
    cbn [visit_type]. destruct (numeral_accepts fl (ms_vars s) lo Hlo) as (a & Va & Ea & Na & Fa).
    destruct (numeral_accepts fl (ms_vars s) hi Hhi) as (b & Vb & Eb & Nb & Fb). rewrite Va, Vb. cbn [rbind].
    destruct (mcast_accepts a b Ea Eb) as (a' & b' & Hab & Ea' & Eb' & Ta' & Tb' & _); [right; done|]. rewrite Hab. cbn [rbind].
    assert (free_vars (m_value a') = [] /\ free_vars (m_value b') = []) as [Fa' Fb'].
    { unfold mcast in Hab. destruct (decide _); [by injection Hab as <- <-|].
      destruct (m_type a), (m_type b); try done; apply bind_ok in Hab as (x & Hx & Hab); apply bind_ok in Hab as (y & Hy & [= <- <-]);
      cbn; split; by eapply to_real_closed. }
    assert (num (join (m_type a) (m_type b))) as Nj by (unfold join; by destruct (decide (m_type a = m_type b))).
    rewrite decide_False by (rewrite Ta'; exact Nj).
    assert (m_type a' = match interval_type lo hi with Some TInt => GInt | _ => GFloat end) as ->.
    { rewrite Ta'. unfold interval_type. cbn [numeral_type]. destruct (numeral_typed lo Hlo) as (gl & El & Nl). destruct (numeral_typed hi Hhi) as (gh & Eh & Nh).
      destruct (numeral_visit _ _ _ _ _ El Va) as [_ ->]. destruct (numeral_visit _ _ _ _ _ Eh Vb) as [_ ->]. rewrite El, Eh. by destruct gl, gh. }
    eexists. split; [reflexivity|]. split; [by destruct (interval_type lo hi) as [[]|]|].
    destruct (constant_accepts a' Ea' ltac:(by rewrite Ta') Fa') as (x & Hx). destruct (constant_accepts b' Eb' ltac:(by rewrite Tb') Fb') as (y & Hy).
    by exists x, y.
  Qed.

  Lemma fits_accepts var g a : exact a -> accepts g (m_type a) -> (var = false -> m_var a = false) ->
    exists f, fits var g a = Ok f /\ typeof f = Some (sort_of g).
  Proof.
    intros Ea Hacc Hv. unfold fits. assert (negb var && m_var a = false) as -> by (destruct var; [done|by rewrite (Hv eq_refl)]).
    destruct (decide (g = m_type a)) as [->|Hne]; [by eexists|]. destruct Hacc as [|[-> Hi]]; [done|]. unfold exact in Ea. rewrite Hi in *.
    destruct (to_real_accepts _ _ Ea) as (h & -> & Th); [done|]. by exists h.
  Qed.

  Lemma table_knows_set vars G x en k : table_knows vars G -> entry_knows en k -> table_knows (dset vars x en) (set_ctx G x k).
  Proof.
    intros HT Hk y. rewrite dget_dset. unfold set_ctx. destruct (decide (x = y)) as [->|Hne].
    - by rewrite decide_True.
    - rewrite decide_False by congruence. apply HT.
  Qed.

  (** The invariant: the table, and booleans as support. *)
  Definition ready (s : mstate) (G : ctx) (weighted : bool) : Prop :=
    table_knows (ms_vars s) G /\ Forall (fun f => typeof f = Some TBool) (ms_support s) /\
    (weighted = false -> ms_weight s = None).

  Lemma items_accepted fuel G weighted its : well_typed fl G weighted its ->
    forall s, ready s G weighted -> exists s', visit_items fl simp files (S fuel) s its = Ok s' /\
      Forall (fun f => typeof f = Some TBool) (ms_support s').
  Proof.
    intros H. induction H as [G w|G w ty g x its Hty Hx Hrest IH|G w ty g x t h its Hty Hx Ht Hacc Hrest IH|
      G w ty g x its Hty Hx Hrest IH|G w ty g x t h its Hty Hx Ht Hno Hacc Hrest IH|G w g x t h its Hx Ht Hno Hacc Hrest IH|
      G w t its Ht Hrest IH|G t g its Ht Hg Hrest IH|G w t its Ht Hrest IH]; intros s (HT & HS & HW).
    - exists s. by split.
    - rewrite visit_items_cons. cbn [step]. unfold visit_decl. destruct (type_accepts s ty g Hty) as (r & -> & Hr). cbn [rbind fst snd].
      pose proof (HT x) as Hx'. rewrite Hx in Hx'. destruct (dget (ms_vars s) x) eqn:Ex; [done|].
      cbn [rbind]. destruct r as [[lo hi]|].
      + destruct Hr as (Ng & a & b & -> & ->). cbn [rbind]. apply IH. split; [|by split]. cbn. apply table_knows_set; [done|]. by split_and!.
      + cbn [rbind]. apply IH. split; [|by split]. cbn. apply table_knows_set; [done|]. by split_and!.
    - rewrite visit_items_cons. cbn [step]. unfold visit_decl. destruct (type_accepts s ty g Hty) as (r & -> & Hr). cbn [rbind fst snd].
      pose proof (HT x) as Hx'. rewrite Hx in Hx'. destruct (dget (ms_vars s) x) eqn:Ex; [done|].
      destruct (visit_accepts fl _ _ _ _ HT Ht) as (a & -> & Ea & Ta & _). cbn [rbind].
      destruct (fits_accepts true g a Ea) as (f & -> & Tf); [by rewrite Ta|done|]. cbn [rbind].
      assert (typeof (mkEqOrIff (Sym x (sort_of g)) f) = Some TBool) as HE.
      { unfold mkEqOrIff. cbn [typeof]. destruct g; cbn [sort_of] in *.
        - cbn [typeof]. rewrite Tf. by rewrite !bool_decide_true.
        - cbn [typeof]. rewrite Tf. done.
        - cbn [typeof]. rewrite Tf. done. }
      assert (Forall (fun f => typeof f = Some TBool) (ms_support s ++ [mkEqOrIff (Sym x (sort_of g)) f])) as HS'.
      { apply Forall_app. split; [done|by repeat constructor]. }
      destruct r as [[lo hi]|].
      + destruct Hr as (Ng & a1 & b1 & -> & ->). cbn [rbind]. rewrite (chk_typed _ _ HE). cbn [rbind].
        apply IH. split; [|by split]. cbn. apply table_knows_set; [done|]. by split_and!.
      + cbn [rbind]. rewrite (chk_typed _ _ HE). cbn [rbind]. apply IH. split; [|by split]. cbn. apply table_knows_set; [done|]. by split_and!.
    - rewrite visit_items_cons. cbn [step]. unfold visit_decl.
      assert (visit_type fl s false ty = Ok (g, None)) as -> by (by destruct Hty). cbn [rbind fst snd].
      pose proof (HT x) as Hx'. rewrite Hx in Hx'. destruct (dget (ms_vars s) x) eqn:Ex; [done|]. cbn [rbind].
      apply IH. split; [|by split]. cbn. apply table_knows_set; [done|]. by split_and!.
    - rewrite visit_items_cons. cbn [step]. unfold visit_decl.
      assert (visit_type fl s false ty = Ok (g, None)) as -> by (by destruct Hty). cbn [rbind fst snd].
      pose proof (HT x) as Hx'. rewrite Hx in Hx'. destruct (dget (ms_vars s) x) eqn:Ex; [done|]. cbn [rbind].
      destruct (visit_accepts fl _ _ _ _ HT Ht) as (a & -> & Ea & Ta & Va). cbn [rbind].
      destruct (fits_accepts false g a Ea) as (f & -> & Tf); [by rewrite Ta|by auto|]. cbn [rbind].
      apply IH. split; [|by split]. cbn. apply table_knows_set; [done|]. split_and!; [done|done|]. cbn. split; [done|by apply simp_type].
    - rewrite visit_items_cons. cbn [step]. unfold visit_assign.
      destruct (visit_accepts fl _ _ _ _ HT Ht) as (a & -> & Ea & Ta & Va). cbn [rbind].
      pose proof (HT x) as Hx'. rewrite Hx in Hx'. destruct (dget (ms_vars s) x) as [en|] eqn:Ex; [|done].
      destruct Hx' as (Hty & Hv & Hval). destruct (e_value en); [by destruct Hval|].
      cbn in Hty, Hv. rewrite Hv, Hty.
      destruct (fits_accepts false g a Ea) as (f & -> & Tf); [by rewrite Ta|by auto|]. cbn [rbind].
      apply IH. split; [|by split]. cbn. apply table_knows_set; [done|]. split_and!; [done|done|]. cbn. split; [done|by apply simp_type].
    - rewrite visit_items_cons. cbn [step]. unfold visit_constraint.
      destruct (visit_accepts fl _ _ _ _ HT Ht) as (a & -> & Ea & Ta & Va). cbn [rbind]. rewrite decide_True by done.
      apply IH. split; [done|]. split; [|done]. cbn. apply Forall_app. split; [done|]. repeat constructor. unfold exact in Ea. by rewrite Ta in Ea.
    - rewrite visit_items_cons. cbn [step]. unfold visit_weight.
      destruct (visit_accepts fl _ _ _ _ HT Ht) as (a & -> & Ea & Ta & Va). cbn [rbind]. rewrite (HW eq_refl).
      assert (exists f, match m_type a with GFloat => Ok (m_value a) | GInt => to_real (m_value a) | GBool => Err ParsingError end = Ok f) as (f & ->).
      { unfold exact in Ea. rewrite Ta in *. destruct g; [done| |by eexists]. destruct (to_real_accepts _ _ Ea) as (f & Hf & _); [done|]. by exists f. }
      cbn [rbind]. apply IH. by split.
    - rewrite visit_items_cons. cbn [step]. unfold visit_query.
      destruct (visit_accepts fl _ _ _ _ HT Ht) as (a & -> & Ea & Ta & Va). cbn [rbind]. rewrite decide_True by done.
      apply IH. by split.
  Qed.

  Theorem parse_accepts fuel its : well_typed fl no_ctx false its -> exists r, parse_minizinc fl simp files (S fuel) its = Ok r.
  Proof.
    intros H. destruct (items_accepted fuel _ _ _ H (minit [] [] None)) as (s & Hs & HS).
    { split; [|split]; [intros x; done|constructor|done]. }
    unfold parse_minizinc. rewrite Hs. cbn [rbind]. unfold finish.
    assert (typeof (mkAnd (ms_support s)) = Some TBool) as HA.
    { destruct (ms_support s) as [|f [|f' l]]; [done|by inversion HS|]. cbn [mkAnd typeof].
      rewrite (proj2 (all_ty_Forall TBool (f :: f' :: l)) HS). done. }
    rewrite (chk_typed _ _ HA). cbn. by eexists.
  Qed.
End Accepts.

(** * Uniqueness *)

Lemma op_means_unique op a b v v' : op_means op a b v -> op_means op a b v' -> v = v'.
Proof. intros H1 H2. destruct H1; inversion H2; subst; done. Qed.
Lemma unop_means_unique op a v v' : unop_means op a v -> unop_means op a v' -> v = v'.
Proof. intros H1 H2. destruct H1; inversion H2; subst; done. Qed.
Lemma if_means_length l v : if_means l v -> (3 <= length l)%nat.
Proof. intros H. induction H; cbn in *; lia. Qed.
Lemma if_means_unique l v : if_means l v -> forall v', if_means l v' -> v = v'.
Proof.
  intros H. induction H as [b v w|b v l w H IH]; intros v' H'; inversion H'; subst; try done.
  - match goal with X : if_means [_] _ |- _ => apply if_means_length in X; cbn in X; lia end.
  - apply if_means_length in H. cbn in H. lia.
  - by rewrite (IH _ ltac:(eassumption)).
Qed.
Lemma means_unique fl rho t : forall v v', means fl rho t v -> means fl rho t v' -> v = v'.
Proof.
  induction t as [op l r IHl IHr|op t IH|x|b|z|q|es IH|t IH|] using mexpr_ind'; intros v v' H1 H2; inversion H1; inversion H2; subst; try congruence.
  - match goal with A : means _ _ l ?a, B : means _ _ l ?b |- _ => pose proof (IHl _ _ A B) as -> end.
    match goal with A : means _ _ r ?a, B : means _ _ r ?b |- _ => pose proof (IHr _ _ A B) as -> end. by eapply op_means_unique.
  - match goal with A : means _ _ t ?a, B : means _ _ t ?b |- _ => pose proof (IH _ _ A B) as -> end. by eapply unop_means_unique.
  - match goal with A : Forall2 (means fl rho) es ?x, B : Forall2 (means fl rho) es ?y |- _ =>
      assert (x = y) as -> by (clear -IH A B; revert x y A B; induction es as [|t es IHes]; intros x y A B; inversion A; inversion B; subst; [done|];
        inversion IH as [|? ? I1 I2]; subst; f_equal; [by eapply I1|by eapply IHes]) end.
    by eapply if_means_unique.
Qed.

Lemma expands_unique files its flat : expands files its flat -> forall flat', expands files its flat' -> flat = flat'.
Proof.
  intros H. induction H as [|f its l1 rest l2 Hf H1 IH1 H2 IH2|it rest l Hn H IH]; intros flat' H'; inversion H'; subst; try done.
  - match goal with A : files f = Some ?x, B : files f = Some ?y |- _ => assert (x = y) as -> by congruence end. f_equal; [by apply IH1|by apply IH2].
  - match goal with A : forall f', IInclude f <> IInclude f' |- _ => by destruct (A f) end.
  - by destruct (Hn f).
  - f_equal. by apply IH.
Qed.

Lemma declares_var_unique fl e rho x ty v bs ns v' bs' ns' : declares_var fl e rho x ty v bs ns -> declares_var fl e rho x ty v' bs' ns' ->
  v = v' /\ bs = bs' /\ ns = ns'.
Proof.
  intros H1 H2. destruct H1; inversion H2; subst; try done.
  match goal with A : means _ _ lo (VN ?a), B : means _ _ lo (VN ?b) |- _ => pose proof (means_unique _ _ _ _ _ A B) as E1 end.
  match goal with A : means _ _ hi (VN ?a), B : means _ _ hi (VN ?b) |- _ => pose proof (means_unique _ _ _ _ _ A B) as E2 end.
  injection E1 as E1. split_and!; congruence.
Qed.

Lemma runs_unique fl e rho its o : runs fl e rho its o -> forall o', runs fl e rho its o' -> o = o'.
Proof.
  intros H. induction H; intros o' H'; inversion H'; subst; try done.
  all: repeat match goal with
    | A : declares_var _ _ _ ?x ?ty ?v ?bs ?ns, B : declares_var _ _ _ ?x ?ty ?v' ?bs' ?ns' |- _ =>
        first [constr_eq A B; fail 1|destruct (declares_var_unique _ _ _ _ _ _ _ _ _ _ _ A B) as (? & ? & ?); clear B; subst]
    | A : means _ _ ?t ?v, B : means _ _ ?t ?v' |- _ => lazymatch v with v' => fail | _ => pose proof (means_unique _ _ _ _ _ A B); clear B end
    end; simplify_eq; try congruence.
  all: try (match goal with IH : forall o', runs _ _ _ _ o' -> _ = o', R : runs _ _ _ _ ?o1 |- _ => pose proof (IH o1 R); subst end); try done.
Qed.
