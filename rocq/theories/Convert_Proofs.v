(** Proofs about importing densities. *)

From Coq Require Import DecimalString.
From Verif Require Import Base Dict Smt Parse_Model Domain_Model Domain_Spec Domain_Proofs Files_Proofs Xadd_Model Cli_Model.
From Verif Require Smtlib_Model Smtlib_Spec Smtlib_Props.
From Verif Require Import Minizinc_Model Minizinc_Spec Minizinc_Proofs Minizinc_Props Convert_Model Convert_Spec.

(** * Domains *)

Lemma made_over bools reals : NoDup (bools ++ map fst reals) ->
  exists d, make (Some bools) (Some (RDict (set_all [] reals))) None None = Ok d /\ over d bools reals /\ d_vars d = bools ++ map fst reals.
Proof.
  intros H. assert (set_all [] reals = reals) as -> by (rewrite dset_all_fresh; [done|]; by apply NoDup_app in H as (_ & _ & H)).
  destruct (make_dict_wf bools reals H) as (d & E & W & Hv & Hd & Hb). exists d. split; [done|]. split; [|done]. split; [done|]. split; [by rewrite Hb|]. split.
  - intros x. rewrite <- Hd. rewrite (wd_doms_real d W). unfold Domain_Spec.names. rewrite elem_of_list_filter. split; [by intros [? _]|].
    intros Hx. split; [done|]. apply (wd_types_vars d W). apply elem_of_list_fmap. by exists (x, TReal).
  - intros x i. by rewrite Hd.
Qed.
Lemma over_same d bools reals bools' reals' : over d bools reals -> (forall x, x ∈ bools <-> x ∈ bools') -> (forall p, p ∈ reals <-> p ∈ reals') -> over d bools' reals'.
Proof.
  intros (W & HB & HR & HD) Eb Er. split; [done|]. split; [intros x; by rewrite HB, Eb|]. split; [|intros x i; by rewrite HD, Er].
  intros x. rewrite HR, !elem_of_list_fmap. split; intros (p & -> & Hp); exists p; by rewrite Er in * || by rewrite <- Er in *.
Qed.

(** * What a formula depends on *)

Lemma eval_free e e' f : (forall x, (x, TBool) ∈ free_vars f -> eb e x = eb e' x) ->
  (forall x t, (x, t) ∈ free_vars f -> t <> TBool -> er e x = er e' x) -> eval e f = eval e' f.
Proof.
  assert (forall (A : Type) (g : fm -> option A) (g' : fm -> option A) l,
    Forall (fun f => (forall x, (x, TBool) ∈ free_vars f -> eb e x = eb e' x) ->
      (forall x t, (x, t) ∈ free_vars f -> t <> TBool -> er e x = er e' x) -> g f = g' f) l ->
    (forall x, (x, TBool) ∈ concat (map free_vars l) -> eb e x = eb e' x) ->
    (forall x t, (x, t) ∈ concat (map free_vars l) -> t <> TBool -> er e x = er e' x) -> mapM g l = mapM g' l) as HM.
  { intros A g g' l HF. induction HF as [|f' l Hf HF IH]; [done|]. cbn [map concat]. intros H1 H2.
    cbn [mapM]. unfold mapM. cbn. rewrite Hf; [|intros x Hx; apply H1, elem_of_app; by left|intros x t Hx; apply (H2 x t), elem_of_app; by left].
    fold (mapM g l). fold (mapM g' l). rewrite IH; [done|intros x Hx; apply H1, elem_of_app; by right|intros x t Hx; apply (H2 x t), elem_of_app; by right]. }
  induction f as [n t|b|q|z|l IH|l IH|g IH|g h IHg IHh|g h IHg IHh|c g h IHc IHg IHh|l IH|g h IHg IHh|l IH|g h IHg IHh|g h IHg IHh|
    g h IHg IHh|g h IHg IHh|g IH|g IH] using fm_ind'; cbn [free_vars eval]; intros H1 H2; try done.
  { destruct t; [rewrite (H1 n) by (by left)|rewrite (H2 n _ (elem_of_list_here _ _))..]; done. }
  all: try (f_equal; apply HM; [|done|done]; eapply Forall_impl; [exact IH|]; intros g Hg Hc Hc'; by rewrite (Hg Hc Hc')).
  all: rewrite ?IH, ?IHc, ?IHg, ?IHh; try done; intros; (eapply H1 + eapply H2); rewrite ?elem_of_app; eauto.
Qed.

(** * SMT-LIB *)

Lemma meaning_agree sg e e' : (forall x, (x, Smtlib_Spec.KBool) ∈ sg -> eb e x = eb e' x) -> (forall x, (x, Smtlib_Spec.KNum) ∈ sg -> er e x = er e' x) ->
  forall t v, Smtlib_Spec.meaning sg e t v -> Smtlib_Spec.meaning sg e' t v.
Proof.
  intros H1 H2. fix IH 3. intros t v H. destruct H as [z|q| | |x N1 N2 Hx|x N1 N2 Hx|op args vs v HF HO].
  - constructor.
  - constructor.
  - constructor.
  - constructor.
  - rewrite (H1 x Hx). by constructor.
  - rewrite (H2 x Hx). by constructor.
  - apply Smtlib_Spec.m_app with (vs := vs); [|exact HO]. clear HO. induction HF as [|t w ts ws Ht HF IHF]; constructor; [exact (IH _ _ Ht)|exact IHF].
Qed.

(** * MiniZinc *)

Lemma runs_agree fl e e' rho its o : runs fl e rho its o ->
  (forall x, x ∈ o_bools o -> eb e x = eb e' x) -> (forall x t i, (x, t, i) ∈ o_numbers o -> er e x = er e' x) -> runs fl e' rho its o.
Proof.
  assert (forall rho x ty v bs ns, declares_var fl e rho x ty v bs ns ->
    (forall x, x ∈ bs -> eb e x = eb e' x) -> (forall x t i, (x, t, i) ∈ ns -> er e x = er e' x) -> declares_var fl e' rho x ty v bs ns) as HD.
  { intros rho' x ty v bs ns H H1 H2. destruct H; [rewrite (H1 x) by (by left)|erewrite (H2 x) by (by left)..]; by constructor. }
  induction 1 as [rho|rho ty x v bs ns its o Hd H IH|rho ty x v bs ns t w its o Hd Ht H IH|rho ty x its o H IH|rho ty x t w its o Ht H IH|
    rho x t w its o Hx Ht H IH|rho x v t w its o Hx Ht H IH|rho t b its o Ht H IH|rho t q its o Ht H IH|rho t b its o Ht H IH]; intros H1 H2; cbn in H1, H2.
  - constructor.
  - econstructor; [eapply HD; [done|..]|apply IH]; intros; (eapply H1 + eapply H2); rewrite ?elem_of_app; eauto.
  - eapply r_var_is; [eapply HD; [done|..]|done|apply IH]; intros; (eapply H1 + eapply H2); rewrite ?elem_of_app; eauto.
  - apply r_par. by apply IH.
  - eapply r_par_is; [done|]. by apply IH.
  - eapply r_assign; [done|done|]. by apply IH.
  - eapply r_assign_var; [done|done|]. by apply IH.
  - apply r_constraint; [done|]. by apply IH.
  - apply r_weight; [done|]. by apply IH.
  - apply r_query; [done|]. by apply IH.
Qed.

(** * Numbered names *)

Lemma show_inj i j : NilZero.string_of_uint (Nat.to_uint i) = NilZero.string_of_uint (Nat.to_uint j) -> i = j.
Proof. intros H. apply query_file_inj. unfold query_file. by rewrite H. Qed.
Lemma numbered_nodup n m : NoDup (numbered "A_" n ++ numbered "x_" m).
Proof.
  assert (forall c k, NoDup (numbered (String c "_") k)) as H.
  { intros c k. unfold numbered. apply (NoDup_fmap_2_strong _ (seq 0 k)); [|apply NoDup_ListNoDup, seq_NoDup]. intros i j _ _ E. cbn in E. injection E as E. by apply show_inj. }
  apply NoDup_app. split; [apply H|]. split; [|apply H]. intros x Hx Hx'. unfold numbered in *.
  apply elem_of_list_fmap in Hx as (i & -> & _), Hx' as (j & E & _). done.
Qed.

(** * File names *)

Lemma base_from_plain b : lacks "/" b -> forall cur, base_from cur b = cur.
Proof.
  unfold lacks. induction b as [|c b IH]; [done|]. intros H cur. cbn in *. apply not_elem_of_cons in H as [H1 H2].
  destruct (decide (c = "/"%char)); [by subst|]. by apply IH.
Qed.
Lemma basename_dir dir b : lacks "/" b -> basename (dir +:+ "/" +:+ b) = b.
Proof.
  intros Hb. unfold basename. generalize (dir +:+ "/" +:+ b) at 1. induction dir as [|c dir IH]; intros cur.
  - cbn. by apply base_from_plain.
  - cbn. destruct (decide (c = "/"%char)); apply IH.
Qed.
Lemma basename_plain b : lacks "/" b -> basename b = b.
Proof. intros Hb. by apply base_from_plain. Qed.
Lemma split_on_first c p q : lacks c p -> split_on c (p +:+ String c q) = p :: split_on c q.
Proof.
  unfold lacks. induction p as [|d p IH]; cbn; intros H.
  - by destruct (ascii_dec c c).
  - apply not_elem_of_cons in H as [H1 H2]. destruct (ascii_dec d c); [by subst|]. by rewrite IH.
Qed.
