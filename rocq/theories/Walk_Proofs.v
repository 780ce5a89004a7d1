(** Facts about the dispatcher, and correctness of the identity walker (C05). *)

From Verif Require Import Base Smt Walk_Model.

(** * Sizes *)

Lemma msize_in x l : x ∈ l -> msize x <= list_sum (map msize l).
Proof.
  induction l as [|y l IH]; intros H; [by apply elem_of_nil in H|].
  apply elem_of_cons in H as [->|H]; simpl; [lia|]. specialize (IH H). lia.
Qed.

Lemma msize_pos f : 1 <= msize f.
Proof. destruct f; simpl; lia. Qed.

Lemma msize_mkNot a : msize (mkNot a) <= S (msize a).
Proof. destruct a; cbn [mkNot msize]; lia. Qed.

Lemma msize_imp a b : msize (imp_expand a b) < msize (ImpN a b).
Proof. pose proof (msize_mkNot a). unfold imp_expand. simpl. lia. Qed.

(** * Well formed formulas *)

(** Well formed, well typed, no integers. *)
Definition good (f : fm) : Prop := wf_fm f = true /\ plain f = true /\ typed f.

Lemma typed_some f t : typeof f = Some t -> typed f.
Proof. unfold typed. by intros ->. Qed.

Lemma good_list (l : list fm) t :
  forallb wf_fm l = true -> forallb plain l = true ->
  Forall (fun f => typeof f = Some t) l ->
  Forall (fun f => good f /\ typeof f = Some t) l.
Proof.
  intros H1 H2 H3. induction H3 as [|f l Hf Hl IH]; [constructor|].
  simpl in H1, H2. apply andb_true_iff in H1 as [? ?], H2 as [? ?].
  constructor; [|auto]. split; [|done]. split; [done|]. split; [done|]. by eapply typed_some.
Qed.

Lemma good_and l : good (AndN l) ->
  2 <= length l /\ Forall (fun f => good f /\ typeof f = Some TBool) l.
Proof.
  intros (H1 & H2 & H3). apply typed_and in H3. cbn [wf_fm plain] in *.
  apply andb_true_iff in H1 as [H0 H1]. split; [by apply Nat.leb_le|]. by apply good_list.
Qed.
Lemma good_or l : good (OrN l) ->
  2 <= length l /\ Forall (fun f => good f /\ typeof f = Some TBool) l.
Proof. exact (good_and l). Qed.
Lemma good_plus l : good (PlusN l) ->
  2 <= length l /\ exists t, ty_num t = true /\ Forall (fun f => good f /\ typeof f = Some t) l.
Proof.
  intros (H1 & H2 & H3). apply typed_plus in H3 as (t & Ht & _ & H3). cbn [wf_fm plain] in *.
  apply andb_true_iff in H1 as [H0 H1]. split; [by apply Nat.leb_le|]. exists t. split; [done|].
  by apply good_list.
Qed.
Lemma good_times l : good (TimesN l) ->
  2 <= length l /\ exists t, ty_num t = true /\ Forall (fun f => good f /\ typeof f = Some t) l.
Proof. exact (good_plus l). Qed.
Lemma good_not a : good (NotN a) -> good a /\ typeof a = Some TBool.
Proof.
  intros (H1 & H2 & H3). apply typed_not in H3. repeat split; try done. by eapply typed_some.
Qed.
Lemma good_imp a b : good (ImpN a b) ->
  (good a /\ typeof a = Some TBool) /\ (good b /\ typeof b = Some TBool).
Proof.
  intros (H1 & H2 & H3). apply typed_imp in H3 as [? ?]. cbn [wf_fm plain] in *.
  apply andb_true_iff in H1 as [? ?], H2 as [? ?].
  repeat split; try done; by eapply typed_some.
Qed.
Lemma good_ite c a b : good (IteN c a b) ->
  (good c /\ typeof c = Some TBool) /\ good a /\ good b /\ typeof a = typeof b.
Proof.
  intros (H1 & H2 & H3). destruct (typed_ite _ _ _ H3) as (? & ? & ?). cbn [wf_fm plain] in *.
  rewrite !andb_true_iff in H1, H2. destruct_and!.
  repeat split; try done; [by eapply typed_some|]. unfold typed in *. congruence.
Qed.
Lemma good_minus a b : good (MinusN a b) ->
  exists t, ty_num t = true /\ (good a /\ typeof a = Some t) /\ (good b /\ typeof b = Some t).
Proof.
  intros (H1 & H2 & H3). destruct (typed_minus _ _ H3) as (t & ? & ? & ?). cbn [wf_fm plain] in *.
  apply andb_true_iff in H1 as [? ?], H2 as [? ?].
  exists t. repeat split; try done; by eapply typed_some.
Qed.
Lemma good_le a b : good (LeN a b) ->
  exists t, ty_num t = true /\ (good a /\ typeof a = Some t) /\ (good b /\ typeof b = Some t).
Proof.
  intros (H1 & H2 & H3). destruct (typed_le _ _ H3) as (t & ? & ? & ?). cbn [wf_fm plain] in *.
  apply andb_true_iff in H1 as [? ?], H2 as [? ?].
  exists t. repeat split; try done; by eapply typed_some.
Qed.
Lemma good_pow a b : good (PowN a b) ->
  exists t, ty_num t = true /\ (good a /\ typeof a = Some t) /\ (good b /\ typeof b = Some t)
    /\ is_const a = false /\ is_const b = true.
Proof.
  intros (H1 & H2 & H3). destruct (typed_minus a b H3) as (t & ? & ? & ?). cbn [wf_fm plain] in *.
  rewrite !andb_true_iff, negb_true_iff in H1. apply andb_true_iff in H2. destruct_and!.
  exists t. repeat split; try done; by eapply typed_some.
Qed.

Lemma typeof_or2 a b : typeof a = Some TBool -> typeof b = Some TBool ->
  typeof (OrN [a; b]) = Some TBool.
Proof. intros H1 H2. cbn [typeof map all_ty forallb]. by rewrite H1, H2. Qed.

Lemma typeof_imp a b : typeof a = Some TBool -> typeof b = Some TBool ->
  typeof (ImpN a b) = Some TBool.
Proof. intros H1 H2. cbn [typeof]. by rewrite !bool_decide_true. Qed.

Lemma good_mkNot a : good a -> typeof a = Some TBool -> good (mkNot a).
Proof.
  intros (H1 & H2 & H3) Ht. split; [|split].
  - by destruct a.
  - by destruct a.
  - eapply typed_some. by apply typeof_mkNot.
Qed.

Lemma good_imp_expand a b : good (ImpN a b) -> good (imp_expand a b).
Proof.
  intros H. apply good_imp in H as [[Ha Ta] [Hb Tb]].
  destruct (good_mkNot a Ha Ta) as (W & P & _). destruct Hb as (? & ? & ?).
  unfold imp_expand. cbn [mkOr]. split; [|split].
  - cbn [wf_fm forallb length]. by rewrite W, H.
  - cbn [plain forallb]. by rewrite P, H0.
  - eapply typed_some. apply typeof_or2; [by apply typeof_mkNot|done].
Qed.

Lemma typeof_imp_expand a b : typed (ImpN a b) -> typeof (imp_expand a b) = Some TBool.
Proof.
  intros H. apply typed_imp in H as [? ?]. unfold imp_expand. cbn [mkOr].
  apply typeof_or2; [by apply typeof_mkNot|done].
Qed.

Lemma good_iff_args a b : good (IffN a b) -> good (ImpN a b) /\ good (ImpN b a).
Proof.
  intros H. pose proof (good_imp a b H) as [[Ha Ta] [Hb Tb]].
  destruct Ha as (?&?&?), Hb as (?&?&?).
  split; (split; [|split]); cbn [wf_fm plain]; try (by apply andb_true_iff);
    eapply typed_some; by apply typeof_imp.
Qed.

(** * Meaning of the expansions *)

Lemma eval_and2 e a b :
  eval e (AndN [a; b]) =
    (x ← vbool (eval e a); y ← vbool (eval e b); Some (VB (x && y))).
Proof.
  cbn [eval]. cbn [mapM]. destruct (vbool (eval e a)) as [x|]; [|done].
  cbn. destruct (vbool (eval e b)) as [y|]; [|done]. cbn. by rewrite andb_true_r.
Qed.
Lemma eval_or2 e a b :
  eval e (OrN [a; b]) =
    (x ← vbool (eval e a); y ← vbool (eval e b); Some (VB (x || y))).
Proof.
  cbn [eval]. cbn [mapM]. destruct (vbool (eval e a)) as [x|]; [|done].
  cbn. destruct (vbool (eval e b)) as [y|]; [|done]. cbn. by rewrite orb_false_r.
Qed.

Lemma eval_imp_expand e a b :
  typed (ImpN a b) -> eval e (imp_expand a b) = eval e (ImpN a b).
Proof.
  intros H. apply typed_imp in H as [Ha Hb]. unfold imp_expand. cbn [mkOr].
  rewrite eval_or2, eval_mkNot by done. cbn [eval].
  destruct (vbool (eval e a)) as [x|]; [|done]. cbn.
  destruct (vbool (eval e b)) as [y|]; [|done]. cbn. by destruct x.
Qed.

Lemma eval_iff_expand e a b :
  eval e (AndN [ImpN a b; ImpN b a]) = eval e (IffN a b).
Proof.
  rewrite eval_and2. cbn [eval].
  destruct (vbool (eval e a)) as [x|]; [|done].
  destruct (vbool (eval e b)) as [y|]; [|done]. cbn. by destruct x, y.
Qed.

Lemma syms_mkNot a : syms (mkNot a) = syms a.
Proof. by destruct a. Qed.

Lemma syms_imp_expand a b : syms (imp_expand a b) = syms (ImpN a b).
Proof. unfold imp_expand. simpl. by rewrite syms_mkNot, app_nil_r. Qed.

(** * The identity walker *)

Definition rebuilt (f f' : fm) : Prop :=
  typeof f' = typeof f /\ fequiv f' f /\ wf_fm f' = true /\
  (is_const f = true -> f' = f) /\
  (forall t, typeof f = Some t -> ty_num t = true -> is_const f = false -> is_const f' = false).

Lemma rebuilt_list (W : fm -> Res fm) l :
  Forall (fun f => exists f', W f = Ok f' /\ rebuilt f f') l ->
  exists l', rmapM W l = Ok l' /\ Forall2 rebuilt l l'.
Proof.
  induction 1 as [|f l (f' & Hf & Hr) Hl (l' & Hl' & H2)].
  - exists []. split; [done|constructor].
  - exists (f' :: l'). rewrite rmapM_cons, Hf. cbn [rbind]. rewrite Hl'. split; [done|].
    by constructor.
Qed.

Lemma rebuilt_mapM_b e l l' : Forall2 rebuilt l l' ->
  mapM (fun g => vbool (eval e g)) l' = mapM (fun g => vbool (eval e g)) l.
Proof.
  induction 1 as [|f f' l l' (_ & H & _) Hl IH]; [done|]. simpl. by rewrite H, IH.
Qed.
Lemma rebuilt_mapM_n e l l' : Forall2 rebuilt l l' ->
  mapM (fun g => vnum (eval e g)) l' = mapM (fun g => vnum (eval e g)) l.
Proof.
  induction 1 as [|f f' l l' (_ & H & _) Hl IH]; [done|]. simpl. by rewrite H, IH.
Qed.
Lemma rebuilt_types l l' : Forall2 rebuilt l l' -> map typeof l' = map typeof l.
Proof. induction 1 as [|f f' l l' (H & _) Hl IH]; [done|]. simpl. by rewrite H, IH. Qed.
Lemma rebuilt_wf l l' : Forall2 rebuilt l l' -> forallb wf_fm l' = true.
Proof. induction 1 as [|f f' l l' (_ & _ & H & _) Hl IH]; [done|]. simpl. by rewrite H, IH. Qed.

Lemma chk_typed f : typed f -> chk f = Ok f.
Proof. unfold typed, chk. by destruct (typeof f). Qed.
Lemma chk_some f t : typeof f = Some t -> chk f = Ok f.
Proof. unfold chk. by intros ->. Qed.

Lemma rebuilt_trans f g h : typeof g = typeof f -> fequiv g f -> is_const f = false ->
  (forall t, typeof f = Some t -> ty_num t = false) ->
  rebuilt g h -> rebuilt f h.
Proof.
  intros H1 H2 H3 H4 (R1 & R2 & R3 & R4 & R5). split; [congruence|]. split.
  - intros e. by rewrite R2.
  - split; [done|]. split; [congruence|]. intros t Ht Hn. by rewrite (H4 t Ht) in Hn.
Qed.

Lemma rebuilt_node f f' :
  typeof f' = typeof f -> fequiv f' f -> wf_fm f' = true -> is_const f = false ->
  is_const f' = false -> rebuilt f f'.
Proof. intros. repeat split; try done. congruence. Qed.

Lemma identity_ok n f :
  msize f <= n -> good f -> exists f', walk identity_walker n f = Ok f' /\ rebuilt f f'.
Proof.
  revert f. induction n as [|n IH]; intros f Hn Hg.
  { pose proof (msize_pos f). lia. }
  assert (HL : forall l t, S (list_sum (map msize l)) <= S n ->
            Forall (fun f => good f /\ typeof f = Some t) l ->
            exists l', rmapM (walk identity_walker n) l = Ok l' /\ Forall2 rebuilt l l').
  { intros l t Hs Hl. apply rebuilt_list. apply Forall_forall. intros x Hx.
    rewrite Forall_forall in Hl. apply IH; [|by apply Hl].
    pose proof (msize_in x l Hx). lia. }
  cbn [walk].
  destruct f as [x t|b|q|z|l|l|a|a b|a b|c a b|l|a b|l|a b|a b|a b|a b|a|a];
    cbn [dispatch identity_walker w_and w_or w_plus w_minus w_times w_not w_ite w_pow w_lte w_lt
         w_equals w_symbol w_const w_cannot] in *; cbn [msize] in Hn.
  - eexists; split; [done|]. by repeat split.
  - eexists; split; [done|]. by repeat split.
  - eexists; split; [done|]. by repeat split.
  - by destruct Hg as (_ & ? & _).
  - destruct (good_and _ Hg) as [Hlen Hl]. destruct (HL l _ Hn Hl) as (l' & Hl' & H2).
    rewrite Hl'. cbn [rbind]. pose proof (Forall2_length _ _ _ H2) as Hlen'.
    assert (mkAnd l' = AndN l') as -> by (destruct l' as [|? [|? ?]]; simpl in *; (lia || done)).
    assert (typeof (AndN l') = typeof (AndN l)) as Ht.
    { cbn [typeof]. by rewrite (rebuilt_types _ _ H2). }
    exists (AndN l'). split.
    + apply chk_typed. unfold typed. rewrite Ht. apply Hg.
    + apply rebuilt_node; try done.
      * intros e. cbn [eval]. by rewrite (rebuilt_mapM_b _ _ _ H2).
      * cbn [wf_fm]. rewrite (rebuilt_wf _ _ H2), andb_true_r. apply Nat.leb_le. lia.
  - destruct (good_or _ Hg) as [Hlen Hl]. destruct (HL l _ Hn Hl) as (l' & Hl' & H2).
    rewrite Hl'. cbn [rbind]. pose proof (Forall2_length _ _ _ H2) as Hlen'.
    assert (mkOr l' = OrN l') as -> by (destruct l' as [|? [|? ?]]; simpl in *; (lia || done)).
    assert (typeof (OrN l') = typeof (OrN l)) as Ht.
    { cbn [typeof]. by rewrite (rebuilt_types _ _ H2). }
    exists (OrN l'). split.
    + apply chk_typed. unfold typed. rewrite Ht. apply Hg.
    + apply rebuilt_node; try done.
      * intros e. cbn [eval]. by rewrite (rebuilt_mapM_b _ _ _ H2).
      * cbn [wf_fm]. rewrite (rebuilt_wf _ _ H2), andb_true_r. apply Nat.leb_le. lia.
  - destruct (good_not _ Hg) as [Ha Ta]. destruct (IH a) as (a' & Ha' & R); [lia|done|].
    rewrite Ha'. cbn [rbind]. destruct R as (R1 & R2 & R3 & R4 & R5).
    assert (typeof a' = Some TBool) as Ta' by congruence.
    rewrite (chk_some (NotN a') TBool) by (cbn [typeof]; by rewrite Ta').
    cbn [rbind]. eexists; split; [done|].
    assert (typeof (NotN a) = Some TBool) as HtN by (cbn [typeof]; by rewrite Ta).
    split; [rewrite HtN; by apply typeof_mkNot|]. split.
    + intros e. rewrite eval_mkNot by done. cbn [eval]. by rewrite R2.
    + split; [by destruct a'|]. split; [done|]. intros t. rewrite HtN. by intros [= <-].
  - destruct (IH (imp_expand a b)) as (f' & Hf & R).
    { pose proof (msize_imp a b) as H. cbn [msize] in H. lia. }
    { by apply good_imp_expand. }
    exists f'. split; [done|]. destruct Hg as (_ & _ & Ht). apply typed_imp in Ht as Ht'.
    eapply rebuilt_trans; [| | | |exact R].
    + rewrite typeof_imp_expand by done. symmetry. apply typeof_imp; apply Ht'.
    + intros e. by apply eval_imp_expand.
    + done.
    + intros t. rewrite typeof_imp by apply Ht'. by intros [= <-].
  - destruct (good_iff_args _ _ Hg) as [G1 G2].
    destruct (IH (ImpN a b)) as (f1 & Hf1 & R1); [simpl; lia|done|].
    destruct (IH (ImpN b a)) as (f2 & Hf2 & R2); [simpl; lia|done|].
    cbn [rmapM]. rewrite Hf1, Hf2. cbn [rbind mkAnd].
    pose proof (good_imp _ _ G1) as [[_ Ta] [_ Tb]].
    assert (typeof (AndN [f1; f2]) = Some TBool) as Ht.
    { destruct R1 as [R1 _], R2 as [R2 _]. cbn [typeof map]. rewrite R1, R2.
      by rewrite !typeof_imp. }
    exists (AndN [f1; f2]). split; [by eapply chk_some|].
    apply rebuilt_node; try done.
    + rewrite Ht. symmetry. cbn [typeof]. by rewrite !bool_decide_true.
    + intros e. rewrite <- eval_iff_expand, !eval_and2.
      destruct R1 as (_ & R1 & _), R2 as (_ & R2 & _). by rewrite R1, R2.
    + destruct R1 as (_ & _ & R1 & _), R2 as (_ & _ & R2 & _).
      cbn [wf_fm forallb length]. by rewrite R1, R2.
  - destruct (good_ite _ _ _ Hg) as ([Hc Tc] & Ha & Hb & Hty).
    destruct (IH c) as (c' & Ec & Rc1 & Rc2 & Rc3 & _); [lia|done|].
    destruct (IH a) as (a' & Ea & Ra1 & Ra2 & Ra3 & _); [lia|done|].
    destruct (IH b) as (b' & Eb & Rb1 & Rb2 & Rb3 & _); [lia|done|].
    rewrite Ec, Ea, Eb. cbn [rbind].
    assert (typeof (IteN c' a' b') = typeof (IteN c a b)) as Ht.
    { cbn [typeof]. by rewrite Rc1, Ra1, Rb1. }
    exists (IteN c' a' b'). split; [apply chk_typed; unfold typed; rewrite Ht; apply Hg|].
    apply rebuilt_node; try done.
    + intros e. cbn [eval]. by rewrite Rc2, Ra2, Rb2.
    + cbn [wf_fm]. by rewrite Rc3, Ra3, Rb3.
  - destruct (good_plus _ Hg) as [Hlen (t & Hnt & Hl)]. destruct (HL l _ Hn Hl) as (l' & Hl' & H2).
    rewrite Hl'. cbn [rbind]. pose proof (Forall2_length _ _ _ H2) as Hlen'.
    assert (mkPlus l' = Ok (PlusN l')) as -> by (destruct l' as [|? [|? ?]]; simpl in *; (lia || done)).
    assert (typeof (PlusN l') = typeof (PlusN l)) as Ht.
    { cbn [typeof]. by rewrite (rebuilt_types _ _ H2). }
    exists (PlusN l'). split.
    + apply chk_typed. unfold typed. rewrite Ht. apply Hg.
    + apply rebuilt_node; try done.
      * intros e. cbn [eval]. by rewrite (rebuilt_mapM_n _ _ _ H2).
      * cbn [wf_fm]. rewrite (rebuilt_wf _ _ H2), andb_true_r. apply Nat.leb_le. lia.
  - destruct (good_minus _ _ Hg) as (t & Hnt & [Ha _] & [Hb _]).
    destruct (IH a) as (a' & Ea & Ra1 & Ra2 & Ra3 & _); [lia|done|].
    destruct (IH b) as (b' & Eb & Rb1 & Rb2 & Rb3 & _); [lia|done|].
    rewrite Ea, Eb. cbn [rbind].
    assert (typeof (MinusN a' b') = typeof (MinusN a b)) as Ht.
    { cbn [typeof]. by rewrite Ra1, Rb1. }
    exists (MinusN a' b'). split; [apply chk_typed; unfold typed; rewrite Ht; apply Hg|].
    apply rebuilt_node; try done.
    + intros e. cbn [eval]. by rewrite Ra2, Rb2.
    + cbn [wf_fm]. by rewrite Ra3, Rb3.
  - destruct (good_times _ Hg) as [Hlen (t & Hnt & Hl)]. destruct (HL l _ Hn Hl) as (l' & Hl' & H2).
    rewrite Hl'. cbn [rbind]. pose proof (Forall2_length _ _ _ H2) as Hlen'.
    assert (mkTimes l' = Ok (TimesN l')) as -> by (destruct l' as [|? [|? ?]]; simpl in *; (lia || done)).
    assert (typeof (TimesN l') = typeof (TimesN l)) as Ht.
    { cbn [typeof]. by rewrite (rebuilt_types _ _ H2). }
    exists (TimesN l'). split.
    + apply chk_typed. unfold typed. rewrite Ht. apply Hg.
    + apply rebuilt_node; try done.
      * intros e. cbn [eval]. by rewrite (rebuilt_mapM_n _ _ _ H2).
      * cbn [wf_fm]. rewrite (rebuilt_wf _ _ H2), andb_true_r. apply Nat.leb_le. lia.
  - destruct (good_pow _ _ Hg) as (t & Hnt & [Ha Ta] & [Hb Tb] & Hca & Hcb).
    destruct (IH a) as (a' & Ea & Ra1 & Ra2 & Ra3 & _ & Ra5); [lia|done|].
    destruct (IH b) as (b' & Eb & Rb1 & Rb2 & Rb3 & Rb4 & _); [lia|done|].
    rewrite Ea, Eb. cbn [rbind]. rewrite (Rb4 Hcb) in *.
    pose proof (Ra5 t Ta Hnt Hca) as Hca'.
    assert (mkPow a' b = Ok (PowN a' b)) as ->.
    { unfold mkPow. rewrite Hcb. by destruct a'. }
    cbn [rbind].
    assert (typeof (PowN a' b) = typeof (PowN a b)) as Ht.
    { cbn [typeof]. by rewrite Ra1. }
    exists (PowN a' b). split; [apply chk_typed; unfold typed; rewrite Ht; apply Hg|].
    apply rebuilt_node; try done.
    + intros e. cbn [eval]. by rewrite Ra2.
    + cbn [wf_fm]. rewrite Ra3, Hca', Hcb. cbn. apply Hb.
  - destruct (good_le _ _ Hg) as (t & Hnt & [Ha _] & [Hb _]).
    destruct (IH a) as (a' & Ea & Ra1 & Ra2 & Ra3 & _); [lia|done|].
    destruct (IH b) as (b' & Eb & Rb1 & Rb2 & Rb3 & _); [lia|done|].
    rewrite Ea, Eb. cbn [rbind].
    assert (typeof (LeN a' b') = typeof (LeN a b)) as Ht.
    { cbn [typeof]. by rewrite Ra1, Rb1. }
    exists (LeN a' b'). split; [apply chk_typed; unfold typed; rewrite Ht; apply Hg|].
    apply rebuilt_node; try done.
    + intros e. cbn [eval]. by rewrite Ra2, Rb2.
    + cbn [wf_fm]. by rewrite Ra3, Rb3.
  - destruct (good_le a b Hg) as (t & Hnt & [Ha _] & [Hb _]).
    destruct (IH a) as (a' & Ea & Ra1 & Ra2 & Ra3 & _); [lia|done|].
    destruct (IH b) as (b' & Eb & Rb1 & Rb2 & Rb3 & _); [lia|done|].
    rewrite Ea, Eb. cbn [rbind].
    assert (typeof (LtN a' b') = typeof (LtN a b)) as Ht.
    { cbn [typeof]. by rewrite Ra1, Rb1. }
    exists (LtN a' b'). split; [apply chk_typed; unfold typed; rewrite Ht; apply Hg|].
    apply rebuilt_node; try done.
    + intros e. cbn [eval]. by rewrite Ra2, Rb2.
    + cbn [wf_fm]. by rewrite Ra3, Rb3.
  - destruct (good_le a b Hg) as (t & Hnt & [Ha _] & [Hb _]).
    destruct (IH a) as (a' & Ea & Ra1 & Ra2 & Ra3 & _); [lia|done|].
    destruct (IH b) as (b' & Eb & Rb1 & Rb2 & Rb3 & _); [lia|done|].
    rewrite Ea, Eb. cbn [rbind].
    assert (typeof (EqN a' b') = typeof (EqN a b)) as Ht.
    { cbn [typeof]. by rewrite Ra1, Rb1. }
    exists (EqN a' b'). split; [apply chk_typed; unfold typed; rewrite Ht; apply Hg|].
    apply rebuilt_node; try done.
    + intros e. cbn [eval]. by rewrite Ra2, Rb2.
    + cbn [wf_fm]. by rewrite Ra3, Rb3.
  - by destruct Hg as (_ & ? & _).
  - by destruct Hg as (_ & ? & _).
Qed.

Lemma identity_preserves f :
  wf_fm f = true -> plain f = true -> typeof f <> None ->
  exists f', identity_walk f = Ok f' /\ typeof f' = typeof f /\ fequiv f' f.
Proof.
  intros H1 H2 H3. destruct (identity_ok (msize f) f) as (f' & Hf & R1 & R2 & _); [lia|done|].
  eauto.
Qed.
