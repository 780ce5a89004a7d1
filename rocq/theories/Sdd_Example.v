(** A manager that satisfies the assumptions made about PySDD: diagrams are built by
    expanding on one variable after the other.  It shows that the assumptions can be
    met; it is not a model of PySDD. *)

From Verif Require Import Base Dict Smt Math_Model Engine_Spec Lit_Model Sdd_Model Sdd_Spec Sdd_Proofs.

Fixpoint expand (vs : list nat) (g : (nat -> bool) -> bool) : sdd :=
  match vs with
  | [] => if g (fun _ => false) then STrue else SFalse
  | v :: vs => SDec [(SLit (Z.of_nat v), expand vs (fun w => g (upd w v true)));
                     (SLit (- Z.of_nat v), expand vs (fun w => g (upd w v false)))]
  end.

Definition expand_manager (vs : list nat) : manager := {|
  m_true := STrue;
  m_false := SFalse;
  m_l z := SLit z;
  m_conjoin a b := expand vs (fun w => sat w a && sat w b);
  m_disjoin a b := expand vs (fun w => sat w a || sat w b);
  m_negate a := expand vs (fun w => negb (sat w a)) |}.

Definition over (vs : list nat) (a : sdd) : Prop := is_sdd a /\ forall v, v ∈ svars a -> v ∈ vs.

Lemma expand_svars vs g : forall v, v ∈ svars (expand vs g) -> v ∈ vs.
Proof.
  revert g. induction vs as [|u vs IH]; intros g v; cbn [expand].
  - destruct (g _); intros H; by apply elem_of_nil in H.
  - cbn [svars map concat fst snd]. rewrite app_nil_r, !elem_of_app, !elem_of_list_singleton, elem_of_cons.
    rewrite Zabs2Nat.id. replace (Z.abs_nat (- Z.of_nat u)) with u by lia. intros [[?|?]|[?|?]]; eauto.
Qed.

Lemma expand_is_sdd vs g : NoDup vs -> (forall v, v ∈ vs -> v <> 0) -> is_sdd (expand vs g).
Proof.
  revert g. induction vs as [|u vs IH]; intros g Hnd H0; cbn [expand].
  - destruct (g _); constructor.
  - apply NoDup_cons in Hnd as [Hu Hnd]. assert (forall v, v ∈ vs -> v <> 0) as H0' by (intros v Hv; apply H0; by right).
    assert (u <> 0) as Hu0 by (apply H0; by left). constructor.
    + apply Forall_cons. split; [split; [constructor|by apply IH]|].
      apply Forall_cons. split; [split; [constructor|by apply IH]|constructor].
    + intros p s v Hin Hv Hv'. assert (v = u).
      { apply elem_of_cons in Hin as [[= -> _]|Hin]; [|apply elem_of_list_singleton in Hin as [= -> _]];
          apply elem_of_list_singleton in Hv; lia. }
      subst v. apply Hu. apply elem_of_cons in Hin as [[= _ ->]|Hin]; [|apply elem_of_list_singleton in Hin as [= _ ->]];
        by apply expand_svars in Hv'.
    + intros i j p s q t w Hi Hj Hij Hp Hq.
      destruct i as [|[|]], j as [|[|]]; cbn in Hi, Hj; try done;
        injection Hi as <- <-; injection Hj as <- <-; cbn [sat] in Hp, Hq; unfold lit_true in Hp, Hq;
        rewrite Zabs2Nat.id in Hp || rewrite Zabs2Nat.id in Hq;
        replace (Z.abs_nat (- Z.of_nat u)) with u in * by lia;
        destruct (Z.ltb_spec (Z.of_nat u) 0); try lia; destruct (Z.ltb_spec (- Z.of_nat u) 0); try lia;
        rewrite ?Zabs2Nat.id in *; destruct (w u); done.
Qed.

Lemma sat_expand vs g w : (forall v, v ∈ vs -> v <> 0) ->
  (forall w w', (forall v, v ∈ vs -> w v = w' v) -> g w = g w') -> sat w (expand vs g) = g w.
Proof.
  revert g. induction vs as [|u vs IH]; intros g H0 Hg; cbn [expand].
  - rewrite (Hg w (fun _ => false)); [by destruct (g _)|]. intros v Hv. by apply elem_of_nil in Hv.
  - assert (forall v, v ∈ vs -> v <> 0) as H0' by (intros v Hv; apply H0; by right).
    assert (u <> 0) as Hu0 by (apply H0; by left). cbn [sat existsb fst snd]. unfold lit_true.
    rewrite Zabs2Nat.id. replace (Z.abs_nat (- Z.of_nat u)) with u by lia.
    destruct (Z.ltb_spec (Z.of_nat u) 0); [lia|]. destruct (Z.ltb_spec (- Z.of_nat u) 0); [|lia].
    assert (forall b, sat w (expand vs (fun w => g (upd w u b))) = g (upd w u b)) as HE.
    { intros b. apply (IH (fun w => g (upd w u b))); [done|]. intros w1 w2 Hw. apply Hg. intros v Hv. unfold upd.
      destruct (decide (v = u)); [done|]. apply elem_of_cons in Hv as [?|Hv]; [done|auto]. }
    rewrite !HE. rewrite (Hg w (upd w u (w u))).
    2:{ intros v Hv. unfold upd. by destruct (decide (v = u)) as [->|]. }
    destruct (w u); cbn; by rewrite ?orb_false_r.
Qed.

Lemma expand_sound vs : NoDup vs -> (forall v, v ∈ vs -> v <> 0) -> sound_manager vs (expand_manager vs) (over vs).
Proof.
  intros Hnd H0.
  assert (forall g, (forall w w', (forall v, v ∈ vs -> w v = w' v) -> g w = g w') ->
    over vs (expand vs g) /\ forall w, sat w (expand vs g) = g w) as HE.
  { intros g Hg. split; [split; [by apply expand_is_sdd|apply expand_svars]|]. intros w. by apply sat_expand. }
  assert (forall a w w', over vs a -> (forall v, v ∈ vs -> w v = w' v) -> sat w a = sat w' a) as HS.
  { intros a w w' [_ Ha] Hw. apply sat_agree. auto. }
  split.
  - split; [split; [constructor|]|done]. intros v Hv. by apply elem_of_nil in Hv.
  - split; [split; [constructor|]|done]. intros v Hv. by apply elem_of_nil in Hv.
  - intros v Hv. split; [split; [constructor|]|].
    + intros u Hu. apply elem_of_list_singleton in Hu as ->. by rewrite Zabs2Nat.id.
    + intros w. cbn [m_l expand_manager sat]. unfold lit_true. destruct (Z.ltb_spec (Z.of_nat v) 0); [lia|].
      by rewrite Zabs2Nat.id.
  - intros a b Ha Hb. apply HE. intros w w' Hw. by rewrite (HS a w w'), (HS b w w').
  - intros a b Ha Hb. apply HE. intros w w' Hw. by rewrite (HS a w w'), (HS b w w').
  - intros a Ha. apply HE. intros w w' Hw. by rewrite (HS a w w').
  - by intros a [H1 H2].
Qed.

Lemma upto_ok n : NoDup (upto n) /\ forall v, v ∈ upto n -> v <> 0.
Proof.
  split; [apply NoDup_ListNoDup, seq_NoDup|]. intros v Hv. unfold upto in Hv. apply elem_of_list_In, in_seq in Hv. lia.
Qed.
