(** The assumptions of C37 can be met: integration by the sum over a finite grid, the
    algebra of functions, and diagrams that are expanded on one variable after the
    other, without unsatisfiable decision nodes.  (These are not models of the
    project's dependencies.) *)

From Verif Require Import Print_Proofs.
From Verif Require Import Base Dict Smt Smt_Facts Walk_Model Math_Model Math_Spec Poly_Proofs Linear_Proofs Arith_Proofs.
From Verif Require Import Engine_Spec Lit_Model Lit_Spec Lit_Proofs Lit_Tests Sdd_Model Sdd_Spec Sdd_Proofs Sdd_Example Sdd_Props.
From Verif Require Import Piecewise_Model Piecewise_Spec Xsdd_Model Xsdd_Spec Xsdd_Proofs Xsdd_Props.
From Verif Require Import Factor_Model Factor_Spec Factor_Integral Factor_Proofs Factor_Walk Factor_Value Factor_Piece Factor_Volume.

(** * With at most one boolean every diagram is aligned *)
Lemma single_live i n v : (forall x, x ∈ names i n -> x = v) -> live_aligned i n.
Proof.
  induction n using sdd_ind'; intros Hx; constructor.
  - rewrite Forall_forall in *. intros [p s] Hin. destruct (H _ Hin) as [H1 H2]. cbn [fst snd].
    split; [apply H1|apply H2]; intros x Hin'; apply Hx, (names_els i els p s); auto.
  - intros before p s after -> Hlen.
    assert (forall bb, (forall x, x ∈ names i (SDec bb) -> x = v) -> live_names i (SDec bb) = [] \/ v ∈ live_names i (SDec bb)) as HH.
    { intros bb Hbb. destruct (live_names i (SDec bb)) as [|y l] eqn:E; [by left|right].
      rewrite <- (Hbb y); [by left|]. apply live_names_names. rewrite E. by left. }
    assert (forall bb, length (remove_dups (live_names i (SDec bb))) = 0 -> live_names i (SDec bb) = []) as HZ.
    { intros bb Hl. destruct (live_names i (SDec bb)) as [|y l] eqn:E; [done|]. exfalso.
      assert (y ∈ remove_dups (y :: l)) as Hin by (apply elem_of_remove_dups; by left).
      apply nil_length_inv in Hl. rewrite Hl in Hin. by apply elem_of_nil in Hin. }
    assert (forall x, x ∈ names i (SDec before) -> x = v) as H1.
    { intros x Hin. apply Hx, names_app. by left. }
    assert (forall x, x ∈ names i (SDec [(p, s)]) -> x = v) as H2.
    { intros x Hin. apply Hx, names_app. right. by apply (names_app i [(p, s)] after); left. }
    destruct (HH before H1) as [E1|V1].
    + rewrite E1 in *. cbn [remove_dups length] in Hlen. symmetry in Hlen. apply HZ in Hlen. by rewrite Hlen.
    + destruct (HH [(p, s)] H2) as [E2|V2].
      * rewrite E2 in Hlen. cbn [remove_dups length] in Hlen. apply HZ in Hlen. rewrite Hlen in V1. by apply elem_of_nil in V1.
      * intros x. split; intros Hin; [rewrite (H1 x (live_names_names _ _ _ Hin))|rewrite (H2 x (live_names_names _ _ _ Hin))]; done.
Qed.

Lemma single_compilation mgr own bools : sound_managers mgr own -> length bools <= 1 -> live_compilation mgr bools.
Proof.
  intros HM Hlen f g i node Hl HB Ex Ec.
  destruct (compile_extract f g i (mgr i) (own i) Hl Ex (HM i)) as (node' & Ec' & Ho & _). assert (node' = node) as -> by congruence.
  destruct (sm_own _ _ _ (HM i) node Ho) as [_ Hv]. pose proof (extract_table f g i Hl Ex) as T.
  destruct bools as [|v [|v' bools]]; [| |cbn in Hlen; lia].
  - apply (single_live i node ""%string). intros x Hx. apply (names_bools f i T [] HB node x Hv) in Hx. by apply elem_of_nil in Hx.
  - apply (single_live i node v). intros x Hx. apply (names_bools f i T [v] HB node x Hv) in Hx. by apply elem_of_list_singleton in Hx.
Qed.

(** * Sums over a grid *)

Section grid.
  Context (grid : list Qc) (generic : (string -> Qc) -> Prop).
  Definition on_grid (r : string -> Qc) : Prop := forall x, r x ∈ grid.
  Hypothesis Hne : grid <> [].
  Hypothesis Hgen : forall r, on_grid r -> generic r.

  Definition rupd (r : string -> Qc) (v : string) (k : Qc) : string -> Qc := fun x => if decide (x = v) then k else r x.
  Definition gfine (f : rfn) : Prop := forall r r', (forall x, r x = r' x) -> f r = f r'.
  Definition gae (f g : rfn) : Prop := forall r, on_grid r -> f r = g r.
  Definition gJ (v : string) (f : rfn) : rfn := fun r => qsum (map (fun k => f (rupd r v k)) grid).

  Lemma qsum_ext {X} (f g : X -> Qc) l : (forall x, x ∈ l -> f x = g x) -> qsum (map f l) = qsum (map g l).
  Proof. intros H. f_equal. apply map_ext_in. intros x Hx. apply H. by apply elem_of_list_In. Qed.
  Lemma on_upd r v k : on_grid r -> k ∈ grid -> on_grid (rupd r v k).
  Proof. intros Hr Hk x. unfold rupd. by destruct (decide _). Qed.
  Lemma gJ_ae v f g : gae f g -> gae (gJ v f) (gJ v g).
  Proof. intros H r Hr. apply qsum_ext. intros k Hk. by apply H, on_upd. Qed.

  Lemma grid_integration : integration generic gfine gae gJ.
  Proof.
    assert (exists k, k ∈ grid) as [k0 Hk0] by (destruct grid as [|k ks]; [done|exists k; by left]).
    split.
    - done.
    - intros f g H r Hr. symmetry. auto.
    - intros f g h H1 H2 r Hr. rewrite H1 by done. auto.
    - intros f g H r Hr. auto.
    - intros f f' g g' H1 H2 r Hr. by rewrite H1, H2.
    - intros f f' g g' H1 H2 r Hr. by rewrite H1, H2.
    - intros a b H. apply (H (fun _ => k0)). by intros x.
    - intros f r r' Hf Hr. by apply Hf.
    - intros f g H Hf r r' Hr. rewrite <- !H. by apply Hf.
    - done.
    - intros x r r' Hr. apply Hr.
    - intros c a b w _ _ _ r r' Hr. unfold truth. by rewrite (eval_ext (Env w r) (Env w r') c).
    - intros f g Hf Hg r r' Hr. by rewrite (Hf r r' Hr), (Hg r r' Hr).
    - intros f g Hf Hg r r' Hr. by rewrite (Hf r r' Hr), (Hg r r' Hr).
    - intros v f Hf _ r r' Hr. apply qsum_ext. intros k _. apply Hf. intros x. unfold rupd. by destruct (decide _).
    - intros v f g _ _ _ _ H. by apply gJ_ae.
    - intros v f g r r' H. apply qsum_ext. intros k _. apply H.
      + intros x Hx. unfold rupd. by rewrite decide_False.
      + intros x Hx. unfold rupd. by rewrite decide_False.
      + unfold rupd. by rewrite !decide_True.
    - intros v r. unfold gJ. by apply qsum_zero.
    - intros v f g _ _ _ _ r _. unfold gJ. clear. induction grid as [|k ks IH]; cbn [map]; [change (qsum []) with 0%Qc; ring|].
      rewrite !qsum_cons, IH. ring.
    - intros v f g Hf _ _ Hfree r _. unfold gJ. rewrite <- qsum_scale. apply qsum_ext. intros k _. f_equal. apply Hfree. intros x Hx.
      unfold rupd. by rewrite decide_False.
    - intros u v f Hf _ _ r _. unfold gJ. destruct (decide (u = v)) as [->|Huv]; [done|].
      rewrite qsum_swap. apply qsum_ext. intros k _. apply qsum_ext. intros k' _. apply Hf. intros x. unfold rupd.
      destruct (decide (x = u)) as [->|]; [by rewrite decide_False|done].
  Qed.

  (** The algebra of functions of [Xsdd_Props]. *)
  Definition gparse (c : fm) : Res (env -> Qc) := Ok (fun e => truth (Env (fun _ => false) (er e)) c).
  Definition gint (vs : list string) (x : env -> Qc) : Res (env -> Qc) :=
    Ok (fun e => joint gJ vs (fun r => x (Env (fun _ => false) r)) (er e)).
  Definition gfloat (x : env -> Qc) : Res Qc :=
    match grid with k :: _ => Ok (x (Env (fun _ => false) (fun _ => k))) | [] => Err ValueError end.

  Lemma gparse_ok : parses den36 gparse.
  Proof.
    intros c a b Hc Ha Hb. eexists _, (fun r => truth (Env (fun _ => false) r) c). split; [done|]. split; [done|].
    intros e _. unfold truth. by rewrite (compares_reals c a b (Env (fun _ => false) (er e)) e).
  Qed.
  Lemma gjoint_ae vs f g : gae f g -> gae (joint gJ vs f) (joint gJ vs g).
  Proof. intros H. induction vs as [|v vs IH]; [done|]. cbn. by apply gJ_ae. Qed.
  Lemma gint_ok : integrates den36 gfine gae gJ gint.
  Proof.
    intros vs f x _ Hnd HW [Hf (h & Hh & Ha)]. eexists. split; [done|]. split.
    - apply (joint_fine generic gfine gae gJ grid_integration); [done|]. split; [done|]. by rewrite Forall_forall in HW.
    - exists (joint gJ vs (fun r => x (Env (fun _ => false) r))). split; [done|]. apply gjoint_ae. intros r Hr. rewrite <- (Ha r Hr).
      specialize (Hh (Env (fun _ => false) r)). unfold den36 in Hh. by injection Hh.
  Qed.
  Lemma gfloat_ok : reads den36 gfine gae gfloat.
  Proof.
    intros x a [_ (h & Hh & Ha)]. unfold gfloat. destruct grid as [|k ks] eqn:E; [done|]. specialize (Hh (Env (fun _ => false) (fun _ => k))).
    unfold den36 in Hh. injection Hh as ->. cbn [er]. rewrite (Ha (fun _ => k)); [done|]. intros y. rewrite E. by left.
  Qed.
End grid.

(** * Diagrams without unsatisfiable decision nodes *)

Definition decide_on (v : nat) (a b : sdd) : sdd :=
  if decide (a = b) then a else SDec [(SLit (Z.of_nat v), a); (SLit (- Z.of_nat v), b)].
Fixpoint texpand (vs : list nat) (g : (nat -> bool) -> bool) : sdd :=
  match vs with
  | [] => if g (fun _ => false) then STrue else SFalse
  | v :: vs => decide_on v (texpand vs (fun w => g (upd w v true))) (texpand vs (fun w => g (upd w v false)))
  end.
Definition texpand_manager (vs : list nat) : manager := {|
  m_true := STrue;
  m_false := SFalse;
  m_l z := SLit z;
  m_conjoin a b := texpand vs (fun w => sat w a && sat w b);
  m_disjoin a b := texpand vs (fun w => sat w a || sat w b);
  m_negate a := texpand vs (fun w => negb (sat w a)) |}.

Lemma decide_cases v a b : (a = b /\ decide_on v a b = a) \/
  ((a <> SFalse \/ b <> SFalse) /\ decide_on v a b = SDec [(SLit (Z.of_nat v), a); (SLit (- Z.of_nat v), b)]).
Proof.
  unfold decide_on. destruct (decide (a = b)) as [|Hn]; [by left|right]. split; [|done].
  destruct (decide (a = SFalse)) as [->|]; [right; congruence|by left].
Qed.
Lemma lit_pos w v : v <> 0 -> lit_true w (Z.of_nat v) = w v.
Proof. intros H. unfold lit_true. destruct (Z.ltb_spec (Z.of_nat v) 0); [lia|]. by rewrite Zabs2Nat.id. Qed.
Lemma lit_neg w v : v <> 0 -> lit_true w (- Z.of_nat v) = negb (w v).
Proof. intros H. unfold lit_true. destruct (Z.ltb_spec (- Z.of_nat v) 0); [|lia]. by replace (Z.abs_nat (- Z.of_nat v)) with v by lia. Qed.
Lemma sat_decide w v a b : v <> 0 -> sat w (decide_on v a b) = if w v then sat w a else sat w b.
Proof.
  intros Hv. destruct (decide_cases v a b) as [(-> & ->)|[_ ->]]; [by destruct (w v)|].
  cbn [sat existsb fst snd]. rewrite lit_pos, lit_neg by done. destruct (w v); cbn; by rewrite ?orb_false_r.
Qed.
Lemma texpand_svars vs g : forall v, v ∈ svars (texpand vs g) -> v ∈ vs.
Proof.
  revert g. induction vs as [|u vs IH]; intros g v; cbn [texpand].
  - destruct (g _); intros H; by apply elem_of_nil in H.
  - destruct (decide_cases u (texpand vs (fun w => g (upd w u true))) (texpand vs (fun w => g (upd w u false)))) as [(_ & ->)|[_ ->]].
    + intros H. right. by apply IH in H.
    + cbn [svars map concat fst snd]. rewrite app_nil_r, !elem_of_app, !elem_of_list_singleton, elem_of_cons.
      rewrite Zabs2Nat.id. replace (Z.abs_nat (- Z.of_nat u)) with u by lia. intros [[?|?]|[?|?]]; eauto.
Qed.
Lemma texpand_is_sdd vs g : NoDup vs -> (forall v, v ∈ vs -> v <> 0) -> is_sdd (texpand vs g).
Proof.
  revert g. induction vs as [|u vs IH]; intros g Hnd H0; cbn [texpand].
  - destruct (g _); constructor.
  - apply NoDup_cons in Hnd as [Hu Hnd]. assert (forall v, v ∈ vs -> v <> 0) as H0' by (intros v Hv; apply H0; by right).
    assert (u <> 0) as Hu0 by (apply H0; by left).
    destruct (decide_cases u (texpand vs (fun w => g (upd w u true))) (texpand vs (fun w => g (upd w u false)))) as [(_ & ->)|[_ ->]]; [by apply IH|].
    constructor.
    + apply Forall_cons. split; [split; [constructor|by apply IH]|].
      apply Forall_cons. split; [split; [constructor|by apply IH]|constructor].
    + intros p s v Hin Hv Hv'. assert (v = u).
      { apply elem_of_cons in Hin as [[= -> _]|Hin]; [|apply elem_of_list_singleton in Hin as [= -> _]];
          apply elem_of_list_singleton in Hv; lia. }
      subst v. apply Hu. apply elem_of_cons in Hin as [[= _ ->]|Hin]; [|apply elem_of_list_singleton in Hin as [= _ ->]];
        by apply texpand_svars in Hv'.
    + intros i j p s q t w Hi Hj Hij Hp Hq.
      destruct i as [|[|]], j as [|[|]]; cbn in Hi, Hj; try done;
        injection Hi as <- <-; injection Hj as <- <-; cbn [sat] in Hp, Hq; rewrite ?lit_pos, ?lit_neg in * by done; by destruct (w u).
Qed.
Lemma sat_texpand vs g w : (forall v, v ∈ vs -> v <> 0) ->
  (forall w w', (forall v, v ∈ vs -> w v = w' v) -> g w = g w') -> sat w (texpand vs g) = g w.
Proof.
  revert g. induction vs as [|u vs IH]; intros g H0 Hg; cbn [texpand].
  - rewrite (Hg w (fun _ => false)); [by destruct (g _)|]. intros v Hv. by apply elem_of_nil in Hv.
  - assert (forall v, v ∈ vs -> v <> 0) as H0' by (intros v Hv; apply H0; by right).
    assert (u <> 0) as Hu0 by (apply H0; by left). rewrite sat_decide by done.
    assert (forall b, sat w (texpand vs (fun w => g (upd w u b))) = g (upd w u b)) as HE.
    { intros b. apply (IH (fun w => g (upd w u b))); [done|]. intros w1 w2 Hw. apply Hg. intros v Hv. unfold upd.
      destruct (decide (v = u)); [done|]. apply elem_of_cons in Hv as [?|Hv]; [done|auto]. }
    rewrite !HE. rewrite (Hg w (upd w u (w u))).
    2:{ intros v Hv. unfold upd. by destruct (decide (v = u)) as [->|]. }
    by destruct (w u).
Qed.
Lemma texpand_trimmed vs g : NoDup vs -> (forall v, v ∈ vs -> v <> 0) -> trimmed (texpand vs g).
Proof.
  revert g. induction vs as [|u vs IH]; intros g Hnd H0; cbn [texpand].
  - destruct (g _); constructor.
  - apply NoDup_cons in Hnd as [Hu Hnd]. assert (forall v, v ∈ vs -> v <> 0) as H0' by (intros v Hv; apply H0; by right).
    assert (u <> 0) as Hu0 by (apply H0; by left).
    set (a := texpand vs (fun w => g (upd w u true))). set (b := texpand vs (fun w => g (upd w u false))).
    assert (trimmed a /\ trimmed b) as [Ta Tb] by (split; by apply IH).
    assert (forall c n, (n = a \/ n = b) -> n <> SFalse -> exists w, sat w n = true /\ w u = c) as HX.
    { intros c n Hn Hf. destruct (trimmed_sat n) as [w Hw]; [by destruct Hn as [-> | ->]|done|]. exists (upd w u c). split.
      - rewrite <- Hw. apply sat_agree. intros v Hv. unfold upd. rewrite decide_False; [done|]. intros ->. apply Hu.
        by destruct Hn as [-> | ->]; apply texpand_svars in Hv.
      - unfold upd. by rewrite decide_True. }
    pose proof (fun w => sat_decide w u a b Hu0) as HS.
    destruct (decide_cases u a b) as [(_ & E)|[Hn E]]; rewrite E in *; [done|]. constructor.
    + constructor; [split; [constructor|done]|]. constructor; [split; [constructor|done]|constructor].
    + destruct Hn as [Hn|Hn].
      * destruct (HX true a) as (w & H1 & H2); [by left|done|]. exists w. by rewrite HS, H2.
      * destruct (HX false b) as (w & H1 & H2); [by right|done|]. exists w. by rewrite HS, H2.
Qed.

Definition town (vs : list nat) (a : sdd) : Prop := over vs a /\ trimmed a.
Lemma texpand_sound vs : NoDup vs -> (forall v, v ∈ vs -> v <> 0) -> sound_manager vs (texpand_manager vs) (town vs).
Proof.
  intros Hnd H0.
  assert (forall g, (forall w w', (forall v, v ∈ vs -> w v = w' v) -> g w = g w') ->
    town vs (texpand vs g) /\ forall w, sat w (texpand vs g) = g w) as HE.
  { intros g Hg. split; [split; [split; [by apply texpand_is_sdd|apply texpand_svars]|by apply texpand_trimmed]|]. intros w. by apply sat_texpand. }
  assert (forall a w w', town vs a -> (forall v, v ∈ vs -> w v = w' v) -> sat w a = sat w' a) as HS.
  { intros a w w' [[_ Ha] _] Hw. apply sat_agree. auto. }
  split.
  - split; [split; [split; [constructor|]|constructor]|done]. intros v Hv. by apply elem_of_nil in Hv.
  - split; [split; [split; [constructor|]|constructor]|done]. intros v Hv. by apply elem_of_nil in Hv.
  - intros v Hv. split; [split; [split; [constructor|]|constructor]|].
    + intros u Hu. apply elem_of_list_singleton in Hu as ->. by rewrite Zabs2Nat.id.
    + intros w. cbn [m_l texpand_manager sat]. apply lit_pos. auto.
  - intros a b Ha Hb. apply HE. intros w w' Hw. by rewrite (HS a w w'), (HS b w w').
  - intros a b Ha Hb. apply HE. intros w w' Hw. by rewrite (HS a w w'), (HS b w w').
  - intros a Ha. apply HE. intros w w' Hw. by rewrite (HS a w w').
  - by intros a [[H1 H2] _].
Qed.

(** The variables of the literals, in their order or in the opposite one. *)
Definition vars37 (back : bool) (i : linfo) : list nat :=
  let vs := upto (length (Lit_Model.literals i)) in if back then reverse vs else vs.
Definition mgr37 (back : bool) (i : linfo) : manager := texpand_manager (vars37 back i).
Definition own37 (i : linfo) : sdd -> Prop := town (upto (length (Lit_Model.literals i))).
Lemma mgr37_sound back : sound_managers (mgr37 back) own37.
Proof.
  intros i. destruct (upto_ok (length (Lit_Model.literals i))) as [H1 H2]. unfold mgr37, own37, vars37. destruct back; [|by apply texpand_sound].
  set (vs := upto _) in *. destruct (texpand_sound (reverse vs)) as [S1 S2 S3 S4 S5 S6 S7].
  { by rewrite reverse_Permutation. }
  { intros v Hv. apply H2. by rewrite elem_of_reverse in Hv. }
  assert (forall a, town (reverse vs) a <-> town vs a) as HT.
  { intros a. unfold town, over. split; intros [[X1 X2] X3]; (split; [split; [done|]|done]); intros v Hv; specialize (X2 v Hv); by rewrite elem_of_reverse in *. }
  split.
  - destruct S1. split; [by apply HT|done].
  - destruct S2. split; [by apply HT|done].
  - intros v Hv. destruct (S3 v); [by rewrite elem_of_reverse|]. split; [by apply HT|done].
  - intros a b Ha%HT Hb%HT. destruct (S4 a b Ha Hb). split; [by apply HT|done].
  - intros a b Ha%HT Hb%HT. destruct (S5 a b Ha Hb). split; [by apply HT|done].
  - intros a Ha%HT. destruct (S6 a Ha). split; [by apply HT|done].
  - by intros a [[X1 X2] _].
Qed.
Lemma own37_trimmed i n : own37 i n -> trimmed n.
Proof. by intros [_ H]. Qed.
